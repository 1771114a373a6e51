(** Specification of UUID text and order (RFC 9562), independent of the model. *)
From Coq Require Import ZArith List Bool.
From Verif Require Import Base UuidModel.
Import ListNotations.
Open Scope Z_scope.

Definition is_uuid (u : list Z) : Prop := length u = 16%nat /\ bytes u.

(** "0123456789abcdef" *)
Definition hex_digits : list Z := [48;49;50;51;52;53;54;55;56;57;97;98;99;100;101;102].
Definition hex_pair (b : Z) : list Z :=
  [nth (Z.to_nat (b / 16)) hex_digits 0; nth (Z.to_nat (b mod 16)) hex_digits 0].
Definition hex (s : list Z) : list Z := flat_map hex_pair s.

(** The 8-4-4-4-12 form; 45 is '-'. *)
Definition uuid_text (u : list Z) : list Z :=
  hex (firstn 4 u) ++ [45] ++ hex (firstn 2 (skipn 4 u)) ++ [45] ++ hex (firstn 2 (skipn 6 u))
  ++ [45] ++ hex (firstn 2 (skipn 8 u)) ++ [45] ++ hex (skipn 10 u).

(** ASCII lower-casing. *)
Definition to_lower (c : Z) : Z := if (65 <=? c) && (c <=? 90) then c + 32 else c.

(** Lexicographic comparison of strings: -1, 0 or 1. *)
Fixpoint lex (a b : list Z) : Z :=
  match a, b with
  | [], [] => 0
  | [], _ => -1
  | _, [] => 1
  | x :: a', y :: b' => if x <? y then -1 else if y <? x then 1 else lex a' b'
  end.

(** The 16 random octets with version 4 and variant 2 written over them. *)
Definition stamp_v4 (r : list Z) : list Z :=
  firstn 6 r ++ [64 + nth 6 r 0 mod 16] ++ firstn 1 (skipn 7 r) ++ [128 + nth 8 r 0 mod 64] ++ skipn 9 r.

(** One call of the generator: the clock reading in milliseconds; a sane clock. *)
Definition ms (d : draw) : Z := d_sec d * 1000 + d_nsec d / 1000000.
Definition clock_ok (d : draw) : Prop :=
  0 <= d_sec d /\ 0 <= d_nsec d < 1000000000 /\ ms d < 2 ^ 48.
