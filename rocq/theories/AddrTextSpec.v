(** Specification of the text form of socket addresses. *)
From Coq Require Import ZArith List Bool.
From Verif Require Import Base.
Import ListNotations.
Open Scope Z_scope.

Definition hex_lower (c : Z) : Prop := 48 <= c <= 57 \/ 97 <= c <= 102.

(** What is relied on about [inet_ntop] and [inet_pton]: the text of an address
    has the characters and the length it should, and is read back. *)
Definition inet_laws (ntop4 ntop6 : list Z -> list Z) (pton4 pton6 : list Z -> option (list Z)) : Prop :=
  (forall a, length a = 4%nat -> bytes a ->
     ntop4 a <> [] /\ (length (ntop4 a) <= 15)%nat
     /\ Forall (fun c => 48 <= c <= 57 \/ c = 46) (ntop4 a) /\ pton4 (ntop4 a) = Some a)
  /\ (forall a, length a = 16%nat -> bytes a ->
     ntop6 a <> [] /\ (length (ntop6 a) <= 45)%nat
     /\ Forall (fun c => hex_lower c \/ c = 58 \/ c = 46) (ntop6 a) /\ pton6 (ntop6 a) = Some a).

(** A pair of functions that satisfies the laws: dotted decimal, and eight
    groups of four digits. *)
Definition dec3 (b : Z) : list Z := [48 + b / 100; 48 + b / 10 mod 10; 48 + b mod 10].
Definition hex1 (d : Z) : Z := if d <? 10 then 48 + d else 87 + d.
Definition unhex1 (c : Z) : Z := if c <? 58 then c - 48 else c - 87.
Fixpoint sample_ntop4 (a : list Z) : list Z :=
  match a with
  | [] => []
  | b :: r => dec3 b ++ match r with [] => [] | _ => [46] ++ sample_ntop4 r end
  end.
Fixpoint sample_pton4 (s : list Z) : option (list Z) :=
  match s with
  | [a; b; c] => Some [(a - 48) * 100 + (b - 48) * 10 + (c - 48)]
  | a :: b :: c :: _ :: r => option_map (cons ((a - 48) * 100 + (b - 48) * 10 + (c - 48))) (sample_pton4 r)
  | _ => None
  end.
Fixpoint sample_ntop6 (a : list Z) : list Z :=
  match a with
  | x :: y :: r => [hex1 (x / 16); hex1 (x mod 16); hex1 (y / 16); hex1 (y mod 16)]
                   ++ match r with [] => [] | _ => [58] ++ sample_ntop6 r end
  | _ => []
  end.
Fixpoint sample_pton6 (s : list Z) : option (list Z) :=
  match s with
  | [a; b; c; d] => Some [16 * unhex1 a + unhex1 b; 16 * unhex1 c + unhex1 d]
  | a :: b :: c :: d :: _ :: r =>
      option_map (fun t => 16 * unhex1 a + unhex1 b :: 16 * unhex1 c + unhex1 d :: t) (sample_pton6 r)
  | _ => None
  end.
