(** What the theorems about Redis values say, without the hand-written
    stacks. *)
From Coq Require Import List ZArith Bool.
From Coq Require Import String.
From Verif Require Import Base Text NetrefSpec RedisModel.
Import ListNotations.
Open Scope list_scope.
Open Scope Z_scope.

(** The value that a reply denotes. There are no values for statuses and
    errors inside of arrays. *)
Inductive denotes : reply -> value -> Prop :=
  | denotes_nil : denotes Reply_nil Nil
  | denotes_integer n : denotes (Reply_integer n) (Int n)
  | denotes_string s : denotes (Reply_string s) (Str s)
  | denotes_array l vs : Forall2 denotes l vs -> denotes (Reply_array l) (Arr vs).

(** The value that any reply is converted into: what it denotes, but null for
    the statuses, errors and other things inside of arrays. *)
Inductive shown : reply -> value -> Prop :=
  | shown_nil : shown Reply_nil Nil
  | shown_integer n : shown (Reply_integer n) (Int n)
  | shown_string s : shown (Reply_string s) (Str s)
  | shown_array l vs : Forall2 shown l vs -> shown (Reply_array l) (Arr vs)
  | shown_status s : shown (Reply_status s) Nil
  | shown_error s : shown (Reply_error s) Nil
  | shown_other : shown Reply_other Nil.

(** The text of an integer: an optional minus sign, and decimal digits. *)
Definition digits (n : Z) (t : list Z) : Prop := t <> [] /\ Forall decimal t /\ number t = n.

Definition integer_text (n : Z) (t : list Z) : Prop :=
  (0 <= n /\ digits n t) \/ (n < 0 /\ exists u, t = 45 :: u /\ digits (- n) u).

(** A list of texts separated with commas. *)
Fixpoint comma_separated (l : list (list Z)) : list Z :=
  match l with
  | [] => []
  | [t] => t
  | t :: l => t ++ [44] ++ comma_separated l
  end.

(** The text of a value. *)
Inductive text_of (quote : list Z -> list Z) : value -> list Z -> Prop :=
  | text_nil : text_of quote Nil (txt "nil")
  | text_integer n t : integer_text n t -> text_of quote (Int n) t
  | text_string s : text_of quote (Str s) ([34] ++ quote s ++ [34])
  | text_array l ts :
      Forall2 (text_of quote) l ts -> text_of quote (Arr l) ([91] ++ comma_separated ts ++ [93]).

(** All integers are 64-bit integers. *)
Inductive int64s : value -> Prop :=
  | int64s_nil : int64s Nil
  | int64s_int n : - 2 ^ 63 <= n < 2 ^ 63 -> int64s (Int n)
  | int64s_str s : int64s (Str s)
  | int64s_arr l : Forall int64s l -> int64s (Arr l).

(** The server answers a series of SCAN commands, the first of which is its
    [n]th command, with the keys in [rounds]. The first cursor is [cursor];
    the last round gives the cursor [0]. *)
Fixpoint scanned (server : nat -> list (list Z) -> option reply) (pattern : list Z)
    (n : nat) (cursor : list Z) (rounds : list (list Z * list (list Z))) : Prop :=
  match rounds with
  | [] => False
  | (next, keys) :: rounds =>
    server n [txt "SCAN"; cursor; txt "MATCH"; pattern]
      = Some (Reply_array [Reply_string next; Reply_array (map Reply_string keys)])
    /\ (if list_eq_dec Z.eq_dec next (txt "0") then rounds = []
        else scanned server pattern (S n) next rounds)
  end.

(** The server answers its [n]th command, if it is MGET, with the values that
    [get] gives for the keys. *)
Definition gets (server : nat -> list (list Z) -> option reply) (n : nat) (get : list Z -> reply) : Prop :=
  forall keys, server n (txt "MGET" :: keys) = Some (Reply_array (map get keys)).
