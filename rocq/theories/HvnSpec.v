(** What the fields of an HTTP value are to be. *)
From Coq Require Import ZArith List Bool.
From Verif Require Import Base HvnModel.
Import ListNotations.
Open Scope Z_scope.

(** What a user can learn from a value: the text, and the integer, double and date if it is said to be one. *)
Record seen (D : Type) := mkSeen { s_null : bool; s_text : list Z; s_int : option Z; s_dbl : option D; s_date : option Z }.
Arguments mkSeen {D}. Arguments s_null {D}. Arguments s_text {D}. Arguments s_int {D}. Arguments s_dbl {D}. Arguments s_date {D}.
Definition see {D} (v : value D) : seen D :=
  mkSeen (negb (f_str v)) (v_str v) (if f_int v then Some (v_int v) else None) (if f_dbl v then Some (v_dbl v) else None)
         (if f_dt v then Some (v_dt v) else None).

(** Decimal notation of an integer: a minus sign if it is negative, and digits that denote its magnitude, the
    first of which is not zero unless it is the only one. *)
Definition decimal_value (s : list Z) : Z := fold_left (fun a c => 10 * a + (c - 48)) s 0.
Definition digits (s : list Z) : Prop := s <> [] /\ Forall (fun c => 48 <= c <= 57) s /\ (hd 0 s = 48 -> s = [48]).
Definition denotes (s : list Z) (n : Z) : Prop :=
  (exists t, s = 45 :: t /\ digits t /\ n < 0 /\ decimal_value t = - n) \/ (digits s /\ 0 <= n /\ decimal_value s = n).

Definition int64 (n : Z) : Prop := -9223372036854775808 <= n <= 9223372036854775807.

(** Texts with blanks at an end *)
Definition outer_blank (c : Z) : Prop := c = 32 \/ c = 9.
