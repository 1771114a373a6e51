(** What the text of an exception is to contain, written without the model's functions. *)
From Coq Require Import ZArith List Bool String.
From Verif Require Import Base Text HvnSpec ThrowModel.
Import ListNotations.
Open Scope list_scope.
Open Scope Z_scope.
Notation length := List.length.

Definition blank (c : Z) : Prop := In c [32; 9; 13; 10].
(** [t] is [s] without the blanks at its end. *)
Definition trimmed (s t : list Z) : Prop :=
  exists blanks, s = t ++ blanks /\ Forall blank blanks /\ (t = [] \/ exists t' c, t = t' ++ [c] /\ ~ blank c).

(** A decimal number without leading zeroes *)
Definition decimal_of (n : Z) (s : list Z) : Prop := digits s /\ decimal_value s = n.

(** What is said of a frame: where it is, and if it is known, in what function and how far from its beginning *)
Definition says (put_xu : Z -> list Z) (f : frame) (s : list Z) : Prop :=
  match symbol f with
  | None => s = put_xu (ip f) ++ txt " (unknown)"
  | Some (name, offset) =>
      (offset <= 0 /\ s = put_xu (ip f) ++ txt " `" ++ name ++ txt "`")
      \/ (0 < offset /\ s = put_xu (ip f) ++ txt " `" ++ name ++ txt "`+" ++ put_xu offset)
  end.

(** The lines of the frames [fs], of which the first has the number [n]; all numbers end in the same column, [width]. *)
Inductive lines (put_xu : Z -> list Z) (width : nat) : Z -> list frame -> list (list Z) -> Prop :=
| No_lines n : lines put_xu width n [] []
| Line n f fs ls pad num s : decimal_of n num -> (pad + length num = width)%nat -> says put_xu f s -> lines put_xu width (n + 1) fs ls ->
    lines put_xu width n (f :: fs) ((txt "  " ++ repeat 32 pad ++ num ++ txt ") " ++ s) :: ls).
