(** Specification of splitting and joining text. *)
From Coq Require Import ZArith List Bool.
From Verif Require Import Base UriSpec.
Import ListNotations.
Open Scope Z_scope.

Definition blank (c : Z) : Prop := c = 32 \/ c = 9.
Definition all_blank (s : list Z) : Prop := Forall blank s.

(** [t] is [s] without the blanks around it. *)
Definition trims_to (s t : list Z) : Prop :=
  exists a b, s = a ++ t ++ b /\ all_blank a /\ all_blank b
    /\ (forall c r, t = c :: r -> ~ blank c) /\ (forall c r, t = r ++ [c] -> ~ blank c).

(** The segments joined by a delimiter. *)
Fixpoint joined (d : Z) (ss : list (list Z)) : list Z :=
  match ss with
  | [] => []
  | s :: rest => match rest with [] => s | _ => s ++ [d] ++ joined d rest end
  end.

(** The fields of a text: at most [limit], at least one; the last one keeps the
    delimiters that the limit leaves unsplit. *)
Definition fields (d : Z) (limit : Z) (text : list Z) : list (list Z) :=
  let all := split_on d text in
  if Z.of_nat (length all) <=? Z.max 1 limit then all
  else let n := Z.to_nat (limit - 1) in firstn n all ++ [joined d (skipn n all)].
