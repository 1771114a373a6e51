(** What the order of two elements of a list means, and counting. *)
From Coq Require Import List.
From Verif Require Import TaskModel.
Import ListNotations.

(** [a] comes before [b] in [l]. *)
Definition before {A} (a b : A) (l : list A) : Prop := exists x y z, l = x ++ a :: y ++ b :: z.

(** How many jobs have been taken off the queue by some events. *)
Definition takes (es : list event) : nat :=
  length (filter (fun e => match e with Take _ => true | _ => false end) es).

(** The tasks that were launched by some events, in order. *)
Fixpoint launches (es : list event) : list nat :=
  match es with
  | [] => []
  | Launch t :: es => t :: launches es
  | _ :: es => launches es
  end.

(** The jobs that are neither executing, nor finished, nor dropped. *)
Definition waiting (s : st) : list job :=
  front s ++ back s ++ match locker s with Some (_, j) => [j] | None => [] end.
