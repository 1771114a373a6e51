(** Linked lists in memory. *)
From Coq Require Import List.
Import ListNotations.

(** [l] is the list of blocks that is found by following [nxt] from [p]. *)
Fixpoint chain (nxt : nat -> option nat) (p : option nat) (l : list nat) : Prop :=
  match l with
  | [] => p = None
  | b :: l => p = Some b /\ chain nxt (nxt b) l
  end.
