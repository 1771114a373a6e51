(** What the theorems about easy timers and UDP sockets say. *)
From Coq Require Import List Bool.
From Verif Require Import EqueueModel.
Import ListNotations.
Open Scope list_scope.

Section spec.
Context {V : Type}.

(** For what the callback has been called. *)
Fixpoint delivered (l : list (item V)) : list V :=
  match l with
  | [] => []
  | Began _ v :: l => v :: delivered l
  | Ended _ _ :: l => delivered l
  end.

(** Calls do not overlap, and the one that returns is the one that was made. *)
Fixpoint one_at_a_time (busy : option (nat * V)) (l : list (item V)) : Prop :=
  match l with
  | [] => True
  | Began f v :: l => busy = None /\ one_at_a_time (Some (f, v)) l
  | Ended f v :: l => busy = Some (f, v) /\ one_at_a_time None l
  end.

(** What happens in a history, *)
Fixpoint happened (xs : list (event V)) : list V :=
  match xs with
  | [] => []
  | Push v :: xs => v :: happened xs
  | _ :: xs => happened xs
  end.

(** and in the part of it before the first call of [stop]. *)
Fixpoint before_stop (xs : list (event V)) : list (event V) :=
  match xs with
  | [] => []
  | Stop :: _ => []
  | x :: xs => x :: before_stop xs
  end.

Definition prefix {A} (a b : list A) : Prop := exists c, b = a ++ c.

(** No fiber is running or waiting. *)
Definition quiet (st : state V) : Prop := forall x, In x (fibers st) -> x = None.
End spec.
