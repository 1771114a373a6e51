(** What the theorems about easy servers and clients say. *)
From Coq Require Import List ZArith.
From Verif Require Import EasyModel.
Import ListNotations.
Open Scope list_scope.

(** The events of the socket [s] that the network thread has accepted, *)
Definition occurred (s : nat) (l : list (nat * ev)) : list ev :=
  map snd (filter (fun x => (fst x =? s)%nat) l).

(** and those for which the callback has been called. *)
Fixpoint delivered (s : nat) (l : list item) : list ev :=
  match l with
  | [] => []
  | Began _ s' e _ :: l => if (s' =? s)%nat then e :: delivered s l else delivered s l
  | Ended _ _ _ _ :: l => delivered s l
  end.

Definition prefix {A} (a b : list A) : Prop := exists c, b = a ++ c.

(** Calls for one socket do not overlap: who is in the callback. *)
Fixpoint one_at_a_time (s : nat) (busy : option nat) (l : list item) : Prop :=
  match l with
  | [] => True
  | Began f s' _ _ :: l => if (s' =? s)%nat then busy = None /\ one_at_a_time s (Some f) l else one_at_a_time s busy l
  | Ended f s' _ _ :: l => if (s' =? s)%nat then busy = Some f /\ one_at_a_time s None l else one_at_a_time s busy l
  end.

(** What the callback gets is what it has left the last time, and the new data. *)
Fixpoint streamed (s : nat) (left : list Z) (l : list item) : Prop :=
  match l with
  | [] => True
  | Began _ s' (Data d _) view :: l => if (s' =? s)%nat then view = left ++ d /\ streamed s view l else streamed s left l
  | Ended _ s' (Data _ _) rest :: l => if (s' =? s)%nat then (exists gone, left = gone ++ rest) /\ streamed s rest l else streamed s left l
  | _ :: l => streamed s left l
  end.

(** No exception has been thrown in the network thread. *)
Definition no_failure (xs : list event) : Prop := forall s b, ~ In (Push_fail s b) xs.

(** The events that happen in a history. *)
Fixpoint happened (xs : list event) : list (nat * ev) :=
  match xs with
  | [] => []
  | Push s e :: xs => (s, e) :: happened xs
  | _ :: xs => happened xs
  end.

(** No fiber is running or waiting. *)
Definition quiet (st : state) : Prop := forall f, fibers st f = None.
