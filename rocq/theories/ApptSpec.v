(** What the theorems about appointments say. *)
From Coq Require Import List ZArith.
From Verif Require Import ApptModel.
Import ListNotations.
Open Scope list_scope.
Open Scope Z_scope.

(** How often somebody enrolled. *)
Fixpoint enrolled (es : list event) : Z :=
  match es with
  | [] => 0
  | Enroll _ :: es => enrolled es + 1
  | _ :: es => enrolled es
  end.

(** An appointment has the index [k]. *)
Definition has_index (s : state) (a : nat) (k : Z) : Prop := index s a = k /\ 0 <= k.

(** It is enrolled. *)
Definition live (s : state) (a : nat) : Prop := exists fd k, appt s a = Held fd k.

(** Events that are not about [a]. *)
Definition foreign (of_process : nat -> list nat) (a : nat) (e : event) : Prop :=
  match e with
  | Enroll b | Fail b | Withdraw b => b <> a
  | Die p => ~ In a (of_process p)
  | Try _ => True
  end.
