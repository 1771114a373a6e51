(** Counting what happened to a future. *)
From Coq Require Import ZArith List Lia Bool.
From Verif Require Import FutureModel.
Import ListNotations.
Open Scope Z_scope.

Definition count {A} (f : A -> bool) (l : list A) : nat := length (filter f l).

Definition is_begin (o : obs) : bool := match o with InitBegins _ => true | _ => false end.
Definition is_final (o : obs) : bool := match o with Finalizes _ => true | _ => false end.
Definition is_foreign (e : event) : bool := match e with Leave _ ThrowsForeign => true | _ => false end.
Definition is_wait (w : nat) (e : event) : bool := match e with Wait x => Nat.eqb x w | _ => false end.
Definition is_ready_now (w : nat) (o : obs) : bool := match o with AlreadyReady x => Nat.eqb x w | _ => false end.
Definition is_notified (w : nat) (o : obs) : bool := match o with Notified x => Nat.eqb x w | _ => false end.

(** How the initialization ended, according to the events: the outcome of the
    first callback that returned or threw a standard exception. *)
Fixpoint ended (es : list event) : option outcome :=
  match es with
  | [] => None
  | Leave _ ThrowsForeign :: es => ended es
  | Leave _ o :: _ => Some o
  | _ :: es => ended es
  end.
