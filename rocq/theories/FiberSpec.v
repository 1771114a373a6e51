(** What the fiber scheduler promises, in terms of what can be seen of fibers. *)
From Coq Require Import ZArith List Lia Bool.
From Verif Require Import FiberModel.
Import ListNotations.
Open Scope Z_scope.

Definition who (o : obs) : nat :=
  match o with Started id => id | Resumed id _ _ _ _ _ => id | Ended id => id end.

(** What has been seen of one fiber, oldest first. *)
Definition tale (id : nat) (l : list obs) : list obs := filter (fun o => Nat.eqb (who o) id) l.

(** Its procedure has begun and was resumed any number of times. *)
Definition is_resumed (o : obs) : Prop := match o with Resumed _ _ _ _ _ _ => True | _ => False end.
Definition alive (id : nat) (l : list obs) : Prop :=
  exists rs, l = Started id :: rs /\ Forall is_resumed rs.
(** It has begun and ended. *)
Definition over (id : nat) (l : list obs) : Prop := exists l', l = l' ++ [Ended id] /\ alive id l'.

(** The clock readings made by an event lie after [t]. *)
Definition clock_after (t : Z) (e : event) : Prop :=
  match e with
  | Loop now _ | Yield _ now | Finish now | Launch _ now | Notify _ now => t < now
  | _ => True
  end.

Definition is_loop (e : event) : bool := match e with Loop _ _ => true | _ => false end.
Definition loops (es : list event) : nat := length (filter is_loop es).

(** A fiber which has something to do: it has not begun and is not abandoned, or
    it has yielded without a future or with one that is completed by now. *)
Definition ready (s : st) (n : node) : Prop :=
  match n_state n with
  | Pending => ~ In (n_fiber n) (abandoned s)
  | Suspended => match n_fut n with None => True | Some f => In f (done s) end
  | _ => False
  end.
