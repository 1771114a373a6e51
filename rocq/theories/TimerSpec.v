(** What timers promise, in terms of insertions and callbacks only. *)
From Coq Require Import ZArith List Lia Bool.
From Verif Require Import TimerModel.
Import ListNotations.
Open Scope Z_scope.

(** The [k]-th time point at which a timer should run, if it was inserted at
    [i_at] nanoseconds with a delay and a period in milliseconds. *)
Definition due (i : insertion) (k : nat) : Z :=
  i_at i + (i_delay i + Z.of_nat k * i_period i) * 1000000.

(** The time points passed to the callbacks that were made for insertion [no],
    oldest first. *)
Definition dues_of (no : nat) (l : list tick) : list Z :=
  map t_due (filter (fun t => Nat.eqb (t_no t) no) l).

(** The callbacks of a timer, no matter which insertion they are for. *)
Definition count_of (timer : Z) (l : list tick) : nat :=
  length (filter (fun t => t_timer t =? timer) l).

(** Arguments which [insert_weak] accepts: 0 to 24000 hours. *)
Definition acceptable (delay period : Z) : Prop :=
  0 <= delay <= 24000 * 3600 * 1000 /\ 0 <= period <= 24000 * 3600 * 1000.

(** Clock readings that leave room for 24000 hours below 2^63 nanoseconds. *)
Definition sane_clock (e : event) : Prop :=
  match e with
  | Insert _ now _ _ | Loop now _ => 0 <= now <= 2 ^ 63 - 1 - 24000 * 3600 * 1000000000
  | _ => True
  end.

(** No timer is due at time [now], and the timer thread is not in a callback. *)
Definition idle_at (now : Z) (s : st) : Prop :=
  flight s = None /\ forall e, In e (pq s) -> now < e_next e.

(** One whole turn of the timer thread at time [now]. *)
Definition turn (now : Z) (s : st) (front : nat) : option st :=
  match step s (Loop now front) with
  | Some s1 => match flight s1 with Some _ => step s1 Callback | None => Some s1 end
  | None => None
  end.

Fixpoint turns (now : Z) (s : st) (fronts : list nat) : option st :=
  match fronts with
  | [] => Some s
  | f :: fs => match turn now s f with Some s' => turns now s' fs | None => None end
  end.
