(** Model of the timer scheduler: /repo/poseidon/src/static/timer_scheduler.cpp
    and /repo/poseidon/base/abstract_timer.hpp.  Time points are nanoseconds of
    the steady clock, delays and periods are milliseconds. *)
From Coq Require Import ZArith List Lia Bool.
Import ListNotations.
Open Scope Z_scope.

(** timer_scheduler.cpp:12-17 [Queued_Timer].  [e_no] is a ghost: it is the
    number of the [insert_weak] call that made the entry. *)
Record entry := mkE { e_no : nat; e_timer : Z; e_next : Z; e_period : Z }.

(** One call of [do_abstract_timer_on_tick] (timer_scheduler.cpp:91): which
    timer, the time point passed to it, and, as ghosts, the insertion that it
    belongs to, the clock reading which admitted it, and how many insertions
    had been made when it was taken off the queue. *)
Record tick := mkT { t_no : nat; t_timer : Z; t_due : Z; t_now : Z; t_known : nat }.

(** A ghost record of a successful [insert_weak] (timer_scheduler.cpp:95-119):
    the timer, the clock reading, the delay and the period. *)
Record insertion := mkI { i_timer : Z; i_at : Z; i_delay : Z; i_period : Z }.

(** The scheduler: [m_pq] as a list in no particular order, the timers which
    have been abandoned or destroyed, the callback which the timer thread is
    about to make (timer_scheduler.cpp:85-87), the callbacks made so far, the
    insertions made so far, and whether a signed addition has overflowed. *)
Record st := mkS {
  pq : list entry; gone : list Z; flight : option tick;
  ran : list tick; inserted : list insertion; ub : bool }.

(** timer_scheduler.cpp:44-48 *)
Definition init : st := mkS [] [] None [] [] false.

(** What the threads of a process do to the scheduler.  [Insert] is a call of
    [insert_weak] ([None] is a null pointer) with the clock reading it makes.
    [Loop] is a call of [thread_loop] up to timer_scheduler.cpp:87, with the
    clock reading it makes and the place of the heap's front in [pq]; [Callback]
    is the rest of it, which begins after the mutex was unlocked, so that other
    events can come in between.  [Forget] is [abandon()] (abstract_timer.hpp:43-46)
    or the end of the last strong reference to a timer. *)
Inductive event :=
| Insert (timer : option Z) (now delay period : Z)
| Loop (now : Z) (front : nat)
| Callback
| Forget (timer : Z).

(** [24000h] in milliseconds, timer_scheduler.cpp:102, 105. *)
Definition max_ms : Z := 86400000000.
(** timer_scheduler.cpp:79, 111 *)
Definition ms : Z := 1000000.

(** A signed 64-bit count of nanoseconds. timer_scheduler.cpp:79, 111 *)
Definition i64 (x : Z) : bool := (- 2 ^ 63 <=? x) && (x <? 2 ^ 63).

(** timer_scheduler.cpp:69, 74, 83 *)
Fixpoint remove_nth {A} (n : nat) (l : list A) : list A :=
  match l, n with
  | [], _ => []
  | _ :: l, O => l
  | x :: l, S n => x :: remove_nth n l
  end.

(** timer_scheduler.cpp:19-37, 69, 80, 117: the heap is built with [lhs.next > rhs.next],
    so its front is some entry such that no other one has a smaller [next].
    Which one of equal entries is at the front depends on the standard library;
    the event says which, and every choice is allowed. *)
Definition is_front (e : entry) (q : list entry) : bool :=
  forallb (fun x => negb (e_next e >? e_next x)) q.

(** timer_scheduler.cpp:71-72 *)
Definition is_gone (s : st) (t : Z) : bool := existsb (Z.eqb t) (gone s).

(** timer_scheduler.cpp:95-119 [insert_weak].  An exception leaves the scheduler
    as it was. *)
Definition insert_weak (s : st) (timer : option Z) (now delay period : Z) : st :=
  match timer with
  | None => s
  | Some t =>
      if (delay <? 0) || (delay >? max_ms) then s
      else if (period <? 0) || (period >? max_ms) then s
      else
        let next := now + delay * ms in
        mkS (pq s ++ [mkE (length (inserted s)) t next (period * ms)]) (gone s) (flight s) (ran s)
            (inserted s ++ [mkI t now delay period]) (ub s || negb (i64 next))
  end.

(** timer_scheduler.cpp:55-87, the part of [thread_loop] under the mutex.  The
    wait for a non-empty queue and the timed wait leave the state as it is. *)
Definition take (s : st) (now : Z) (front : nat) : option st :=
  match flight s with
  | Some _ => None
  | None =>
      match nth_error (pq s) front with
      | None => match pq s with [] => Some s | _ => None end
      | Some e =>
          if negb (is_front e (pq s)) then None
          else if now <? e_next e then Some s
          else
            let rest := remove_nth front (pq s) in
            if is_gone s (e_timer e)
            then Some (mkS rest (gone s) None (ran s) (inserted s) (ub s))
            else
              let t := mkT (e_no e) (e_timer e) (e_next e) now (length (inserted s)) in
              if negb (e_period e =? 0)
              then
                let next := e_next e + e_period e in
                Some (mkS (rest ++ [mkE (e_no e) (e_timer e) next (e_period e)]) (gone s) (Some t)
                          (ran s) (inserted s) (ub s || negb (i64 next)))
              else Some (mkS rest (gone s) (Some t) (ran s) (inserted s) (ub s))
      end
  end.

(** timer_scheduler.cpp:89-92.  Exceptions of the callback are swallowed.  What
    the callback does to the scheduler shows as further events. *)
Definition callback (s : st) : option st :=
  match flight s with
  | None => None
  | Some t => Some (mkS (pq s) (gone s) None (ran s ++ [t]) (inserted s) (ub s))
  end.

(** abstract_timer.hpp:43-46, and the expiry of [wtimer]. *)
Definition forget (s : st) (t : Z) : st :=
  mkS (pq s) (t :: gone s) (flight s) (ran s) (inserted s) (ub s).

(** One event; [None] if it cannot happen in this state. timer_scheduler.cpp:55-119 *)
Definition step (s : st) (e : event) : option st :=
  match e with
  | Insert t now d p => Some (insert_weak s t now d p)
  | Loop now f => take s now f
  | Callback => callback s
  | Forget t => Some (forget s t)
  end.

(** Any number of events; timer_scheduler.cpp:55-119. *)
Fixpoint run (s : st) (es : list event) : option st :=
  match es with
  | [] => Some s
  | e :: es => match step s e with Some s' => run s' es | None => None end
  end.
