(** Model of the fiber scheduler: /repo/poseidon/src/static/fiber_scheduler.cpp,
    with the part of /repo/poseidon/src/fiber/abstract_future.cpp that wakes
    fibers.  Times are nanoseconds of the steady clock.  There is one thread
    which calls [thread_loop] (/repo/poseidon/src/main.cpp:549-550); all other
    threads launch and abandon fibers and complete futures.  Stack allocation is
    not modelled here (see StackModel.v), and failures of [mmap] are left out.
    Time arithmetic is unbounded. *)
From Coq Require Import ZArith List Lia Bool.
From Verif Require Import TimerModel.
Import ListNotations.
Open Scope Z_scope.

(** fiber_scheduler.cpp:103-109 [Fiber_State] *)
Inductive fstate := Pending | Suspended | Running | Terminated.

(** Equality of the states of fiber_scheduler.cpp:103-109. *)
Definition fstate_eqb (a b : fstate) : bool :=
  match a, b with
  | Pending, Pending | Suspended, Suspended | Running, Running | Terminated, Terminated => true
  | _, _ => false
  end.

(** fiber_scheduler.cpp:111-121 [Queued_Fiber].  [n_id] is a ghost, the number
    of the [launch] call; [n_fiber] is the fiber object.  The future which a
    fiber waits for is kept alive by the caller of [yield], so the weak pointer
    [wfutr] is either empty or can be locked. *)
Record node := mkN {
  n_id : nat; n_fiber : Z; n_async : Z; n_check : Z; n_yield : Z; n_state : fstate; n_fut : option Z }.

(** Where the scheduler thread is: outside [thread_loop]; between popping node
    [id] with clock reading [now] (fiber_scheduler.cpp:347) and looking at its
    future; or inside fiber [id]. *)
Inductive where_ := Outside | Popped (id : nat) (now : Z) (fut : option Z) (fail : Z) | Inside (id : nat).

(** What can be seen of a fiber: its procedure begins (fiber_scheduler.cpp:192);
    a blocked call of [yield] comes back, either normally or by an exception, with
    the future it waited for, the time of the call, the clock reading that
    admitted the resumption and the fail timeout; its procedure ends. *)
Inductive obs :=
| Started (id : nat)
| Resumed (id : nat) (fut : option Z) (since now fail : Z) (normal : bool)
| Ended (id : nat).

(** The scheduler ([m_pq] in no particular order, [m_pq_wait], the two timeouts),
    the completed futures, the fibers registered with a future ([m_waiters]), the
    fibers that a completing thread is yet to notify (abstract_future.cpp:51-54),
    the abandoned fiber objects, where the scheduler thread is, what has been
    seen, the fiber objects launched so far, and whether an assertion failed or [pop_heap]
    was called on an empty heap. *)
Record st := mkS {
  nodes : list node; wait : Z; warn : Z; fail : Z;
  done : list Z; waiters : list (Z * nat); notify : list nat;
  abandoned : list Z; at_ : where_; log : list obs; launched : list Z; bad : bool }.

(** A scheduler without fibers; fiber_scheduler.cpp:168-172. *)
Definition init (warn fail : Z) : st := mkS [] 0 warn fail [] [] [] [] Outside [] [] false.

(** [m_init] of a future; fiber_scheduler.cpp:216, 366. *)
Definition is_done (s : st) (f : Z) : bool := existsb (Z.eqb f) (done s).
(** [m_abandoned] of a fiber; fiber_scheduler.cpp:241, 329. *)
Definition is_abandoned (s : st) (f : Z) : bool := existsb (Z.eqb f) (abandoned s).

(** A change of one node, which fiber_scheduler.cpp:190-240 makes through a pointer. *)
Definition upd (id : nat) (g : node -> node) (l : list node) : list node :=
  map (fun n => if Nat.eqb (n_id n) id then g n else n) l.
(** The node that a pointer refers to; fiber_scheduler.cpp:328. *)
Definition find_node (id : nat) (l : list node) : option node := find (fun n => Nat.eqb (n_id n) id) l.

(** Not in the code: a change of the nodes, fiber_scheduler.cpp:327-341. *)
Definition with_nodes (s : st) (l : list node) : st :=
  mkS l (wait s) (warn s) (fail s) (done s) (waiters s) (notify s) (abandoned s) (at_ s) (log s) (launched s) (bad s).
(** Not in the code: a change of the place of the thread, fiber_scheduler.cpp:347-393. *)
Definition with_at (s : st) (a : where_) : st :=
  mkS (nodes s) (wait s) (warn s) (fail s) (done s) (waiters s) (notify s) (abandoned s) a (log s) (launched s) (bad s).
(** Not in the code: one more observation, fiber_scheduler.cpp:192, 231, 194. *)
Definition with_log (s : st) (o : obs) : st :=
  mkS (nodes s) (wait s) (warn s) (fail s) (done s) (waiters s) (notify s) (abandoned s) (at_ s) (log s ++ [o]) (launched s) (bad s).
(** Not in the code: an assertion failed, fiber_scheduler.cpp:189, 195, 224, 232, or the heap is empty, fiber_scheduler.cpp:327. *)
Definition with_bad (s : st) : st :=
  mkS (nodes s) (wait s) (warn s) (fail s) (done s) (waiters s) (notify s) (abandoned s) (at_ s) (log s) (launched s) true.
(** fiber_scheduler.cpp:315 *)
Definition with_wait (s : st) (w : Z) : st :=
  mkS (nodes s) w (warn s) (fail s) (done s) (waiters s) (notify s) (abandoned s) (at_ s) (log s) (launched s) (bad s).

(** The smallest [check_time]: that of the heap's front (fiber_scheduler.cpp:123-141). *)
Definition min_check (n : node) (l : list node) : Z := fold_right (fun x m => Z.min (n_check x) m) (n_check n) l.
(** Whether a node may be the front of the heap; fiber_scheduler.cpp:123-141. *)
Definition is_front (n : node) (l : list node) : bool := forallb (fun x => negb (n_check n >? n_check x)) l.

(** fiber_scheduler.cpp:299-306: copy [async_time] to [check_time].  The loads
    happen one by one; as waiters may be notified in any order here, doing them
    at once loses nothing. *)
Definition refresh (l : list node) : list node :=
  map (fun n => mkN (n_id n) (n_fiber n) (n_async n) (n_async n) (n_yield n) (n_state n) (n_fut n)) l.
(** [remake_heap], fiber_scheduler.cpp:299-306 *)
Definition stale (l : list node) : bool := existsb (fun n => negb (n_check n =? n_async n)) l.

(** fiber_scheduler.cpp:327-347: [pop_heap], removal of finished fibers, or
    computing the next check time and pushing the node back.  [front] is the
    place of the heap's front, any node with the smallest [check_time]. *)
Definition next_check (s : st) (n : node) : Z := Z.min (n_check n + warn s) (n_yield n + fail s).
(** fiber_scheduler.cpp:338-341 *)
Definition push_back (s : st) (n : node) : node :=
  let next := next_check s n in
  mkN (n_id n) (n_fiber n) (if n_async n =? n_check n then next else n_async n) next (n_yield n) (n_state n) (n_fut n).

(** fiber_scheduler.cpp:327-347 *)
Definition pop (s : st) (now : Z) (front : nat) : option st :=
  match nth_error (nodes s) front with
  | None => match nodes s with [] => Some (with_bad s) | _ => None end
  | Some n =>
      if negb (is_front n (nodes s)) then None
      else if (fstate_eqb (n_state n) Pending && is_abandoned s (n_fiber n)) || fstate_eqb (n_state n) Terminated
      then Some (with_nodes s (remove_nth front (nodes s)))
      else Some (with_at (with_nodes s (remove_nth front (nodes s) ++ [push_back s n]))
                         (Popped (n_id n) now (n_fut n) (fail s)))
  end.

(** fiber_scheduler.cpp:277-347 [thread_loop], the part under the mutex. *)
Definition loop (s : st) (now : Z) (front : nat) : option st :=
  match at_ s with
  | Outside =>
      let ttw := match nodes s with [] => 999000000 | n :: l => min_check n l - now end in
      if ttw >? 0 then
        let q := refresh (nodes s) in
        let ttw1 := if stale (nodes s) then match q with [] => ttw | n :: l => min_check n l - now end else ttw in
        let ttw2 := Z.min ttw1 (wait s * 2 + 1000) in
        let w := Z.max 0 (Z.min ttw2 500000000) in
        let s1 := with_wait (with_nodes s q) w in
        if w >? 0 then Some s1 else pop s1 now front
      else pop s now front
  | _ => None
  end.

(** fiber_scheduler.cpp:349-387, and the resumed half of [do_fiber_yield_function]
    (fiber_scheduler.cpp:231-243) or the beginning of [do_fiber_procedure]
    (fiber_scheduler.cpp:182-192). *)
Definition enter (s : st) (n : node) (now fail : Z) : st :=
  let go st' := with_at (with_nodes s (upd (n_id n) (fun x => mkN (n_id x) (n_fiber x) (n_async x) (n_check x) (n_yield x) Running
                                                  (if fstate_eqb st' Pending then n_fut x else None)) (nodes s))) (Inside (n_id n)) in
  match n_state n with
  | Pending => with_log (go Pending) (Started (n_id n))
  | Suspended =>
      let success := match n_fut n with Some f => is_done s f | None => true end in
      with_log (go Suspended) (Resumed (n_id n) (n_fut n) (n_yield n) now fail (success && negb (is_abandoned s (n_fiber n))))
  | _ => with_bad s
  end.

(** fiber_scheduler.cpp:349-387 *)
Definition decide (s : st) : option st :=
  match at_ s with
  | Popped id now fut fail =>
      match find_node id (nodes s) with
      | None => Some (with_bad s)
      | Some n =>
          match fut with
          | Some f =>
              let should_fail := now >=? n_yield n + fail in
              if negb should_fail && negb (is_done s f) then Some (with_at s Outside) else Some (enter s n now fail)
          | None => Some (enter s n now fail)
          end
      end
  | _ => None
  end.

(** fiber_scheduler.cpp:205-228: the first half of [do_fiber_yield_function].  If
    the future is completed already, the fiber goes on without being suspended. *)
Definition yield_ (s : st) (fut : option Z) (now : Z) : option st :=
  match at_ s with
  | Inside id =>
      let set state := upd id (fun x => mkN (n_id x) (n_fiber x) now (n_check x) now state fut) (nodes s) in
      match fut with
      | Some f =>
          if is_done s f then Some (with_nodes s (set Running))
          else
            Some (mkS (set Suspended) (wait s) (warn s) (fail s) (done s) (waiters s ++ [(f, id)]) (notify s)
                      (abandoned s) Outside (log s) (launched s) (bad s))
      | None => Some (with_at (with_nodes s (set Suspended)) Outside)
      end
  | _ => None
  end.

(** fiber_scheduler.cpp:194-199: the end of [do_fiber_procedure].  Exceptions
    are swallowed. *)
Definition finish (s : st) (now : Z) : option st :=
  match at_ s with
  | Inside id =>
      Some (with_log (with_at (with_nodes s
        (upd id (fun x => mkN (n_id x) (n_fiber x) now (n_check x) (n_yield x) Terminated (n_fut x)) (nodes s))) Outside) (Ended id))
  | _ => None
  end.

(** fiber_scheduler.cpp:404-422 [launch].  A null pointer
    is refused with an exception and is left out *)
Definition launch (s : st) (fiber now : Z) : st :=
  mkS (nodes s ++ [mkN (length (launched s)) fiber now now now Pending None]) (wait s) (warn s) (fail s) (done s) (waiters s)
      (notify s) (abandoned s) (at_ s) (log s) (launched s ++ [fiber]) (bad s).

(** abstract_future.cpp:44-49, under the mutex of the future: [m_waiters] is taken
    away and [m_init] is set. *)
Definition complete (s : st) (f : Z) : option st :=
  if is_done s f then None
  else
    Some (mkS (nodes s) (wait s) (warn s) (fail s) (f :: done s) (filter (fun w => negb (fst w =? f)) (waiters s))
              (notify s ++ map snd (filter (fun w => fst w =? f) (waiters s)))
              (abandoned s) (at_ s) (log s) (launched s) (bad s)).

(** abstract_future.cpp:51-54: one waiter is notified.  If the node is gone, the
    weak pointer has expired. *)
Definition notify_one (s : st) (k : nat) (now : Z) : option st :=
  match nth_error (notify s) k with
  | None => None
  | Some id =>
      Some (mkS (upd id (fun x => mkN (n_id x) (n_fiber x) now (n_check x) (n_yield x) (n_state x) (n_fut x)) (nodes s))
                (wait s) (warn s) (fail s) (done s) (waiters s) (remove_nth k (notify s))
                (abandoned s) (at_ s) (log s) (launched s) (bad s))
  end.

(** abstract_fiber.hpp:44-49 *)
Definition abandon (s : st) (fiber : Z) : st :=
  mkS (nodes s) (wait s) (warn s) (fail s) (done s) (waiters s) (notify s) (fiber :: abandoned s) (at_ s) (log s) (launched s) (bad s).

(** fiber_scheduler.cpp:264-274 [reload], with the timeouts in seconds that it
    has read from the configuration. *)
Definition reload (s : st) (w f : Z) : st :=
  mkS (nodes s) (wait s) (w * 1000000000) (f * 1000000000) (done s) (waiters s) (notify s) (abandoned s) (at_ s) (log s) (launched s) (bad s).

(** What may happen.  [Loop] and [Decide] are the two halves of [thread_loop];
    [Yield] and [Finish] are done by the running fiber; the others may be done by
    any thread, the running fiber included. fiber_scheduler.cpp:182-422; abstract_future.cpp:44-54 *)
Inductive event :=
| Loop (now : Z) (front : nat)
| Decide
| Yield (fut : option Z) (now : Z)
| Finish (now : Z)
| Launch (fiber now : Z)
| Complete (fut : Z)
| Notify (k : nat) (now : Z)
| Abandon (fiber : Z)
| Reload (warn fail : Z).

(** fiber_scheduler.cpp:182-422; abstract_future.cpp:44-54 *)
Definition step (s : st) (e : event) : option st :=
  match e with
  | Loop now front => loop s now front
  | Decide => decide s
  | Yield f now => yield_ s f now
  | Finish now => finish s now
  | Launch f now => Some (launch s f now)
  | Complete f => complete s f
  | Notify k now => notify_one s k now
  | Abandon f => Some (abandon s f)
  | Reload w f => Some (reload s w f)
  end.

(** Any number of events; fiber_scheduler.cpp:279-393 is called again and again (main.cpp:549-550). *)
Fixpoint run (s : st) (es : list event) : option st :=
  match es with
  | [] => Some s
  | e :: es => match step s e with Some s' => run s' es | None => None end
  end.
