(** Model of the queues of easy timers and easy UDP servers and clients, which
    pass ticks and packets to fibers.

    poseidon/src/easy/easy_timer.cpp, easy_udp_server.cpp, easy_udp_client.cpp *)
From Coq Require Import List Bool PeanoNat.
Import ListNotations.
Open Scope list_scope.

Section queue.
(** A tick or a packet. *)
Context {V : Type}.

(** A fiber is at the beginning of its loop, or it has called the callback,
    which may suspend it. easy_timer.cpp:48-82, easy_udp_server.cpp:48-80 *)
Inductive status :=
  | Top
  | Calling (v : V).

(** What can be observed: a fiber calls the callback, and it returns. easy_timer.cpp:76, easy_udp_server.cpp:75 *)
Inductive item :=
  | Began (f : nat) (v : V)
  | Ended (f : nat) (v : V).

(** [events] and [fiber_active] are those of the queue. [pushed] is history.
    poseidon/src/easy/easy_timer.cpp:20-30 *)
Record state := mkState {
  events : list V;
  fiber_active : bool;
  fibers : list (option status);
  stopped : bool;
  pushed : list V;
  log : list item }.

(** easy_timer.cpp:140-152, easy_udp_server.cpp:143-155 *)
Definition init : state := mkState [] false [] false [] [].

(** easy_timer.cpp:76: the fiber is in the callback *)
Definition calling (x : option status) : bool := match x with Some (Calling _) => true | _ => false end.

(** The queue is referenced by the [Easy_Timer], and by fibers in their
    callbacks. easy_timer.cpp:51-57, 102-104 *)
Definition expired (st : state) : bool := stopped st && negb (existsb calling (fibers st)).

(** The state of one fiber changes, easy_timer.cpp:48-82 *)
Fixpoint set_at {A} (i : nat) (x : A) (l : list A) : list A :=
  match i, l with
  | _, [] => []
  | O, _ :: l => x :: l
  | S i, y :: l => y :: set_at i x l
  end.

(** The steps between which other threads may act, easy_timer.cpp:48-82, 97-119, 161-168 *)
Inductive event :=
  | Push (v : V)
  | Push_fail (launched : bool)
  | Pop (f : nat)
  | Return (f : nat)
  | Stop.

(** easy_timer.cpp:48-82, 97-119, 161-168, easy_udp_server.cpp:48-80, 97-119, 171-178, as cited at each case *)
Definition step (st : state) (x : event) : option state :=
  match x with
  (** [do_abstract_timer_on_tick] in the timer thread, and [do_on_udp_packet]
      in the network thread.
      poseidon/src/easy/easy_timer.cpp:97-119
      poseidon/src/easy/easy_udp_server.cpp:97-119 *)
  | Push v =>
    if expired st then Some st
    else if fiber_active st then
      Some (mkState (events st ++ [v]) true (fibers st) (stopped st) (pushed st ++ [v]) (log st))
    else
      Some (mkState (events st ++ [v]) true (fibers st ++ [Some Top]) (stopped st) (pushed st ++ [v]) (log st))
  (** The same if an exception is thrown, either by [launch] or by
      [push_back]. *)
  | Push_fail launched =>
    if expired st then None
    else if launched && negb (fiber_active st) then
      Some (mkState (events st) true (fibers st ++ [Some Top]) (stopped st) (pushed st) (log st))
    else Some st
  (** The beginning of the loop of a fiber, until the callback is called.
      poseidon/src/easy/easy_timer.cpp:48-76 *)
  | Pop f =>
    match nth_error (fibers st) f with
    | Some (Some Top) =>
      if expired st then Some (mkState (events st) (fiber_active st) (set_at f None (fibers st)) (stopped st) (pushed st) (log st))
      else
        match events st with
        | [] => Some (mkState [] false (set_at f None (fibers st)) (stopped st) (pushed st) (log st))
        | v :: vs => Some (mkState vs (fiber_active st) (set_at f (Some (Calling v)) (fibers st)) (stopped st) (pushed st) (log st ++ [Began f v]))
        end
    | _ => None
    end
  (** The callback returns, or throws an exception which is caught.
      poseidon/src/easy/easy_timer.cpp:76-82 *)
  | Return f =>
    match nth_error (fibers st) f with
    | Some (Some (Calling v)) => Some (mkState (events st) (fiber_active st) (set_at f (Some Top) (fibers st)) (stopped st) (pushed st) (log st ++ [Ended f v]))
    | _ => None
    end
  (** [stop].
      poseidon/src/easy/easy_timer.cpp:161-168 *)
  | Stop => Some (mkState (events st) (fiber_active st) (fibers st) true (pushed st) (log st))
  end.

(** Any interleaving of these steps, easy_timer.cpp:48-168 *)
Fixpoint run (st : state) (xs : list event) : option state :=
  match xs with
  | [] => Some st
  | x :: xs => match step st x with Some st => run st xs | None => None end
  end.
End queue.

Arguments status : clear implicits.
Arguments item : clear implicits.
Arguments state : clear implicits.
Arguments event : clear implicits.
