(** Model of the event queues of easy servers and clients, which pass events
    from the network thread to fibers.

    poseidon/src/easy/easy_tcp_server.cpp. The other servers and clients in
    that directory have the same code with other events, and no data stream
    unless it is a raw stream. *)
From Coq Require Import List ZArith Bool.
Import ListNotations.
Open Scope list_scope.

(** What happens on a socket. [Message] is anything other than raw data, such
    as an HTTP request.
    poseidon/src/easy/easy_tcp_server.cpp:16-21 *)
Inductive ev :=
  | Open
  | Data (d : list Z) (eof : bool)
  | Message (m : Z)
  | Close (code : Z).

(** easy_tcp_server.cpp:91 *)
Definition is_close (e : ev) : bool := match e with Close _ => true | _ => false end.

(** An [Event_Queue], which is the value in the table.
    poseidon/src/easy/easy_tcp_server.cpp:23-36 *)
Record entry := mkEntry {
  socket : nat;
  events : list ev;
  fiber_active : bool;
  data_stream : list Z }.

(** A fiber is at the beginning of its loop, or it has called the callback for
    an event of a socket. It has copied the pointer [socket], so the socket
    stays alive; the callback may suspend the fiber. easy_tcp_server.cpp:61-117; [socket] is at 87 *)
Inductive status :=
  | Top
  | Calling (s : nat) (e : ev).

(** What can be observed: a fiber calls the callback with an event, and data if
    it is an event of data, and the callback returns and leaves some of it. easy_tcp_server.cpp:104-108 *)
Inductive item :=
  | Began (f s : nat) (e : ev) (view : list Z)
  | Ended (f s : nat) (e : ev) (rest : list Z).

(** Keys of the table are addresses of sockets. [net] has the sockets that the
    network thread knows, with their addresses, and whether they have been
    closed. [pushed] and [log] are history: which events have been put into
    queues, and the calls of the callback. [dangling] is set when a reference
    to an erased element is used. [Session_Table], easy_tcp_server.cpp:38-42, the fibers, 44-48, and the sockets, 121-124 *)
Record state := mkState {
  table : nat -> option entry;
  fibers : nat -> option (nat * status);
  next_fiber : nat;
  net : nat -> option (nat * bool);
  next_socket : nat;
  stopped : bool;
  dangling : bool;
  pushed : list (nat * ev);
  log : list item }.

(** A new server, easy_tcp_server.cpp:260-271 *)
Definition init : state := mkState (fun _ => None) (fun _ => None) 0 (fun _ => None) 0 false false [] [].

(** Assignment to an element, easy_tcp_server.cpp:78, 153, 232-234 *)
Definition upd {A} (m : nat -> A) (k : nat) (x : A) : nat -> A := fun i => if (i =? k)%nat then x else m i.

(** Whether some fiber satisfies [p]. For the conditions below; the fibers of easy_tcp_server.cpp:44-48 *)
Definition some_fiber (st : state) (p : nat -> status -> bool) : bool :=
  existsb (fun f => match fibers st f with Some (a, x) => p a x | None => false end) (seq 0 (next_fiber st)).

(** easy_tcp_server.cpp:104-108: the fiber is in the callback *)
Definition calling (x : status) : bool := match x with Top => false | Calling _ _ => true end.

(** [m_wsessions.lock()] fails after the server has been stopped, unless a
    fiber is in its callback: it has a strong reference to the table. easy_tcp_server.cpp:64-66, 137-139, 222-224 *)
Definition expired (st : state) : bool := stopped st && negb (some_fiber st (fun _ x => calling x)).

(** The memory at an address can be allocated again if no socket is there.
    Sockets are referenced by the network thread, the table, and fibers that
    are in their callbacks. If [careful] then also fibers at the beginning of
    their loops, which have the address only as a number, prevent this; the
    code does not do so. The memory that is allocated at easy_tcp_server.cpp:226; references are at 26, 87 *)
Definition available (careful : bool) (st : state) (a : nat) : bool :=
  forallb (fun s => match net st s with Some (a', _) => negb (a' =? a)%nat | None => true end) (seq 0 (next_socket st))
  && match table st a with None => true | Some _ => false end
  && negb (some_fiber st (fun a' x => (a' =? a)%nat && (careful || calling x))).

(** The steps between which other threads may act: easy_tcp_server.cpp:61-117, 134-163, 217-236, 287-294 *)
Inductive event :=
  | Accept (a : nat)
  | Push (s : nat) (e : ev)
  | Push_fail (s : nat) (launched : bool)
  | Release (s : nat)
  | Pop (f : nat)
  | Return (f : nat) (rest : nat)
  | Stop.

Section machine.
Variable careful : bool.

(** easy_tcp_server.cpp:61-117, 134-163, 217-236, 287-294, as cited at each case *)
Definition step (st : state) (x : event) : option state :=
  match x with
  (** [do_accept_socket_opt]: a socket is created at some address.
      poseidon/src/easy/easy_tcp_server.cpp:217-236 *)
  | Accept a =>
    if expired st || negb (available careful st a) then None
    else Some (mkState (upd (table st) a (Some (mkEntry (next_socket st) [] false []))) (fibers st) (next_fiber st)
      (upd (net st) (next_socket st) (Some (a, false))) (S (next_socket st)) (stopped st) (dangling st) (pushed st) (log st))
  (** [do_push_event_common], in the network thread. The last event of a socket
      is that it has been closed.
      poseidon/src/easy/easy_tcp_server.cpp:134-163 *)
  | Push s e =>
    match net st s with
    | Some (a, false) =>
      let net' := if is_close e then upd (net st) s (Some (a, true)) else net st in
      match (if expired st then None else table st a) with
      | None => Some (mkState (table st) (fibers st) (next_fiber st) net' (next_socket st) (stopped st) (dangling st) (pushed st) (log st))
      | Some q =>
        let tab := upd (table st) a (Some (mkEntry (socket q) (events q ++ [e]) true (data_stream q))) in
        if fiber_active q then
          Some (mkState tab (fibers st) (next_fiber st) net' (next_socket st) (stopped st) (dangling st) (pushed st ++ [(s, e)]) (log st))
        else
          Some (mkState tab (upd (fibers st) (next_fiber st) (Some (a, Top))) (S (next_fiber st))
            net' (next_socket st) (stopped st) (dangling st) (pushed st ++ [(s, e)]) (log st))
      end
    | _ => None
    end
  (** The same if an exception is thrown, either before or after a new fiber has
      been launched. A fiber that is in its callback for data has a reference
      to the element that is erased.
      poseidon/src/easy/easy_tcp_server.cpp:158-162 *)
  | Push_fail s launched =>
    match net st s with
    | Some (a, false) =>
      match (if expired st then None else table st a) with
      | None => None
      | Some q =>
        let launched := launched && negb (fiber_active q) in
        Some (mkState (upd (table st) a None)
          (if launched then upd (fibers st) (next_fiber st) (Some (a, Top)) else fibers st)
          (if launched then S (next_fiber st) else next_fiber st)
          (net st) (next_socket st) (stopped st)
          (dangling st || some_fiber st (fun _ x => match x with Calling s' (Data _ _) => (s' =? s)%nat | _ => false end))
          (pushed st) (log st))
      end
    | _ => None
    end
  (** The network thread drops a socket that has been closed. *)
  | Release s =>
    match net st s with
    | Some (a, true) => Some (mkState (table st) (fibers st) (next_fiber st) (upd (net st) s None) (next_socket st) (stopped st) (dangling st) (pushed st) (log st))
    | _ => None
    end
  (** The beginning of the loop of a fiber, until the callback is called.
      poseidon/src/easy/easy_tcp_server.cpp:61-108 *)
  | Pop f =>
    match fibers st f with
    | Some (a, Top) =>
      let finish tab := Some (mkState tab (upd (fibers st) f None) (next_fiber st) (net st) (next_socket st) (stopped st) (dangling st) (pushed st) (log st)) in
      match (if expired st then None else table st a) with
      | None => finish (table st)
      | Some q =>
        match events q with
        | [] => finish (upd (table st) a (Some (mkEntry (socket q) [] false (data_stream q))))
        | e :: es =>
          let view := match e with Data d _ => data_stream q ++ d | _ => [] end in
          let stream := match e with Data _ _ => view | _ => data_stream q end in
          Some (mkState
            (upd (table st) a (if is_close e then None else Some (mkEntry (socket q) es (fiber_active q) stream)))
            (upd (fibers st) f (Some (a, Calling (socket q) e)))
            (next_fiber st) (net st) (next_socket st) (stopped st) (dangling st) (pushed st)
            (log st ++ [Began f (socket q) e view]))
        end
      end
    | _ => None
    end
  (** The callback returns, or throws an exception which is caught. It may have
      removed any number of bytes from the beginning of the data; [rest] is how
      many are left. The pointer to the socket is released.
      poseidon/src/easy/easy_tcp_server.cpp:104-117 *)
  | Return f rest =>
    match fibers st f with
    | Some (a, Calling s e) =>
      let fibers' := upd (fibers st) f (Some (a, Top)) in
      match e, table st a with
      | Data _ _, Some q =>
        let left := skipn (length (data_stream q) - rest) (data_stream q) in
        Some (mkState (upd (table st) a (Some (mkEntry (socket q) (events q) (fiber_active q) left))) fibers'
          (next_fiber st) (net st) (next_socket st) (stopped st) (dangling st) (pushed st) (log st ++ [Ended f s e left]))
      | _, _ =>
        Some (mkState (table st) fibers' (next_fiber st) (net st) (next_socket st) (stopped st) (dangling st) (pushed st) (log st ++ [Ended f s e []]))
      end
    | _ => None
    end
  (** [stop].
      poseidon/src/easy/easy_tcp_server.cpp:287-294 *)
  | Stop => Some (mkState (table st) (fibers st) (next_fiber st) (net st) (next_socket st) true (dangling st) (pushed st) (log st))
  end.

(** Any interleaving of these steps, easy_tcp_server.cpp:61-294 *)
Fixpoint run (st : state) (xs : list event) : option state :=
  match xs with
  | [] => Some st
  | x :: xs => match step st x with Some st => run st xs | None => None end
  end.
End machine.
