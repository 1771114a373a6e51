(** Model of the life of easy servers and clients: poseidon/src/easy/easy_tcp_server.cpp, poseidon/src/easy/easy_tcp_client.cpp.  The SSL, HTTP,
    HTTPS, WebSocket servers and clients have the same functions, with other classes.
    Objects are shared by reference counting.  Only who holds a reference is modelled: an object exists as long as somebody does, and a descriptor is
    open as long as its socket exists.  What a fiber does with events is EsModel; here a fiber is in the callback or not.
    Simplified: calls in the network thread (accepting, pushing an event) are one step each. *)
From Coq Require Import ZArith List Bool.
From Verif Require Import Base AddrModel.
Import ListNotations.
Open Scope Z_scope.

(** Not in the code: who, except for the server and its table, has a reference: a user who has kept the result of easy_tcp_server.cpp:270 or the
    argument of easy_tcp_server.cpp:105-108, or the network thread while it handles an event of the socket (network_scheduler.cpp:259) *)
Inductive holder := User | Network.

(** What a call of [start] or a first call of [connect] has made: the address of the acceptor, if any, and who else holds the acceptor.
    easy_tcp_server.cpp:264-265; easy_tcp_client.cpp:239-240 *)
Record made := mkMade { m_addr : option address; m_refs : list holder }.
(** A connection: the table for which it was made; whether it is in this table; whether a fiber is in the callback for it, which holds the table and
    the socket meanwhile; whether the scheduler watches it; who else holds it.  easy_tcp_server.cpp:23-42, 64, 87, 104-108, 226-235;
    tcp_acceptor.cpp:102 *)
Record session := mkSes { s_table : nat; s_in : bool; s_busy : bool; s_watched : bool; s_refs : list holder }.

(** Not in the code: what can be observed; [start] has returned or thrown an exception, a connection has been accepted or closed at once, the callback
    has been called for a connection.  easy_tcp_server.cpp:262-271, 222-236, 104-108 *)
Inductive item := Started (g : nat) | Start_failed | Accepted (g s : nat) | Closed_at_once (g : nat) | Called (s : nat).

(** The members [m_sessions] and [m_acceptor], which are set together; what has been made; connections; the log.
    m_sessions and m_acceptor, easy_tcp_server.hpp:41-42; easy_tcp_server.cpp:23-43 *)
Record state := mkState { owner : option nat; gens : list made; sessions : list session; log : list item }.
(** The default constructor; easy_tcp_server.hpp:41-45 *)
Definition init : state := mkState None [] [] [].

(** The three overloads of [start].  easy_tcp_server.cpp:262-263, 275-276, 282-283 *)
Inductive place := At_address (a : address) | At_text (s : list Z) | At_port (p : Z).

(** What happens next.  [Start]: the port that the system picks if none is given, and whether all calls of the system succeed.
    [Arrive]: a client connects to a listener, and the scheduler can watch it or not.  [Begin]: the fiber takes an event, of closure or not;
    [End]: the callback returns.  [Push_fails]: easy_tcp_server.cpp:158-162.  Others: references are taken and dropped.
    easy_tcp_server.cpp:262-295, 217-238, 56-116; easy_tcp_client.cpp:215-262 *)
Inductive event :=
| Start (pl : place) (picked : Z) (ok : bool)
| Stop
| Connect
| Arrive (g : nat) (watched : bool)
| Begin (s : nat) (closure : bool)
| End (s : nat)
| Push_fails (s : nat)
| Hold_session (s : nat) (h : holder) | Drop_session (s : nat)
| Hold_acceptor (g : nat) (h : holder) | Drop_acceptor (g : nat).

Section Life.
  (** How an address is read (C07), and which listening addresses the system does not allow at the same time (tcp_acceptor.cpp:24) *)
  Variables (read : list Z -> option address) (clash : address -> address -> bool).

  (** easy_tcp_server.cpp:275-285; a text that is not an address is an exception *)
  Definition resolve (pl : place) : option address :=
    match pl with At_address a => Some a | At_text s => read s | At_port p => Some (mkAddr (a_addr ipv6_unspecified) p) end.
  (** tcp_acceptor.cpp:20-24: port zero is replaced by the system. *)
  Definition bound (a : address) (picked : Z) : address := if a_port a =? 0 then mkAddr (a_addr a) picked else a.

  (** A fiber that is in the callback for one connection holds the table, so all connections in it.  easy_tcp_server.cpp:64, 104-108 *)
  Definition table_exists (st : state) (g : nat) : bool :=
    match owner st with Some o => (o =? g)%nat | None => false end || existsb (fun s => (s_table s =? g)%nat && s_busy s) (sessions st).
  (** easy_tcp_server.cpp:269, 294; network_scheduler.cpp:259 *)
  Definition acceptor_exists (st : state) (g : nat) (m : made) : bool :=
    match owner st with Some o => (o =? g)%nat | None => false end || negb (match m_refs m with [] => true | _ => false end).
  (** The listener of [g], if it exists.  tcp_acceptor.cpp:24-30 *)
  Definition listening (st : state) (g : nat) : option address :=
    match nth_error (gens st) g with
    | Some m => if acceptor_exists st g m then m_addr m else None
    | None => None
    end.
  (** easy_tcp_server.cpp:234, 87; network_scheduler.cpp:259: the connection is open. *)
  Definition open_session (st : state) (s : session) : bool :=
    s_in s && table_exists st (s_table s) || s_busy s || negb (match s_refs s with [] => true | _ => false end).
  (** The same by number.  easy_tcp_server.cpp:234 *)
  Definition is_open (st : state) (i : nat) : bool := match nth_error (sessions st) i with Some s => open_session st s | None => false end.

  (** tcp_acceptor.cpp:24, 30: the system refuses the address. *)
  Definition taken (st : state) (a : address) : bool :=
    existsb (fun g => match listening st g with Some b => clash a b | None => false end) (seq 0 (length (gens st))).

  (** easy_tcp_server.cpp:250-258 *)
  Definition local_address (st : state) : address :=
    match owner st with
    | None => ipv6_unspecified
    | Some g => match listening st g with Some a => a | None => ipv6_unspecified end
    end.

  (** Not in the code: something is seen; easy_tcp_server.cpp:23-280. *)
  Definition say (st : state) (i : item) : state := mkState (owner st) (gens st) (sessions st) (log st ++ [i]).
  (** Not in the code: a connection changes.  easy_tcp_server.cpp:23-36 *)
  Definition set_session (st : state) (i : nat) (s : session) : state := mkState (owner st) (gens st) (firstn i (sessions st) ++ s :: skipn (S i) (sessions st)) (log st).
  (** Not in the code: the holders of an acceptor change.  easy_tcp_server.cpp:265 *)
  Definition set_made (st : state) (g : nat) (m : made) : state := mkState (owner st) (firstn g (gens st) ++ m :: skipn (S g) (gens st)) (sessions st) (log st).

  (** [None]: the event cannot happen.  easy_tcp_server.cpp:56-116, 217-238, 262-295; easy_tcp_client.cpp:215-262 *)
  Definition step (st : state) (e : event) : option state :=
    match e with
    | Start pl picked ok =>
        (** easy_tcp_server.cpp:262-271: members are set after everything that may throw an exception. *)
        match resolve pl with
        | None => Some (say st Start_failed)
        | Some a =>
            let a := bound a picked in
            if negb ok || taken st a then Some (say st Start_failed)
            else let g := length (gens st) in Some (mkState (Some g) (gens st ++ [mkMade (Some a) []]) (sessions st) (log st ++ [Started g]))
        end
    (** easy_tcp_server.cpp:289-295; easy_tcp_client.cpp:256-262 *)
    | Stop => Some (mkState None (gens st) (sessions st) (log st))
    | Connect =>
        (** easy_tcp_client.cpp:239-253 *)
        let '(o, gs) := match owner st with Some g => (g, gens st) | None => (length (gens st), gens st ++ [mkMade None []]) end in
        Some (mkState (Some o) gs (sessions st ++ [mkSes o true false true []]) (log st))
    | Arrive g watched =>
        (** easy_tcp_server.cpp:222-237; tcp_acceptor.cpp:89-112: a socket that cannot be watched stays in the table. *)
        match listening st g with
        | None => None
        | Some _ =>
            if table_exists st g
            then Some (mkState (owner st) (gens st) (sessions st ++ [mkSes g true false watched []]) (log st ++ [Accepted g (length (sessions st))]))
            else Some (say st (Closed_at_once g))
        end
    | Begin i closure =>
        (** easy_tcp_server.cpp:60-108: there are events only of sockets which the scheduler watches. *)
        match nth_error (sessions st) i with
        | Some s => if table_exists st (s_table s) && s_in s && negb (s_busy s) && s_watched s
                    then Some (say (set_session st i (mkSes (s_table s) (negb closure) true (s_watched s) (s_refs s))) (Called i)) else None
        | None => None
        end
    | End i =>
        match nth_error (sessions st) i with
        | Some s => if s_busy s then Some (set_session st i (mkSes (s_table s) (s_in s) false (s_watched s) (s_refs s))) else None
        | None => None
        end
    | Push_fails i =>
        (** easy_tcp_server.cpp:158-162 *)
        match nth_error (sessions st) i with
        | Some s => if open_session st s && s_watched s then Some (set_session st i (mkSes (s_table s) (if table_exists st (s_table s) then false else s_in s) (s_busy s) (s_watched s) (s_refs s))) else None
        | None => None
        end
    | Hold_session i h =>
        match nth_error (sessions st) i with
        | Some s => if open_session st s && match h with Network => s_watched s | User => true end
                    then Some (set_session st i (mkSes (s_table s) (s_in s) (s_busy s) (s_watched s) (h :: s_refs s))) else None
        | None => None
        end
    | Drop_session i =>
        match nth_error (sessions st) i with
        | Some s => match s_refs s with [] => None | _ :: r => Some (set_session st i (mkSes (s_table s) (s_in s) (s_busy s) (s_watched s) r)) end
        | None => None
        end
    | Hold_acceptor g h =>
        match nth_error (gens st) g with
        | Some m => if acceptor_exists st g m then Some (set_made st g (mkMade (m_addr m) (h :: m_refs m))) else None
        | None => None
        end
    | Drop_acceptor g =>
        match nth_error (gens st) g with
        | Some m => match m_refs m with [] => None | _ :: r => Some (set_made st g (mkMade (m_addr m) r)) end
        | None => None
        end
    end.

  (** Not in the code: any number of steps; easy_tcp_server.cpp:23-280. *)
  Fixpoint run (st : state) (es : list event) : option state :=
    match es with [] => Some st | e :: es => match step st e with Some st => run st es | None => None end end.
End Life.
