(** Model of the network thread, as a stream socket sees it: [thread_loop] in
    /repo/poseidon/src/static/network_scheduler.cpp:216-325 together with the
    callbacks of /repo/poseidon/src/socket/tcp_socket.cpp:40-149.  It refines
    [TcpModel], whose state is a part of the state here, with the events that the
    system reports, the order of the calls to the user, and throttling.

    Simplifications: there is one network thread, as /repo/poseidon/src/main.cpp:384
    creates it; SSL sockets, logging and the text of errors are left out. *)
From Coq Require Import ZArith List Lia Bool.
From Verif Require Import TcpModel.
Import ListNotations.

(** The flags of one [epoll_event]. network_scheduler.cpp:250-252, 268, 280, 283, 286 *)
Record events := mkEv { ev_err : bool; ev_out : bool; ev_in : bool; ev_hup : bool }.

(** The callbacks of the user: [do_on_tcp_connected], [do_on_tcp_stream] with the
    bytes and the end-of-file flag, [do_abstract_socket_on_closed]. tcp_socket.cpp:71, 104; network_scheduler.cpp:274, 289 *)
Inductive call := Connected | Stream (data : list Z) (eof : bool) | Over.

(** Where the network thread is with this socket: nowhere; before
    [do_abstract_socket_on_writeable]; in [do_on_tcp_connected]; before the loop of
    [send]; before a [recv]; in [do_on_tcp_stream]; before the test of [EPOLLHUP];
    in [do_abstract_socket_on_closed]; after the [try] block. network_scheduler.cpp:267-299; tcp_socket.cpp:40-149 *)
Inductive place :=
| Idle | AtOut (e : events) | InConnected (e : events) | AtWrite (e : events) | AtIn (e : events)
| InStream (e : events) (eof : bool) | AtHup (e : events) | InOver (e : events) | AtEnd (e : events).

(** [sock]: the socket (see [TcpModel]).  [registered]: it is in the epoll set.
    [throttled]: [m_sched_throttled].  [edge]: the system is going to report
    [EPOLLIN], as something has happened since it last did.  [unread] and [fin]: the
    bytes which have arrived and have not been received; whether the peer has sent
    all of its bytes.  [told]: the calls to the user so far. abstract_socket.hpp:17-32; network_scheduler.cpp:216-325 *)
Record net := mkN {
  sock : st; registered : bool; throttled : bool; edge : bool; unread : list Z; fin : bool;
  pl : place; told : list call }.

(** [insert_weak] (network_scheduler.cpp:364-375): EPOLLIN | EPOLLOUT | EPOLLET *)
Definition ninit : net := mkN init true false false [] false Idle [].

(** What [recv] does, or [bad_alloc] thrown by [reserve_after_end] before it. tcp_socket.cpp:49-51 *)
Inductive nrd := NGot (chunk : list Z) | NEof | NAgain | NError | NNoMemory.

(** network_scheduler.cpp:216-325; tcp_socket.cpp:40-258 *)
Inductive nstep :=
| User (e : event)                (* a call of the user, from any thread *)
| Arrive (data : list Z)          (* bytes from the peer *)
| PeerFin                         (* the end of the stream of the peer *)
| Poll (e : events)               (* [epoll_wait] reports events *)
| GoOut
| GoConnected (throws : bool)
| GoWrite (outs : list out)
| GoRecv (r : nrd)
| GoStream (throws : bool)
| GoHup
| GoOver (throws : bool)
| GoEnd (limit : nat).            (* with [m_throttle_size] *)

(** Calls that users make. tcp_socket.cpp:179-258; abstract_socket.cpp:146-154 *)
Definition by_user (e : event) : bool :=
  match e with
  | SendBegin _ | SendBody _ _ | ShutBegin | ShutBody | QuickDown | QuickStore => true
  | WriteBegin | WriteAbort | WriteLoop _ => false
  end.

(** abstract_socket.cpp:146-154 [quick_shut_down]; and, as the connection is gone,
    [m_state.store(socket_closed)] in network_scheduler.cpp:271 and 287 *)
Definition kill (s : st) : st :=
  mkS Closed (wq s) true (sent s) (flight s) (shuts s) (writing s) (armed s) (log s).

(** Not in the code; for the size of tcp_socket.cpp:50-51. *)
Definition nonempty (l : list Z) : bool := match l with [] => false | _ => true end.

(** network_scheduler.cpp:283-284: where to go after [EPOLLOUT] *)
Definition after_out (e : events) : place := if ev_in e then AtIn e else AtHup e.

(** Not in the code: an update of the state, for tcp_socket.cpp:179-258. *)
Definition with_sock (n : net) (s : st) : net :=
  mkN s (registered n) (throttled n) (edge n) (unread n) (fin n) (pl n) (told n).
(** Not in the code: an update of the state, for network_scheduler.cpp:267-325. *)
Definition goto (n : net) (s : st) (p : place) : net :=
  mkN s (registered n) (throttled n) (edge n) (unread n) (fin n) p (told n).
(** Not in the code: an update of the state, for network_scheduler.cpp:267-292. *)
Definition tell (n : net) (s : st) (u : list Z) (p : place) (c : call) : net :=
  mkN s (registered n) (throttled n) (edge n) u (fin n) p (told n ++ [c]).

(** network_scheduler.cpp:233-284: the system reports [EPOLLIN] only if it is asked
    to, and does if something has arrived; nothing is reported about a socket
    that is not in the set. *)
Definition poll (n : net) (e : events) : option net :=
  match pl n with
  | Idle =>
      if registered n && (if throttled n then negb (ev_in e) else implb (edge n) (ev_in e)) then
        let n := mkN (sock n) (registered n) (throttled n) (edge n && negb (ev_in e)) (unread n) (fin n) (pl n) (told n) in
        if ev_err e then Some (tell n (kill (sock n)) (unread n) (InOver e) Over)
        else Some (goto n (sock n) (if ev_out e then AtOut e else after_out e))
      else None
  | _ => None
  end.

(** tcp_socket.cpp:94-104 *)
Definition go_out (n : net) : option net :=
  match pl n with
  | AtOut e =>
      match write_begin (sock n) with
      | None => None
      | Some s' =>
          if (rank (state (sock n)) =? 0)%nat then Some (tell n s' (unread n) (InConnected e) Connected)
          else Some (goto n s' (AtWrite e))
      end
  | _ => None
  end.

(** tcp_socket.cpp:106-115 *)
Definition go_connected (n : net) (throws : bool) : option net :=
  match pl n with
  | InConnected e =>
      if throws then option_map (fun s' => goto n s' (after_out e)) (write_abort (sock n))
      else Some (goto n (sock n) (AtWrite e))
  | _ => None
  end.

(** tcp_socket.cpp:117-148 *)
Definition go_write (n : net) (outs : list out) : option net :=
  match pl n with
  | AtWrite e => option_map (fun s' => goto n s' (after_out e)) (write_loop (sock n) outs)
  | _ => None
  end.

(** tcp_socket.cpp:47-71: [recv] gives what has arrived; the end of the stream, if
    the peer has sent everything or this side has shut the connection down; it would
    block if neither.  Memory exhaustion is not handled by the socket
    (network_scheduler.cpp:293-297). *)
Definition go_recv (n : net) (r : nrd) : option net :=
  match pl n with
  | AtIn e =>
      match r with
      | NGot c =>
          if nonempty c && (length c <=? length (unread n))%nat
             && (if list_eq_dec Z.eq_dec c (firstn (length c) (unread n)) then true else false)
          then Some (tell n (sock n) (skipn (length c) (unread n)) (InStream e false) (Stream c false))
          else None
      | NEof =>
          if negb (nonempty (unread n)) && (fin n || down (sock n))
          then Some (tell n (sock n) (unread n) (InStream e true) (Stream [] true))
          else None
      | NAgain =>
          if negb (nonempty (unread n)) && negb (fin n || down (sock n)) then Some (goto n (sock n) (AtHup e)) else None
      | NError => Some (goto n (kill (sock n)) (AtHup e))
      | NNoMemory => Some (goto n (kill (sock n)) (AtEnd (mkEv true (ev_out e) (ev_in e) (ev_hup e))))
      end
  | _ => None
  end.

(** tcp_socket.cpp:73-90 *)
Definition go_stream (n : net) (throws : bool) : option net :=
  match pl n with
  | InStream e eof =>
      if throws then Some (goto n (kill (sock n)) (AtHup e))
      else if eof then Some (goto n (kill (sock n)) (AtHup e))
      else Some (goto n (sock n) (AtIn e))
  | _ => None
  end.

(** network_scheduler.cpp:286-290 *)
Definition go_hup (n : net) : option net :=
  match pl n with
  | AtHup e =>
      if ev_hup e then Some (tell n (kill (sock n)) (unread n) (InOver e) Over)
      else Some (goto n (sock n) (AtEnd e))
  | _ => None
  end.

(** network_scheduler.cpp:293-297 *)
Definition go_over (n : net) (throws : bool) : option net :=
  match pl n with
  | InOver e =>
      if throws then Some (goto n (kill (sock n)) (AtEnd (mkEv true (ev_out e) (ev_in e) (ev_hup e))))
      else Some (goto n (sock n) (AtEnd e))
  | _ => None
  end.

(** network_scheduler.cpp:299-321; asked again for EPOLLIN, the system reports
    what is there. *)
Definition go_end (n : net) (limit : nat) : option net :=
  match pl n with
  | AtEnd e =>
      if ev_err e || ev_hup e then
        Some (mkN (sock n) false (throttled n) (edge n) (unread n) (fin n) Idle (told n))
      else
        let should := (limit <? length (wq (sock n)))%nat in
        if Bool.eqb (throttled n) should then Some (goto n (sock n) Idle)
        else if should then Some (mkN (sock n) (registered n) true false (unread n) (fin n) Idle (told n))
        else Some (mkN (sock n) (registered n) false (nonempty (unread n) || fin n) (unread n) (fin n) Idle (told n))
  | _ => None
  end.

(** network_scheduler.cpp:216-325; tcp_socket.cpp:40-258 *)
Definition nstep1 (n : net) (a : nstep) : option net :=
  match a with
  | User e => if by_user e then option_map (with_sock n) (step (sock n) e) else None
  | Arrive d =>
      if nonempty d && negb (fin n) && negb (down (sock n))
      then Some (mkN (sock n) (registered n) (throttled n) (negb (throttled n)) (unread n ++ d) (fin n) (pl n) (told n)) else None
  | PeerFin =>
      if negb (fin n)
      then Some (mkN (sock n) (registered n) (throttled n) (negb (throttled n)) (unread n) true (pl n) (told n)) else None
  | Poll e => poll n e
  | GoOut => go_out n
  | GoConnected t => go_connected n t
  | GoWrite outs => go_write n outs
  | GoRecv r => go_recv n r
  | GoStream t => go_stream n t
  | GoHup => go_hup n
  | GoOver t => go_over n t
  | GoEnd l => go_end n l
  end.

(** Any number of steps; network_scheduler.cpp:216-325. *)
Fixpoint nrun (n : net) (ss : list nstep) : option net :=
  match ss with
  | [] => Some n
  | a :: ss => match nstep1 n a with Some n' => nrun n' ss | None => None end
  end.
