(** Model of the easy HTTP and WebSocket servers and clients: how what happens on a session becomes events, how events pass from
    the network thread to a fiber, and what the fiber does with them.
    poseidon/src/easy/easy_http_server.cpp, easy_http_client.cpp, easy_ws_server.cpp, easy_ws_client.cpp, easy_hws_server.cpp
    (easy_https_server.cpp, easy_https_client.cpp, easy_wss_server.cpp, easy_wss_client.cpp and easy_hwss_server.cpp differ from them only
    in names). *)
From Coq Require Import ZArith List Bool String.
From Verif Require Import Text.
From Verif Require HreqModel HrespModel WsModel WshModel PoolModel.
Import ListNotations.
Open Scope list_scope.
Open Scope Z_scope.
Notation length := List.length.

(** ** The queue of a session *)

Section Queue.
  (** Events, and what may be done to a session *)
  Context {E X : Type}.

  (** What differs between the classes: which events are taken as the last one of a session; whether the callback is called for
      an event; what the fiber itself does after the callback, or instead of it, and whether an exception has been thrown matters;
      and what [quick_shut_down] is. easy_http_server.cpp:91-120; easy_http_client.cpp:89-107; easy_ws_server.cpp:87-103 *)
  Record kind := mkKind { closes : E -> bool; served : E -> bool; finish : E -> bool -> list X; kill : X }.
  Variable K : kind.

  (** A fiber is at the beginning of its loop, or it has taken an event; the callback may suspend it. easy_http_server.cpp:61-121 *)
  Inductive status := Top | Busy (e : E).

  (** What can be observed: a fiber takes an event and calls the callback if it is [served], the callback does something,
      the fiber itself does something, the fiber is done with the event; and the network thread does something. Not in the code: the log of what easy_http_server.cpp:61-121 and 139-167 do *)
  Inductive item :=
  | Began (f : nat) (e : E)
  | User (f : nat) (x : X)
  | Own (f : nat) (x : X)
  | Ended (f : nat) (e : E)
  | Network (x : X).

  (** [entry] is the element of the session in the table, which is there from the creation of the session:
      events and [fiber_active].
      easy_http_server.cpp:26-41; easy_http_client.cpp:24-39 *)
  Record state := mkState { entry : option (list E * bool); fibers : list (option status); stopped : bool; log : list item }.
  (** easy_http_server.cpp:26-41 *)
  Definition init : state := mkState (Some ([], false)) [] false [].

  (** Whether a fiber is between easy_http_server.cpp:97 and 121 *)
  Definition busy (x : option status) : bool := match x with Some (Busy _) => true | _ => false end.

  (** Not in the code: the status of one fiber of easy_http_server.cpp:61-121 changes. *)
  Fixpoint set_at {A} (i : nat) (x : A) (l : list A) : list A :=
    match i, l with
    | _, [] => []
    | O, _ :: l => x :: l
    | S i, y :: l => y :: set_at i x l
    end.

  (** An exception is thrown by [launch] or by [push_back], if at all. easy_http_server.cpp:152-166 *)
  Inductive outcome := Fine | Launch_fails | Insert_fails.

  (** The parts of easy_http_server.cpp:61-121, 139-167 and 304-311 that are not interrupted; the locks make them atomic. *)
  Inductive event :=
  | Push (e : E) (o : outcome)
  | Pop (f : nat)
  | Act (f : nat) (x : X)
  | Return (f : nat) (threw : bool)
  | Send (x : X)
  | Stop
  | Release.

  (** [None] says that an event is not possible. The parts are cited at each case; easy_http_server.cpp:61-121, 139-167. *)
  Definition step (st : state) (x : event) : option state :=
    match x with
    (** [do_push_event_common], in the network thread.
        easy_http_server.cpp:139-167; easy_http_client.cpp:126-154; easy_ws_server.cpp:121-150; easy_ws_client.cpp:131-160;
        easy_hws_server.cpp:121-150 *)
    | Push e o =>
      match entry st with
      | None => Some st
      | Some (es, active) =>
        match o with
        | Fine => Some (mkState (Some (es ++ [e], true)) (if active then fibers st else fibers st ++ [Some Top]) (stopped st) (log st))
        | Launch_fails => if active then None else Some (mkState None (fibers st) (stopped st) (log st ++ [Network (kill K)]))
        | Insert_fails => Some (mkState None (if active then fibers st else fibers st ++ [Some Top]) (stopped st) (log st ++ [Network (kill K)]))
        end
      end
    (** The beginning of the loop of a fiber.
        easy_http_server.cpp:61-97; easy_http_client.cpp:59-95; easy_ws_server.cpp:57-93; easy_ws_client.cpp:58-94;
        easy_hws_server.cpp:57-93 *)
    | Pop f =>
      match nth_error (fibers st) f with
      | Some (Some Top) =>
        match entry st with
        | None => Some (mkState None (set_at f None (fibers st)) (stopped st) (log st))
        | Some ([], _) => Some (mkState (Some ([], false)) (set_at f None (fibers st)) (stopped st) (log st))
        | Some (e :: es, active) =>
          Some (mkState (if closes K e then None else Some (es, active)) (set_at f (Some (Busy e)) (fibers st)) (stopped st)
                        (log st ++ [Began f e]))
        end
      | _ => None
      end
    (** The callback does something. *)
    | Act f x =>
      match nth_error (fibers st) f with
      | Some (Some (Busy e)) => if served K e then Some (mkState (entry st) (fibers st) (stopped st) (log st ++ [User f x])) else None
      | _ => None
      end
    (** The rest of the loop.
        easy_http_server.cpp:99-121; easy_http_client.cpp:97-108; easy_ws_server.cpp:95-103; easy_ws_client.cpp:96-104;
        easy_hws_server.cpp:95-103 *)
    | Return f threw =>
      match nth_error (fibers st) f with
      | Some (Some (Busy e)) =>
        Some (mkState (entry st) (set_at f (Some Top) (fibers st)) (stopped st) (log st ++ map (Own f) (finish K e threw) ++ [Ended f e]))
      | _ => None
      end
    (** The session itself sends something, in the network thread. *)
    | Send x => Some (mkState (entry st) (fibers st) (stopped st) (log st ++ [Network x]))
    (** [stop], [close_all].
        easy_http_server.cpp:304-311; easy_http_client.cpp:244-250 *)
    | Stop => Some (mkState (entry st) (fibers st) true (log st))
    (** The table is destroyed when the last reference to it is gone: not before the server has been stopped, and not while a fiber is
        busy, here or with another session.  Then [m_wsessions.lock()] fails, which is as if the session were not found. *)
    | Release => if stopped st && negb (existsb busy (fibers st)) then Some (mkState None (fibers st) true (log st)) else None
    end.

  (** Any number of them, in any order that is possible; easy_http_server.cpp:61-121, 139-167 *)
  Fixpoint run (st : state) (xs : list event) : option state :=
    match xs with
    | [] => Some st
    | x :: xs => match step st x with Some st => run st xs | None => None end
    end.
End Queue.
Arguments kind : clear implicits.
Arguments status : clear implicits.
Arguments item : clear implicits.
Arguments state : clear implicits.
Arguments event : clear implicits.

(** ** Easy HTTP servers *)

(** easy/enums.hpp:17-22 *)
Definition easy_http_open : Z := 21.
(** easy/enums.hpp:17-22 *)
Definition easy_http_message : Z := 22.
(** easy/enums.hpp:17-22 *)
Definition easy_http_close : Z := 23.

(** easy_http_server.cpp:16-24 *)
Record server_event := mkSE { se_type : Z; se_req : HreqModel.headers; se_data : list Z; se_eot : bool; se_head : bool; se_status : Z }.

(** What is done to the session: [Reply] is whatever a callback sends; [Answer] is [http_response] with a status and
    [Connection: close], which also shuts the connection down; [Shut] is [tcp_shut_down] and [Kill] is [quick_shut_down]. easy_http_server.cpp:99-120 *)
Inductive action := Reply (x : Z) | Answer (head : bool) (status : Z) | Shut | Kill.

(** easy_http_server.cpp:90-94,99-121 *)
Definition http_server : kind server_event action := mkKind
  (fun e => se_type e =? easy_http_close)
  (fun e => se_status e =? 0)
  (fun e threw =>
     if threw then [Kill]
     else if se_status e =? 0 then if se_eot e then [Shut] else []
     else [Answer (se_head e) (se_status e)])
  Kill.

(** [do_on_http_request_headers] and [do_on_http_request_payload_stream] of the base class.  They leave all data, and
    the length has been checked by then.  The callback does not send a response with the status 101.
    http_server_session.cpp:117-148 *)
Definition base_application : HreqModel.application :=
  HreqModel.mkA (fun _ h => (h, HreqModel.Payload_normal)) (fun _ => O) (fun _ => false).

(** What the network thread pushes: when the connection has been accepted; when the base class tells something, and it
    refuses requests to proxies itself; and when the socket has been closed, with the description of an error.
    [junk] is what [type] happens to be where it is not set.
    easy_http_server.cpp:169-217; http_server_session.cpp:121-125 *)
Definition refusal (junk : Z) (head : bool) (status : Z) : server_event := mkSE junk HreqModel.no_headers [] true head status.
(** easy_http_server.cpp:179-202; http_server_session.cpp:121-125 *)
Definition http_told (junk : Z) (e : HreqModel.event) : list server_event :=
  match e with
  | HreqModel.On_headers h _ => if HreqModel.is_proxy h then [refusal junk false 403] else []
  | HreqModel.On_finish h d eot => [mkSE easy_http_message h d eot false 0]
  | HreqModel.On_error head status => [refusal junk head status]
  | _ => []
  end.
(** easy_http_server.cpp:169-177 *)
Definition http_opened : server_event := mkSE easy_http_open HreqModel.no_headers [] false false 0.
(** easy_http_server.cpp:204-217 *)
Definition http_closed (err : list Z) : server_event := mkSE easy_http_close HreqModel.no_headers err false false 0.
(** Everything that one session pushes, in order; easy_http_server.cpp:169-217 *)
Definition http_server_events (junk : Z) (L : HreqModel.limits) (css : list (list HreqModel.call)) (closed : option (list Z)) : list server_event :=
  http_opened
  :: flat_map (http_told junk) (HreqModel.trace (HreqModel.run L base_application HreqModel.start (map HreqModel.Data css)))
  ++ match closed with Some err => [http_closed err] | None => [] end.

(** ** Easy HTTP clients *)

(** easy_http_client.cpp:17-22 *)
Record client_event := mkCE { ce_type : Z; ce_resp : HrespModel.headers; ce_data : list Z }.
(** easy_http_client.cpp:88-108 *)
Definition http_client : kind client_event action := mkKind
  (fun e => ce_type e =? easy_http_close)
  (fun _ => true)
  (fun _ threw => if threw then [Kill] else [])
  Kill.
(** http_client_session.cpp:116-141 *)
Definition client_application : HrespModel.application := HrespModel.mkA (fun _ h => (h, HrespModel.Payload_normal)) (fun _ => O).
(** easy_http_client.cpp:156-192 *)
Definition client_opened : client_event := mkCE easy_http_open HrespModel.no_headers [].
(** easy_http_client.cpp:178-191 *)
Definition client_closed (err : list Z) : client_event := mkCE easy_http_close HrespModel.no_headers err.
(** easy_http_client.cpp:166-176 *)
Definition client_told (e : HrespModel.event) : list client_event :=
  match e with
  | HrespModel.On_finish h d => [mkCE easy_http_message h d]
  | _ => []
  end.
(** Everything that one session pushes, in order; easy_http_client.cpp:156-191 *)
Definition http_client_events (L : HreqModel.limits) (css : list (list HrespModel.call)) (closed : option (list Z)) : list client_event :=
  client_opened
  :: flat_map client_told (HrespModel.trace (HrespModel.run L client_application HrespModel.start css))
  ++ match closed with Some err => [client_closed err] | None => [] end.

(** ** Easy WebSocket servers and clients *)

(** Events.  The data of [Ws_close] is [status: reason]; where the reason is not modelled, it is [None].
    easy_ws_server.cpp:16-20; easy_hws_server.cpp:16-20 *)
Inductive ws_event :=
| Ws_open (uri : list Z)
| Ws_text (d : list Z)
| Ws_binary (d : list Z)
| Ws_pong (d : list Z)
| Ws_close (status : Z) (reason : option (list Z))
| Ws_get (uri : list Z)
| Ws_head (uri : list Z).

(** What is done to a session: a callback sends something; a callback has thrown an exception, so [ws_shut_down(1011)] is called;
    or an HTTP response is sent by the session. easy_ws_server.cpp:95-103; easy_hws_server.cpp:157-191 *)
Inductive ws_action := Ws_reply (x : Z) | Ws_shut (status : Z) | Ws_response (status : Z) (sent : bool) | Ws_kill.

(** easy_ws_server.cpp:87-103; easy_ws_client.cpp:88-104; easy_hws_server.cpp:87-103 *)
Definition ws_kind : kind ws_event ws_action := mkKind
  (fun e => match e with Ws_close _ _ => true | _ => false end)
  (fun _ => true)
  (fun _ threw => if threw then [Ws_shut 1011] else [])
  Ws_kill.

(** [do_on_ws_accepted], [do_on_ws_connected], [do_on_ws_message_finish], [do_on_ws_close].  The identifier of a client is the host, path,
    query and fragment of the address that was passed to [connect], which [On_ready] of a client does not have.
    easy_ws_server.cpp:152-196; easy_ws_client.cpp:162-215; easy_hws_server.cpp:203-247 *)
Definition handshake_told (e : WshModel.event) : list ws_event :=
  match e with
  | WshModel.On_ready u => [Ws_open u]
  | WshModel.On_close status => [Ws_close status None]
  | _ => []
  end.
(** easy_ws_server.cpp:163-196; easy_ws_client.cpp:182-215; easy_hws_server.cpp:214-247 *)
Definition frame_told (e : WsModel.ev) : list ws_event :=
  match e with
  | WsModel.EvFinish op d =>
      if op =? 1 then [Ws_text d] else if op =? 2 then [Ws_binary d] else if op =? 10 then [Ws_pong d] else []
  | WsModel.EvClose status reason => [Ws_close status (Some reason)]
  | WsModel.EvCloseError status _ => [Ws_close status None]
  | _ => []
  end.

(** A session during and after the handshake.  The stream goes to the second half once [m_upgrade_ack] has been set, and then
    no request is parsed any more; both halves share [m_closure_notified]. *)
Section Joint.
  Variables (zst : Type) (inflate : zst -> list Z -> option (zst * list Z)) (addr_of : list Z -> Z).
  (** A step of the handshake; which operations say that the socket has been closed; the role, the maximal length of messages and
      the initial state of zlib *)
  Variables (O : Type) (hstep : WshModel.session -> O -> WshModel.session) (socket_closed : O -> bool).
  (** What an operation tells besides what [hstep] tells *)
  Variable also : WshModel.session -> O -> list ws_event.
  Variables (role : WsModel.wshs) (maxlen : Z) (z0 : option zst).

  (** http_server_session.cpp:22-35 *)
  Record joint := mkJ { hs : WshModel.session; frames : option (WsModel.session zst); told : list ws_event }.
  (** http_server_session.cpp:30-35; ws_server_session.cpp:228-258 *)
  Definition switch (s : WshModel.session) : option (WsModel.session zst) :=
    if WshModel.ack s && negb (WshModel.gone s) then
      Some (WsModel.mkSession zst (WsModel.parser_accepted role maxlen (WshModel.send_bits (WshModel.con s))) []
              (match z0 with None => None | Some z => Some (WsModel.mkPmce zst z []) end) (WshModel.notified s))
    else None.
  (** What a session gets; http_server_session.cpp:22-35 *)
  Inductive jop := Handshake (o : O) | Frames (d : list Z).
  (** http_server_session.cpp:22-35 *)
  Definition jstep (j : joint) (o : jop) : joint :=
    let frames_op w (op : WsModel.sop) :=
      match WsModel.life_step zst inflate addr_of w op with
      | Some (w, evs) => mkJ (hs j) (Some w) (told j ++ flat_map frame_told evs)
      | None => j
      end in
    match o, frames j with
    | Handshake o, None =>
        let s := hstep (hs j) o in
        mkJ s (switch s) (told j ++ also (hs j) o ++ flat_map handshake_told (skipn (length (WshModel.trace (hs j))) (WshModel.trace s)))
    | Handshake o, Some w => if socket_closed o then frames_op w WsModel.OpSocketClosed else j
    | Frames d, Some w => frames_op w (WsModel.OpStream d)
    | Frames _, None => j
    end.
  (** Any number of them; http_server_session.cpp:22-35 *)
  Definition jrun (j : joint) (os : list jop) : joint := fold_left jstep os j.
End Joint.

(** easy_ws_server.cpp:108-197; ws_server_session.cpp:33-74 *)
Section Servers.
  Variables (mktime : DateModel.tm -> Z) (integer : list Z -> Z) (sha1 : list Z -> list Z) (default : Z).
  (** ws_server_session.cpp:33-39 *)
  Definition server_closed (o : WshModel.server_op) : bool := match o with WshModel.Closed => true | _ => false end.
  (** ws_server_session.cpp:33-74, 228-258 *)
  Definition ws_server_step := WshModel.server_step mktime integer sha1 default.

  (** What easy_hws_server.cpp:152-201 [do_on_http_request_headers] does with a request: it goes to the handshake, is
      refused, or is passed to the callback.  [quick_shut_down] discards what has not been sent, and closes the connection. *)
  Inductive route := To_handshake | Refuse (status : Z) (kill : bool) | To_callback (e : ws_event).
  (** easy_hws_server.cpp:164-192 *)
  Definition is_method (q : WshModel.request) (m : list Z) : bool := PoolModel.list_eqb (WshModel.method q) m.
  (** easy_hws_server.cpp:194-197 *)
  Definition uri (q : WshModel.request) : list Z := WshModel.raw_host q ++ WshModel.raw_path q ++ [63] ++ WshModel.raw_query q.
  (** easy_hws_server.cpp:157-200 *)
  Definition hws_route (q : WshModel.request) : route :=
    if WshModel.is_proxy q then Refuse 403 false
    else if is_method q (txt "OPTIONS") then To_handshake
    else if is_method q (txt "GET") then
      if existsb (fun f => HnameModel.equals (fst f) (txt "Upgrade")) (WshModel.q_fields q) then To_handshake else To_callback (Ws_get (uri q))
    else if is_method q (txt "HEAD") then To_callback (Ws_head (uri q))
    else Refuse 405 true.

  (** easy_hws_server.cpp:152-201 *)
  Definition hws_step (s : WshModel.session) (o : WshModel.server_op) : WshModel.session :=
    match o with
    | WshModel.Request now q eot =>
        if WshModel.gone s then s
        else
          match hws_route q with
          | To_handshake => ws_server_step s o
          | Refuse status kill =>
              let s := WshModel.request_error s status in
              WshModel.mkSess (WshModel.con s) (WshModel.ack s) (WshModel.closing s || kill) (WshModel.notified s) (WshModel.trace s) (WshModel.gone s)
          | To_callback _ => s
          end
    | _ => ws_server_step s o
    end.
  (** easy_hws_server.cpp:194-199 *)
  Definition hws_also (s : WshModel.session) (o : WshModel.server_op) : list ws_event :=
    match o with
    | WshModel.Request now q eot =>
        if WshModel.gone s then [] else match hws_route q with To_callback e => [e] | _ => [] end
    | _ => []
    end.
End Servers.
