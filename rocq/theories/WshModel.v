(** Model of the opening handshake of WebSocket connections: the first half of
    /repo/poseidon/src/http/websocket_frame_parser.cpp, and the functions of socket/ws_server_session.cpp and
    socket/ws_client_session.cpp that call it (socket/wss_server_session.cpp and socket/wss_client_session.cpp differ from
    them only in names). *)
From Coq Require Import ZArith List Bool String.
From Verif Require Import Base Text DateModel HvalModel HdrModel HnameModel AddrTextModel.
From Verif Require WsModel PoolModel.
Import ListNotations.
Open Scope list_scope.
Open Scope Z_scope.
Notation length := List.length.
(** The comparison of strings (websocket_frame_parser.cpp:197-399 compares methods and names). *)
Notation list_eqb := PoolModel.list_eqb.

(** Names of headers, and values as [as_string()] gives them. http_c_headers.hpp and http_s_headers.hpp, [headers]; read by websocket_frame_parser.cpp:236-265. *)
Definition fields := list (list Z * list Z).

(** [EVP_EncodeBlock] of OpenSSL (external): base64 with padding, after RFC 4648. [EVP_EncodeBlock], external; called in websocket_frame_parser.cpp:36 and 48. *)
Definition sextet (v : Z) : Z :=
  if v <? 26 then 65 + v else if v <? 52 then 71 + v else if v <? 62 then v - 4 else if v =? 62 then 43 else 47.
(** [EVP_EncodeBlock], external; called in websocket_frame_parser.cpp:36 and 48. *)
Fixpoint base64 (s : list Z) : list Z :=
  match s with
  | a :: b :: c :: s =>
      sextet (a / 4) :: sextet (a mod 4 * 16 + b / 16) :: sextet (b mod 16 * 4 + c / 64) :: sextet (c mod 64) :: base64 s
  | [a; b] => [sextet (a / 4); sextet (a mod 4 * 16 + b / 16); sextet (b mod 16 * 4); 61]
  | [a] => [sextet (a / 4); sextet (a mod 4 * 16); 61; 61]
  | [] => []
  end.

(** websocket_frame_parser.cpp:52-59 [PerMessage_Deflate] *)
Record pmce := mkPM { level : Z; server_nct : bool; client_nct : bool; server_bits : Z; client_bits : Z }.
(** websocket_frame_parser.cpp:54-59: the initial values. *)
Definition no_pmce : pmce := mkPM 0 false false 15 15.

(** Loops either end, or return from the calling function, or have undefined behaviour: a
    date in a header overflows. Not in the code: how a loop over elements ends (websocket_frame_parser.cpp:236-265). *)
Inductive walk (A : Type) := Go (a : A) | Stop | Undef.
Arguments Go {A}. Arguments Stop {A}. Arguments Undef {A}.

(** http_value.hpp:229-233 [is_null]: a date that was parsed has no valid string (http_value.cpp:148-163) *)
Definition is_null (v : value) : bool := match v with Str _ => false | _ => true end.

Section Oracles.
  (** [integer] is [m_int] of a text (http_value.cpp:88-102): the number if [ascii_numget::parse_I] (external) accepts all of it
      but blanks at its ends, and zero otherwise.  [sha1] is SHA-1 (OpenSSL). *)
  Variables (mktime : tm -> Z) (integer : list Z -> Z) (sha1 : list Z -> list Z).

  (** http_value.hpp:255-258 *)
  Definition as_integer (v : value) : Z := match v with Str t => integer t | _ => 0 end.

  (** http_value.hpp:255-258: a call on a value of another type. *)
  Definition ub (s : st) : bool := match at_ s with Ub => true | _ => false end.

  (** websocket_frame_parser.cpp:78-127: the loop over the parameters.  Every call of
      [next_attribute] that succeeds consumes characters; more rounds than characters do not happen. *)
  Fixpoint parameters (default : Z) (fuel : nat) (s : st) (p : pmce) : walk (st * pmce) :=
    match fuel with
    | O => Undef
    | S fuel =>
        let '(s, found) := next_attribute mktime s in
        if ub s then Undef
        else if found then
          if equals (name s) (txt "server_no_context_takeover") then
            if negb (is_null (val s)) then Go (s, p)
            else parameters default fuel s (mkPM (level p) true (client_nct p) (server_bits p) (client_bits p))
          else if equals (name s) (txt "client_no_context_takeover") then
            if negb (is_null (val s)) then Go (s, p)
            else parameters default fuel s (mkPM (level p) (server_nct p) true (server_bits p) (client_bits p))
          else if equals (name s) (txt "server_max_window_bits") then
            if is_null (val s) then parameters default fuel s p
            else
              let v := as_integer (val s) in
              if (v <? 9) || (v >? 15) then Go (s, p)
              else parameters default fuel s (mkPM (level p) (server_nct p) (client_nct p) v (client_bits p))
          else if equals (name s) (txt "client_max_window_bits") then
            if is_null (val s) then parameters default fuel s p
            else
              let v := as_integer (val s) in
              if (v <? 9) || (v >? 15) then Go (s, p)
              else parameters default fuel s (mkPM (level p) (server_nct p) (client_nct p) (server_bits p) v)
          else Go (s, p)
        else Go (s, mkPM (default mod 256) (server_nct p) (client_nct p) (server_bits p) (client_bits p))
    end.

  (** websocket_frame_parser.cpp:61-128 [use_permessage_deflate] *)
  Definition use_permessage_deflate (default : Z) (s : st) (p : pmce) : walk (st * pmce) :=
    if negb (level p =? 0) then Go (s, p)
    else if default =? 0 then Go (s, p)
    else parameters default (S (length (hstr s))) s (mkPM (level p) false false 15 15).

  (** websocket_frame_parser.cpp:259-265 and 360-368: the elements of [Sec-WebSocket-Extensions].  A client
      fails upon an element that is not known ([strict]). *)
  Fixpoint extensions (strict : bool) (default : Z) (fuel : nat) (s : st) (p : pmce) : walk pmce :=
    match fuel with
    | O => Undef
    | S fuel =>
        let '(s, found) := next_element mktime s in
        if ub s then Undef
        else if found then
          if equals (name s) (txt "permessage-deflate") then
            match use_permessage_deflate default s p with
            | Go (s, p) => extensions strict default fuel s p
            | Stop => Stop
            | Undef => Undef
            end
          else if strict then Stop
          else extensions strict default fuel s p
        else Go p
    end.

  (** websocket_frame_parser.cpp:240-242 and 345-347: the elements of [Connection] *)
  Fixpoint connection (fuel : nat) (s : st) : walk unit :=
    match fuel with
    | O => Undef
    | S fuel =>
        let '(s, found) := next_element mktime s in
        if ub s then Undef
        else if found then if equals (name s) (txt "close") then Stop else connection fuel s
        else Go tt
    end.

  (** What the loop over all headers finds; [digest] is [key_str] (server) or [sec_ws_accept_resp] (client), up to
      its length; empty if it has not been set. websocket_frame_parser.cpp:229-265 and 334-368: the local variables. *)
  Record scan := mkScan { upgrade_ok : bool; version_ok : bool; digest : list Z; pm : pmce }.
  (** websocket_frame_parser.cpp:229-265 and 334-368: their initial values. *)
  Definition no_scan : scan := mkScan false false [] no_pmce.

  (** websocket_frame_parser.cpp:236-265: a header of a request *)
  Definition request_header (default : Z) (sc : scan) (f : list Z * list Z) : walk scan :=
    let '(n, v) := f in
    if equals n (txt "Connection") then
      match connection (S (length v)) (reload v) with Go _ => Go sc | Stop => Stop | Undef => Undef end
    else if equals n (txt "Upgrade") then
      Go (if list_eqb v (txt "websocket") then mkScan true (version_ok sc) (digest sc) (pm sc) else sc)
    else if equals n (txt "Sec-WebSocket-Version") then
      Go (if list_eqb v (txt "13") then mkScan (upgrade_ok sc) true (digest sc) (pm sc) else sc)
    else if equals n (txt "Sec-WebSocket-Key") then
      Go (if (length v =? 24)%nat then mkScan (upgrade_ok sc) (version_ok sc) v (pm sc) else sc)
    else if equals n (txt "Sec-WebSocket-Extensions") then
      match extensions false default (S (length v)) (reload v) (pm sc) with
      | Go p => Go (mkScan (upgrade_ok sc) (version_ok sc) (digest sc) p)
      | Stop => Stop | Undef => Undef
      end
    else Go sc.

  (** websocket_frame_parser.cpp:342-368: a header of a response *)
  Definition response_header (default : Z) (sc : scan) (f : list Z * list Z) : walk scan :=
    let '(n, v) := f in
    if equals n (txt "Connection") then
      match connection (S (length v)) (reload v) with Go _ => Go sc | Stop => Stop | Undef => Undef end
    else if equals n (txt "Upgrade") then
      Go (if list_eqb v (txt "websocket") then mkScan true (version_ok sc) (digest sc) (pm sc) else sc)
    else if equals n (txt "Sec-WebSocket-Accept") then
      Go (if (length v =? 28)%nat then mkScan (upgrade_ok sc) (version_ok sc) v (pm sc) else sc)
    else if equals n (txt "Sec-WebSocket-Extensions") then
      match extensions true default (S (length v)) (reload v) (pm sc) with
      | Go p => Go (mkScan (upgrade_ok sc) (version_ok sc) (digest sc) p)
      | Stop => Stop | Undef => Undef
      end
    else Go sc.

  (** websocket_frame_parser.cpp:236-265 and 342-368: the loop over the headers. *)
  Fixpoint headers (h : scan -> list Z * list Z -> walk scan) (fs : fields) (sc : scan) : walk scan :=
    match fs with
    | [] => Go sc
    | f :: fs => match h sc f with Go sc => headers h fs sc | Stop => Stop | Undef => Undef end
    end.

  (** websocket_frame_parser.cpp:27-37 [make_key_str]; [self] is the address of the parser *)
  Definition make_key (pid self : Z) : list Z :=
    base64 (firstn 16 (sha1 (List.concat (map (store_le 8) [-7; pid; -6; self; 0; 0; 0])))).
  (** websocket_frame_parser.cpp:39-49 [make_accept_str] *)
  Definition make_accept (key : list Z) : list Z := base64 (sha1 (key ++ txt "258EAFA5-E914-47DA-95CA-C5AB0DC85B11")).

  (** websocket_frame_parser.hpp:22-52, the fields that the handshake sets.  [failed] is [m_wsf == wsf_error]. *)
  Record conn := mkC { wshs : WsModel.wshs; failed : bool; level_m2 : Z; send_nct : bool; send_bits : Z; recv_bits : Z }.
  (** websocket_frame_parser.hpp:22-52: the initial values. *)
  Definition new_conn : conn := mkC WsModel.wshs_pending false 0 false 0 0.
  (** Not in the code: the assignment to [m_wsf] (websocket_frame_parser.cpp:322-399). *)
  Definition set_failed (c : conn) : conn := mkC (wshs c) true (level_m2 c) (send_nct c) (send_bits c) (recv_bits c).
  (** websocket_frame_parser.cpp:310 and 389: [clamp]. *)
  Definition clamp (v lo hi : Z) : Z := Z.min (Z.max v lo) hi.
  (** websocket_frame_parser.cpp:288-314 and 386-393 *)
  Definition negotiated (c : conn) (p : pmce) (nct : bool) (send recv : Z) : conn :=
    if negb (level p =? 0) then mkC (wshs c) (failed c) (Z.land (clamp (level p - 2) 1 7) 7) nct (Z.land send 15) (Z.land recv 15) else c.
  (** websocket_frame_parser.cpp:288-320 and 386-399: the last assignments. *)
  Definition established (c : conn) (w : WsModel.wshs) : conn := mkC w false (level_m2 c) (send_nct c) (send_bits c) (recv_bits c).

  (** websocket_frame_parser.cpp:169-195 [create_handshake_request]: the headers; [None] is an exception *)
  Definition request_headers (pid self : Z) : fields :=
    [(txt "Connection", txt "Upgrade"); (txt "Upgrade", txt "websocket"); (txt "Sec-WebSocket-Version", txt "13");
     (txt "Sec-WebSocket-Key", make_key pid self); (txt "Sec-WebSocket-Extensions", txt "permessage-deflate; client_max_window_bits")].
  (** websocket_frame_parser.cpp:169-195 [create_handshake_request]. *)
  Definition create_handshake_request (pid self : Z) (c : conn) : option (conn * fields) :=
    match wshs c with
    | WsModel.wshs_pending | WsModel.wshs_c_req_sent =>
        Some (mkC WsModel.wshs_c_req_sent (failed c) (level_m2 c) (send_nct c) (send_bits c) (recv_bits c), request_headers pid self)
    | _ => None
    end.

  (** websocket_frame_parser.cpp:289-303: the extension in a response *)
  Definition print_pmce (p : pmce) : list Z :=
    txt "permessage-deflate"
    ++ (if client_nct p then txt "; client_no_context_takeover" else [])
    ++ (if negb (server_bits p =? 15) then txt "; server_max_window_bits=" ++ put_du 20 (server_bits p) else [])
    ++ (if negb (client_bits p =? 15) then txt "; client_max_window_bits=" ++ put_du 20 (client_bits p) else []).

  (** websocket_frame_parser.cpp:197-320 [accept_handshake_request]: the status and the headers of the response.
      [now] is the text of the current time. *)
  Inductive reply := Reply (c : conn) (status : Z) (fs : fields) | Throws | Undefined.
  (** websocket_frame_parser.cpp:197-320 [accept_handshake_request]. *)
  Definition accept_handshake_request (default : Z) (now : list Z) (c : conn) (method : list Z) (fs : fields) : reply :=
    match wshs c with
    | WsModel.wshs_pending =>
        let close := (txt "Connection", txt "close") in
        if list_eqb method (txt "OPTIONS") then
          Reply c 204 [close; (txt "Allow", txt "GET"); (txt "Date", now); (txt "Access-Control-Allow-Origin", txt "*");
                       (txt "Access-Control-Allow-Methods", txt "GET");
                       (txt "Access-Control-Allow-Headers",
                        txt "Upgrade, Origin, Sec-WebSocket-Version, Sec-WebSocket-Key, Sec-WebSocket-Extensions, Sec-WebSocket-Protocol")]
        else
          match headers (request_header default) fs no_scan with
          | Undef => Undefined
          | Stop => Reply (set_failed c) 400 [close]
          | Go sc =>
              if negb (upgrade_ok sc) || negb (version_ok sc) || (hd 0 (digest sc) =? 0) then
                Reply (set_failed c) 426 [close; (txt "Upgrade", txt "websocket"); (txt "Sec-WebSocket-Version", txt "13")]
              else
                let p := pm sc in
                Reply (established (negotiated c p (server_nct p) (server_bits p) (client_bits p)) WsModel.wshs_s_accepted) 101
                  ([(txt "Connection", txt "Upgrade"); (txt "Upgrade", txt "websocket"); (txt "Date", now); (txt "Expires", txt "0");
                    (txt "Sec-WebSocket-Accept", make_accept (digest sc))]
                   ++ (if negb (level p =? 0) then [(txt "Sec-WebSocket-Extensions", print_pmce p)] else []))
          end
    | _ => Throws
    end.

  (** websocket_frame_parser.cpp:322-399 [accept_handshake_response] *)
  Inductive verdict := Verdict (c : conn) | Rejects_call | Undefined_verdict.
  (** websocket_frame_parser.cpp:322-399 [accept_handshake_response]. *)
  Definition accept_handshake_response (default pid self : Z) (c : conn) (fs : fields) : verdict :=
    match wshs c with
    | WsModel.wshs_c_req_sent =>
        match headers (response_header default) fs no_scan with
        | Undef => Undefined_verdict
        | Stop => Verdict (set_failed c)
        | Go sc =>
            if negb (upgrade_ok sc) || (hd 0 (digest sc) =? 0) then Verdict (set_failed c)
            else if negb (list_eqb (firstn 28 (make_accept (make_key pid self))) (firstn 28 (digest sc))) then Verdict (set_failed c)
            else
              let p := pm sc in
              Verdict (established (negotiated c p (client_nct p) (client_bits p) (server_bits p)) WsModel.wshs_c_accepted)
        end
    | _ => Rejects_call
    end.

  (** ** Sessions *)

  (** What a session does: [Replied] passes a response to the socket, and [sent] says that the socket takes it, that is, that
      [tcp_shut_down] has not been called.  [On_ready] is [do_on_ws_accepted] or [do_on_ws_connected]; [On_close] is
      [do_on_ws_close].  [Close_frame] is the frame that [ws_shut_down] sends.
      [Exception] leaves [do_on_tcp_stream]; the network driver closes the connection then. What a session does that a user or a peer sees (ws_server_session.cpp:20-74 and 228-258, ws_client_session.cpp:27-74). *)
  Inductive event :=
  | Replied (status : Z) (fs : fields) (sent : bool) | On_ready (uri : list Z) | On_close (status : Z) | Close_frame
  | Exception | Undefined_behaviour.
  (** [ack] is [m_upgrade_ack], [closing] whether [tcp_shut_down] has been called, [notified] is [m_closure_notified]. ws_server_session.cpp:20-74 and 228-258: the members that are read and written. *)
  Record session := mkSess { con : conn; ack : bool; closing : bool; notified : bool; trace : list event; gone : bool }.
  (** Not in the code: an event is seen (ws_server_session.cpp:20-74). *)
  Definition add (s : session) (e : event) : session := mkSess (con s) (ack s) (closing s) (notified s) (trace s ++ [e]) (gone s).
  (** Not in the code: an assignment to the parser (ws_server_session.cpp:228-258). *)
  Definition set_con (s : session) (c : conn) : session := mkSess c (ack s) (closing s) (notified s) (trace s) (gone s).
  (** Not in the code: [tcp_shut_down] has been called (ws_server_session.cpp:62-74). *)
  Definition shut (s : session) : session := mkSess (con s) (ack s) true (notified s) (trace s) (gone s).
  (** Not in the code: an exception leaves the callback (ws_server_session.cpp:228-258). *)
  Definition fail (s : session) (e : event) : session := mkSess (con s) (ack s) true (notified s) (trace s ++ [e]) true.

  (** ws_server_session.cpp:20-31 [do_call_on_ws_close_once], with 350-374 [ws_shut_down]; the client is alike *)
  Definition call_close (s : session) (status : Z) : session :=
    if notified s then s
    else
      let s := add (mkSess (con s) (ack s) (closing s) true (trace s) (gone s)) (On_close status) in
      shut (if negb (ack s) || closing s then s else add s Close_frame).

  (** http_server_session.cpp:161-190 [do_http_raw_response]; the headers that are passed to it here close the connection
      if they have [Connection: close] (HoutModel, property C52) *)
  Definition respond (s : session) (status : Z) (fs : fields) (close : bool) : session :=
    let s := add s (Replied status fs (negb (closing s))) in
    let s := if status =? 101 then mkSess (con s) true (closing s) (notified s) (trace s) (gone s) else s in
    if close then shut s else s.

  (** ws_server_session.cpp:62-74 [do_on_http_request_error]; [http_response] adds the length of the payload *)
  Definition request_error (s : session) (status : Z) : session :=
    if ack s then fail s Exception
    else call_close (respond s status ([(txt "Connection", txt "close")] ++
                     if (status <=? 199) || (status =? 204) || (status =? 304) then [] else [(txt "Content-Length", txt "0")]) true) 1006.

  (** A request, as far as it matters. http_c_headers.hpp: the members that ws_server_session.cpp:228-258 reads. *)
  Record request := mkQ { method : list Z; is_proxy : bool; raw_host : list Z; raw_path : list Z; raw_query : list Z; q_fields : fields }.

  (** ws_server_session.cpp:228-258 [do_ws_complete_handshake] *)
  Definition complete_handshake (default : Z) (now : list Z) (s : session) (q : request) (eot : bool) : session :=
    if is_proxy q then request_error s 403
    else
      match accept_handshake_request default now (con s) (method q) (q_fields q) with
      | Throws => fail s Exception
      | Undefined => fail s Undefined_behaviour
      | Reply c status fs =>
          let s := set_con s c in
          if ack s then fail s Exception
          else
            let s := respond s status fs (negb (status =? 101)) in
            if list_eqb (method q) (txt "OPTIONS") then s
            else
              match eot, wshs c with
              | false, WsModel.wshs_s_accepted => add s (On_ready (raw_host q ++ raw_path q ++ [63] ++ raw_query q))
              | _, _ => call_close s 1002
              end
      end.

  (** What happens to a server session before the protocol is switched, and when its socket has been closed
      (ws_server_session.cpp:33-39) *)
  Inductive server_op := Request (now : list Z) (q : request) (eot : bool) | Request_error (status : Z) | Closed.
  (** ws_server_session.cpp:33-74 and 228-258: one callback. *)
  Definition server_step (default : Z) (s : session) (o : server_op) : session :=
    match o with
    | Closed => mkSess (con (call_close s 1006)) (ack s) true true (trace (call_close s 1006)) true
    | _ =>
        if gone s then s
        else match o with
             | Request now q eot => complete_handshake default now s q eot
             | Request_error status => request_error s status
             | Closed => s
             end
    end.
  (** ws_server_session.cpp:10-13: a new session. *)
  Definition server_start : session := mkSess new_conn false false false [] false.
  (** Not in the code: a series of callbacks (ws_server_session.cpp:33-74 and 228-258). *)
  Definition server_run (default : Z) (s : session) (os : list server_op) : session := fold_left (server_step default) os s.

  (** ws_client_session.cpp:10-20, the constructor: the state and the headers that it adds to *)
  Definition client_start (pid self : Z) : session :=
    match create_handshake_request pid self new_conn with
    | Some (c, _) => mkSess c false false false [] false
    | None => mkSess new_conn false false false [Exception] true
    end.
  (** ws_client_session.cpp:56-74 [do_on_http_response_finish].  A status of 101 switches the protocol after
      that (http_client_session.cpp:106-110). *)
  Inductive client_op := Response (status : Z) (fs : fields) | Closed_c.
  (** ws_client_session.cpp:56-74 [do_on_http_response_finish]. *)
  Definition finish_response (default pid self : Z) (s : session) (fs : fields) : session :=
    match accept_handshake_response default pid self (con s) fs with
    | Rejects_call => fail s Exception
    | Undefined_verdict => fail s Undefined_behaviour
    | Verdict c =>
        let s := set_con s c in
        match wshs c with
        | WsModel.wshs_c_accepted => add s (On_ready [])
        | _ => call_close s 1002
        end
    end.
  (** ws_client_session.cpp:40-74: one callback. *)
  Definition client_step (default pid self : Z) (s : session) (o : client_op) : session :=
    match o with
    | Closed_c => mkSess (con (call_close s 1006)) (ack s) true true (trace (call_close s 1006)) true
    | Response status fs =>
        if gone s || ack s then s
        else
          let s := finish_response default pid self s fs in
          if (status =? 101) && negb (gone s) then mkSess (con s) true (closing s) (notified s) (trace s) (gone s) else s
    end.
  (** Not in the code: a series of callbacks (ws_client_session.cpp:40-74). *)
  Definition client_run (default pid self : Z) (s : session) (os : list client_op) : session := fold_left (client_step default pid self) os s.
End Oracles.
