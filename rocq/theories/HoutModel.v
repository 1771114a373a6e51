(** Model of how HTTP/1.1 messages are written: http/http_s_headers.cpp, http/http_c_headers.cpp,
    socket/http_server_session.cpp and socket/http_client_session.cpp (and the HTTPS sessions, which
    differ from them only in names), all in /repo/poseidon/src. *)
From Coq Require Import ZArith List Lia Bool String.
From Verif Require Import Base Text DateModel HvalModel HdrModel HnameModel AddrTextModel.
Import ListNotations.
Open Scope list_scope.
Open Scope Z_scope.
Notation length := List.length.

(** http_s_headers.cpp:43, 46 *)
Definition crlf : list Z := [13; 10].

(** Names and the text of values; a value is written with [as_string()], without quotes. http_s_headers.hpp:19; http_c_headers.hpp:32 *)
Definition fields := list (list Z * list Z).
(** http_s_headers.cpp:40-43; http_c_headers.cpp:213-216 *)
Definition encode_fields (f : fields) : list Z :=
  List.concat (map (fun x => match fst x with [] => [] | _ => crlf ++ fst x ++ txt ": " ++ snd x end) f).

(** http_s_headers.hpp:13-19 [HTTP_S_Headers] *)
Record s_head := mkSH { status : Z; reason : list Z; s_fields : fields }.
(** http_s_headers.cpp:26-47 [encode].  [str] is [http_status_str] (external). *)
Definition encode_s (str : Z -> list Z) (h : s_head) : list Z :=
  txt "HTTP/1.1 " ++ put_du 20 (status h) ++ [32]
  ++ (match reason h with [] => str (status h) | r => r end)
  ++ encode_fields (s_fields h) ++ crlf ++ crlf.

(** Uppercase hexadecimal digits (asteria's [put_XU] without the prefix; external) Used by http_server_session.cpp:261-262. *)
Definition hex_digit (v : Z) : Z := if v <? 10 then 48 + v else 55 + v.
(** Used by http_server_session.cpp:261-262. *)
Fixpoint put_xu (n : nat) (v : Z) : list Z :=
  match n with
  | O => []
  | S n => if v <? 16 then [hex_digit v] else put_xu n (v / 16) ++ [hex_digit (v mod 16)]
  end.

(** http_server_session.cpp:257-266, http_client_session.cpp:225-234: one chunk *)
Definition chunk (data : list Z) : list Z :=
  put_xu 16 (Z.of_nat (length data)) ++ crlf ++ data ++ crlf.
(** http_server_session.cpp:279; http_client_session.cpp:247 *)
Definition last_chunk : list Z := txt "0" ++ crlf ++ crlf.

(** A session: whether the protocol has been switched, whether the connection has been shut
    down for writing, and what has been passed to the socket since.  [tcp_send] gives
    [false] and ignores the data after that (property C31). http_server_session.cpp:161-190; tcp_socket.cpp:179-258 *)
Record session := mkSess { ack : bool; closed : bool; out : list Z }.
(** tcp_socket.cpp:179-233 *)
Definition tcp_send (s : session) (data : list Z) : session * bool :=
  if closed s then (s, false) else (mkSess (ack s) false (out s ++ data), true).
(** tcp_socket.cpp:235-258 *)
Definition tcp_shut_down (s : session) : session := mkSess (ack s) true (out s).

Section Oracles.
  Variables (mktime : tm -> Z) (str : Z -> list Z).

  (** http_server_session.cpp:177-185: the elements of a [Connection] header; fuel as
      every call of [next_element] that succeeds consumes characters *)
  Fixpoint element_names (fuel : nat) (s : HdrModel.st) : list (list Z) :=
    match fuel with
    | O => []
    | S fuel => match next_element mktime s with
                | (s, true) => name s :: element_names fuel s
                | _ => []
                end
    end.
  (** http_server_session.cpp:177-185 *)
  Definition closes (f : fields) : bool :=
    existsb (fun x => equals (fst x) (txt "Connection")
                      && existsb (fun n => equals n (txt "close")) (element_names (S (length (snd x))) (reload (snd x)))) f.

  (** http_server_session.cpp:161-190 [do_http_raw_response] *)
  Definition raw_response (s : session) (h : s_head) (data : list Z) : session * bool :=
    let '(s, sent) := tcp_send s (encode_s str h ++ data) in
    let s := if status h =? 101 then mkSess true (closed s) (out s) else s in
    let s := if closes (s_fields h) then tcp_shut_down s else s in
    (s, sent).

  (** http_server_session.cpp:222, 238 *)
  Definition with_field (h : s_head) (n v : list Z) : s_head := mkSH (status h) (reason h) (s_fields h ++ [(n, v)]).

  (** http_server_session.cpp:282-318 [http_shut_down(HTTP_Status)]: the page *)
  Definition page (st : Z) : list Z :=
    txt "<html><head><title>" ++ put_du 20 st ++ [32] ++ str st ++ txt "</title></head><body><h1>"
    ++ put_du 20 st ++ [32] ++ str st ++ txt "</h1></body></html>".

  (** http_server_session.cpp:192-329: the calls; [None] is an exception.  [quick_shut_down] closes
      the connection and discards what has not been sent; here it only closes. *)
  Inductive call :=
  | Headers_only (h : s_head) | Response (head : bool) (h : s_head) (data : list Z)
  | Start_chunked (h : s_head) | Send_chunk (data : list Z) | Finish_chunked
  | Shut_down (st : Z).
  (** http_server_session.cpp:192-329 *)
  Definition server (s : session) (c : call) : option (session * bool) :=
    match c with
    | Shut_down st =>
        let st := if (200 <=? st) && (st <=? 599) then st else 400 in
        if ack s then Some (tcp_shut_down s, true)
        else
          let h := mkSH st (str st) [(txt "Content-Type", txt "text/html"); (txt "Connection", txt "close")] in
          let '(s', sent) := raw_response s h (page st) in
          Some (tcp_shut_down s', sent || negb (closed s'))
    | _ =>
        if ack s then None
        else
          match c with
          | Headers_only h => Some (raw_response s h [])
          | Response head h data =>
              if (status h <=? 199) || (status h =? 204) || (status h =? 304) then Some (raw_response s h [])
              else Some (raw_response s (with_field h (txt "Content-Length") (put_du 20 (Z.of_nat (length data)))) (if head then [] else data))
          | Start_chunked h => Some (raw_response s (with_field h (txt "Transfer-Encoding") (txt "chunked")) [])
          | Send_chunk data => Some (match data with [] => tcp_send s [] | _ => tcp_send s (chunk data) end)
          | Finish_chunked => Some (tcp_send s last_chunk)
          | Shut_down _ => None
          end
    end.
  (** Any number of calls of http_server_session.cpp:192-329. *)
  Fixpoint server_run (s : session) (cs : list call) : option (session * list bool) :=
    match cs with
    | [] => Some (s, [])
    | c :: cs => match server s c with
                 | None => None
                 | Some (s, b) => match server_run s cs with None => None | Some (s, bs) => Some (s, b :: bs) end
                 end
    end.
End Oracles.

(** http_c_headers.hpp:13-32 [HTTP_C_Headers].  [method] is the array of eight characters. *)
Record c_head := mkCH { method : list Z; is_proxy : bool; is_ssl : bool; port : Z; raw_host : list Z; raw_userinfo : list Z;
                        raw_path : list Z; raw_query : list Z; c_fields : fields }.

(** http_c_headers.cpp:169-220 [encode].  [raw_path[0]] of an empty string is the null character. *)
Definition method_text (m : list Z) : list Z :=
  match m with
  | [] => txt "GET"
  | c :: _ => if c =? 0 then txt "GET" else fst (until (fun c => c =? 0) (firstn 8 m))
  end.
(** http_c_headers.cpp:187-209 *)
Definition target (h : c_head) : list Z :=
  (if is_proxy h then
     (if is_ssl h then txt "https://" else txt "http://")
     ++ (match raw_userinfo h with [] => [] | u => u ++ [64] end)
     ++ raw_host h
     ++ (if negb (port h =? 0) then 58 :: put_du 20 (port h) else [])
   else [])
  ++ (if negb (hd 0 (raw_path h) =? 47) then 47 :: raw_path h else raw_path h)
  ++ (match raw_query h with [] => [] | q => 63 :: q end).
(** http_c_headers.cpp:169-220 *)
Definition encode_c (h : c_head) : list Z :=
  method_text (method h) ++ [32] ++ target h ++ txt " HTTP/1.1" ++ encode_fields (c_fields h) ++ crlf ++ crlf.

(** http_c_headers.cpp:139-167 [set_request_host]; [remote] is the text of the remote address *)
Fixpoint replace_host (f : fields) (v : list Z) : option fields :=
  match f with
  | [] => None
  | (n, x) :: f => if equals n (txt "Host") then Some ((n, v) :: f)
                   else match replace_host f v with Some f => Some ((n, x) :: f) | None => None end
  end.
(** http_c_headers.cpp:163-166; http_client_session.cpp:186, 206 *)
Definition set_fields (h : c_head) (host : list Z) (f : fields) : c_head :=
  mkCH (method h) (is_proxy h) (is_ssl h) (port h) host (raw_userinfo h) (raw_path h) (raw_query h) f.
(** http_c_headers.cpp:139-167 *)
Definition set_request_host (h : c_head) (default remote : list Z) : c_head :=
  if is_proxy h then h
  else
    let host := match raw_host h with [] => (match default with [] => remote | d => d end) | r => r end in
    set_fields h host (match replace_host (c_fields h) host with Some f => f | None => c_fields h ++ [(txt "Host", host)] end).

(** http_client_session.cpp:154-248: the calls of a client *)
Inductive request_call := Request (h : c_head) (data : list Z) | Start_request (h : c_head) | Send_piece (data : list Z) | Finish_request.
(** http_client_session.cpp:154-248 *)
Definition client (default remote : list Z) (s : session) (c : request_call) : option (session * bool) :=
  if ack s then None
  else
    match c with
    | Request h data =>
        let h := set_request_host h default remote in
        let h := match data with [] => h | _ => set_fields h (raw_host h) (c_fields h ++ [(txt "Content-Length", put_du 20 (Z.of_nat (length data)))]) end in
        Some (tcp_send s (encode_c h ++ data))
    | Start_request h =>
        let h := set_request_host h default remote in
        let h := set_fields h (raw_host h) (c_fields h ++ [(txt "Transfer-Encoding", txt "chunked")]) in
        Some (tcp_send s (encode_c h))
    | Send_piece data => Some (match data with [] => tcp_send s [] | _ => tcp_send s (chunk data) end)
    | Finish_request => Some (tcp_send s last_chunk)
    end.
(** Any number of calls of http_client_session.cpp:154-248. *)
Fixpoint client_run (default remote : list Z) (s : session) (cs : list request_call) : option (session * list bool) :=
  match cs with
  | [] => Some (s, [])
  | c :: cs => match client default remote s c with
               | None => None
               | Some (s, b) => match client_run default remote s cs with None => None | Some (s, bs) => Some (s, b :: bs) end
               end
  end.
