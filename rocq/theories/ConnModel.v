(** Model of how the clients take an address: [connect] of easy/easy_{tcp,ssl,http,https,ws,wss}_client.cpp,
    and the constructors of socket/https_client_session.cpp, socket/ws_client_session.cpp and
    socket/wss_client_session.cpp, all in /repo/poseidon/src.  The tables of sessions are in EsModel. *)
From Coq Require Import ZArith List Bool String.
From Verif Require Import Base Text NetrefModel AddrTextModel HoutModel WshModel AccModel.
Import ListNotations.
Open Scope list_scope.
Open Scope Z_scope.

(** One for each class: easy_tcp_client.cpp, easy_ssl_client.cpp, easy_http_client.cpp, easy_https_client.cpp,
    easy_ws_client.cpp, easy_wss_client.cpp. Each has the code of easy_tcp_client.cpp:20-250. *)
Inductive kind := Tcp | Ssl | Http | Https | Ws | Wss.

(** What a successful call sets up: the arguments of [DNS_Connect_Task] (easy_http_client.cpp:231-232);
    the text that is kept as [m_default_host] (easy_http_client.cpp:229, easy_ws_client.cpp:243), which is empty
    where there is none; [uri->path], [uri->query] and [uri->fragment] (easy_ws_client.cpp:244-246), which are
    empty where there are none; and the name that certificates are matched against, if any
    (https_client_session.cpp:14-21). *)
Record plan := mkPlan {
  p_host : list Z; p_port : Z; p_default : list Z;
  p_path : list Z; p_query : list Z; p_fragment : list Z;
  p_verify : option (list Z) }.

(** What a view designates; a view that has not been written is a null pointer and a length of zero.
    utils.hpp:159-168, utils.cpp:310-312, 334-335 *)
Definition part (s : list Z) (v : option (nat * nat)) : list Z :=
  match v with Some (off, len) => firstn len (skipn off s) | None => [] end.

(** The length of a view. easy_tcp_client.cpp:225, easy_http_client.cpp:215, https_client_session.cpp:16 *)
Definition part_len (v : option (nat * nat)) : nat := match v with Some (_, len) => len | None => O end.

(** Whether the pointer of a view is null. easy_tcp_client.cpp:229-236, easy_http_client.cpp:219-223 *)
Definition absent (v : option (nat * nat)) : bool := match v with Some _ => false | None => true end.

(** [caddr.port_num], which is zero if it has not been written. utils.hpp:166 *)
Definition port_num (w : netref) : Z := match r_num w with Some v => v | None => 0 end.

(** https_client_session.cpp:9-25: the constructor.  [SSL_set1_host] and [SSL_set_tlsext_host_name] are given the
    same text; [strlcpy] copies [host.n] characters, as none of them is null. *)
Definition verify_name (default : list Z) : option (list Z) :=
  let '(w, aclen) := parse_ref default in
  if negb (aclen =? 0)%nat && (1 <=? part_len (r_host w))%nat && (part_len (r_host w) <=? 253)%nat
  then Some (part default (r_host w)) else None.

(** easy_http_client.cpp:229, easy_ws_client.cpp:243: [sformat("$1:$2", caddr.host, caddr.port_num)] *)
Definition host_and_port (host : list Z) (port : Z) : list Z := host ++ [58] ++ put_du 20 port.

(** easy_http_client.cpp:216, easy_ws_client.cpp:240: 80; easy_https_client.cpp:216, easy_wss_client.cpp:240: 443 *)
Definition default_port (k : kind) : Z := match k with Https | Wss => 443 | _ => 80 end.

(** [connect]; [None] is an exception.  easy_tcp_client.cpp:217-254 and easy_ssl_client.cpp:216-253 (a port is
    required; no path, query, fragment), easy_http_client.cpp:206-242 and easy_https_client.cpp:206-242 (no path,
    no query; the fragment is not looked at), easy_ws_client.cpp:230-264 and easy_wss_client.cpp:230-264. *)
Definition connect (k : kind) (addr : list Z) : option plan :=
  let '(w, n) := parse_ref addr in
  if negb (n =? length addr)%nat then None
  else
    let host := part addr (r_host w) in
    match k with
    | Tcp | Ssl =>
        if (part_len (r_port w) =? 0)%nat then None
        else if negb (absent (r_path w)) then None
        else if negb (absent (r_query w)) then None
        else if negb (absent (r_fragment w)) then None
        else Some (mkPlan host (port_num w) [] [] [] [] None)
    | Http | Https =>
        let port := if (part_len (r_port w) =? 0)%nat then default_port k else port_num w in
        if negb (absent (r_path w)) then None
        else if negb (absent (r_query w)) then None
        else
          let default := host_and_port host port in
          Some (mkPlan host port default [] [] [] (match k with Https => verify_name default | _ => None end))
    | Ws | Wss =>
        let port := if (part_len (r_port w) =? 0)%nat then default_port k else port_num w in
        let default := host_and_port host port in
        Some (mkPlan host port default (part addr (r_path w)) (part addr (r_query w)) (part addr (r_fragment w))
               (match k with Wss => verify_name default | _ => None end))
    end.

(** The task that [connect] launches, easy_http_client.cpp:231-237, dns_connect_task.cpp:13-102.  [lookup] is
    [getaddrinfo], [sys] is the system call [connect], [inserts] is whether the socket can be inserted into the
    network scheduler.  The session still exists. *)
Definition run_task (lookup : list Z -> option (list info)) (sys : list sockaddr -> sockaddr -> Z) (inserts : bool) (p : plan)
  : option cstate :=
  dns_connect sys (lookup (p_host p)) true inserts (p_port p).

(** ws_client_session.cpp:10-20, wss_client_session.cpp:10-20, websocket_frame_parser.cpp:179-190: the request that
    begins a WebSocket connection.  [pid] and [self] are what the key is made of; [remote] is the text of the remote
    address. *)
Definition ws_request (k : kind) (sha1 : list Z -> list Z) (pid self : Z) (remote : list Z) (p : plan) : c_head :=
  set_request_host
    (mkCH (txt "GET") false (match k with Wss => true | _ => false end) 0 [] [] (p_path p) (p_query p)
          (request_headers sha1 pid self))
    (p_default p) remote.

(** easy_ws_client.cpp:164-182, easy_wss_client.cpp:164-182: the data of the event [easy_ws_open] *)
Definition open_data (p : plan) : list Z :=
  p_default p ++ p_path p ++ [63] ++ p_query p ++ [35] ++ p_fragment p.

(** easy_http_client.cpp:229, http_client_session.cpp:175-200: what [http_request] sends on a session that [connect]
    has made, [remote] as above. *)
Definition http_request (p : plan) (remote : list Z) (s : HoutModel.session) (c : request_call) : option (HoutModel.session * bool) :=
  client (p_default p) remote s c.
