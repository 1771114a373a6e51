(** Model of how the configuration is loaded again, and what its settings are:
    poseidon/src/static/main_config.cpp and the [reload] functions of
    logger.cpp, mysql_connector.cpp, mongo_connector.cpp, redis_connector.cpp,
    network_scheduler.cpp and fiber_scheduler.cpp.  What a mutex protects is
    one step of the model.  Memory is never exhausted. *)
From Coq Require Import List ZArith Bool String.
From Verif Require Import Base Text RedisModel ConfModel AddrTextModel.
Import ListNotations.
Open Scope list_scope.
Open Scope Z_scope.
Notation length := List.length.

(** [m_root] of a configuration file. config_file.hpp:15 *)
Notation root := (list (list Z * value)).

(** [value_or]; [None] is an exception. As at fiber_scheduler.cpp:251-252 *)
Definition value_or {A} (r : result A) (d : A) : option A :=
  match r with Got _ x => Some x | Nothing _ => Some d | Error _ => None end.

(** Not in the code: an exception skips the rest of a function. The rest of fiber_scheduler.cpp:244-297 is skipped, for instance. *)
Definition bind {A B} (x : option A) (f : A -> option B) : option B :=
  match x with Some a => f a | None => None end.
(** As above, for fiber_scheduler.cpp:244-297. *)
Notation "'let*' x ':=' a 'in' b" := (bind a (fun x => b)) (at level 200, x name, a at level 100, b at level 200).

(** [get_string_opt(path).value_or(d)], config_file.cpp:429-446 *)
Definition str_or (r : root) (p d : list Z) : option (list Z) := value_or (get_string r true p) d.
(** [get_integer_opt(path, min, max).value_or(d)], config_file.cpp:327-350 *)
Definition int_or (r : root) (p : list Z) (min max d : Z) : option Z := value_or (get_integer r true min max p) d.
(** [get_boolean_opt(path).value_or(d)], config_file.cpp:288-305 *)
Definition bool_or (r : root) (p : list Z) (d : bool) : option bool := value_or (get_boolean r true p) d.

(** *** Databases *)

(** The fields [m_conf_...] of a [MySQL_Connector]. mysql_connector.hpp:14-21 *)
Record mysql := mkMysql {
  my_uri1 : list Z; my_pass1 : list Z; my_uri2 : list Z; my_pass2 : list Z; my_uri3 : list Z; my_pass3 : list Z;
  my_pool : Z; my_idle : Z }.

(** What a new connector has. mysql_connector.hpp:14-21 *)
Definition mysql0 : mysql := mkMysql [] [] [] [] [] [] 0 0.

(** The settings, or an exception. The casts change no number in these ranges.
    poseidon/src/static/mysql_connector.cpp:37-65, 73-80 *)
Definition load_mysql (r : root) : option mysql :=
  let* u1 := str_or r (txt "mysql.default_service_uri") (txt "root@localhost:3306/admin") in
  let* p1 := str_or r (txt "mysql.default_password") [] in
  let* u2 := str_or r (txt "mysql.secondary_service_uri") u1 in
  let* p2 := str_or r (txt "mysql.secondary_password") p1 in
  let* u3 := str_or r (txt "mysql.tertiary_service_uri") u2 in
  let* p3 := str_or r (txt "mysql.tertiary_password") p2 in
  let* n := int_or r (txt "mysql.connection_pool_size") 0 100 0 in
  let* t := int_or r (txt "mysql.connection_idle_timeout") 0 86400 60 in
  Some (mkMysql u1 p1 u2 p2 u3 p3 n t).

(** The fields [m_conf_...] of a [Mongo_Connector] or a [Redis_Connector].
    mongo_connector.hpp:14-17, redis_connector.hpp:14-17 *)
Record db := mkDb { db_uri : list Z; db_pass : list Z; db_pool : Z; db_idle : Z }.

(** What a new connector has. mongo_connector.hpp:14-17, redis_connector.hpp:14-17 *)
Definition db0 : db := mkDb [] [] 0 0.

(** poseidon/src/static/mongo_connector.cpp:37-52, 59-62 *)
Definition load_mongo (r : root) : option db :=
  let* u := str_or r (txt "mongo.default_service_uri") (txt "root@localhost:27017/admin") in
  let* p := str_or r (txt "mongo.default_password") [] in
  let* n := int_or r (txt "mongo.connection_pool_size") 0 100 0 in
  let* t := int_or r (txt "mongo.connection_idle_timeout") 0 86400 60 in
  Some (mkDb u p n t).

(** poseidon/src/static/redis_connector.cpp:36-57 *)
Definition load_redis (r : root) : option db :=
  let* u := str_or r (txt "redis.default_service_uri") (txt "default@localhost:6379/0") in
  let* p := str_or r (txt "redis.default_password") [] in
  let* n := int_or r (txt "redis.connection_pool_size") 0 100 0 in
  let* t := int_or r (txt "redis.connection_idle_timeout") 0 86400 60 in
  Some (mkDb u p n t).

(** *** Fibers *)

(** The fields [m_conf_...] of a [Fiber_Scheduler]. fiber_scheduler.hpp:16-18 *)
Record fiber := mkFiber { f_stack : Z; f_warn : Z; f_fail : Z }.

(** What a new scheduler has. fiber_scheduler.hpp:16-18 *)
Definition fiber0 : fiber := mkFiber 0 0 0.

(** [rlim] is what [getrlimit] stores in [rlim_cur], if it succeeds. The cast
    to [uint32_t] keeps the low 32 bits.
    poseidon/src/static/fiber_scheduler.cpp:247-274 *)
Definition load_fiber (r : root) (rlim : option Z) : option fiber :=
  let* n := int_or r (txt "fiber.stack_vm_size") 0 16777216 0 in
  let n := if n =? 0 then match rlim with Some l => l mod 4294967296 | None => n end else n in
  let n := if n =? 0 then 16777216 else n in
  let* w := int_or r (txt "fiber.warn_timeout") 0 86400 15 in
  let* f := int_or r (txt "fiber.fail_timeout") 0 86400 300 in
  Some (mkFiber n w f).

(** *** The network *)

(** What OpenSSL answers: whether a context can be allocated for servers and
    for clients, whether the files can be loaded, whether they belong
    together, whether the session context ID can be set.
    network_scheduler.cpp:129, 138, 145, 152, 166, 179, 190 *)
Record ssl := mkSsl {
  new_server : bool; new_client : bool; chain : list Z -> bool; key : list Z -> bool; pair : list Z -> list Z -> bool;
  sid : bool; ca : list Z -> bool }.

(** The server context with its certificate and private key, if there is one;
    the directory of trusted certificates of the client context, which
    verifies its peers if and only if there is one. network_scheduler.hpp:16-19 *)
Record net := mkNet { n_events : Z; n_throttle : Z; n_server : option (list Z * list Z); n_client : option (option (list Z)) }.

(** What a new scheduler has. network_scheduler.hpp:16-19 *)
Definition net0 : net := mkNet 0 0 None None.

(** An empty string. As at network_scheduler.cpp:113 *)
Definition is_empty (s : list Z) : bool := match s with [] => true | _ => false end.

(** The server context: outer [None] is an exception.
    poseidon/src/static/network_scheduler.cpp:110-174 *)
Definition load_server (r : root) (o : ssl) : option (option (list Z * list Z)) :=
  let* c := str_or r (txt "network.ssl.default_certificate") [] in
  let* k := str_or r (txt "network.ssl.default_private_key") [] in
  if negb (is_empty c) && is_empty k then None
  else if is_empty c && negb (is_empty k) then None
  else if negb (is_empty c) then
    if new_server o && chain o c && key o k && pair o c k && sid o then Some (Some (c, k)) else None
  else Some None.

(** The client context. network_scheduler.cpp:176-198 *)
Definition load_client (r : root) (o : ssl) : option (option (list Z)) :=
  if negb (new_client o) then None
  else
    let* a := str_or r (txt "network.ssl.trusted_ca_path") [] in
    if negb (is_empty a) then (if ca o a then Some (Some a) else None) else Some None.

(** poseidon/src/static/network_scheduler.cpp:97-214. 2147483647 is [INT_MAX] *)
Definition load_net (r : root) (o : ssl) : option net :=
  let* e := int_or r (txt "network.poll.event_buffer_size") 10 1048576 1024 in
  let* t := int_or r (txt "network.poll.throttle_size") 0 2147483647 1048576 in
  let* s := load_server r o in
  let* c := load_client r o in
  Some (mkNet e t s (Some c)).

(** *** Parsers *)

(** What a parser has: the level of compression and two limits; the second
    limit is that of a message for a WebSocket frame parser, which has no
    first one. http_request_parser.hpp:15-17, http_response_parser.hpp:15-17, websocket_frame_parser.hpp:14-15 *)
Record limits := mkLimits { l_level : Z; l_header : Z; l_content : Z }.

(** poseidon/src/http/http_request_parser.cpp:211-217 *)
Definition load_request (r : root) : option limits :=
  let* l := int_or r (txt "network.http.default_compression_level") 0 9 6 in
  let* h := int_or r (txt "network.http.max_header_length") 256 16777216 262144 in
  let* c := int_or r (txt "network.http.max_request_content_length") 256 16777216 1048576 in
  Some (mkLimits l h c).

(** poseidon/src/http/http_response_parser.cpp:111-117 *)
Definition load_response (r : root) : option limits :=
  let* l := int_or r (txt "network.http.default_compression_level") 0 9 6 in
  let* h := int_or r (txt "network.http.max_header_length") 256 16777216 262144 in
  let* c := int_or r (txt "network.http.max_response_content_length") 256 16777216 1048576 in
  Some (mkLimits l h c).

(** poseidon/src/http/websocket_frame_parser.cpp:136-140 *)
Definition load_frame (r : root) : option limits :=
  let* l := int_or r (txt "network.http.default_compression_level") 0 9 6 in
  let* c := int_or r (txt "network.http.max_websocket_message_length") 256 16777216 1048576 in
  Some (mkLimits l 0 c).

(** *** The logger *)

(** [X_Level_Config]. poseidon/src/static/logger.cpp:12-19 *)
Record level := mkLevel { v_tag : list Z; v_color : list Z; v_expendable : bool; v_files : list (list Z) }.

(** The names of levels. logger.cpp:234 *)
Definition names : list (list Z) := [txt "fatal"; txt "error"; txt "warn"; txt "info"; txt "debug"; txt "trace"].

(** [sformat("logger.$1.files[$2]", name, k)]. logger.cpp:246 *)
Definition file_path (name : list Z) (k : nat) : list Z :=
  txt "logger." ++ name ++ txt ".files[" ++ put_du 20 (Z.of_nat k) ++ txt "]".

(** The loop over files: [n] more, from index [k]. logger.cpp:245-248 *)
Fixpoint load_files (r : root) (name : list Z) (n k : nat) : option (list (list Z)) :=
  match n with
  | O => Some []
  | S n =>
    match get_string r false (file_path name k) with
    | Got _ f => let* l := load_files r name n (S k) in Some (f :: l)
    | _ => None
    end
  end.

(** [has_stdout]. logger.cpp:247 *)
Definition is_std (f : list Z) : bool := text_eqb f (txt "/dev/stdout") || text_eqb f (txt "/dev/stderr").

(** One level. logger.cpp:236-254 *)
Definition load_level (r : root) (verbose : bool) (name : list Z) : option level :=
  let* c := str_or r (txt "logger." ++ name ++ txt ".color") [] in
  let* e := bool_or r (txt "logger." ++ name ++ txt ".expendable") false in
  let* n := value_or (get_array_size r true (txt "logger." ++ name ++ txt ".files")) O in
  let* fs := load_files r name n 0 in
  Some (mkLevel ([91] ++ name ++ [93]) c e (if verbose && negb (existsb is_std fs) then fs ++ [txt "/dev/stdout"] else fs)).

(** All levels. logger.cpp:236-255 *)
Fixpoint load_levels (r : root) (verbose : bool) (ns : list (list Z)) : option (list level) :=
  match ns with
  | [] => Some []
  | n :: ns => let* v := load_level r verbose n in let* l := load_levels r verbose ns in Some (v :: l)
  end.

(** [level_bits], from level [k]. logger.cpp:257-260 *)
Fixpoint bits_of (k : Z) (l : list level) : Z :=
  match l with
  | [] => 0
  | v :: l => Z.lor (match v_files v with [] => 0 | _ => Z.shiftl 1 k end) (bits_of (k + 1) l)
  end.

(** *** Everything *)

(** All components; [m_sched_mutex] of the logger is held by a thread that
    loads its configuration if [s_busy]. main.cpp:47-57 of fwd.cpp has the objects *)
Record st := mkSt {
  s_main : root; s_levels : list level; s_bits : Z; s_busy : bool;
  s_mysql : mysql; s_mongo : db; s_redis : db; s_net : net; s_fiber : fiber }.

(** Before anything is loaded: the constructors; mysql_connector.hpp:14-21, network_scheduler.hpp:16-19, fiber_scheduler.hpp:16-18 *)
Definition init : st := mkSt [] [] 0 false mysql0 db0 db0 net0 fiber0.

(** What threads do. A file is [None] if it cannot be read or has a syntax error.
    [Log_begin] is logger.cpp:228-230 and [Log_end] is logger.cpp:232-267: others may
    act in between, and see the level bits.  The others have an effect only
    once, when they have locked the mutex of their component. *)
Inductive event :=
  | Main (file : option root)
  | Log_begin
  | Log_end (r : root) (verbose : bool)
  | Mysql (r : root)
  | Mongo (r : root)
  | Redis (r : root)
  | Net (r : root) (o : ssl)
  | Fiber (r : root) (rlim : option Z).

(** One step. [None]: the thread has to wait, or cannot do this.
    main_config.cpp:19-30; logger.cpp:226-268; mysql_connector.cpp:71-80; mongo_connector.cpp:57-62;
    redis_connector.cpp:52-57; network_scheduler.cpp:208-213; fiber_scheduler.cpp:270-274 *)
Definition step (s : st) (e : event) : option st :=
  match e with
  | Main None => Some s
  | Main (Some r) => Some (mkSt r (s_levels s) (s_bits s) (s_busy s) (s_mysql s) (s_mongo s) (s_redis s) (s_net s) (s_fiber s))
  | Log_begin =>
    if s_busy s then None
    else Some (mkSt (s_main s) (s_levels s) 4294967295 true (s_mysql s) (s_mongo s) (s_redis s) (s_net s) (s_fiber s))
  | Log_end r v =>
    if s_busy s then
      match load_levels r v names with
      | Some l => Some (mkSt (s_main s) l (bits_of 0 l) false (s_mysql s) (s_mongo s) (s_redis s) (s_net s) (s_fiber s))
      | None => Some (mkSt (s_main s) (s_levels s) (s_bits s) false (s_mysql s) (s_mongo s) (s_redis s) (s_net s) (s_fiber s))
      end
    else None
  | Mysql r =>
    match load_mysql r with
    | Some c => Some (mkSt (s_main s) (s_levels s) (s_bits s) (s_busy s) c (s_mongo s) (s_redis s) (s_net s) (s_fiber s))
    | None => Some s
    end
  | Mongo r =>
    match load_mongo r with
    | Some c => Some (mkSt (s_main s) (s_levels s) (s_bits s) (s_busy s) (s_mysql s) c (s_redis s) (s_net s) (s_fiber s))
    | None => Some s
    end
  | Redis r =>
    match load_redis r with
    | Some c => Some (mkSt (s_main s) (s_levels s) (s_bits s) (s_busy s) (s_mysql s) (s_mongo s) c (s_net s) (s_fiber s))
    | None => Some s
    end
  | Net r o =>
    match load_net r o with
    | Some c => Some (mkSt (s_main s) (s_levels s) (s_bits s) (s_busy s) (s_mysql s) (s_mongo s) (s_redis s) c (s_fiber s))
    | None => Some s
    end
  | Fiber r l =>
    match load_fiber r l with
    | Some c => Some (mkSt (s_main s) (s_levels s) (s_bits s) (s_busy s) (s_mysql s) (s_mongo s) (s_redis s) (s_net s) c)
    | None => Some s
    end
  end.

(** Not in the code: a history, since main.cpp:523 *)
Fixpoint run (s : st) (es : list event) : option st :=
  match es with
  | [] => Some s
  | e :: es => match step s e with Some s => run s es | None => None end
  end.

(** [Logger::enabled]. logger.hpp:56-61 *)
Definition enabled (s : st) (l : Z) : bool := (l <=? 15) && negb (Z.land (s_bits s) (Z.shiftl 1 l) =? 0).

(** The files that a message of a level is written to.
    logger.cpp:283-296, 341-355: nothing is written for a level that does not exist *)
Definition files_of (s : st) (l : nat) : list (list Z) :=
  match nth_error (s_levels s) l with Some v => v_files v | None => [] end.

(** *** Contexts and who uses them *)

(** A context is named by a number.  The fields of the scheduler, the
    references that sockets have, the reference count that OpenSSL keeps of
    each context, and the contexts that were freed. network_scheduler.hpp:18-19; network_scheduler.cpp:68-95, 205-214 *)
Record refs := mkRefs {
  r_server : option nat; r_client : option nat; r_users : list nat; r_count : nat -> nat; r_freed : list nat; r_next : nat }.

(** network_scheduler.hpp:18-19 *)
Definition refs0 : refs := mkRefs None None [] (fun _ => O) [] O.

(** Not in the code: an update of a function, for [SSL_CTX_new], [SSL_CTX_up_ref] and [SSL_CTX_free],
    network_scheduler.cpp:66, 81, 129, 177. *)
Definition set (f : nat -> nat) (k v : nat) (x : nat) : nat := if Nat.eqb x k then v else f x.

(** [SSL_CTX_new]. network_scheduler.cpp:129, 177 *)
Definition ctx_new (s : refs) : refs * nat :=
  (mkRefs (r_server s) (r_client s) (r_users s) (set (r_count s) (r_next s) 1) (r_freed s) (S (r_next s)), r_next s).

(** [SSL_CTX_up_ref]. network_scheduler.cpp:66, 81 *)
Definition ctx_up (s : refs) (c : nat) : refs :=
  mkRefs (r_server s) (r_client s) (r_users s) (set (r_count s) c (S (r_count s c))) (r_freed s) (r_next s).

(** [SSL_CTX_free], which a [uniptr_SSL_CTX] calls; the context is freed when nothing refers to it.
    fwd.hpp: the deleter; network_scheduler.cpp:214 *)
Definition ctx_free (s : refs) (c : option nat) : refs :=
  match c with
  | None => s
  | Some c =>
    let n := Nat.pred (r_count s c) in
    mkRefs (r_server s) (r_client s) (r_users s) (set (r_count s) c n)
           (match n with O => c :: r_freed s | _ => r_freed s end) (r_next s)
  end.

(** What happens: [reload] makes contexts, as [load_server] and [load_client] tell,
    and succeeds or not; a socket asks for a context, or is destroyed. network_scheduler.cpp:68-95, 205-214 *)
Inductive use :=
  | Reload (server client ok : bool)
  | Get_server
  | Get_client
  | Drop (c : nat).

(** Removes one element. Not in the code: for [Drop]. network_scheduler.cpp:68-95 *)
Fixpoint remove_one (c : nat) (l : list nat) : list nat :=
  match l with [] => [] | x :: l => if Nat.eqb x c then l else x :: remove_one c l end.

(** [None]: an exception, or nothing to do.  A context of a [reload] that failed
    is freed at once; otherwise it is the former one that is freed.
    network_scheduler.cpp:56-92, 97-214 *)
Definition act (s : refs) (u : use) : option refs :=
  match u with
  | Reload sv cl ok =>
    let '(s, a) := if sv then let '(s, c) := ctx_new s in (s, Some c) else (s, None) in
    let '(s, b) := if cl then let '(s, c) := ctx_new s in (s, Some c) else (s, None) in
    if ok then
      Some (ctx_free (ctx_free (mkRefs a b (r_users s) (r_count s) (r_freed s) (r_next s)) (r_client s)) (r_server s))
    else Some (ctx_free (ctx_free s b) a)
  | Get_server =>
    match r_server s with
    | Some c => let s := ctx_up s c in Some (mkRefs (r_server s) (r_client s) (c :: r_users s) (r_count s) (r_freed s) (r_next s))
    | None => None
    end
  | Get_client =>
    match r_client s with
    | Some c => let s := ctx_up s c in Some (mkRefs (r_server s) (r_client s) (c :: r_users s) (r_count s) (r_freed s) (r_next s))
    | None => None
    end
  | Drop c =>
    if existsb (Nat.eqb c) (r_users s)
    then Some (ctx_free (mkRefs (r_server s) (r_client s) (remove_one c (r_users s)) (r_count s) (r_freed s) (r_next s)) (Some c))
    else None
  end.

(** Not in the code: a history of [act], network_scheduler.cpp:56-214; what fails has no effect. *)
Fixpoint acts (s : refs) (us : list use) : refs :=
  match us with
  | [] => s
  | u :: us => acts (match act s u with Some s => s | None => s end) us
  end.
