(** Model of connections to databases, the futures that run a query, and the pools that connections come from and go to.
    poseidon/src/mysql/mysql_connection.cpp, redis/redis_connection.cpp, mongo/mongo_connection.cpp;
    poseidon/src/fiber/mysql_query_future.cpp, redis_query_future.cpp, mongo_query_future.cpp.
    The pools are those of PoolModel.v; the conversion of arguments, rows, replies and documents is that of MysqlModel.v, RedisModel.v
    and MongoModel.v.  Servers are arguments. *)
From Coq Require Import ZArith List Bool String.
From Verif Require Import Text.
From Verif Require PoolModel NetrefModel MysqlModel RedisModel MongoModel DateModel.
Import ListNotations.
Open Scope list_scope.
Open Scope Z_scope.
Notation length := List.length.

(** ** Service URIs. mysql_connection.cpp:49-52; redis_connection.cpp:47-50 *)

Record params := mkParams { p_user : list Z; p_host : list Z; p_port : Z; p_database : list Z }.

(** Where the first at sign or slash is.
    mysql_connection.cpp:55; redis_connection.cpp:53 *)
Fixpoint find_mark (s : list Z) : option (nat * Z) :=
  match s with
  | [] => None
  | c :: s => if (c =? 64) || (c =? 47) then Some (O, c) else match find_mark s with Some (t, c) => Some (S t, c) | None => None end
  end.
(** utils.hpp:159-168 *)
Definition view (s : list Z) (v : nat * nat) : list Z := firstn (snd v) (skipn (fst v) s).
(** mysql_connection.cpp:68, 71, 74; redis_connection.cpp:66, 69, 72 *)
Definition nonempty (v : option (nat * nat)) : option (nat * nat) := match v with Some (p, S n) => Some (p, S n) | _ => None end.

(** [None] if the URI is refused.
    mysql_connection.cpp:48-75; redis_connection.cpp:46-73 *)
Definition service_params (defaults : params) (uri : list Z) : option params :=
  let '(user, uri) :=
    match find_mark uri with
    | Some (t, 64) => (firstn t uri, skipn (S t) uri)
    | _ => (p_user defaults, uri)
    end in
  let '(ref, n) := NetrefModel.parse_ref uri in
  if (n =? length uri)%nat then
    Some (mkParams user
      (match nonempty (NetrefModel.r_host ref) with Some v => view uri v | None => p_host defaults end)
      (match nonempty (NetrefModel.r_port ref), NetrefModel.r_num ref with Some _, Some x => x | _, _ => p_port defaults end)
      (match nonempty (NetrefModel.r_path ref) with Some v => skipn 1 (view uri v) | None => p_database defaults end))
  else None.

(** mysql_connection.cpp:49-52 *)
Definition mysql_defaults : params := mkParams (txt "root") (txt "localhost") 3306 [].
(** redis_connection.cpp:47-50 *)
Definition redis_defaults : params := mkParams (txt "default") (txt "localhost") 6379 (txt "0").

(** [c_str()]: what a C library sees of a string. mysql_connection.cpp:78-79; redis_connection.cpp:76, 91-92, 107 *)
Fixpoint c_str (s : list Z) : list Z :=
  match s with [] => [] | c :: s => if c =? 0 then [] else c :: c_str s end.

(** What may happen to a call of a client library: it works unless the server objects, it fails (because memory is exhausted, for example),
    the connection breaks before the server gets the request, or it breaks before the client gets the answer. mysql_connection.cpp:78-186; redis_connection.cpp:76-143; mongo_connection.cpp:80, 276 *)
Inductive luck := Works | Fails | Breaks | Loses.

(** ** MySQL *)

Section Mysql.
  (** [D] is what is stored by the server; [T] is what a session has besides its current database: variables, temporary tables, locks,
      a transaction. *)
  Variables D T : Type.
  (** mysql_connection.cpp:79, 241 *)
  Notation name := (list Z).
  (** mysql_connection.cpp:235-241, 264-274 *)
  Notation column := (name * MysqlModel.field)%type.
  (** The result of a statement: the numbers of warnings and of rows that are affected, the last inserted identifier, and rows.
      Further result sets of stored procedures are not modelled. mysql_connection.cpp:194, 206, 217, 327 *)
  Record result := mkResult { warnings : Z; matched : Z; inserted : Z; rows : list (list MysqlModel.cell) }.
  (** The server: whom it admits; what a new session has; how many parameters and which columns a statement has, if it is valid;
      what it does, and [None] if it reports an error; and what remains of the data after the end of a session, which rolls back
      its transaction. *)
  Variables (admits : D -> params -> list Z -> bool) (fresh : params -> T)
            (prepare : D -> name -> T -> list Z -> option (nat * list column))
            (perform : D -> name -> T -> list Z -> list MysqlModel.sent -> D * name * T * option result)
            (undo : D -> T -> D).
  (** The time zone, and what is in new elements of a string *)
  Variables (off : Z -> Z) (timelocal : DateModel.tm -> Z) (filler : Z).

  (** A connection to the server that has been established; [up] is false if it has been lost. mysql_connection.cpp:78-88 *)
  Record link := mkLink { up : bool; self : params; current : name; rest : T }.
  (** [MYSQL_STMT]: its columns; its result if it has been executed, and the rows that have not been fetched. mysql_connection.cpp:93-103 *)
  Record stmt := mkStmt { columns : list column; outcome : option result; ahead : list (list MysqlModel.cell) }.
  (** [m_connected] says that there is a [link].  [m_res] is never set.
      mysql_connection.hpp:16-27 *)
  Record mysql := mkMysql { m_uri : list Z; m_password : list Z; m_link : option link; m_stmt : option stmt; m_meta : option (list column) }.
  (** mysql_connection.cpp:10-17 *)
  Definition mysql_new (uri password : list Z) : mysql := mkMysql uri password None None None.
  (** Not in the code: an update of mysql_connection.cpp:88. *)
  Definition set_link (c : mysql) (l : option link) := mkMysql (m_uri c) (m_password c) l (m_stmt c) (m_meta c).
  (** mysql_connection.cpp:32, 93 *)
  Definition set_stmt (c : mysql) (s : option stmt) := mkMysql (m_uri c) (m_password c) (m_link c) s (m_meta c).
  (** mysql_connection.cpp:31, 177, 230, 261 *)
  Definition set_meta (c : mysql) (m : option (list column)) := mkMysql (m_uri c) (m_password c) (m_link c) (m_stmt c) m.
  (** mysql_connection.cpp:35, 99, 182, 327, when the server is gone *)
  Definition broken (c : mysql) : mysql :=
    set_link c (match m_link c with Some l => Some (mkLink false (self l) (current l) (rest l)) | None => None end).

  (** mysql_connection.cpp:78, 93, 99, 169, 182 *)
  Record mysql_luck := mkMysqlLuck { on_connect : luck; on_init : luck; on_prepare : luck; on_bind : luck; on_execute : luck }.

  (** What a query future stores, and whether an exception has been thrown.  The numbers are not set by the constructor.
      mysql_query_future.hpp:15-27 *)
  Record report := mkReport { numbers : option (Z * Z * Z); names : list name; table : list (list MysqlModel.value); failed : bool }.

  (** mysql_connection.cpp:24-374; mysql_query_future.cpp:35-52 *)
  Inductive mysql_answer :=
  | Threw
  | Undefined
  | Executed
  | Fields (o : option (list name))
  | Row (o : option (list MysqlModel.value))
  | Was_reset (ok : bool)
  | Result (r : report).

  (** The first part of [execute]
      mysql_connection.cpp:47-90 *)
  Definition mysql_connect (d : D) (c : mysql) (l : luck) : option mysql :=
    match m_link c with
    | Some _ => Some c
    | None =>
        match service_params mysql_defaults (m_uri c) with
        | None => None
        | Some p =>
            let p := mkParams (c_str (p_user p)) (c_str (p_host p)) (p_port p) (c_str (p_database p)) in
            match l with
            | Works =>
                if admits d p (c_str (m_password c)) then
                  Some (mkMysql (m_uri c) [] (Some (mkLink true p (p_database p) (fresh p))) (m_stmt c) (m_meta c))
                else None
            | _ => None
            end
        end
    end.

  (** The last component says what becomes of [m_reset_clear], if it changes.
      mysql_connection.cpp:40-187.  The statement that is replaced is closed, and rows that have not been fetched are discarded. *)
  Definition mysql_execute (d : D) (c : mysql) (text : list Z) (args : list MysqlModel.value) (l : mysql_luck) : D * mysql * mysql_answer * option bool :=
    match text with
    | [] => (d, c, Threw, None)
    | _ =>
      match mysql_connect d c (on_connect l) with
      | None => (d, c, Threw, None)
      | Some c =>
        match on_init l, m_link c with
        | Works, Some k =>
            let c := set_stmt c (Some (mkStmt [] None [])) in
            match on_prepare l, up k with
            | Works, true =>
                match prepare d (current k) (rest k) text with
                | None => (d, c, Threw, None)
                | Some (n, cols) =>
                    let c := set_stmt c (Some (mkStmt cols None [])) in
                    match MysqlModel.execute off n args with
                    | MysqlModel.Throws => (d, c, Threw, None)
                    | MysqlModel.Undefined => (d, c, Undefined, None)
                    | MysqlModel.Sends xs =>
                        match on_bind l with
                        | Works =>
                            let c := set_meta c None in
                            match on_execute l with
                            | Works =>
                                let '(d, db, t, r) := perform d (current k) (rest k) text xs in
                                let c := set_link c (Some (mkLink true (self k) db t)) in
                                match r with
                                | None => (d, c, Threw, Some false)
                                | Some r => (d, set_stmt c (Some (mkStmt cols (Some r) (rows r))), Executed, Some false)
                                end
                            | Fails => (d, c, Threw, Some false)
                            | Breaks => (d, broken c, Threw, Some false)
                            | Loses => (fst (fst (fst (perform d (current k) (rest k) text xs))), broken c, Threw, Some false)
                            end
                        | _ => (d, c, Threw, None)
                        end
                    end
                end
            | Breaks, _ | Loses, _ => (d, broken c, Threw, None)
            | _, _ => (d, c, Threw, None)
            end
        | _, _ => (d, set_stmt c None, Threw, None)
        end
      end
    end.

  (** [m_meta], which is created if there is none; there is none for statements without columns.
      mysql_connection.cpp:229-233, 260-264 *)
  Definition metadata (c : mysql) (s : stmt) : option (list column) :=
    match m_meta c with Some m => Some m | None => match columns s with [] => None | l => Some l end end.

  (** mysql_connection.cpp:189-218 *)
  Definition mysql_numbers (c : mysql) : Z * Z * Z :=
    match m_stmt c with Some (mkStmt _ (Some r) _) => (warnings r, matched r, inserted r) | _ => (0, 0, 0) end.

  (** It is not defined what is beyond the end of the metadata.
      mysql_connection.cpp:220-245 *)
  Definition mysql_fields (c : mysql) : mysql * mysql_answer :=
    match m_stmt c with
    | None => (c, Fields None)
    | Some s =>
        let c := set_meta c (metadata c s) in
        match m_meta c with
        | None => (c, Fields None)
        | Some m => if (length m <? length (columns s))%nat then (c, Undefined) else (c, Fields (Some (map fst (firstn (length (columns s)) m))))
        end
    end.

  (** A row whose values are not of the types of its columns is not modelled.
      mysql_connection.cpp:247-374 *)
  Definition mysql_row (c : mysql) (l : luck) : mysql * mysql_answer :=
    match m_stmt c with
    | None => (c, Row None)
    | Some s =>
        let c := set_meta c (metadata c s) in
        match columns s, m_meta c with
        | [], _ | _, None => (c, Row None)
        | _, Some m =>
            if (length m <? length (columns s))%nat then (c, Undefined)
            else
              match outcome s, l, ahead s with
              | None, _, _ => (c, Threw)
              | _, Fails, _ => (c, Threw)
              | _, Breaks, _ | _, Loses, _ => (broken c, Threw)
              | _, Works, [] => (c, Row None)
              | _, Works, x :: ahead =>
                  let c := set_stmt c (Some (mkStmt (columns s) (outcome s) ahead)) in
                  match MysqlModel.fetch_row timelocal filler (map snd (firstn (length (columns s)) m)) x with
                  | Some v => (c, Row (Some v))
                  | None => (c, Undefined)
                  end
              end
        end
    end.

  (** [mysql_reset_connection] ends the transaction and gives up variables, temporary tables and locks, but it does not change the current database.
      mysql_connection.cpp:24-38 *)
  Definition mysql_reset (d : D) (c : mysql) (l : luck) : D * mysql * mysql_answer * option bool :=
    let c := set_stmt (set_meta c None) None in
    match m_link c with
    | None => (d, c, Was_reset true, Some true)
    | Some k =>
        match l, up k with
        | Works, true => (undo d (rest k), set_link c (Some (mkLink true (self k) (current k) (fresh (self k)))), Was_reset true, Some true)
        | Loses, true => (undo d (rest k), broken c, Was_reset false, Some false)
        | Breaks, _ | Loses, _ => (d, broken c, Was_reset false, Some false)
        | _, _ => (d, c, Was_reset false, Some false)
        end
    end.

  (** The loop of [do_on_abstract_future_initialize]; [ls] says what happens to each fetch, and all work after its end.
      mysql_query_future.cpp:49-51 *)
  Fixpoint mysql_loop (fuel : nat) (c : mysql) (ls : list luck) (acc : list (list MysqlModel.value)) : mysql * list (list MysqlModel.value) * mysql_answer :=
    match fuel with
    | O => (c, acc, Undefined)
    | S fuel =>
        match mysql_row c (hd Works ls) with
        | (c, Row (Some v)) => mysql_loop fuel c (tl ls) (acc ++ [v])
        | (c, a) => (c, acc, a)
        end
    end.
  (** [do_on_abstract_future_initialize]
      mysql_query_future.cpp:35-52 *)
  Definition mysql_query (d : D) (c : mysql) (text : list Z) (args : list MysqlModel.value) (l : mysql_luck) (ls : list luck) : D * mysql * mysql_answer * option bool :=
    match mysql_execute d c text args l with
    | (d, c, Executed, b) =>
        let n := mysql_numbers c in
        match mysql_fields c with
        | (c, Fields f) =>
            let f := match f with Some f => f | None => [] end in
            let fuel := match m_stmt c with Some s => S (length (ahead s)) | None => O end in
            match mysql_loop fuel c ls [] with
            | (c, t, Row None) => (d, c, Result (mkReport (Some n) f t false), b)
            | (c, t, Threw) => (d, c, Result (mkReport (Some n) f t true), b)
            | (c, _, _) => (d, c, Undefined, b)
            end
        | (c, _) => (d, c, Undefined, b)
        end
    | (d, c, Threw, b) => (d, c, Result (mkReport None [] [] true), b)
    | (d, c, _, b) => (d, c, Undefined, b)
    end.

  (** What the owner of a connection does with it: run a future, or call its functions. mysql_connection.hpp:31-88; mysql_query_future.cpp:35-63 *)
  Inductive mysql_op :=
  | My_query (text : list Z) (args : list MysqlModel.value) (l : mysql_luck) (ls : list luck)
  | My_execute (text : list Z) (args : list MysqlModel.value) (l : mysql_luck)
  | My_fields
  | My_row (l : luck)
  | My_reset (l : luck).
  (** mysql_connection.cpp:24-374; mysql_query_future.cpp:35-63 *)
  Definition mysql_act (d : D) (c : mysql) (o : mysql_op) : D * mysql * mysql_answer * option bool :=
    match o with
    | My_query text args l ls => mysql_query d c text args l ls
    | My_execute text args l => mysql_execute d c text args l
    | My_fields => let '(c, a) := mysql_fields c in (d, c, a, None)
    | My_row l => let '(c, a) := mysql_row c l in (d, c, a, None)
    | My_reset l => mysql_reset d c l
    end.
End Mysql.
Arguments mkLink {T}.
Arguments up {T}.
Arguments self {T}.
Arguments current {T}.
Arguments rest {T}.
Arguments mkMysql {T}.
Arguments m_uri {T}.
Arguments m_password {T}.
Arguments m_link {T}.
Arguments m_stmt {T}.
Arguments m_meta {T}.
Arguments mysql_new {T}.
Arguments set_link {T}.
Arguments set_stmt {T}.
Arguments set_meta {T}.
Arguments broken {T}.
Arguments metadata {T}.
Arguments mysql_numbers {T}.
Arguments mysql_fields {T}.
Arguments mysql_row {T}.
Arguments mysql_loop {T}.
Arguments mysql_connect {D T}.
Arguments mysql_execute {D T}.
Arguments mysql_reset {D T}.
Arguments mysql_query {D T}.
Arguments mysql_act {D T}.

(** What is a call of [reset]. mysql_connection.cpp:24-38 *)
Definition mysql_resets (o : mysql_op) : bool := match o with My_reset _ => true | _ => false end.

(** ** Redis *)

Section Redis.
  Variables D S : Type.
  (** The server: a new session, and what a command does and which replies are sent *)
  Variables (greet : S) (perform : D -> S -> list (list Z) -> D * S * list RedisModel.reply).

  (** [redisContext]: [err] is not zero; the session; and replies that have not been read. redis_connection.cpp:76, 82, 136-143 *)
  Record context := mkContext { err : bool; session : S; unread : list RedisModel.reply }.
  (** redis_connection.hpp:17-23 *)
  Record redis := mkRedis { r_uri : list Z; r_password : list Z; r_connected : bool; r_context : option context; r_reply : option RedisModel.reply }.
  (** redis_connection.cpp:10-17 *)
  Definition redis_new (uri password : list Z) : redis := mkRedis uri password false None None.

  (** redis_connection.cpp:24-229 *)
  Inductive redis_answer :=
  | R_threw
  | R_undefined
  | R_executed
  | R_reply (o : option (list Z * RedisModel.value))
  | R_was_reset (ok : bool).

  (** [redisCommand] and [redisCommandArgv]: the command is sent, and one reply is read.  If there is none, the call ends when the connection does.  After
      an error nothing works. redis_connection.cpp:90-92, 106-107, 136-139 *)
  Definition redis_call (d : D) (x : context) (cmd : list (list Z)) (l : luck) : D * context * option RedisModel.reply :=
    if err x then (d, x, None)
    else
      match l with
      | Works =>
          let '(d, s, rs) := perform d (session x) cmd in
          match unread x ++ rs with
          | r :: u => (d, mkContext false s u, Some r)
          | [] => (d, mkContext true s [], None)
          end
      | Loses => let '(d, s, _) := perform d (session x) cmd in (d, mkContext true s (unread x), None)
      | _ => (d, mkContext true (session x) (unread x), None)
      end.

  (** redis_connection.cpp:76, 90, 106, 136 *)
  Record redis_luck := mkRedisLuck { on_redis_connect : luck; on_auth : luck; on_select : luck; on_command : luck }.

  (** One of the commands after connecting, if it is needed: the connection and whether it went well
      redis_connection.cpp:88-117 *)
  Definition redis_greeting (d : D) (c : redis) (x : context) (needed : bool) (cmd : list (list Z)) (l : luck) : D * redis * option context :=
    if needed then
      let '(d, x, r) := redis_call d x cmd l in
      let c := mkRedis (r_uri c) (r_password c) (r_connected c) (Some x) r in
      match r with
      | None | Some (RedisModel.Reply_error _) => (d, c, None)
      | Some _ => (d, c, Some x)
      end
    else (d, c, Some x).

  (** redis_connection.cpp:45-122 *)
  Definition redis_connect (d : D) (c : redis) (l : redis_luck) : D * redis * option context :=
    if r_connected c then (d, c, r_context c)
    else
      match service_params redis_defaults (r_uri c) with
      | None => (d, c, None)
      | Some p =>
          match on_redis_connect l with
          | Fails => (d, mkRedis (r_uri c) (r_password c) false None (r_reply c), None)
          | Breaks | Loses => (d, mkRedis (r_uri c) (r_password c) false (Some (mkContext true greet [])) (r_reply c), None)
          | Works =>
              let x := mkContext false greet [] in
              let c := mkRedis (r_uri c) (r_password c) false (Some x) (r_reply c) in
              let nonempty s := match s with [] => false | _ => true end in
              match redis_greeting d c x (nonempty (r_password c)) [txt "AUTH"; c_str (p_user p); c_str (r_password c)] (on_auth l) with
              | (d, c, None) => (d, c, None)
              | (d, c, Some x) =>
                  match redis_greeting d c x (nonempty (p_database p)) [txt "SELECT"; c_str (p_database p)] (on_select l) with
                  | (d, c, None) => (d, c, None)
                  | (d, c, Some x) => (d, mkRedis (r_uri c) [] true (Some x) (r_reply c), Some x)
                  end
              end
          end
      end.

  (** redis_connection.cpp:38-149 *)
  Definition redis_execute (d : D) (c : redis) (cmd : list (list Z)) (l : redis_luck) : D * redis * redis_answer * option bool :=
    match cmd with
    | [] => (d, c, R_threw, None)
    | _ =>
        match redis_connect d c l with
        | (d, c, None) => (d, c, R_threw, None)
        | (d, c, Some x) =>
            let '(d, x, r) := redis_call d x cmd (on_command l) in
            let c := mkRedis (r_uri c) (r_password c) (r_connected c) (Some x) r in
            match r with
            | None | Some (RedisModel.Reply_error _) => (d, c, R_threw, Some false)
            | Some _ => (d, c, R_executed, Some false)
            end
        end
    end.

  (** redis_connection.cpp:151-229 *)
  Definition redis_fetch (c : redis) : redis * redis_answer :=
    let c' := mkRedis (r_uri c) (r_password c) (r_connected c) (r_context c) None in
    match r_reply c with
    | None => (c', R_reply None)
    | Some r => match RedisModel.fetch_reply r with Some v => (c', R_reply (Some v)) | None => (c', R_undefined) end
    end.

  (** redis_connection.cpp:24-36 *)
  Definition redis_reset (c : redis) : redis * redis_answer * option bool :=
    let c := mkRedis (r_uri c) (r_password c) (r_connected c) (r_context c) None in
    let error := r_connected c && match r_context c with Some x => err x | None => false end in
    (c, R_was_reset (negb error), Some (negb error)).

  (** [do_on_abstract_future_initialize]
      redis_query_future.cpp:32-44 *)
  Definition redis_query (d : D) (c : redis) (cmd : list (list Z)) (l : redis_luck) : D * redis * redis_answer * option bool :=
    match redis_execute d c cmd l with
    | (d, c, R_executed, b) => let '(c, a) := redis_fetch c in (d, c, a, b)
    | x => x
    end.

  (** redis_connection.hpp:30-60; redis_query_future.cpp:32-55 *)
  Inductive redis_op :=
  | R_query (cmd : list (list Z)) (l : redis_luck)
  | R_execute (cmd : list (list Z)) (l : redis_luck)
  | R_fetch
  | R_reset.
  (** redis_connection.cpp:24-229; redis_query_future.cpp:32-55 *)
  Definition redis_act (d : D) (c : redis) (o : redis_op) : D * redis * redis_answer * option bool :=
    match o with
    | R_query cmd l => redis_query d c cmd l
    | R_execute cmd l => redis_execute d c cmd l
    | R_fetch => let '(c, a) := redis_fetch c in (d, c, a, None)
    | R_reset => let '(c, a, b) := redis_reset c in (d, c, a, b)
    end.
End Redis.
Arguments mkContext {S}.
Arguments err {S}.
Arguments session {S}.
Arguments unread {S}.
Arguments mkRedis {S}.
Arguments r_uri {S}.
Arguments r_password {S}.
Arguments r_connected {S}.
Arguments r_context {S}.
Arguments r_reply {S}.
Arguments redis_new {S}.
Arguments redis_fetch {S}.
Arguments redis_reset {S}.
Arguments redis_call {D S}.
Arguments redis_greeting {D S}.
Arguments redis_connect {D S}.
Arguments redis_execute {D S}.
Arguments redis_query {D S}.
Arguments redis_act {D S}.

(** redis_connection.cpp:24-36 *)
Definition redis_resets (o : redis_op) : bool := match o with R_reset => true | _ => false end.

(** ** MongoDB *)

Section Mongo.
  Variable D : Type.
  (** mongo_connection.cpp:66, 253 *)
  Notation document := (list (list Z * MongoModel.bson)).
  (** The database that a URI designates; [bson_validate_with_error]; what a command does and its reply, unless it fails; the documents
      that a reply with a cursor leads to.  The URI is assumed to be valid.  The documents are those at the time when the cursor is created. *)
  Variables (database : list Z -> list Z) (valid : document -> bool)
            (perform : D -> list Z -> document -> D * option document)
            (documents : D -> document -> list document).

  (** mongo_connection.hpp:17-25: [m_reply] if it is available, and the documents that are left of [m_cursor] *)
  Record mongo := mkMongo { g_uri : list Z; g_reply : option document; g_cursor : option (list document) }.
  (** mongo_connection.cpp:10-43 *)
  Definition mongo_new (uri password : list Z) : mongo := mkMongo uri None None.

  (** mongo_connection.cpp:50-423; mongo_query_future.cpp:32-44 *)
  Inductive mongo_answer :=
  | G_threw
  | G_undefined
  | G_executed
  | G_document (o : option MongoModel.value)
  | G_was_reset (ok : bool)
  | G_result (l : list MongoModel.value) (failed : bool).

  (** mongo_connection.cpp:64-89, 91-249 *)
  Definition mongo_execute (d : D) (c : mongo) (cmd : list (list Z * MongoModel.value)) (l : luck) : D * mongo * mongo_answer * option bool :=
    match MongoModel.compose cmd with
    | None => (d, c, G_threw, None)
    | Some b =>
        if valid b then
          let c := mkMongo (g_uri c) None None in
          match l with
          | Works =>
              match perform d (database (g_uri c)) b with
              | (d, None) => (d, c, G_threw, Some false)
              | (d, Some r) => (d, mkMongo (g_uri c) (Some r) None, G_executed, Some false)
              end
          | Loses => (fst (perform d (database (g_uri c)) b), c, G_threw, Some false)
          | _ => (d, c, G_threw, Some false)
          end
        else (d, c, G_threw, None)
    end.

  (** mongo_connection.cpp:261 *)
  Definition has_cursor (r : document) : bool := existsb (fun f => PoolModel.list_eqb (fst f) (txt "cursor")) r.
  (** mongo_connection.cpp:251-288 *)
  Definition mongo_next (d : D) (c : mongo) (l : luck) : mongo * mongo_answer * option document :=
    let from_cursor (xs : list document) :=
      match l, xs with
      | Works, [] => (mkMongo (g_uri c) None (Some []), G_document None, None)
      | Works, x :: xs => (mkMongo (g_uri c) None (Some xs), G_executed, Some x)
      | _, _ => (mkMongo (g_uri c) None (Some xs), G_threw, None)
      end in
    match g_cursor c, g_reply c with
    | Some xs, _ => from_cursor xs
    | None, None => (c, G_document None, None)
    | None, Some r => if has_cursor r then from_cursor (documents d r) else (mkMongo (g_uri c) None None, G_executed, Some r)
    end.
  (** mongo_connection.cpp:290-423 *)
  Definition mongo_fetch (d : D) (c : mongo) (l : luck) : mongo * mongo_answer :=
    match mongo_next d c l with
    | (c, a, None) => (c, a)
    | (c, _, Some x) => match MongoModel.fetch x with Some v => (c, G_document (Some v)) | None => (c, G_undefined) end
    end.

  (** mongo_connection.cpp:50-62 *)
  Definition mongo_reset (c : mongo) : mongo * mongo_answer * option bool := (mkMongo (g_uri c) None None, G_was_reset true, Some true).

  (** mongo_query_future.cpp:32-44 *)
  Fixpoint mongo_loop (fuel : nat) (d : D) (c : mongo) (ls : list luck) (acc : list MongoModel.value) : mongo * mongo_answer :=
    match fuel with
    | O => (c, G_undefined)
    | S fuel =>
        match mongo_fetch d c (hd Works ls) with
        | (c, G_document (Some v)) => mongo_loop fuel d c (tl ls) (acc ++ [v])
        | (c, G_document None) => (c, G_result acc false)
        | (c, G_threw) => (c, G_result acc true)
        | (c, _) => (c, G_undefined)
        end
    end.
  (** mongo_query_future.cpp:32-44 *)
  Definition mongo_query (d : D) (c : mongo) (cmd : list (list Z * MongoModel.value)) (l : luck) (ls : list luck) : D * mongo * mongo_answer * option bool :=
    match mongo_execute d c cmd l with
    | (d, c, G_executed, b) =>
        let fuel := match g_reply c with Some r => S (S (length (documents d r))) | None => 1%nat end in
        let '(c, a) := mongo_loop fuel d c ls [] in (d, c, a, b)
    | (d, c, G_threw, b) => (d, c, G_result [] true, b)
    | (d, c, _, b) => (d, c, G_undefined, b)
    end.

  (** mongo_connection.hpp:30-70; mongo_query_future.cpp:32-55 *)
  Inductive mongo_op :=
  | G_query (cmd : list (list Z * MongoModel.value)) (l : luck) (ls : list luck)
  | G_execute (cmd : list (list Z * MongoModel.value)) (l : luck)
  | G_fetch (l : luck)
  | G_reset.
  (** mongo_connection.cpp:50-423; mongo_query_future.cpp:32-55 *)
  Definition mongo_act (d : D) (c : mongo) (o : mongo_op) : D * mongo * mongo_answer * option bool :=
    match o with
    | G_query cmd l ls => mongo_query d c cmd l ls
    | G_execute cmd l => mongo_execute d c cmd l
    | G_fetch l => let '(c, a) := mongo_fetch d c l in (d, c, a, None)
    | G_reset => let '(c, a, b) := mongo_reset c in (d, c, a, b)
    end.
End Mongo.
Arguments mongo_execute {D}.
Arguments mongo_next {D}.
Arguments mongo_fetch {D}.
Arguments mongo_loop {D}.
Arguments mongo_query {D}.
Arguments mongo_act {D}.

(** mongo_connection.cpp:50-62 *)
Definition mongo_resets (o : mongo_op) : bool := match o with G_reset => true | _ => false end.

(** ** Users of a pool *)

Section World.
  (** Data at the server, connections, what their owners do with them, and what they get *)
  Context {D C Op A : Type}.
  (** How a connection is created, what it does, and what is a call of [reset]. mysql_connection.cpp, redis_connection.cpp:24-229 and mongo_connection.cpp:50-423 *)
  Record driver := mkDriver { create : list Z -> list Z -> C; act : D -> C -> Op -> D * C * A * option bool; resets : Op -> bool }.
  Variable K : driver.

  (** [conns] gives the state of each connection by its number in the pool; [answers] is what owners have got. redis_connector.cpp:34-156, and the same of mysql_connector.cpp and mongo_connector.cpp *)
  Record world := mkW { data : D; pool : PoolModel.st; conns : nat -> C; answers : list (nat * Op * A) }.
  (** redis_connector.cpp:23-27 *)
  Definition start (d : D) (f : PoolModel.config) (junk : C) : world := mkW d (PoolModel.init f) (fun _ => junk) [].

  (** Not in the code: which of the connections of PoolModel.v it is; redis_connector.cpp:92, 153 *)
  Fixpoint index_of (id : nat) (l : list PoolModel.conn) : option nat :=
    match l with
    | [] => None
    | c :: l => if (PoolModel.c_id c =? id)%nat then Some O else match index_of id l with Some k => Some (S k) | None => None end
    end.
  (** Not in the code: a connection changes, redis_connection.cpp:24-229 *)
  Definition update (m : nat -> C) (id : nat) (c : C) : nat -> C := fun i => if (i =? id)%nat then c else m i.

  (** Something is done to the pool; an owner does something with a connection; a future is finalized; or the data at the server changes otherwise. redis_connector.cpp:84-156; redis_query_future.cpp:32-55 *)
  Inductive event := Pool (e : PoolModel.event) | Do (id : nat) (o : Op) | Finalize (id : nat) (o : Op) | Elsewhere (d : D).

  (** A connection that an allocation creates.
      mysql_connector.cpp:115-118,131-134; redis_connector.cpp:92-95,108-111; mongo_connector.cpp *)
  Definition born (p p' : PoolModel.st) (e : PoolModel.event) (m : nat -> C) : nat -> C :=
    match e with
    | PoolModel.AllocBody k _ =>
        match nth_error (PoolModel.allocs p) k with
        | Some a => if (PoolModel.made p <? PoolModel.made p')%nat then update m (PoolModel.made p) (create K (PoolModel.a_uri a) (PoolModel.a_pass a)) else m
        | None => m
        end
    | _ => m
    end.

  (** redis_connector.cpp:84-156; redis_query_future.cpp:32-55 *)
  Definition step (w : world) (x : event) : option world :=
    match x with
    | Pool (PoolModel.Use _) | Pool (PoolModel.Reset _ _) => None
    | Pool e =>
        match PoolModel.step (pool w) e with
        | Some p => Some (mkW (data w) p (born (pool w) p e (conns w)) (answers w))
        | None => None
        end
    | Do id o =>
        match index_of id (PoolModel.held (pool w)) with
        | None => None
        | Some k =>
            let '(d, c, a, b) := act K (data w) (conns w id) o in
            Some (mkW d (match b with Some b => PoolModel.mark (pool w) k b | None => pool w end) (update (conns w) id c) (answers w ++ [(id, o, a)]))
        end
    (** [do_on_abstract_future_finalize]: the connection is offered to the pool if it could be reset.
        mysql_query_future.cpp:54-63; redis_query_future.cpp:46-55; mongo_query_future.cpp:46-55 *)
    | Finalize id o =>
        match index_of id (PoolModel.held (pool w)) with
        | None => None
        | Some k =>
            if resets K o then
              let '(d, c, a, b) := act K (data w) (conns w id) o in
              let p := match b with Some b => PoolModel.mark (pool w) k b | None => pool w end in
              match (match b with Some true => PoolModel.put_begin p k | _ => Some p end) with
              | Some p => Some (mkW d p (update (conns w) id c) (answers w ++ [(id, o, a)]))
              | None => None
              end
            else None
        end
    | Elsewhere d => Some (mkW d (pool w) (conns w) (answers w))
    end.

  (** Any number of events; redis_connector.cpp:84-156. *)
  Fixpoint run (w : world) (xs : list event) : option world :=
    match xs with
    | [] => Some w
    | x :: xs => match step w x with Some w => run w xs | None => None end
    end.
End World.
Arguments driver : clear implicits.
Arguments event : clear implicits.
Arguments world : clear implicits.
