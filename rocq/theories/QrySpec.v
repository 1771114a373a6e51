(** What users of databases rely on *)
From Coq Require Import ZArith List Bool String.
From Verif Require Import Text QryModel.
From Verif Require PoolModel NetrefSpec MysqlModel MysqlSpec RedisModel RedisSpec MongoModel MongoSpec.
Import ListNotations.
Open Scope list_scope.
Open Scope Z_scope.
Notation length := List.length.

(** The parameters that a URI of the form [[user@][host[:port][/database][?query][#fragment]]] stands for *)
Definition service (defaults : params) (user : option (list Z)) (o : option NetrefSpec.reference) : params :=
  mkParams (match user with Some u => u | None => p_user defaults end)
    (match o with Some r => NetrefSpec.host r | None => p_host defaults end)
    (match o with Some (NetrefSpec.mkReference _ _ (Some ds) _ _ _) => NetrefSpec.number ds | _ => p_port defaults end)
    (match o with Some (NetrefSpec.mkReference _ _ _ (Some p) _ _) => skipn 1 p | _ => p_database defaults end).
Definition reference_text (o : option NetrefSpec.reference) : list Z := match o with Some r => NetrefSpec.text_of r | None => [] end.
Definition service_text (user : option (list Z)) (o : option NetrefSpec.reference) : list Z :=
  match user with Some u => u ++ [64] | None => [] end ++ reference_text o.
(** Where the user ends must be clear: there is no at sign or slash in the name, and if there is no name, there is a slash before
    any at sign. *)
Definition clear_user (user : option (list Z)) (o : option NetrefSpec.reference) : Prop :=
  match user with
  | Some u => ~ In 64 u /\ ~ In 47 u
  | None => forall a b, reference_text o = a ++ 64 :: b -> In 47 a
  end.

(** What a C library gets *)
Definition as_c (p : params) : params := mkParams (c_str (p_user p)) (c_str (p_host p)) (p_port p) (c_str (p_database p)).

Section World.
  Context {D C Op A : Type}.
  Variable K : driver D C Op A.
  (** An allocation hands out a connection. *)
  Definition allocated (w1 : world D C Op A) (k : nat) (now : Z) (w2 : world D C Op A) (c : PoolModel.conn) : Prop :=
    step K w1 (Pool (PoolModel.AllocBody k now)) = Some w2 /\ PoolModel.held (pool w2) = PoolModel.held (pool w1) ++ [c].
  (** Nobody uses that connection. *)
  Definition others (id : nat) (xs : list (event D Op)) : Prop :=
    Forall (fun x => match x with Do i _ | Finalize i _ => i <> id | _ => True end) xs.
  (** Connections are put back only by futures. *)
  Definition tidy (xs : list (event D Op)) : Prop :=
    Forall (fun x => match x with Pool (PoolModel.PutBegin _) => False | _ => True end) xs.
  (** What is done with connections *)
  Definition only (P : Op -> Prop) (xs : list (event D Op)) : Prop :=
    Forall (fun x => match x with Do _ o | Finalize _ o => P o | _ => True end) xs.
End World.

(** What is visible of a query: the data and the answer *)
Definition seen {D C A B} (x : D * C * A * B) : D * A := (fst (fst (fst x)), snd (fst x)).

(** ** MySQL *)

(** No statement changes the current database.  The protocol for prepared statements of MySQL does not have [USE]. *)
Definition keeps_database {D T} (perform : D -> list Z -> T -> list Z -> list MysqlModel.sent -> D * list Z * T * option result) : Prop :=
  forall d db t s xs, snd (fst (fst (perform d db t s xs))) = db.
(** A query that has failed before it had any effect *)
Definition no_report : report := mkReport None [] [] true.
Definition lucky (l : mysql_luck) : Prop :=
  on_connect l = Works /\ on_init l = Works /\ on_prepare l = Works /\ on_bind l = Works /\ on_execute l = Works.
(** The table that a result stands for *)
Definition table_of (r : result) : list (list MysqlModel.value) := map (map MysqlSpec.cell_value) (rows r).
(** A link for a query: the one that the connection has, or a new one *)
Definition ready {D T} (admits : D -> params -> list Z -> bool) (fresh : params -> T) (d : D) (c : mysql T) (k : link T) : Prop :=
  m_link c = Some k /\ up k = true
  \/ m_link c = None /\ exists p, service_params mysql_defaults (m_uri c) = Some p /\ admits d (as_c p) (c_str (m_password c)) = true
     /\ k = mkLink true (as_c p) (p_database (as_c p)) (fresh (as_c p)).
(** Rows that fit the columns; there are none if there are no columns. *)
Definition proper (cols : list (list Z * MysqlModel.field)) (r : result) : Prop :=
  Forall (Forall2 MysqlSpec.fits (map snd cols)) (rows r) /\ (cols = [] -> rows r = []).

(** ** Redis *)

Definition is_error (r : RedisModel.reply) : bool := match r with RedisModel.Reply_error _ => true | _ => false end.
(** Commands that have one reply and do not affect the session *)
Definition plain {D S} (perform : D -> S -> list (list Z) -> D * S * list RedisModel.reply) (cmd : list (list Z)) : Prop :=
  forall d s, exists d' r, perform d s cmd = (d', s, [r]).
(** [AUTH] and [SELECT] have one reply.  If it is not an error, they change the session in a way that does not depend on the data, which they do not
    change. *)
Definition obeys {D S} (perform : D -> S -> list (list Z) -> D * S * list RedisModel.reply) (authed selected : list Z -> S -> S) : Prop :=
  (forall d s u p, exists r, perform d s [txt "AUTH"; u; p] = (d, if is_error r then s else authed u s, [r]))
  /\ (forall d s n, exists r, perform d s [txt "SELECT"; n] = (d, if is_error r then s else selected n s, [r])).
(** The session of a new connection *)
Definition at_first {S} (greet : S) (authed selected : list Z -> S -> S) (p : params) (password : list Z) : S :=
  let s := match password with [] => greet | _ => authed (c_str (p_user p)) greet end in
  match p_database p with [] => s | n => selected (c_str n) s end.
(** The server accepts the password and the database. *)
Definition welcome {D S} (perform : D -> S -> list (list Z) -> D * S * list RedisModel.reply) (greet : S) (authed : list Z -> S -> S) (d : D) (p : params) (password : list Z) : Prop :=
  (password <> [] -> forall r, snd (perform d greet [txt "AUTH"; c_str (p_user p); c_str password]) = [r] -> is_error r = false)
  /\ (p_database p <> [] -> forall r, snd (perform d (match password with [] => greet | _ => authed (c_str (p_user p)) greet end) [txt "SELECT"; c_str (p_database p)]) = [r] ->
      is_error r = false).
Definition redis_lucky (l : redis_luck) : Prop :=
  on_redis_connect l = Works /\ on_auth l = Works /\ on_select l = Works.
Definition uses_plain {D S} (perform : D -> S -> list (list Z) -> D * S * list RedisModel.reply) (o : redis_op) : Prop :=
  match o with R_query cmd _ | R_execute cmd _ => plain perform cmd | _ => True end.
(** The session for a command: that of the connection, where no reply must be left unread, or a new one *)
Definition redis_ready {D S} (perform : D -> S -> list (list Z) -> D * S * list RedisModel.reply) (greet : S) (authed selected : list Z -> S -> S) (d : D) (c : redis S) (l : redis_luck) (s : S) : Prop :=
  r_connected c = true /\ r_context c = Some (mkContext false s [])
  \/ r_connected c = false /\ redis_lucky l /\ exists p, service_params redis_defaults (r_uri c) = Some p
     /\ welcome perform greet authed d p (r_password c) /\ s = at_first greet authed selected p (r_password c).
(** The same, but nobody knows whether the connection works. *)
Definition redis_session {S} (greet : S) (authed selected : list Z -> S -> S) (c : redis S) (s : S) : Prop :=
  r_connected c = true /\ (exists e, r_context c = Some (mkContext e s []))
  \/ r_connected c = false /\ exists p, service_params redis_defaults (r_uri c) = Some p /\ s = at_first greet authed selected p (r_password c).
(** What a reply stands for: a status, or a value *)
Definition reads (r : RedisModel.reply) (x : list Z * RedisModel.value) : Prop :=
  match r with
  | RedisModel.Reply_status s => x = (s, RedisModel.Nil)
  | _ => fst x = [] /\ RedisSpec.shown r (snd x)
  end.

(** ** MongoDB *)

(** The documents that a reply stands for: those of its cursor, if it has one *)
Definition replied {D} (documents : D -> list (list Z * MongoModel.bson) -> list (list (list Z * MongoModel.bson))) (d : D) (r : list (list Z * MongoModel.bson)) : list (list (list Z * MongoModel.bson)) :=
  if in_dec (list_eq_dec Z.eq_dec) (txt "cursor") (map fst r) then documents d r else [r].
(** What becomes of a document; what it should become if it is trailing (see MongoSpec.v) *)
Definition converted (x : list (list Z * MongoModel.bson)) (v : MongoModel.value) : Prop :=
  (exists r, MongoSpec.flows x r /\ v = MongoModel.Doc r) /\ (MongoSpec.trailing x -> MongoSpec.means (MongoModel.B_document x) v).
