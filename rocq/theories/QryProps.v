(** C78, C79, C80: database connections from pools, query futures, and service URIs. *)
From Coq Require Import ZArith List Bool Lia Arith String.
From Verif Require Import Text QryModel QrySpec QryProofs QryDrvProofs QryRmProofs QryUriProofs QryLeftProofs.
From Verif Require PoolModel MysqlModel MysqlSpec MysqlProps RedisModel RedisSpec MongoModel MongoSpec MongoProps NetrefSpec FutureModel.
Import ListNotations.
Open Scope list_scope.
Open Scope Z_scope.
Notation length := List.length.

(** * C78: whatever has been done before with the connections of a pool, one that is allocated from it is as good as a new one: a query
    gives the same result and has the same effect.  Meanwhile other connections may be used and put back. *)

(** If futures put connections back, a query is always as with a new connection.  If owners put them back themselves, which they may do
    without [reset] if nothing seems to have been done, a query may fail without any effect, because the connection is broken. *)
Theorem mysql_pooled_as_new_partial {D T} (admits : D -> params -> list Z -> bool) (fresh : params -> T)
    (prepare : D -> list Z -> T -> list Z -> option (nat * list (list Z * MysqlModel.field)))
    (perform : D -> list Z -> T -> list Z -> list MysqlModel.sent -> D * list Z * T * option result)
    (undo : D -> T -> D) off timelocal filler d0 f junk xs w1 k now w2 c ys w3 text args l ls :
  let K := mkDriver mysql_new (mysql_act admits fresh prepare perform undo off timelocal filler) mysql_resets in
  let query := mysql_query admits fresh prepare perform off timelocal filler in
  keeps_database perform ->
  run K (start d0 f junk) xs = Some w1 -> allocated K w1 k now w2 c -> others (PoolModel.c_id c) ys -> run K w2 ys = Some w3 ->
  on_connect l = Works ->
  (forall p, service_params mysql_defaults (PoolModel.c_uri c) = Some p -> admits (data w3) (as_c p) (c_str (PoolModel.c_pass c)) = true) ->
  let got := seen (query (data w3) (conns w3 (PoolModel.c_id c)) text args l ls) in
  let new := seen (query (data w3) (mysql_new (PoolModel.c_uri c) (PoolModel.c_pass c)) text args l ls) in
  (got = new \/ got = (data w3, Result no_report)) /\ (tidy xs -> got = new).
Proof.
  intros K query KD R Al Ot R2 Lc Ad got new. unfold got, new.
  assert (X : forall neat, (neat = true -> tidy xs) -> myH T fresh neat c (conns w3 (PoolModel.c_id c))).
  { intros neat Ti. pose proof (my_run D T admits fresh prepare perform undo off timelocal filler neat d0 f junk xs w1 KD Ti R) as W.
    destruct (allocated_fit K (myG T fresh) (myH T fresh neat) (fun id u p => my_created D T admits fresh prepare perform undo off timelocal filler neat id u p) _ _ _ _ _ W Al) as [H L].
    rewrite (left_alone K ys w2 w3 _ Ot L R2). exact H. }
  split.
  - apply (my_as_new D T admits fresh prepare perform off timelocal filler false c _ _ text args l ls (X false ltac:(discriminate)) Lc Ad).
  - intros Ti. apply (my_as_new D T admits fresh prepare perform off timelocal filler true c _ _ text args l ls (X true (fun _ => Ti)) Lc Ad). reflexivity.
Qed.
Print Assumptions mysql_pooled_as_new_partial.

(** With Redis this holds for commands that have one reply and do not change the session, as [obeys] says. *)
Theorem redis_pooled_as_new_partial {D Ss} (greet : Ss) (perform : D -> Ss -> list (list Z) -> D * Ss * list RedisModel.reply) authed selected
    d0 f junk xs w1 k now w2 c ys w3 cmd l :
  let K := mkDriver redis_new (redis_act greet perform) redis_resets in
  obeys perform authed selected -> only (uses_plain perform) xs ->
  run K (start d0 f junk) xs = Some w1 -> allocated K w1 k now w2 c -> others (PoolModel.c_id c) ys -> run K w2 ys = Some w3 ->
  redis_lucky l ->
  (forall p, service_params redis_defaults (PoolModel.c_uri c) = Some p -> welcome perform greet authed (data w3) p (PoolModel.c_pass c)) ->
  seen (redis_query greet perform (data w3) (conns w3 (PoolModel.c_id c)) cmd l)
  = seen (redis_query greet perform (data w3) (redis_new (PoolModel.c_uri c) (PoolModel.c_pass c)) cmd l).
Proof.
  intros K Ob On R Al Ot R2 Lu W. pose proof (r_run D Ss greet perform authed selected d0 f junk xs w1 Ob On R) as Wi.
  destruct (allocated_fit K (rG Ss greet authed selected) (rH Ss greet authed selected) (fun id u p => r_created D Ss greet perform authed selected id u p) _ _ _ _ _ Wi Al) as [H L].
  apply (r_as_new D Ss greet perform authed selected); auto. rewrite (left_alone K ys w2 w3 _ Ot L R2). exact H.
Qed.
Print Assumptions redis_pooled_as_new_partial.

Theorem mongo_pooled_as_new {D} database valid perform documents (d0 : D) f junk xs w1 k now w2 c ys w3 cmd l ls :
  let K := mkDriver mongo_new (mongo_act database valid perform documents) mongo_resets in
  run K (start d0 f junk) xs = Some w1 -> allocated K w1 k now w2 c -> others (PoolModel.c_id c) ys -> run K w2 ys = Some w3 ->
  seen (mongo_query database valid perform documents (data w3) (conns w3 (PoolModel.c_id c)) cmd l ls)
  = seen (mongo_query database valid perform documents (data w3) (mongo_new (PoolModel.c_uri c) (PoolModel.c_pass c)) cmd l ls).
Proof.
  intros K R Al Ot R2. pose proof (g_run D database valid perform documents d0 f junk xs w1 R) as Wi.
  destruct (allocated_fit K gG gG (fun _ _ _ => conj eq_refl eq_refl) _ _ _ _ _ Wi Al) as [H L].
  apply g_as_new. rewrite (left_alone K ys w2 w3 _ Ot L R2). exact H.
Qed.
Print Assumptions mongo_pooled_as_new.

(** Nothing of what previous users have got is left: there is nothing to be fetched before the first query.  With MySQL and Redis this needs futures to
    put connections back. *)
Theorem mysql_nothing_left_partial {D T} (admits : D -> params -> list Z -> bool) (fresh : params -> T) prepare perform (undo : D -> T -> D) off timelocal filler d0 f junk xs w1 k now w2 c ys w3 l :
  let K := mkDriver mysql_new (mysql_act admits fresh prepare perform undo off timelocal filler) mysql_resets in
  tidy xs -> run K (start d0 f junk) xs = Some w1 -> allocated K w1 k now w2 c -> others (PoolModel.c_id c) ys -> run K w2 ys = Some w3 ->
  let mine := conns w3 (PoolModel.c_id c) in
  mysql_numbers mine = (0, 0, 0) /\ snd (mysql_fields mine) = Fields None /\ snd (mysql_row timelocal filler mine l) = Row None.
Proof.
  intros K Ti R Al Ot R2 mine. assert (H : m_stmt mine = None).
  { apply (left_clean K (fun c => m_stmt c = None)) with (d0 := d0) (f := f) (junk := junk) (xs := xs) (w1 := w1) (k := k) (now := now) (w2 := w2) (ys := ys); auto.
    intros c0 d o d' c' a Rs E. destruct o; try discriminate. cbn [act K mysql_act] in E. unfold mysql_reset in E. unfold set_stmt, set_meta, set_link, broken in E. cbn [m_link m_uri m_password m_meta m_stmt] in E.
    destruct (m_link c0) as [k0|]; [|now injection E as <- <- <-]. destruct l0, (up k0); now injection E as <- <- <-. }
  unfold mysql_numbers, mysql_fields, mysql_row. rewrite H. auto.
Qed.
Print Assumptions mysql_nothing_left_partial.
Theorem redis_nothing_left_partial {D Ss} (greet : Ss) (perform : D -> Ss -> list (list Z) -> D * Ss * list RedisModel.reply) d0 f junk xs w1 k now w2 c ys w3 :
  let K := mkDriver redis_new (redis_act greet perform) redis_resets in
  tidy xs -> run K (start d0 f junk) xs = Some w1 -> allocated K w1 k now w2 c -> others (PoolModel.c_id c) ys -> run K w2 ys = Some w3 ->
  snd (redis_fetch (conns w3 (PoolModel.c_id c))) = R_reply None.
Proof.
  intros K Ti R Al Ot R2. assert (H : r_reply (conns w3 (PoolModel.c_id c)) = None).
  { apply (left_clean K (fun c => r_reply c = None)) with (d0 := d0) (f := f) (junk := junk) (xs := xs) (w1 := w1) (k := k) (now := now) (w2 := w2) (ys := ys); auto.
    intros c0 d o d' c' a Rs E. destruct o; try discriminate. cbn [act K redis_act] in E. unfold redis_reset in E. injection E as <- <- <- _. reflexivity. }
  unfold redis_fetch. now rewrite H.
Qed.
Print Assumptions redis_nothing_left_partial.
Theorem mongo_nothing_left {D} database valid perform documents (d0 : D) f junk xs w1 k now w2 c ys w3 l :
  let K := mkDriver mongo_new (mongo_act database valid perform documents) mongo_resets in
  run K (start d0 f junk) xs = Some w1 -> allocated K w1 k now w2 c -> others (PoolModel.c_id c) ys -> run K w2 ys = Some w3 ->
  snd (mongo_fetch documents (data w3) (conns w3 (PoolModel.c_id c)) l) = G_document None.
Proof.
  intros K R Al Ot R2. destruct (g_left database valid perform documents d0 f junk xs w1 k now w2 c ys w3 R Al Ot R2) as [A B].
  unfold mongo_fetch, mongo_next. rewrite A, B. reflexivity.
Qed.
Print Assumptions mongo_nothing_left.

(** A server that stores a number.  [A] adds one; [S] gives the number and the current database; [U] changes the current database; [V] sets
    a variable of the session, which [W] gives. *)
Definition ex_admits (d : Z) (p : params) (pw : list Z) : bool := PoolModel.list_eqb pw (txt "pw").
Definition ex_fresh (p : params) : Z := 0.
Definition ex_columns (s : list Z) : list (list Z * MysqlModel.field) :=
  if PoolModel.list_eqb s (txt "S") then [(txt "n", MysqlModel.F_int); (txt "db", MysqlModel.F_other)]
  else if PoolModel.list_eqb s (txt "W") then [(txt "v", MysqlModel.F_int)] else if PoolModel.list_eqb s (txt "M") then [(txt "v", MysqlModel.F_int)] else [].
Definition ex_prepare (d : Z) (db : list Z) (t : Z) (s : list Z) : option (nat * list (list Z * MysqlModel.field)) :=
  if PoolModel.list_eqb s (txt "X") then None else Some (if PoolModel.list_eqb s (txt "V") then 1%nat else 0%nat, ex_columns s).
Definition ex_perform (use : bool) (d : Z) (db : list Z) (t : Z) (s : list Z) (xs : list MysqlModel.sent) : Z * list Z * Z * option result :=
  if PoolModel.list_eqb s (txt "A") then (d + 1, db, t, Some (mkResult 0 1 0 []))
  else if PoolModel.list_eqb s (txt "S") then (d, db, t, Some (mkResult 0 0 0 [[MysqlModel.C_int d; MysqlModel.C_bytes db]]))
  else if PoolModel.list_eqb s (txt "U") && use then (d, txt "other", t, Some (mkResult 0 0 0 []))
  else if PoolModel.list_eqb s (txt "V") then (d, db, match xs with [MysqlModel.S_int n] => n | _ => t end, Some (mkResult 0 0 0 []))
  else if PoolModel.list_eqb s (txt "W") then (d, db, t, Some (mkResult 0 0 0 [[MysqlModel.C_int t]]))
  else if PoolModel.list_eqb s (txt "M") then (d, db, t, Some (mkResult 0 0 0 [[MysqlModel.C_int 1]; [MysqlModel.C_int 2]; [MysqlModel.C_int 3]]))
  else (d, db, t, None).
Definition ex_mysql use := mkDriver mysql_new (mysql_act ex_admits ex_fresh ex_prepare (ex_perform use) (fun (d : Z) (_ : Z) => d) (fun _ => 0) (fun _ => 0) 0) mysql_resets.
Definition ex_query use := mysql_query ex_admits ex_fresh ex_prepare (ex_perform use) (fun _ => 0) (fun _ => 0) 0.
Definition ex_luck := mkMysqlLuck Works Works Works Works Works.
Definition ex_take (now : Z) : list (event Z mysql_op) := [Pool (PoolModel.AllocBegin (txt "me@host/db") (txt "pw")); Pool (PoolModel.AllocBody 0 now)].
Definition ex_conf := PoolModel.mkF 5 100.
Definition ex_junk : mysql Z := mysql_new [] [].

(** A connection is used and put back by a future, and allocated again; then another one is used. *)
Definition ex_xs : list (event Z mysql_op) :=
  ex_take 1 ++ [Do 0 (My_query (txt "A") [] ex_luck []); Do 0 (My_query (txt "V") [MysqlModel.Int 7] ex_luck []); Finalize 0 (My_reset Works); Pool (PoolModel.PutBody 0 2);
                Pool (PoolModel.AllocBegin (txt "me@host/db") (txt "pw"))].
Example mysql_pooled_as_new_case :
  keeps_database (ex_perform false) /\ tidy ex_xs
  /\ match run (ex_mysql false) (start 5 ex_conf ex_junk) ex_xs with
     | Some w1 =>
         match step (ex_mysql false) w1 (Pool (PoolModel.AllocBody 0 3)) with
         | Some w2 =>
             allocated (ex_mysql false) w1 0 3 w2 (PoolModel.mkC 0 (txt "me@host/db") (txt "pw") true)
             /\ m_link (conns w2 0%nat) <> None
             /\ seen (ex_query false (data w2) (conns w2 0%nat) (txt "W") [] ex_luck [])
                = (6, Result (mkReport (Some (0, 0, 0)) [txt "v"] [[MysqlModel.Int 0]] false))
         | None => False
         end
     | None => False
     end.
Proof.
  split; [|split; [repeat constructor|vm_compute; repeat split; discriminate]].
  intros d db t s xs. unfold ex_perform. rewrite andb_false_r. repeat (destruct (PoolModel.list_eqb s _); [reflexivity|]). reflexivity.
Qed.

(** A server that allows changing the current database keeps it: [mysql_reset_connection] does not restore it, and so the next user reads from
    and writes to the wrong database. *)
Theorem mysql_database_leaks_refuted :
  exists xs w1 w2, tidy xs /\ run (ex_mysql true) (start 5 ex_conf ex_junk) xs = Some w1
  /\ allocated (ex_mysql true) w1 0 3 w2 (PoolModel.mkC 0 (txt "me@host/db") (txt "pw") true)
  /\ seen (ex_query true (data w2) (conns w2 0%nat) (txt "S") [] ex_luck [])
     = (5, Result (mkReport (Some (0, 0, 0)) [txt "n"; txt "db"] [[MysqlModel.Int 5; MysqlModel.Blob (txt "other")]] false))
  /\ seen (ex_query true (data w2) (mysql_new (txt "me@host/db") (txt "pw")) (txt "S") [] ex_luck [])
     = (5, Result (mkReport (Some (0, 0, 0)) [txt "n"; txt "db"] [[MysqlModel.Int 5; MysqlModel.Blob (txt "db")]] false)).
Proof.
  exists (ex_take 1 ++ [Do 0 (My_query (txt "U") [] ex_luck []); Finalize 0 (My_reset Works); Pool (PoolModel.PutBody 0 2); Pool (PoolModel.AllocBegin (txt "me@host/db") (txt "pw"))]).
  eexists. eexists. split; [repeat constructor|]. split; [vm_compute; reflexivity|]. split; [split; vm_compute; reflexivity|]. split; vm_compute; reflexivity.
Qed.

(** An owner may put back a connection that broke while a statement was being prepared, because nothing has been executed; nobody resets it.  Then
    the next user gets an error. *)
Theorem mysql_broken_pooled_refuted :
  exists xs w1 w2, run (ex_mysql false) (start 5 ex_conf ex_junk) xs = Some w1
  /\ allocated (ex_mysql false) w1 0 3 w2 (PoolModel.mkC 0 (txt "me@host/db") (txt "pw") true)
  /\ seen (ex_query false (data w2) (conns w2 0%nat) (txt "S") [] ex_luck []) = (5, Result no_report)
  /\ seen (ex_query false (data w2) (mysql_new (txt "me@host/db") (txt "pw")) (txt "S") [] ex_luck [])
     = (5, Result (mkReport (Some (0, 0, 0)) [txt "n"; txt "db"] [[MysqlModel.Int 5; MysqlModel.Blob (txt "db")]] false)).
Proof.
  exists (ex_take 1 ++ [Do 0 (My_execute (txt "A") [] (mkMysqlLuck Works Works Breaks Works Works)); Pool (PoolModel.PutBegin 0); Pool (PoolModel.PutBody 0 2); Pool (PoolModel.AllocBegin (txt "me@host/db") (txt "pw"))]).
  eexists. eexists. split; [vm_compute; reflexivity|]. split; [split; vm_compute; reflexivity|]. split; vm_compute; reflexivity.
Qed.

(** Without a reset the columns of a statement that another user has prepared are visible. *)
Theorem mysql_statement_left_refuted :
  exists xs w1 w2, run (ex_mysql false) (start 5 ex_conf ex_junk) xs = Some w1
  /\ allocated (ex_mysql false) w1 0 3 w2 (PoolModel.mkC 0 (txt "me@host/db") (txt "pw") true)
  /\ snd (mysql_fields (conns w2 0%nat)) = Fields (Some [txt "n"; txt "db"]).
Proof.
  exists (ex_take 1 ++ [Do 0 (My_execute (txt "S") [] (mkMysqlLuck Works Works Works Fails Works)); Pool (PoolModel.PutBegin 0); Pool (PoolModel.PutBody 0 2); Pool (PoolModel.AllocBegin (txt "me@host/db") (txt "pw"))]).
  eexists. eexists. split; [vm_compute; reflexivity|]. split; [split; vm_compute; reflexivity|]. vm_compute; reflexivity.
Qed.

(** A Redis server with sixteen numbers.  [INCR] increments the one that is selected; [SUBSCRIBE] has a reply for each channel. *)
Definition ex_rperform (d : list Z -> Z) (s : bool * list Z) (cmd : list (list Z)) : (list Z -> Z) * (bool * list Z) * list RedisModel.reply :=
  match cmd with
  | [c; _; p] =>
      if PoolModel.list_eqb c (txt "AUTH") then
        if PoolModel.list_eqb p (txt "pw") then (d, (true, snd s), [RedisModel.Reply_status (txt "OK")]) else (d, s, [RedisModel.Reply_error (txt "ERR")])
      else if PoolModel.list_eqb c (txt "SUBSCRIBE") then (d, s, [RedisModel.Reply_integer 1; RedisModel.Reply_integer 2])
      else (d, s, [RedisModel.Reply_error (txt "ERR")])
  | [c; n] => if PoolModel.list_eqb c (txt "SELECT") then (d, (fst s, n), [RedisModel.Reply_status (txt "OK")]) else (d, s, [RedisModel.Reply_error (txt "ERR")])
  | [c] =>
      if PoolModel.list_eqb c (txt "INCR") then (fun n => if PoolModel.list_eqb n (snd s) then d n + 1 else d n, s, [RedisModel.Reply_integer (d (snd s) + 1)])
      else (d, s, [RedisModel.Reply_error (txt "ERR")])
  | _ => (d, s, [RedisModel.Reply_error (txt "ERR")])
  end.
Definition ex_greet : bool * list Z := (false, txt "0").
Definition ex_redis := mkDriver redis_new (redis_act ex_greet ex_rperform) redis_resets.
Definition ex_rluck := mkRedisLuck Works Works Works Works.
Definition ex_data (n : list Z) : Z := if PoolModel.list_eqb n (txt "3") then 30 else 0.
Definition ex_rtake (now : Z) : list (event (list Z -> Z) redis_op) := [Pool (PoolModel.AllocBegin (txt "host/3") (txt "pw")); Pool (PoolModel.AllocBody 0 now)].
Definition ex_rxs (cmd : list (list Z)) : list (event (list Z -> Z) redis_op) :=
  ex_rtake 1 ++ [Do 0 (R_query cmd ex_rluck); Finalize 0 R_reset; Pool (PoolModel.PutBody 0 2); Pool (PoolModel.AllocBegin (txt "host/3") (txt "pw"))].
(** What the next user gets from [INCR], with the connection from the pool and with a new one *)
Definition ex_next (cmd : list (list Z)) : option (redis_answer * redis_answer) :=
  match run ex_redis (start ex_data ex_conf (redis_new [] [])) (ex_rxs cmd) with
  | Some w1 =>
      match step ex_redis w1 (Pool (PoolModel.AllocBody 0 3)) with
      | Some w2 => Some (snd (seen (redis_query ex_greet ex_rperform (data w2) (conns w2 0%nat) [txt "INCR"] ex_rluck)),
                         snd (seen (redis_query ex_greet ex_rperform (data w2) (redis_new (txt "host/3") (txt "pw")) [txt "INCR"] ex_rluck)))
      | None => None
      end
  | None => None
  end.

Example redis_pooled_as_new_case :
  obeys ex_rperform (fun _ s => (true, snd s)) (fun n s => (fst s, n)) /\ only (uses_plain ex_rperform) (ex_rxs [txt "INCR"])
  /\ service_params redis_defaults (txt "host/3") = Some (mkParams (txt "default") (txt "host") 6379 (txt "3"))
  /\ (forall p, service_params redis_defaults (txt "host/3") = Some p -> welcome ex_rperform ex_greet (fun _ s => (true, snd s)) ex_data p (txt "pw"))
  /\ ex_next [txt "INCR"] = Some (R_reply (Some ([], RedisModel.Int 32)), R_reply (Some ([], RedisModel.Int 32))).
Proof.
  split; [|split; [|split; [reflexivity|split; [|vm_compute; reflexivity]]]].
  - split.
    + intros d s u p. unfold ex_rperform. change (PoolModel.list_eqb (txt "AUTH") (txt "AUTH")) with true. cbn iota. destruct (PoolModel.list_eqb p (txt "pw")); [exists (RedisModel.Reply_status (txt "OK"))|exists (RedisModel.Reply_error (txt "ERR"))]; reflexivity.
    + intros d s n. eexists (RedisModel.Reply_status (txt "OK")). reflexivity.
  - repeat constructor. intros d s. unfold ex_rperform. change (PoolModel.list_eqb (txt "INCR") (txt "INCR")) with true. cbn iota. do 2 eexists. reflexivity.
  - intros p [= <-]. split; intros _ r; vm_compute; now intros [= <-].
Qed.

(** [SELECT] is not undone by [reset], and so the next user works with the wrong database. *)
Theorem redis_selection_leaks_refuted : tidy (ex_rxs [txt "SELECT"; txt "5"])
  /\ ex_next [txt "SELECT"; txt "5"] = Some (R_reply (Some ([], RedisModel.Int 1)), R_reply (Some ([], RedisModel.Int 31))).
Proof. split; [repeat constructor|vm_compute; reflexivity]. Qed.
(** If a command has several replies, the next user gets those that have not been read, instead of their own. *)
Theorem redis_replies_leak_refuted : tidy (ex_rxs [txt "SUBSCRIBE"; txt "a"; txt "b"])
  /\ ex_next [txt "SUBSCRIBE"; txt "a"; txt "b"] = Some (R_reply (Some ([], RedisModel.Int 2)), R_reply (Some ([], RedisModel.Int 31))).
Proof. split; [repeat constructor|vm_compute; reflexivity]. Qed.

Definition ex_gperform (d : Z) (db : list Z) (b : list (list Z * MongoModel.bson)) : Z * option (list (list Z * MongoModel.bson)) :=
  match b with
  | [(k, MongoModel.B_int32 n)] => if PoolModel.list_eqb k (txt "add") then (d + n, Some [(txt "ok", MongoModel.B_int32 1)]) else (d, Some [(txt "cursor", MongoModel.B_document [])])
  | _ => (d, None)
  end.
Definition ex_documents (d : Z) (r : list (list Z * MongoModel.bson)) : list (list (list Z * MongoModel.bson)) := [[(txt "n", MongoModel.B_int64 d)]; []; [(txt "k", MongoModel.B_array [(txt "0", MongoModel.B_null)])]].
Definition ex_mongo := mkDriver mongo_new (mongo_act (fun u => u) (fun _ => true) ex_gperform ex_documents) mongo_resets.
Example mongo_pooled_as_new_case :
  match run ex_mongo (start 5 ex_conf (mongo_new [] [])) [Pool (PoolModel.AllocBegin (txt "u") []); Pool (PoolModel.AllocBody 0 1); Do 0 (G_execute [(txt "find", MongoModel.Int 1)] Works); Do 0 (G_fetch Works);
               Finalize 0 G_reset; Pool (PoolModel.PutBody 0 2); Pool (PoolModel.AllocBegin (txt "u") [])] with
  | Some w1 =>
      match step ex_mongo w1 (Pool (PoolModel.AllocBody 0 3)) with
      | Some w2 => allocated ex_mongo w1 0 3 w2 (PoolModel.mkC 0 (txt "u") [] true)
          /\ seen (mongo_query (fun u => u) (fun _ => true) ex_gperform ex_documents (data w2) (conns w2 0%nat) [(txt "add", MongoModel.Int 2)] Works []) = (7, G_result [MongoModel.Doc [(txt "ok", MongoModel.Int 1)]] false)
      | None => False
      end
  | None => False
  end.
Proof. vm_compute. repeat split. Qed.

(** * C79: a query future runs its statement at most once.  If it completes, it has all of the result; otherwise it has an exception. *)

Theorem mysql_query_complete {D T} (admits : D -> params -> list Z -> bool) (fresh : params -> T)
    (prepare : D -> list Z -> T -> list Z -> option (nat * list (list Z * MysqlModel.field)))
    (perform : D -> list Z -> T -> list Z -> list MysqlModel.sent -> D * list Z * T * option result)
    off timelocal filler d c k text args l ls n cols :
  (forall t, - 54000 <= off t < 126000) -> Forall MysqlProps.plain args ->
  text <> [] -> ready admits fresh d c k -> lucky l -> Forall (eq Works) ls ->
  prepare d (current k) (rest k) text = Some (n, cols) -> (n <= length args)%nat ->
  exists xs, Forall2 (MysqlSpec.conveys off) (firstn n args) xs
    /\ forall d' db t o, perform d (current k) (rest k) text xs = (d', db, t, o) ->
       match o with
       | None => seen (mysql_query admits fresh prepare perform off timelocal filler d c text args l ls) = (d', Result no_report)
       | Some r => proper cols r -> seen (mysql_query admits fresh prepare perform off timelocal filler d c text args l ls)
           = (d', Result (mkReport (Some (warnings r, matched r, inserted r)) (map fst cols) (table_of r) false))
       end.
Proof.
  intros Ho Pa Nt Rd Lu Lw Pr Ln. pose proof (MysqlProps.statement_arguments off n args Ho Pa) as S. replace (length args <? n)%nat with false in S by (symmetry; apply Nat.ltb_ge; exact Ln).
  destruct S as (xs & Ex & F). exists xs. split; [exact F|]. intros d' db t o Pf.
  pose proof (query_complete D T admits fresh prepare perform (fun d _ => d) off timelocal filler d c k text args l ls n cols xs Nt Rd Lu Pr Ex d' db t o Pf) as Q. destruct o as [r|]; [|exact Q].
  intros Pp. destruct (Q Pp) as (j & failed & E & A & B). rewrite (B Lw) in *. rewrite A in E by reflexivity. exact E.
Qed.
Print Assumptions mysql_query_complete.

(** Whatever happens: the query fails before it has any effect, or the statement is performed once, with the arguments.  Then the query fails
    without a result, or what it has is from the beginning of the result, and it is all of it unless there is an exception. *)
Theorem mysql_query_all_or_error {D T} (admits : D -> params -> list Z -> bool) (fresh : params -> T)
    (prepare : D -> list Z -> T -> list Z -> option (nat * list (list Z * MysqlModel.field)))
    (perform : D -> list Z -> T -> list Z -> list MysqlModel.sent -> D * list Z * T * option result)
    off timelocal filler d c text args l ls :
  (forall t, - 54000 <= off t < 126000) -> Forall MysqlProps.plain args ->
  let got := seen (mysql_query admits fresh prepare perform off timelocal filler d c text args l ls) in
  got = (d, Result no_report)
  \/ exists k n cols xs d' db t o, ready admits fresh d c k /\ prepare d (current k) (rest k) text = Some (n, cols)
     /\ (n <= length args)%nat /\ Forall2 (MysqlSpec.conveys off) (firstn n args) xs
     /\ perform d (current k) (rest k) text xs = (d', db, t, o)
     /\ (got = (d', Result no_report)
         \/ exists r, o = Some r /\ (proper cols r ->
              exists j failed, got = (d', Result (mkReport (Some (warnings r, matched r, inserted r)) (map fst cols) (firstn j (table_of r)) failed))
                /\ (failed = false -> firstn j (table_of r) = table_of r))).
Proof.
  intros Ho Pa got. assert (NU : forall n, MysqlModel.execute off n args <> MysqlModel.Undefined).
  { intros n. pose proof (MysqlProps.statement_arguments off n args Ho Pa) as S. destruct (length args <? n)%nat; [congruence|]. destruct S as (xs & E & _). congruence. }
  destruct (query_any D T admits fresh prepare perform off timelocal filler d c text args l ls NU) as [H|(k & n & cols & xs & d' & db & t & o & Rd & Pr & Ex & Pf & H)]; [now left|].
  right. exists k, n, cols, xs, d', db, t, o. pose proof (MysqlProps.statement_arguments off n args Ho Pa) as S. destruct (Nat.ltb_spec (length args) n) as [L|L]; [congruence|].
  destruct S as (xs' & Ex' & F). assert (xs' = xs) by congruence. subst xs'. auto 10.
Qed.
Print Assumptions mysql_query_all_or_error.

Example mysql_query_case :
  ready ex_admits ex_fresh 5 (mysql_new (txt "me@host/db") (txt "pw")) (mkLink true (mkParams (txt "me") (txt "host") 3306 (txt "db")) (txt "db") 0)
  /\ lucky ex_luck /\ ex_prepare 5 (txt "db") 0 (txt "M") = Some (0%nat, [(txt "v", MysqlModel.F_int)])
  /\ proper [(txt "v", MysqlModel.F_int)] (mkResult 0 0 0 [[MysqlModel.C_int 1]; [MysqlModel.C_int 2]; [MysqlModel.C_int 3]])
  /\ seen (ex_query false 5 (mysql_new (txt "me@host/db") (txt "pw")) (txt "M") [] ex_luck []) = (5, Result (mkReport (Some (0, 0, 0)) [txt "v"] [[MysqlModel.Int 1]; [MysqlModel.Int 2]; [MysqlModel.Int 3]] false))
  /\ seen (ex_query false 5 (mysql_new (txt "me@host/db") (txt "pw")) (txt "A") [] (mkMysqlLuck Works Works Works Works Loses) []) = (6, Result no_report)
  /\ seen (ex_query false 5 (mysql_new (txt "me@host/db") (txt "pw")) (txt "V") [] ex_luck []) = (5, Result no_report).
Proof.
  split; [right; split; [reflexivity|]; exists (mkParams (txt "me") (txt "host") 3306 (txt "db")); split; [reflexivity|]; split; reflexivity|].
  split; [repeat split|]. split; [reflexivity|]. split; [split; [repeat constructor|discriminate]|]. vm_compute. auto.
Qed.

(** Unfortunately a future does not report its exception (see [future_rethrow_refuted]).  If fetching a row fails, the future has a part of the
    result, and there is nothing that says so. *)
Theorem mysql_partial_result_refuted :
  seen (ex_query false 5 (mysql_new (txt "me@host/db") (txt "pw")) (txt "M") [] ex_luck [Works; Breaks])
  = (5, Result (mkReport (Some (0, 0, 0)) [txt "v"] [[MysqlModel.Int 1]] true))
  /\ forall s e, FutureModel.run FutureModel.init [FutureModel.Enter 0; FutureModel.Leave 0 (FutureModel.Throws e)] = Some s -> FutureModel.check_success s s = FutureModel.Fine.
Proof. split; [vm_compute; reflexivity|]. intros s e [= <-]. reflexivity. Qed.
(** The same goes for a statement that has not been performed: the numbers of the result are not initialized, and there is nothing that says so. *)
Theorem mysql_no_result_refuted :
  seen (ex_query false 5 (mysql_new (txt "me@host/db") (txt "wrong")) (txt "A") [] ex_luck []) = (5, Result (mkReport None [] [] true))
  /\ forall s e, FutureModel.run FutureModel.init [FutureModel.Enter 0; FutureModel.Leave 0 (FutureModel.Throws e)] = Some s -> FutureModel.check_success s s = FutureModel.Fine.
Proof. split; [vm_compute; reflexivity|]. intros s e [= <-]. reflexivity. Qed.

(** If a statement is refused because it has too few arguments, the metadata of the previous one remain; after that, fetching the names of columns
    goes beyond their end. *)
Theorem mysql_stale_metadata_refuted :
  exists w, run (ex_mysql false) (start 5 ex_conf ex_junk)
    (ex_take 1 ++ [Do 0 (My_execute (txt "W") [] ex_luck); Do 0 My_fields; Do 0 (My_execute (txt "S") [] (mkMysqlLuck Works Works Works Fails Works)); Do 0 My_fields]) = Some w
  /\ map snd (answers w) = [Executed; Fields (Some [txt "v"]); Threw; Undefined].
Proof. eexists. split; vm_compute; reflexivity. Qed.

(** With Redis: the reply is converted, and an error is thrown.  The replies that a connection has not read must not be there before. *)
Theorem redis_query_complete {D Ss} (greet : Ss) (perform : D -> Ss -> list (list Z) -> D * Ss * list RedisModel.reply) authed selected d c l cmd s d' s' r u :
  obeys perform authed selected -> cmd <> [] -> redis_ready perform greet authed selected d c l s -> on_command l = Works ->
  perform d s cmd = (d', s', r :: u) ->
  if is_error r then seen (redis_query greet perform d c cmd l) = (d', R_threw)
  else exists x, reads r x /\ seen (redis_query greet perform d c cmd l) = (d', R_reply (Some x)).
Proof.
  intros Ob Nc Rd Lw Pf. destruct (redis_ready_connect D Ss greet perform authed selected d c l s Ob Rd) as (c1 & Ec). rewrite (query_tail D Ss greet perform d c cmd l d c1 _ Nc Ec), Lw.
  exact (tail_works D Ss perform d s cmd d' s' r u Pf).
Qed.
Print Assumptions redis_query_complete.

Theorem redis_query_all_or_error {D Ss} (greet : Ss) (perform : D -> Ss -> list (list Z) -> D * Ss * list RedisModel.reply) authed selected d c l cmd s :
  obeys perform authed selected -> redis_session greet authed selected c s ->
  let got := seen (redis_query greet perform d c cmd l) in
  got = (d, R_threw)
  \/ exists d' s' rs, perform d s cmd = (d', s', rs)
     /\ (got = (d', R_threw) \/ exists r u x, rs = r :: u /\ is_error r = false /\ reads r x /\ got = (d', R_reply (Some x))).
Proof.
  intros Ob Se got. unfold got. destruct cmd as [|w cmd]; [now left|]. destruct (session_connect D Ss greet perform authed selected d c l s Ob Se) as (c1 & o & Ec & [-> |(e & ->)]).
  - left. apply (query_failed D Ss greet perform d c (w :: cmd) l d c1 Ec). now left.
  - rewrite (query_tail D Ss greet perform d c (w :: cmd) l d c1 _ ltac:(discriminate) Ec). apply tail_any.
Qed.
Print Assumptions redis_query_all_or_error.

Example redis_query_case :
  redis_ready ex_rperform ex_greet (fun _ s => (true, snd s)) (fun n s => (fst s, n)) ex_data (redis_new (txt "host/3") (txt "pw")) ex_rluck (true, txt "3")
  /\ snd (seen (redis_query ex_greet ex_rperform ex_data (redis_new (txt "host/3") (txt "pw")) [txt "INCR"] ex_rluck)) = R_reply (Some ([], RedisModel.Int 31))
  /\ snd (seen (redis_query ex_greet ex_rperform ex_data (redis_new (txt "host/3") (txt "pw")) [txt "X"] ex_rluck)) = R_threw
  /\ snd (seen (redis_query ex_greet ex_rperform ex_data (redis_new (txt "host/3") (txt "no")) [txt "INCR"] ex_rluck)) = R_threw.
Proof.
  split; [|vm_compute; auto]. right. split; [reflexivity|]. split; [repeat split|]. exists (mkParams (txt "default") (txt "host") 6379 (txt "3")). split; [reflexivity|]. split; [|reflexivity].
  split; intros _ r; vm_compute; now intros [= <-].
Qed.

(** After an error [fetch_reply] nevertheless says that there is a reply, and gives a null value. *)
Theorem redis_error_fetched_refuted :
  exists w, run ex_redis (start ex_data ex_conf (redis_new [] [])) (ex_rtake 1 ++ [Do 0 (R_execute [txt "X"] ex_rluck); Do 0 R_fetch]) = Some w
  /\ map snd (answers w) = [R_threw; R_reply (Some ([], RedisModel.Nil))].
Proof. eexists. split; vm_compute; reflexivity. Qed.

(** With MongoDB: the documents of the cursor, or the reply itself, each converted (see C30 about the conversion) *)
Theorem mongo_query_complete {D} database valid perform documents (d : D) c cmd ls b d' r :
  MongoModel.compose cmd = Some b -> valid b = true -> Forall (eq Works) ls -> perform d (database (g_uri c)) b = (d', Some r) ->
  exists vs, seen (mongo_query database valid perform documents d c cmd Works ls) = (d', G_result vs false) /\ Forall2 converted (replied documents d' r) vs.
Proof.
  intros Co Va Lw Pf. destruct (mquery_spec D database valid perform documents d c cmd Works ls b Co Va) as [[_ X]|(d1 & o & Pf1 & H)]; [congruence|].
  rewrite Pf in Pf1. injection Pf1 as <- <-. destruct H as [[_ X]|(r1 & j & vs & failed & [= <-] & E & F & A & B)]; [discriminate (X eq_refl)|].
  rewrite (B Lw) in *. rewrite A in F by reflexivity. eauto.
Qed.
Print Assumptions mongo_query_complete.

Theorem mongo_query_all_or_error {D} database valid perform documents (d : D) c cmd l ls :
  MongoSpec.sendable (MongoModel.Doc cmd) ->
  let got := seen (mongo_query database valid perform documents d c cmd l ls) in
  got = (d, G_result [] true)
  \/ exists b d' o, MongoSpec.represents (MongoModel.B_document b) (MongoModel.Doc cmd) /\ perform d (database (g_uri c)) b = (d', o)
     /\ (got = (d', G_result [] true)
         \/ exists r j vs failed, o = Some r /\ got = (d', G_result vs failed) /\ Forall2 converted (firstn j (replied documents d' r)) vs
            /\ (failed = false -> firstn j (replied documents d' r) = replied documents d' r)).
Proof.
  intros Se got. destruct (MongoProps.mongo_execute cmd Se) as (b & Co & Re). destruct (valid b) eqn:Va.
  - destruct (mquery_spec D database valid perform documents d c cmd l ls b Co Va) as [[H _]|(d1 & o & Pf1 & H)]; [now left|]. right. exists b, d1, o. split; [exact Re|]. split; [exact Pf1|].
    destruct H as [[H _]|(r & j & vs & failed & Eo & E & F & A & _)]; [now left|]. right. exists r, j, vs, failed. auto.
  - left. apply mquery_refused. now rewrite Co.
Qed.
Print Assumptions mongo_query_all_or_error.

Example mongo_query_case :
  seen (mongo_query (fun u => u) (fun _ => true) ex_gperform ex_documents 5 (mongo_new (txt "u") []) [(txt "find", MongoModel.Int 1)] Works [])
  = (5, G_result [MongoModel.Doc [(txt "n", MongoModel.Int 5)]; MongoModel.Doc []; MongoModel.Doc [(txt "k", MongoModel.Arr [MongoModel.Null])]] false)
  /\ seen (mongo_query (fun u => u) (fun _ => true) ex_gperform ex_documents 5 (mongo_new (txt "u") []) [(txt "find", MongoModel.Int 1)] Works [Works; Breaks])
     = (5, G_result [MongoModel.Doc [(txt "n", MongoModel.Int 5)]] true)
  /\ seen (mongo_query (fun u => u) (fun _ => true) ex_gperform ex_documents 5 (mongo_new (txt "u") []) [(txt "add", MongoModel.Int 1)] Loses []) = (6, G_result [] true).
Proof. vm_compute. auto. Qed.

(** * C80: the URI of a MySQL or Redis service is accepted if and only if it has the right form, and then the user, host, port and database
    are those of the URI, or the defaults. *)
Theorem service_uris defaults uri p : service_params defaults uri = Some p <->
  exists user o, uri = service_text user o /\ clear_user user o /\ (forall r, o = Some r -> NetrefSpec.valid r) /\ p = service defaults user o.
Proof. exact (service_iff defaults uri p). Qed.
Print Assumptions service_uris.

(** What is not in the URI is the user root at localhost, port 3306, no database, for MySQL; and default at localhost, port 6379, database 0,
    for Redis. *)
Theorem service_defaults user o : clear_user user o -> (forall r, o = Some r -> NetrefSpec.valid r) ->
  service_params mysql_defaults (service_text user o) = Some (service (mkParams (txt "root") (txt "localhost") 3306 []) user o)
  /\ service_params redis_defaults (service_text user o) = Some (service (mkParams (txt "default") (txt "localhost") 6379 (txt "0")) user o).
Proof. intros C V. split; apply service_uris; exists user, o; auto. Qed.
Print Assumptions service_defaults.

Example service_uris_case :
  service_params mysql_defaults [] = Some (mkParams (txt "root") (txt "localhost") 3306 [])
  /\ service_params mysql_defaults (txt "me@") = Some (mkParams (txt "me") (txt "localhost") 3306 [])
  /\ service_params mysql_defaults (txt "me@db.example.com:33060/shop?x#y") = Some (mkParams (txt "me") (txt "db.example.com") 33060 (txt "shop"))
  /\ service_params redis_defaults (txt "host") = Some (mkParams (txt "default") (txt "host") 6379 (txt "0"))
  /\ service_params redis_defaults (txt "[::1]/a@b") = Some (mkParams (txt "default") (txt "::1") 6379 (txt "a@b"))
  /\ service_params redis_defaults (txt "host:99999") = None /\ service_params redis_defaults (txt "host/") = Some (mkParams (txt "default") (txt "host") 6379 []).
Proof. vm_compute. auto 10. Qed.

(** A database can not be given without a host, although there is a default for it; and if there is no path, an at sign in the query is
    the end of the user. *)
Theorem service_uris_refuted :
  service_params mysql_defaults (txt "me@/db") = None /\ service_params mysql_defaults (txt "/db") = None
  /\ (exists r, NetrefSpec.valid r /\ NetrefSpec.text_of r = txt "host?x=@" /\ service_params mysql_defaults (NetrefSpec.text_of r) = Some (mkParams (txt "host?x=") (txt "localhost") 3306 [])).
Proof.
  split; [vm_compute; reflexivity|]. split; [vm_compute; reflexivity|]. exists (NetrefSpec.mkReference (txt "host") false None None (Some (txt "x=@")) None).
  split; [|split; vm_compute; reflexivity]. split; [discriminate|]. split.
  - cbn [NetrefSpec.host txt]. vm_compute (txt "host"). repeat (apply Forall_cons; [left; vm_compute; intuition discriminate|]). apply Forall_nil.
  - repeat constructor.
Qed.
