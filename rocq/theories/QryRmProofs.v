(** Proofs about connections to databases, continued *)
From Coq Require Import ZArith List Bool Lia Arith String.
From Verif Require Import Text QryModel QrySpec QryProofs.
From Verif Require PoolModel PoolProofs RedisModel RedisSpec RedisProps MongoModel MongoSpec MongoProps.
Import ListNotations.
Open Scope list_scope.
Open Scope Z_scope.
Notation length := List.length.

(** ** Redis *)
Section Redis.
  Variables (D Ss : Type) (greet : Ss) (perform : D -> Ss -> list (list Z) -> D * Ss * list RedisModel.reply) (authed selected : list Z -> Ss -> Ss).
  Notation query := (redis_query greet perform).
  Notation execute := (redis_execute greet perform).
  Notation connect := (redis_connect greet perform).
  Notation K := (mkDriver redis_new (redis_act greet perform) redis_resets).
  Notation first := (at_first greet authed selected).

  Lemma greeting_spec d c s needed cmd l s' r : perform d s cmd = (d, if is_error r then s else s', [r]) ->
    let '(d', c', o) := redis_greeting perform d c (mkContext false s []) needed cmd l in
    d' = d /\ r_uri c' = r_uri c /\ r_password c' = r_password c /\ r_connected c' = r_connected c
    /\ match o with
       | Some x => x = mkContext false (if needed then s' else s) []
       | None => needed = true /\ ~ (l = Works /\ is_error r = false)
       end.
  Proof.
    intros P. unfold redis_greeting. destruct needed; [|auto 6]. unfold redis_call. cbn [err session unread]. rewrite P. cbn [app].
    destruct l; try (repeat split; auto; intros [? _]; discriminate). destruct r; cbn [is_error r_uri r_password r_connected]; repeat split; auto; intros [_ ?]; discriminate.
  Qed.

  Lemma connect_spec d c l : obeys perform authed selected -> r_connected c = false ->
    let '(d', c', o) := connect d c l in
    d' = d /\ r_uri c' = r_uri c
    /\ match o with
       | Some x => r_connected c' = true /\ r_context c' = Some x /\ exists p, service_params redis_defaults (r_uri c) = Some p /\ x = mkContext false (first p (r_password c)) []
       | None => r_connected c' = false /\ r_password c' = r_password c
           /\ (redis_lucky l -> forall p, service_params redis_defaults (r_uri c) = Some p -> ~ welcome perform greet authed d p (r_password c))
       end.
  Proof.
    intros [Oa Os] Nc. unfold redis_connect. rewrite Nc. destruct (service_params redis_defaults (r_uri c)) as [p|] eqn:Sp; [|repeat split; auto; discriminate].
    destruct (on_redis_connect l) eqn:Lc; try (cbn [r_uri r_connected r_password]; repeat split; auto; intros (L & _); congruence).
    set (c0 := mkRedis (r_uri c) (r_password c) false (Some (mkContext false greet [])) (r_reply c)).
    destruct (Oa d greet (c_str (p_user p)) (c_str (r_password c))) as (ra & Pa).
    pose proof (greeting_spec d c0 greet (match r_password c0 with [] => false | _ => true end) _ (on_auth l) _ _ Pa) as Ga. cbv zeta.
    change (r_password c0) with (r_password c) in *.
    destruct (redis_greeting perform d c0 (mkContext false greet []) (match r_password c with [] => false | _ => true end) [txt "AUTH"; c_str (p_user p); c_str (r_password c)] (on_auth l)) as [[d1 c1] [x1|]].
    2:{ destruct Ga as (-> & U & Pw & Cn & Ne & W). cbn [r_uri r_password r_connected c0] in *. repeat split; auto. intros (_ & L & _) p' [= <-] [Wa _]. apply W. split; [exact L|].
        apply Wa; [destruct (r_password c); discriminate|]. now rewrite Pa. }
    destruct Ga as (-> & U & Pw & Cn & ->). cbn [r_uri r_password r_connected c0] in *.
    set (s1 := if match r_password c with [] => false | _ => true end then authed (c_str (p_user p)) greet else greet).
    destruct (Os d s1 (c_str (p_database p))) as (rs & Ps).
    pose proof (greeting_spec d c1 s1 (match p_database p with [] => false | _ => true end) _ (on_select l) _ _ Ps) as Gs.
    destruct (redis_greeting perform d c1 (mkContext false s1 []) (match p_database p with [] => false | _ => true end) [txt "SELECT"; c_str (p_database p)] (on_select l)) as [[d2 c2] [x2|]].
    - destruct Gs as (-> & U2 & Pw2 & Cn2 & ->). cbn [r_uri r_connected r_context]. repeat split; auto; [congruence|]. exists p. split; [reflexivity|]. unfold at_first, s1. destruct (r_password c), (p_database p); reflexivity.
    - destruct Gs as (-> & U2 & Pw2 & Cn2 & Ne & W). repeat split; try congruence. intros (_ & _ & L) p' [= <-] [_ Ws]. apply W. split; [exact L|].
      apply Ws; [destruct (p_database p); discriminate|]. assert (E : s1 = match r_password c with [] => greet | _ :: _ => authed (c_str (p_user p)) greet end) by (unfold s1; destruct (r_password c); reflexivity).
      rewrite <- E, Ps. reflexivity.
  Qed.

  (** What comes after connecting *)
  Definition tail (d : D) (x : context Ss) (cmd : list (list Z)) (l : luck) : D * redis_answer :=
    let '(d, _, r) := redis_call perform d x cmd l in
    match r with
    | None | Some (RedisModel.Reply_error _) => (d, R_threw)
    | Some r => (d, match RedisModel.fetch_reply r with Some v => R_reply (Some v) | None => R_undefined end)
    end.
  Lemma query_tail d c cmd l d1 c1 x : cmd <> [] -> connect d c l = (d1, c1, Some x) -> seen (query d c cmd l) = tail d1 x cmd (on_command l).
  Proof.
    intros N E. unfold redis_query, redis_execute. destruct cmd as [|w cmd]; [congruence|]. rewrite E. unfold tail. destruct (redis_call perform d1 x (w :: cmd) (on_command l)) as [[d2 x2] [r|]]; [|reflexivity].
    destruct r; try reflexivity; unfold redis_fetch; cbn [r_reply]; destruct (RedisModel.fetch_reply _); reflexivity.
  Qed.
  Lemma query_failed d c cmd l d1 c1 : connect d c l = (d1, c1, None) -> (d1 = d \/ cmd <> []) -> seen (query d c cmd l) = (d1, R_threw).
  Proof. intros E H. unfold redis_query, redis_execute. destruct cmd as [|w cmd]; [destruct H; [now subst|congruence]|]. now rewrite E. Qed.

  Lemma fetch_reads r : is_error r = false -> exists x, RedisModel.fetch_reply r = Some x /\ reads r x.
  Proof.
    intros E. destruct r; try discriminate; cbn [reads].
    all: try (match goal with |- exists x, RedisModel.fetch_reply ?r = _ /\ _ => destruct (RedisProps.redis_fetch_any r) as (v & V & F); [discriminate|]; exists ([], v); rewrite F; auto end).
    eexists. split; [apply RedisProps.redis_fetch_status|reflexivity].
  Qed.

  Lemma tail_any d e s cmd l : let t := tail d (mkContext e s []) cmd l in
    t = (d, R_threw) \/ exists d' s' rs, perform d s cmd = (d', s', rs)
      /\ (t = (d', R_threw) \/ exists r u x, rs = r :: u /\ is_error r = false /\ reads r x /\ t = (d', R_reply (Some x))).
  Proof.
    cbv zeta. unfold tail, redis_call. cbn [err session unread]. destruct e; [now left|].
    destruct (perform d s cmd) as [[d' s'] rs] eqn:P. destruct l; try (now left).
    - right. exists d', s', rs. split; [reflexivity|]. cbn [app]. destruct rs as [|r u]; [now left|]. destruct (is_error r) eqn:Er; [left; destruct r; try discriminate; reflexivity|].
      right. destruct (fetch_reads r Er) as (x & F & R). exists r, u, x. rewrite F. repeat split; auto. destruct r; try discriminate; reflexivity.
    - right. exists d', s', rs. split; [reflexivity|]. now left.
  Qed.
  Lemma tail_works d s cmd d' s' r u : perform d s cmd = (d', s', r :: u) ->
    if is_error r then tail d (mkContext false s []) cmd Works = (d', R_threw) else exists x, reads r x /\ tail d (mkContext false s []) cmd Works = (d', R_reply (Some x)).
  Proof.
    intros P. unfold tail, redis_call. cbn [err session unread]. rewrite P. cbn [app]. destruct (is_error r) eqn:Er; [destruct r; try discriminate; reflexivity|].
    destruct (fetch_reads r Er) as (x & F & R). exists x. rewrite F. split; [exact R|]. destruct r; try discriminate; reflexivity.
  Qed.

  Lemma redis_ready_connect d c l s : obeys perform authed selected -> redis_ready perform greet authed selected d c l s -> exists c1, connect d c l = (d, c1, Some (mkContext false s [])).
  Proof.
    intros Ob [[Cn Cx]|(Cn & Lu & p & Sp & W & ->)].
    - exists c. unfold redis_connect. now rewrite Cn, Cx.
    - pose proof (connect_spec d c l Ob Cn) as X. destruct (connect d c l) as [[d1 c1] [x|]].
      + destruct X as (-> & _ & _ & _ & p' & Sp' & ->). rewrite Sp in Sp'. injection Sp' as <-. eauto.
      + destruct X as (_ & _ & _ & _ & No). destruct (No Lu p Sp W).
  Qed.
  Lemma session_connect d c l s : obeys perform authed selected -> redis_session greet authed selected c s ->
    exists c1 o, connect d c l = (d, c1, o) /\ (o = None \/ exists e, o = Some (mkContext e s [])).
  Proof.
    intros Ob [[Cn [e Cx]]|(Cn & p & Sp & ->)].
    - exists c, (r_context c). unfold redis_connect. rewrite Cn. split; [reflexivity|]. right. eauto.
    - pose proof (connect_spec d c l Ob Cn) as X. destruct (connect d c l) as [[d1 c1] [x|]].
      + destruct X as (-> & _ & _ & _ & p' & Sp' & ->). rewrite Sp in Sp'. injection Sp' as <-. do 2 eexists. split; [reflexivity|]. right. eauto.
      + destruct X as (-> & _). do 2 eexists. split; [reflexivity|]. now left.
  Qed.

  (** Invariants *)
  Definition rG (pc : pconn) (c : redis Ss) : Prop :=
    r_uri c = PoolModel.c_uri pc /\ (r_connected c = false -> r_password c = PoolModel.c_pass pc)
    /\ (r_connected c = true -> exists p x, service_params redis_defaults (PoolModel.c_uri pc) = Some p /\ r_context c = Some x /\ unread x = []
         /\ (err x = false -> session x = first p (PoolModel.c_pass pc)) /\ (PoolModel.c_clear pc = true -> err x = false)).
  Definition rH (pc : pconn) (c : redis Ss) : Prop := rG pc c /\ PoolModel.c_clear pc = true.

  Lemma call_plain d x cmd l : plain perform cmd -> unread x = [] ->
    let '(d', x', r) := redis_call perform d x cmd l in unread x' = [] /\ (err x' = false -> err x = false /\ session x' = session x).
  Proof.
    intros P U. unfold redis_call. destruct (err x) eqn:E; [split; [exact U|congruence]|]. destruct (P d (session x)) as (d' & r & Pf). rewrite Pf, U. cbn [app].
    destruct l; cbn [unread err session]; split; auto; discriminate.
  Qed.

  Lemma r_execute pc d c cmd l d' c' a b : obeys perform authed selected -> plain perform cmd -> rG pc c -> execute d c cmd l = (d', c', a, b) -> rG (after b pc) c' /\ b <> Some true.
  Proof.
    intros Ob Pl (G1 & G2 & G3) E. unfold redis_execute in E. destruct cmd as [|w cmd]; [injection E as <- <- <- <-; split; [now repeat split|discriminate]|].
    assert (Done : forall (c1 : redis Ss) (x : context Ss) (d0 : D), r_uri c1 = PoolModel.c_uri pc -> r_connected c1 = true -> (exists p, service_params redis_defaults (PoolModel.c_uri pc) = Some p /\ unread x = [] /\ (err x = false -> session x = first p (PoolModel.c_pass pc))) ->
      (let '(d2, x2, r) := redis_call perform d0 x (w :: cmd) (on_command l) in
       let c2 := mkRedis (r_uri c1) (r_password c1) (r_connected c1) (Some x2) r in
       match r with None | Some (RedisModel.Reply_error _) => (d2, c2, R_threw, Some false) | Some _ => (d2, c2, R_executed, Some false) end) = (d', c', a, b) -> rG (after b pc) c' /\ b <> Some true).
    { intros c1 x d0 U Cn (p & Sp & Un & Se) X. pose proof (call_plain d0 x (w :: cmd) (on_command l) Pl Un) as CP. destruct (redis_call perform d0 x (w :: cmd) (on_command l)) as [[d2 x2] r]. destruct CP as [Un2 Se2].
      assert (Y : c' = mkRedis (r_uri c1) (r_password c1) (r_connected c1) (Some x2) r /\ b = Some false) by (destruct r as [[]|]; injection X as <- <- <- <-; auto). destruct Y as [-> ->].
      split; [|discriminate]. unfold rG. cbn [after PoolModel.set_clear PoolModel.c_uri PoolModel.c_pass PoolModel.c_clear r_uri r_connected r_context r_password]. rewrite Cn. split; [exact U|]. split; [discriminate|]. intros _.
      exists p, x2. repeat split; auto; [|discriminate]. intros E2. destruct (Se2 E2) as [E1 ->]. now apply Se. }
    destruct (r_connected c) eqn:Cn.
    - destruct (G3 eq_refl) as (p & x & Sp & Cx & Un & Se & _). unfold redis_connect in E. rewrite Cn, Cx in E. apply (Done c x d G1 Cn ltac:(eauto)). exact E.
    - pose proof (connect_spec d c l Ob Cn) as X. destruct (connect d c l) as [[d1 c1] [x|]].
      + destruct X as (-> & U & Cn1 & Cx1 & p & Sp & ->). apply (Done c1 (mkContext false (first p (r_password c)) []) d); auto; [congruence|]. exists p. rewrite <- G1. cbn [unread session]. repeat split; auto. intros _. now rewrite G2.
      + destruct X as (-> & U & Cn1 & Pw & _). injection E as <- <- <- <-. split; [|discriminate]. split; [cbn [after]; congruence|]. cbn [after]. split; [intros _; rewrite Pw; now apply G2|congruence].
  Qed.
  Lemma r_fetch pc c : rG pc c -> rG pc (fst (redis_fetch c)).
  Proof. intros G. unfold redis_fetch. destruct (r_reply c) as [r|]; [destruct (RedisModel.fetch_reply r)|]; exact G. Qed.

  Lemma r_created id u p : rG (PoolModel.mkC id u p true) (create K u p) /\ rH (PoolModel.mkC id u p true) (create K u p).
  Proof. assert (G : rG (PoolModel.mkC id u p true) (create K u p)) by (repeat split; discriminate). split; [exact G|]. now split. Qed.
  Lemma r_acts pc c d o d' c' a b : obeys perform authed selected -> uses_plain perform o -> rG pc c -> act K d c o = (d', c', a, b) -> rG (after b pc) c'.
  Proof.
    intros Ob Us G E. destruct o as [cmd l|cmd l| |]; cbn [act redis_act] in E.
    - unfold redis_query in E. destruct (execute d c cmd l) as [[[d1 c1] a1] b1] eqn:Ex. destruct (r_execute pc _ _ _ _ _ _ _ _ Ob Us G Ex) as [G1 _].
      destruct a1; try (injection E as <- <- <- <-; exact G1). apply r_fetch in G1. destruct (redis_fetch c1) as [c2 a2]. injection E as <- <- <- <-. exact G1.
    - now apply (r_execute pc _ _ _ _ _ _ _ _ Ob Us G E).
    - apply r_fetch in G. destruct (redis_fetch c) as [c2 a2]. injection E as <- <- <- <-. exact G.
    - unfold redis_reset in E. injection E as <- <- <- <-. destruct G as (G1 & G2 & G3). split; [exact G1|]. split; [exact G2|]. cbn [r_connected r_context after PoolModel.set_clear PoolModel.c_uri PoolModel.c_pass PoolModel.c_clear].
      intros Cn. destruct (G3 Cn) as (p & x & A1 & A2 & A3 & A4 & A5). exists p, x. repeat split; auto. rewrite Cn, A2. cbn [andb]. now destruct (err x).
  Qed.
  Lemma r_run d0 f junk xs w : obeys perform authed selected -> only (uses_plain perform) xs -> run K (start d0 f junk) xs = Some w -> winv rG rH w.
  Proof.
    intros Ob On R. apply (run_winv K rG rH (uses_plain perform) false) with (xs := xs) (w := start d0 f junk); auto.
    - intros. apply r_created.
    - intros pc c d o d' c' a b U G E. now apply (r_acts pc c d o d' c' a b).
    - now intros pc c [G _].
    - intros _ pc c G C. now split.
    - intros pc c d o d' c' a U Rs G E. split; [now apply (r_acts pc c d o d' c' a (Some true))|reflexivity].
    - discriminate.
    - apply start_winv.
  Qed.
  Lemma r_as_new pc c d cmd l : obeys perform authed selected -> rH pc c -> redis_lucky l ->
    (forall p, service_params redis_defaults (PoolModel.c_uri pc) = Some p -> welcome perform greet authed d p (PoolModel.c_pass pc)) ->
    seen (query d c cmd l) = seen (query d (redis_new (PoolModel.c_uri pc) (PoolModel.c_pass pc)) cmd l).
  Proof.
    intros Ob [(G1 & G2 & G3) Cl] Lu W. destruct cmd as [|w cmd]; [reflexivity|]. set (n := redis_new (PoolModel.c_uri pc) (PoolModel.c_pass pc)).
    destruct (service_params redis_defaults (PoolModel.c_uri pc)) as [p|] eqn:Sp.
    - assert (Rn : redis_ready perform greet authed selected d n l (first p (PoolModel.c_pass pc))) by (right; split; [reflexivity|]; split; [exact Lu|]; exists p; repeat split; auto; apply (W p eq_refl)).
      assert (Rc : redis_ready perform greet authed selected d c l (first p (PoolModel.c_pass pc))).
      { destruct (r_connected c) eqn:Cn.
        - left. split; [exact Cn|]. destruct (G3 eq_refl) as (p' & x & A1 & A2 & A3 & A4 & A5). specialize (A5 Cl). rewrite A2. destruct x as [e s u]. cbn [err session unread] in *. subst e u. injection A1 as <-. now rewrite A4.
        - right. split; [exact Cn|]. split; [exact Lu|]. exists p. rewrite G1, G2 by reflexivity. repeat split; auto; apply (W p eq_refl). }
      destruct (redis_ready_connect _ _ _ _ Ob Rn) as (n1 & En). destruct (redis_ready_connect _ _ _ _ Ob Rc) as (c1 & Ec).
      rewrite (query_tail _ _ (w :: cmd) _ _ _ _ ltac:(discriminate) En), (query_tail _ _ (w :: cmd) _ _ _ _ ltac:(discriminate) Ec). reflexivity.
    - destruct (r_connected c) eqn:Cn; [destruct (G3 eq_refl) as (p & x & A & _); discriminate|].
      unfold redis_query, redis_execute, redis_connect. rewrite Cn, G1, Sp. unfold n, redis_new. cbn [r_connected r_uri]. rewrite Sp. reflexivity.
  Qed.
End Redis.

(** ** MongoDB *)
Section Mongo.
  Variable D : Type.
  Notation document := (list (list Z * MongoModel.bson)).
  Variables (database : list Z -> list Z) (valid : document -> bool) (perform : D -> list Z -> document -> D * option document) (documents : D -> document -> list document).
  Notation query := (mongo_query database valid perform documents).
  Notation K := (mkDriver mongo_new (mongo_act database valid perform documents) mongo_resets).

  Lemma next_uri d c l : g_uri (fst (fst (mongo_next documents d c l))) = g_uri c.
  Proof.
    unfold mongo_next. destruct (g_cursor c) as [xs|].
    - destruct l; try reflexivity. destruct xs; reflexivity.
    - destruct (g_reply c) as [r|]; [|reflexivity]. destruct (has_cursor r); [|reflexivity]. destruct l; try reflexivity. destruct (documents d r); reflexivity.
  Qed.
  Lemma fetch_uri d c l : g_uri (fst (mongo_fetch documents d c l)) = g_uri c.
  Proof. unfold mongo_fetch. pose proof (next_uri d c l) as N. destruct (mongo_next documents d c l) as [[c1 a] [x|]]; cbn [fst] in N; [destruct (MongoModel.fetch x)|]; exact N. Qed.
  Lemma mloop_uri fuel : forall d c ls acc, g_uri (fst (mongo_loop documents fuel d c ls acc)) = g_uri c.
  Proof.
    induction fuel as [|fuel IH]; intros; [reflexivity|]. cbn [mongo_loop]. pose proof (fetch_uri d c (hd Works ls)) as F. destruct (mongo_fetch documents d c (hd Works ls)) as [c1 a]. cbn [fst] in F.
    destruct a as [| | |[v|]| |]; try exact F. rewrite IH. exact F.
  Qed.
  Lemma mexecute_uri d c cmd l : g_uri (snd (fst (fst (mongo_execute database valid perform d c cmd l)))) = g_uri c.
  Proof.
    unfold mongo_execute. destruct (MongoModel.compose cmd) as [b|]; [|reflexivity]. destruct (valid b); [|reflexivity]. destruct l; try reflexivity. cbv zeta. destruct (perform d _ b) as [d' [r|]]; reflexivity.
  Qed.
  Definition gG (pc : pconn) (c : mongo) : Prop := g_uri c = PoolModel.c_uri pc.
  Lemma g_acts pc c d o d' c' a b : gG pc c -> act K d c o = (d', c', a, b) -> gG (after b pc) c'.
  Proof.
    intros G E. assert (U : g_uri c' = g_uri c).
    { destruct o as [cmd l ls|cmd l|l|]; cbn [act mongo_act] in E.
      - unfold mongo_query in E. pose proof (mexecute_uri d c cmd l) as X. destruct (mongo_execute database valid perform d c cmd l) as [[[d1 c1] a1] b1]. cbn [fst snd] in X.
        destruct a1; try (injection E as <- <- <- <-; exact X). pose proof (mloop_uri (match g_reply c1 with Some r => S (S (length (documents d1 r))) | None => 1%nat end) d1 c1 ls []) as Y.
        destruct (mongo_loop documents _ d1 c1 ls []) as [c2 a2]. injection E as <- <- <- <-. cbn [fst] in Y. congruence.
      - pose proof (mexecute_uri d c cmd l) as X. rewrite E in X. exact X.
      - pose proof (fetch_uri d c l) as X. destruct (mongo_fetch documents d c l). injection E as <- <- <- <-. exact X.
      - injection E as <- <- <- <-. reflexivity. }
    unfold gG in *. destruct b; cbn [after PoolModel.set_clear PoolModel.c_uri]; congruence.
  Qed.
  Lemma g_run d0 f junk xs w : run K (start d0 f junk) xs = Some w -> winv gG gG w.
  Proof.
    intros R. apply (run_winv K gG gG (fun _ => True) false) with (xs := xs) (w := start d0 f junk); auto.
    - intros. now split.
    - intros pc c d o d' c' a b _ G E. now apply (g_acts pc c d o d' c' a b).
    - intros pc c d o d' c' a _ Rs G E. now apply (g_acts pc c d o d' c' a (Some true)).
    - unfold only. apply Forall_forall. intros [| | |]; auto.
    - discriminate.
    - apply start_winv.
  Qed.
  Lemma g_as_new pc c d cmd l ls : gG pc c -> seen (query d c cmd l ls) = seen (query d (mongo_new (PoolModel.c_uri pc) (PoolModel.c_pass pc)) cmd l ls).
  Proof.
    unfold gG. intros G. unfold mongo_query, mongo_execute, mongo_new. cbn [g_uri]. destruct (MongoModel.compose cmd) as [b|]; [|reflexivity]. destruct (valid b); [|reflexivity]. rewrite G.
    destruct l; reflexivity.
  Qed.

  (** Documents are fetched in order. *)
  Lemma fetch_converted x : exists v, MongoModel.fetch x = Some v /\ converted x v.
  Proof.
    destruct (MongoProps.mongo_fetch_exact x) as (r & F & E). exists (MongoModel.Doc r). split; [exact E|]. split; [eauto|]. intros T. destruct (MongoProps.mongo_fetch_partial x T) as (v & M & E'). congruence.
  Qed.
  Lemma loop_cursor d : forall fuel c ls acc xs, g_cursor c = Some xs -> (length xs < fuel)%nat ->
    exists c' j vs failed, mongo_loop documents fuel d c ls acc = (c', G_result (acc ++ vs) failed) /\ Forall2 converted (firstn j xs) vs
      /\ (failed = false -> firstn j xs = xs) /\ (Forall (eq Works) ls -> failed = false).
  Proof.
    induction fuel as [|fuel IH]; intros c ls acc xs Hc Lt; [lia|]. cbn [mongo_loop]. unfold mongo_fetch, mongo_next. rewrite Hc.
    assert (Er : forall c' : mongo, hd Works ls <> Works -> exists c'' j vs failed, (c', G_result acc true) = (c'', G_result (acc ++ vs) failed) /\ Forall2 converted (firstn j xs) vs /\ (failed = false -> firstn j xs = xs) /\ (Forall (eq Works) ls -> failed = false)).
    { intros c' N. exists c', O, [], true. rewrite app_nil_r. repeat split; [constructor|discriminate|]. intros F. destruct F; cbn [hd] in N; congruence. }
    destruct (hd Works ls) eqn:Hl; try (apply Er; discriminate).
    destruct xs as [|x xs].
    - exists (mkMongo (g_uri c) None (Some [])), O, [], false. rewrite app_nil_r. repeat split; constructor.
    - destruct (fetch_converted x) as (v & Ev & Cv). rewrite Ev.
      edestruct (IH (mkMongo (g_uri c) None (Some xs)) (tl ls) (acc ++ [v]) xs eq_refl) as (c' & j & vs & failed & E & F & A & B); [cbn [length] in Lt; lia|].
      exists c', (S j), (v :: vs), failed. rewrite E, <- app_assoc. cbn [firstn app]. repeat split; auto.
      + intros Hf. now rewrite A.
      + intros Hw. apply B. destruct Hw; [constructor|assumption].
  Qed.
  Lemma has_cursor_spec r : has_cursor r = if in_dec (list_eq_dec Z.eq_dec) (txt "cursor") (map fst r) then true else false.
  Proof.
    destruct (in_dec (list_eq_dec Z.eq_dec) (txt "cursor") (map fst r)) as [H|H].
    - apply existsb_exists. apply in_map_iff in H as (f & E & H). exists f. split; [exact H|]. apply PoolProofs.list_eqb_spec. exact E.
    - apply not_true_is_false. intros X. apply existsb_exists in X as (f & X & E). apply H. apply PoolProofs.list_eqb_spec in E. rewrite <- E. now apply in_map.
  Qed.
  Lemma loop_reply d c ls r : g_cursor c = None -> g_reply c = Some r ->
    exists c' j vs failed, mongo_loop documents (S (S (length (documents d r)))) d c ls [] = (c', G_result vs failed) /\ Forall2 converted (firstn j (replied documents d r)) vs
      /\ (failed = false -> firstn j (replied documents d r) = replied documents d r) /\ (Forall (eq Works) ls -> failed = false).
  Proof.
    intros Hc Hr. unfold replied. pose proof (has_cursor_spec r) as Hs. destruct (in_dec (list_eq_dec Z.eq_dec) (txt "cursor") (map fst r)) as [I|I].
    - assert (E : forall fuel, mongo_loop documents (S fuel) d c ls [] = mongo_loop documents (S fuel) d (mkMongo (g_uri c) None (Some (documents d r))) ls []).
      { intros fuel. cbn [mongo_loop]. assert (X : mongo_fetch documents d c (hd Works ls) = mongo_fetch documents d (mkMongo (g_uri c) None (Some (documents d r))) (hd Works ls)); [|now rewrite X].
        unfold mongo_fetch, mongo_next. rewrite Hc, Hr, Hs. reflexivity. }
      rewrite E. destruct (loop_cursor d (S (S (length (documents d r)))) (mkMongo (g_uri c) None (Some (documents d r))) ls [] (documents d r) eq_refl) as (c' & j & vs & failed & X); [lia|].
      exists c', j, vs, failed. exact X.
    - destruct (fetch_converted r) as (v & Ev & Cv). exists (mkMongo (g_uri c) None None), 1%nat, [v], false. cbn [firstn]. split; [|repeat split; repeat constructor; apply Cv].
      cbn [mongo_loop]. unfold mongo_fetch at 1, mongo_next at 1. rewrite Hc, Hr, Hs, Ev. reflexivity.
  Qed.

  Lemma mquery_spec d c cmd l ls b : MongoModel.compose cmd = Some b -> valid b = true ->
    seen (query d c cmd l ls) = (d, G_result [] true) /\ l <> Works
    \/ exists d' o, perform d (database (g_uri c)) b = (d', o)
       /\ (seen (query d c cmd l ls) = (d', G_result [] true) /\ (l = Works -> o = None)
           \/ exists r j vs failed, o = Some r /\ seen (query d c cmd l ls) = (d', G_result vs failed) /\ Forall2 converted (firstn j (replied documents d' r)) vs
              /\ (failed = false -> firstn j (replied documents d' r) = replied documents d' r) /\ (Forall (eq Works) ls -> failed = false)).
  Proof.
    intros Co Va. unfold mongo_query, mongo_execute. rewrite Co, Va. cbn [g_uri]. destruct (perform d (database (g_uri c)) b) as [d' o] eqn:Pf.
    destruct l; try (left; split; [reflexivity|discriminate]); right; exists d', o; (split; [reflexivity|]).
    - destruct o as [r|]; [|left; auto]. right. destruct (loop_reply d' (mkMongo (g_uri c) (Some r) None) ls r eq_refl eq_refl) as (c' & j & vs & failed & E & X). exists r, j, vs, failed. cbn [g_reply]. rewrite E. auto.
    - left. split; [reflexivity|discriminate].
  Qed.
  Lemma mquery_refused d c cmd l ls : match MongoModel.compose cmd with Some b => valid b = false | None => True end -> seen (query d c cmd l ls) = (d, G_result [] true).
  Proof. intros H. unfold mongo_query, mongo_execute. destruct (MongoModel.compose cmd) as [b|]; [rewrite H|]; reflexivity. Qed.
End Mongo.
