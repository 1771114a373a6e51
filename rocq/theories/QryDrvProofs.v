(** Proofs about connections to databases *)
From Coq Require Import ZArith List Bool Lia Arith String.
From Verif Require Import Text QryModel QrySpec QryProofs.
From Verif Require PoolModel MysqlModel MysqlSpec MysqlProps RedisModel RedisSpec RedisProps MongoModel MongoSpec MongoProps.
Import ListNotations.
Open Scope list_scope.
Open Scope Z_scope.
Notation length := List.length.

(** ** MySQL *)
Section Mysql.
  Variables (D T : Type).
  Variables (admits : D -> params -> list Z -> bool) (fresh : params -> T)
            (prepare : D -> list Z -> T -> list Z -> option (nat * list (list Z * MysqlModel.field)))
            (perform : D -> list Z -> T -> list Z -> list MysqlModel.sent -> D * list Z * T * option result)
            (undo : D -> T -> D)
            (off : Z -> Z) (timelocal : DateModel.tm -> Z) (filler : Z).
  Notation execute := (mysql_execute admits fresh prepare perform off).
  Notation query := (mysql_query admits fresh prepare perform off timelocal filler).
  Notation K := (mkDriver mysql_new (mysql_act admits fresh prepare perform undo off timelocal filler) mysql_resets).

  (** What does not change with the cursor *)
  Definition core (c : mysql T) := (m_uri c, m_password c, m_link c).
  Lemma fields_core c : core (fst (mysql_fields c)) = core c.
  Proof. unfold mysql_fields, core. destruct (m_stmt c); [|reflexivity]. cbn [set_meta m_meta]. destruct (metadata c s); [|reflexivity]. now destruct (_ <? _)%nat. Qed.
  Definition keeps (c c' : mysql T) : Prop := core c' = core c \/ core c' = core (broken c).
  Lemma keeps_trans c1 c2 c3 : keeps c1 c2 -> keeps c2 c3 -> keeps c1 c3.
  Proof.
    unfold keeps, core, broken. destruct c1 as [u1 p1 l1 s1 x1], c2 as [u2 p2 l2 s2 x2], c3 as [u3 p3 l3 s3 x3]. cbn [set_link m_uri m_password m_link].
    intros [H1|H1] [H2|H2]; injection H1 as -> -> ->; injection H2 as -> -> ->; auto. right. destruct l1; reflexivity.
  Qed.
  Lemma row_keeps c l : keeps c (fst (mysql_row timelocal filler c l)).
  Proof.
    unfold mysql_row. destruct (m_stmt c) as [s|]; [|now left]. cbn [set_meta m_meta].
    destruct (columns s) eqn:Ec; [now left|]. destruct (metadata c s); [|now left]. destruct (_ <? _)%nat; [now left|].
    destruct (outcome s); [|now left]. destruct l; try (now left); try (now right). destruct (ahead s); [now left|]. destruct (MysqlModel.fetch_row _ _ _ _); now left.
  Qed.
  Lemma loop_keeps fuel : forall c ls acc, keeps c (fst (fst (mysql_loop timelocal filler fuel c ls acc))).
  Proof.
    induction fuel as [|fuel IH]; intros c ls acc; [now left|]. cbn [mysql_loop]. pose proof (row_keeps c (hd Works ls)) as R.
    destruct (mysql_row timelocal filler c (hd Works ls)) as [c' a]. cbn [fst] in R. destruct a as [| | | |[v|]| |]; try exact R. eapply keeps_trans; [exact R|apply IH].
  Qed.

  (** The connection of an execution *)
  Lemma connect_spec d c l c' : mysql_connect admits fresh d c l = Some c' ->
    m_uri c' = m_uri c /\ exists k, m_link c' = Some k
    /\ (m_link c = Some k /\ c' = c \/ m_link c = None /\ exists p, service_params mysql_defaults (m_uri c) = Some p
        /\ k = mkLink true (as_c p) (p_database (as_c p)) (fresh (as_c p))).
  Proof.
    unfold mysql_connect. destruct (m_link c) as [k|] eqn:E; [intros [= <-]; split; [reflexivity|]; exists k; split; [exact E|now left]|]. destruct (service_params mysql_defaults (m_uri c)) as [p|] eqn:Sp; [|discriminate]. cbv zeta. destruct l; [|discriminate..].
    fold (as_c p). destruct (admits d (as_c p) (c_str (m_password c))); [|discriminate]. intros [= <-]. cbn [m_uri m_link]. split; [reflexivity|]. eexists. split; [reflexivity|]. right. eauto.
  Qed.

  (** What an execution makes of a connection *)
  Lemma execute_spec d c text args l : keeps_database perform ->
    let '(d', c', a, b) := execute d c text args l in
    m_uri c' = m_uri c
    /\ (core c' = core c /\ b = None
        \/ exists k k', mysql_connect admits fresh d c (on_connect l) <> None /\ m_link c' = Some k' /\ self k' = self k /\ current k' = current k
           /\ (b = None -> rest k' = rest k)
           /\ (m_link c = Some k \/ m_link c = None /\ exists p, service_params mysql_defaults (m_uri c) = Some p /\ k = mkLink true (as_c p) (p_database (as_c p)) (fresh (as_c p))))
    /\ (b = None \/ b = Some false).
  Proof.
    intros KD. unfold mysql_execute. destruct text as [|ch text]; [auto|]. destruct (mysql_connect _ _ _ _ _) as [c1|] eqn:Cn; [|auto].
    destruct (connect_spec _ _ _ _ Cn) as (U & k & Lk & Or). rewrite Lk.
    assert (Or' : m_link c = Some k \/ m_link c = None /\ exists p, service_params mysql_defaults (m_uri c) = Some p /\ k = mkLink true (as_c p) (p_database (as_c p)) (fresh (as_c p))) by tauto.
    assert (Easy : forall c2, m_link c2 = m_link c1 -> m_uri c2 = m_uri c1 -> forall b, b = None \/ b = Some false ->
      m_uri c2 = m_uri c
      /\ (core c2 = core c /\ b = None \/ exists k k', Some c1 <> None /\ m_link c2 = Some k' /\ self k' = self k /\ current k' = current k /\ (b = None -> rest k' = rest k)
           /\ (m_link c = Some k \/ m_link c = None /\ exists p, service_params mysql_defaults (m_uri c) = Some p /\ k = mkLink true (as_c p) (p_database (as_c p)) (fresh (as_c p))))
      /\ (b = None \/ b = Some false)).
    { intros c2 E1 E2 b Hb. split; [congruence|]. split; [|exact Hb]. right. exists k, k. split; [discriminate|]. rewrite E1, Lk. auto. }
    assert (Brk : forall c2, m_link c2 = m_link c1 -> m_uri c2 = m_uri c1 -> forall b, b = None \/ b = Some false ->
      m_uri (broken c2) = m_uri c
      /\ (core (broken c2) = core c /\ b = None \/ exists k k', Some c1 <> None /\ m_link (broken c2) = Some k' /\ self k' = self k /\ current k' = current k /\ (b = None -> rest k' = rest k)
           /\ (m_link c = Some k \/ m_link c = None /\ exists p, service_params mysql_defaults (m_uri c) = Some p /\ k = mkLink true (as_c p) (p_database (as_c p)) (fresh (as_c p))))
      /\ (b = None \/ b = Some false)).
    { intros c2 E1 E2 b Hb. split; [unfold broken; cbn [set_link m_uri]; congruence|]. split; [|exact Hb]. right. exists k. eexists. split; [discriminate|]. unfold broken. cbn [set_link m_link]. rewrite E1, Lk.
      split; [reflexivity|]. auto. }
    destruct (on_init l); try solve [apply Easy; auto].
    destruct (on_prepare l); try solve [apply Easy; auto]; try solve [apply Brk; auto].
    destruct (up k); [|apply Easy; auto].
    destruct (prepare _ _ _ _) as [[n cols]|]; [|apply Easy; auto].
    destruct (MysqlModel.execute off n args) as [| |xs]; try solve [apply Easy; auto].
    destruct (on_bind l); try solve [apply Easy; auto].
    destruct (on_execute l); try solve [apply Easy; auto]; try solve [apply Brk; auto].
    pose proof (KD d (current k) (rest k) (ch :: text) xs) as KD1. destruct (perform d (current k) (rest k) (ch :: text) xs) as [[[d' db] t] [r|]]; cbn [fst snd] in KD1; subst db;
      cbn [set_stmt set_link set_meta m_uri m_link]; (split; [congruence|]; split; [|now right]; right; exists k; eexists; split; [discriminate|]; split; [reflexivity|]; cbn [self current]; repeat split; auto; discriminate).
  Qed.

  (** Invariants *)
  Definition my_link (uri : list Z) (clear : bool) (c : mysql T) : Prop :=
    forall k, m_link c = Some k -> exists p, service_params mysql_defaults uri = Some p /\ self k = as_c p /\ current k = p_database (as_c p) /\ (clear = true -> rest k = fresh (as_c p)).
  Definition myG (pc : pconn) (c : mysql T) : Prop :=
    m_uri c = PoolModel.c_uri pc /\ (m_link c = None -> m_password c = PoolModel.c_pass pc) /\ my_link (PoolModel.c_uri pc) (PoolModel.c_clear pc) c.
  Definition myH (neat : bool) (pc : pconn) (c : mysql T) : Prop :=
    myG pc c /\ PoolModel.c_clear pc = true /\ (neat = true -> forall k, m_link c = Some k -> up k = true).

  Lemma keeps_G pc c c' : keeps c c' -> myG pc c -> myG pc c'.
  Proof.
    unfold keeps, core, myG, my_link. intros [E|E] (G1 & G2 & G3); injection E as E1 E2 E3.
    - rewrite E1, E2, E3. auto.
    - unfold broken in E1, E2, E3. cbn [set_link m_uri m_password m_link] in E1, E2, E3. rewrite E1, E2, E3. split; [exact G1|]. split; [destruct (m_link c); [discriminate|auto]|].
      destruct (m_link c) as [k|]; [|discriminate]. intros k' [= <-]. cbn [self current rest]. now apply G3.
  Qed.

  Lemma execute_G pc d c text args l d' c' a b : keeps_database perform -> myG pc c -> execute d c text args l = (d', c', a, b) -> myG (after b pc) c'.
  Proof.
    intros KD (G1 & G2 & G3) E. pose proof (execute_spec d c text args l KD) as S. rewrite E in S. destruct S as (U & Or & B).
    assert (Eu : PoolModel.c_uri (after b pc) = PoolModel.c_uri pc) by (destruct b; reflexivity). assert (Ep : PoolModel.c_pass (after b pc) = PoolModel.c_pass pc) by (destruct b; reflexivity).
    unfold myG. rewrite Eu, Ep. split; [congruence|]. destruct Or as [[Co ->]|(k & k' & _ & Lk & Es & Ecu & Er & From)].
    - injection Co as _ C2 C3. rewrite C2, C3. split; [exact G2|]. intros k Hk. rewrite C3 in Hk. now apply G3.
    - rewrite Lk. split; [discriminate|]. intros k2 Hk. rewrite Lk in Hk. injection Hk as <-. destruct From as [Hk|(_ & p & P1 & ->)].
      + destruct (G3 k Hk) as (p & P1 & P2 & P3 & P4). exists p. repeat split; try congruence. intros Hc. destruct B as [-> | ->]; [|discriminate]. rewrite Er by reflexivity. now apply P4.
      + exists p. rewrite <- G1. split; [exact P1|]. rewrite Es, Ecu. cbn [self current]. repeat split. intros Hc. destruct B as [-> | ->]; [|discriminate]. now rewrite Er.
  Qed.

  Lemma query_cursor d c text args l ls : exists d1 c1 a1 b1, execute d c text args l = (d1, c1, a1, b1)
    /\ exists c2 a2, query d c text args l ls = (d1, c2, a2, b1) /\ keeps c1 c2.
  Proof.
    unfold mysql_query. destruct (execute d c text args l) as [[[d1 c1] a1] b1]. exists d1, c1, a1, b1. split; [reflexivity|].
    destruct a1; try (do 2 eexists; split; [reflexivity|now left]).
    pose proof (fields_core c1) as F. destruct (mysql_fields c1) as [c2 a2]. cbn [fst] in F. destruct a2; try (do 2 eexists; split; [reflexivity|now left]).
    pose proof (loop_keeps (match m_stmt c2 with Some s => S (length (ahead s)) | None => O end) c2 ls []) as L.
    destruct (mysql_loop timelocal filler _ c2 ls []) as [[c3 t] a3]. cbn [fst] in L.
    assert (X : keeps c1 c3) by (eapply keeps_trans; [left; exact F|exact L]). destruct a3 as [| | | |[v|]| |]; do 2 eexists; split; try reflexivity; exact X.
  Qed.

  Lemma reset_G pc d c l d' c' a b : myG pc c -> mysql_reset fresh undo d c l = (d', c', a, b) ->
    myG (after b pc) c' /\ (b = Some true -> forall k, m_link c' = Some k -> up k = true).
  Proof.
    intros (G1 & G2 & G3) E. unfold mysql_reset in E. cbn [set_stmt set_meta m_link m_uri m_password] in E. unfold myG, my_link.
    destruct (m_link c) as [k|] eqn:Lk.
    - destruct (G3 k Lk) as (p & P1 & P2 & P3 & P4).
      assert (N : forall u b, b = Some false -> (d', c', a, Some false) = (d', c', a, b) -> m_link c' = Some (mkLink u (self k) (current k) (rest k)) -> m_uri c' = m_uri c ->
        (m_uri c' = PoolModel.c_uri (after b pc) /\ (m_link c' = None -> m_password c' = PoolModel.c_pass (after b pc)) /\ (forall k0, m_link c' = Some k0 -> exists p0, service_params mysql_defaults (PoolModel.c_uri (after b pc)) = Some p0 /\ self k0 = as_c p0 /\ current k0 = p_database (as_c p0) /\ (PoolModel.c_clear (after b pc) = true -> rest k0 = fresh (as_c p0))))
        /\ (b = Some true -> forall k, m_link c' = Some k -> up k = true)).
      { intros u b0 -> _ L' U'. cbn [after PoolModel.set_clear PoolModel.c_uri PoolModel.c_pass PoolModel.c_clear]. rewrite L'. split; [|discriminate]. split; [congruence|]. split; [discriminate|].
        intros k0 [= <-]. exists p. cbn [self current rest]. repeat split; auto; discriminate. }
      assert (Ek : k = mkLink (up k) (self k) (current k) (rest k)) by (destruct k; reflexivity).
      destruct l.
      + destruct (up k) eqn:Up; injection E as <- <- <- <-.
        * cbn [after PoolModel.set_clear PoolModel.c_uri PoolModel.c_pass PoolModel.c_clear set_link m_uri m_link m_password]. split; [|intros _ k0 [= <-]; reflexivity]. split; [exact G1|]. split; [discriminate|].
          intros k0 [= <-]. exists p. cbn [self current rest]. repeat split; auto. now rewrite P2.
        * apply (N (up k) (Some false) eq_refl eq_refl); [cbn [set_stmt set_meta m_link]; rewrite ?Lk; now destruct k|reflexivity].
      + injection E as <- <- <- <-. apply (N (up k) (Some false) eq_refl eq_refl); [cbn [set_stmt set_meta m_link]; rewrite ?Lk; now destruct k|reflexivity].
      + injection E as <- <- <- <-. apply (N false (Some false) eq_refl eq_refl); [unfold broken; cbn [set_link set_stmt set_meta m_link]; rewrite ?Lk; reflexivity|reflexivity].
      + destruct (up k); injection E as <- <- <- <-; apply (N false (Some false) eq_refl eq_refl); try reflexivity; unfold broken; cbn [set_link set_stmt set_meta m_link]; rewrite ?Lk; reflexivity.
    - injection E as <- <- <- <-. cbn [after PoolModel.set_clear PoolModel.c_uri PoolModel.c_pass PoolModel.c_clear set_stmt set_meta m_uri m_link m_password]. rewrite ?Lk. split; [|intros _ k0; discriminate]. split; [exact G1|]. split; [exact G2|]. intros k0; discriminate.
  Qed.

  Lemma my_created neat id u p : myG (PoolModel.mkC id u p true) (create K u p) /\ myH neat (PoolModel.mkC id u p true) (create K u p).
  Proof.
    assert (G : myG (PoolModel.mkC id u p true) (create K u p)) by (split; [reflexivity|]; split; [reflexivity|]; intros k; discriminate).
    split; [exact G|]. split; [exact G|]. split; [reflexivity|]. intros _ k. discriminate.
  Qed.
  Lemma my_acts pc c d o d' c' a b : keeps_database perform -> myG pc c -> act K d c o = (d', c', a, b) -> myG (after b pc) c'.
  Proof.
    intros KD G E. destruct o as [text args l ls|text args l| |l|l]; cbn [act mysql_act] in E.
    - destruct (query_cursor d c text args l ls) as (d1 & c1 & a1 & b1 & Ex & c2 & a2 & Eq & Kp). rewrite Eq in E. injection E as <- <- <- <-.
      eapply keeps_G; [exact Kp|]. eapply execute_G; eauto.
    - eapply execute_G; eauto.
    - pose proof (fields_core c) as F. destruct (mysql_fields c) as [c2 a2]. injection E as <- <- <- <-. eapply keeps_G; [left; exact F|exact G].
    - pose proof (row_keeps c l) as F. destruct (mysql_row timelocal filler c l) as [c2 a2]. injection E as <- <- <- <-. eapply keeps_G; [exact F|exact G].
    - now apply (reset_G _ _ _ _ _ _ _ _ G E).
  Qed.
  Lemma my_finalizes neat pc c d o d' c' a : keeps_database perform -> resets K o = true -> myG pc c -> act K d c o = (d', c', a, Some true) -> myH neat (PoolModel.set_clear true pc) c'.
  Proof.
    intros KD R G E. destruct o; try discriminate. destruct (reset_G _ _ _ _ _ _ _ _ G E) as [X Y]. split; [exact X|]. split; [reflexivity|]. intros _. now apply Y.
  Qed.

  Lemma my_run neat d0 f junk xs w : keeps_database perform -> (neat = true -> tidy xs) -> run K (start d0 f junk) xs = Some w -> winv myG (myH neat) w.
  Proof.
    intros KD Ti R. apply (run_winv K myG (myH neat) (fun _ => True) neat) with (xs := xs) (w := start d0 f junk); auto.
    - intros. apply my_created.
    - intros pc c d o d' c' a b _ G E. now apply (my_acts pc c d o d' c' a b).
    - now intros pc c [G _].
    - intros -> pc c G C. split; [exact G|]. split; [exact C|]. discriminate.
    - intros pc c d o d' c' a _ Rs G E. now apply (my_finalizes neat pc c d o d' c' a).
    - unfold only. apply Forall_forall. intros [| | |]; auto.
    - apply start_winv.
  Qed.

  Lemma loop_same fuel : forall u1 p1 u2 p2 (lk : option (link T)) st me ls acc,
    let x := mysql_loop timelocal filler fuel (mkMysql u1 p1 lk st me) ls acc in
    let y := mysql_loop timelocal filler fuel (mkMysql u2 p2 lk st me) ls acc in
    snd (fst x) = snd (fst y) /\ snd x = snd y.
  Proof.
    induction fuel as [|fuel IH]; intros u1 p1 u2 p2 lk st me ls acc; [now split|]. cbn [mysql_loop]. unfold mysql_row. cbn [m_stmt]. destruct st as [s|]; [|now split]. unfold metadata. cbn [set_meta m_meta m_uri m_password m_link m_stmt].
    destruct (columns s) as [|c0 cs]; [now split|]. set (meta := match me with Some m => Some m | None => Some (c0 :: cs) end). destruct meta as [m|]; [|now split]. destruct (_ <? _)%nat; [now split|].
    destruct (outcome s); [|now split]. destruct (hd Works ls); try (now split). destruct (ahead s) as [|x ah]; [now split|]. destruct (MysqlModel.fetch_row _ _ _ _); [|now split].
    cbn [set_stmt m_uri m_password m_link m_meta]. apply IH.
  Qed.

  (** What a query does depends on the link, and on nothing else *)
  Lemma query_core d c1 c2 text args l ls k : m_link c1 = Some k -> m_link c2 = Some k -> seen (query d c1 text args l ls) = seen (query d c2 text args l ls).
  Proof.
    intros L1 L2. unfold mysql_query, mysql_execute. destruct text as [|ch text]; [reflexivity|]. unfold mysql_connect. rewrite L1, L2, L1, L2.
    destruct (on_init l); try reflexivity. destruct (on_prepare l); try reflexivity. destruct (up k); try reflexivity.
    destruct (prepare _ _ _ _) as [[n cols]|]; try reflexivity. destruct (MysqlModel.execute off n args) as [| |xs]; try reflexivity.
    destruct (on_bind l); try reflexivity. destruct (on_execute l); try reflexivity.
    destruct (perform _ _ _ _ _) as [[[d' db] t] [r|]]; [|reflexivity].
    unfold mysql_numbers, mysql_fields, metadata, set_stmt, set_link, set_meta. cbn [m_uri m_password m_link m_stmt m_meta columns].
    set (lk := Some (mkLink true (self k) db t)). set (st := Some (mkStmt cols (Some r) (rows r))).
    pose proof loop_same as Lp.
    destruct cols as [|c0 cols].
    - cbn [m_uri m_password m_link m_stmt m_meta]. specialize (Lp (match st with Some s => S (length (ahead s)) | None => O end) (m_uri c1) (m_password c1) (m_uri c2) (m_password c2) lk st None ls []).
      destruct (mysql_loop _ _ _ (mkMysql (m_uri c1) _ _ _ _) ls []) as [[c1' t1] a1]. destruct (mysql_loop _ _ _ (mkMysql (m_uri c2) _ _ _ _) ls []) as [[c2' t2] a2]. cbn [fst snd] in Lp; destruct Lp as [-> ->].
      destruct a2 as [| | | |[|]| |]; reflexivity.
    - rewrite Nat.ltb_irrefl. cbn [m_stmt]. specialize (Lp (match st with Some s => S (length (ahead s)) | None => O end) (m_uri c1) (m_password c1) (m_uri c2) (m_password c2) lk st (Some (c0 :: cols)) ls []).
      destruct (mysql_loop _ _ _ (mkMysql (m_uri c1) _ _ _ _) ls []) as [[c1' t1] a1]. destruct (mysql_loop _ _ _ (mkMysql (m_uri c2) _ _ _ _) ls []) as [[c2' t2] a2]. cbn [fst snd] in Lp; destruct Lp as [-> ->].
      destruct a2 as [| | | |[|]| |]; reflexivity.
  Qed.

  (** Rows are fetched in order until there are no more, or there is an error *)
  Lemma loop_rows cols r : forall fuel (c : mysql T) ls acc ah,
    m_stmt c = Some (mkStmt cols (Some r) ah) -> (m_meta c = None \/ m_meta c = Some cols) ->
    Forall (Forall2 MysqlSpec.fits (map snd cols)) ah -> (cols = [] -> ah = []) -> (length ah < fuel)%nat ->
    exists c' j a, mysql_loop timelocal filler fuel c ls acc = (c', acc ++ map (map MysqlSpec.cell_value) (firstn j ah), a)
      /\ (a = Row None /\ firstn j ah = ah \/ a = Threw /\ ~ Forall (eq Works) ls).
  Proof.
    induction fuel as [|fuel IH]; intros c ls acc ah Hs Hm Ha Hc Lt; [lia|]. cbn [mysql_loop]. unfold mysql_row. rewrite Hs. cbn [columns outcome ahead].
    destruct cols as [|c0 cols].
    { rewrite Hc by reflexivity. exists (set_meta c (metadata c (mkStmt [] (Some r) []))), O, (Row None). cbn [firstn map]. rewrite app_nil_r. auto. }
    assert (Me : metadata c (mkStmt (c0 :: cols) (Some r) ah) = Some (c0 :: cols)) by (unfold metadata; destruct Hm as [-> | ->]; reflexivity).
    rewrite Me. cbn [set_meta m_meta]. rewrite Nat.ltb_irrefl. destruct ls as [|l ls]; cbn [hd tl].
    - destruct ah as [|x ah].
      { eexists _, O, (Row None). cbn [firstn map]. rewrite app_nil_r. split; [reflexivity|]. auto. }
      rewrite firstn_all. inversion Ha as [|? ? Ha1 Ha2]; subst. rewrite (MysqlProps.row_fetched timelocal filler _ _ Ha1).
      edestruct (IH (set_stmt (set_meta c (Some (c0 :: cols))) (Some (mkStmt (c0 :: cols) (Some r) ah))) [] (acc ++ [map MysqlSpec.cell_value x]) ah) as (c' & j & a & E & R); try reflexivity; auto.
      { discriminate. } { cbn [length] in Lt. lia. }
      exists c', (S j), a. cbn [firstn map]. unfold set_stmt, set_meta in E. cbn [m_uri m_password m_link m_meta] in E. unfold set_stmt, set_meta. cbn [m_uri m_password m_link m_meta]. rewrite E, <- app_assoc. split; [reflexivity|].
      destruct R as [[-> R]|R]; [left; split; [reflexivity|now f_equal]|now right].
    - assert (Er : forall (c' : mysql T) a, a = Threw -> l <> Works -> exists c'' j a', (c', acc, a) = (c'', acc ++ map (map MysqlSpec.cell_value) (firstn j ah), a') /\ (a' = Row None /\ firstn j ah = ah \/ a' = Threw /\ ~ Forall (eq Works) (l :: ls))).
      { intros c' a -> N. exists c', O, Threw. cbn [firstn map]. rewrite app_nil_r. split; [reflexivity|]. right. split; [reflexivity|]. intros F. inversion F. congruence. }
      destruct l; try (apply Er; [reflexivity|discriminate]).
      destruct ah as [|x ah].
      { eexists _, O, (Row None). cbn [firstn map]. rewrite app_nil_r. split; [reflexivity|]. auto. }
      rewrite firstn_all. inversion Ha as [|? ? Ha1 Ha2]; subst. rewrite (MysqlProps.row_fetched timelocal filler _ _ Ha1).
      edestruct (IH (set_stmt (set_meta c (Some (c0 :: cols))) (Some (mkStmt (c0 :: cols) (Some r) ah))) ls (acc ++ [map MysqlSpec.cell_value x]) ah) as (c' & j & a & E & R); try reflexivity; auto.
      { discriminate. } { cbn [length] in Lt. lia. }
      exists c', (S j), a. cbn [firstn map]. unfold set_stmt, set_meta in E. cbn [m_uri m_password m_link m_meta] in E. unfold set_stmt, set_meta. cbn [m_uri m_password m_link m_meta]. rewrite E, <- app_assoc. split; [reflexivity|].
      destruct R as [[-> R]|[-> R]]; [left; split; [reflexivity|now f_equal]|right; split; [reflexivity|]]. intros F. inversion F. auto.
  Qed.

  Definition whole (cols : list (list Z * MysqlModel.field)) (r : result) (t : list (list MysqlModel.value)) (failed : bool) : report :=
    mkReport (Some (warnings r, matched r, inserted r)) (map fst cols) t failed.

  (** After the statement has been executed *)
  Lemma executed_query (c : mysql T) cols r ls : m_stmt c = Some (mkStmt cols (Some r) (rows r)) -> m_meta c = None -> proper cols r ->
    exists c1 f, mysql_fields c = (c1, Fields f) /\ match f with Some f => f | None => [] end = map fst cols
      /\ m_stmt c1 = Some (mkStmt cols (Some r) (rows r))
      /\ exists c' j a, mysql_loop timelocal filler (S (length (rows r))) c1 ls [] = (c', firstn j (table_of r), a)
         /\ (a = Row None /\ firstn j (table_of r) = table_of r \/ a = Threw /\ ~ Forall (eq Works) ls).
  Proof.
    intros Hs Hm [Pr Pe]. unfold mysql_fields. rewrite Hs. unfold metadata. rewrite Hm. cbn [columns]. unfold set_meta. cbn [m_meta]. destruct cols as [|c0 cols].
    - do 2 eexists. split; [reflexivity|]. split; [reflexivity|]. split; [exact Hs|].
      destruct (loop_rows [] r (S (length (rows r))) (mkMysql (m_uri c) (m_password c) (m_link c) (m_stmt c) None) ls [] (rows r)) as (c' & j & a & E & R); auto.
      exists c', j, a. rewrite E. unfold table_of. rewrite firstn_map. split; [reflexivity|]. destruct R as [[-> R]|R]; [left; now rewrite R|now right].
    - rewrite Nat.ltb_irrefl. do 2 eexists. split; [reflexivity|]. split; [now rewrite firstn_all|]. split; [exact Hs|].
      destruct (loop_rows (c0 :: cols) r (S (length (rows r))) (mkMysql (m_uri c) (m_password c) (m_link c) (m_stmt c) (Some (c0 :: cols))) ls [] (rows r)) as (c' & j & a & E & R); auto.
      exists c', j, a. rewrite E. unfold table_of. rewrite firstn_map. split; [reflexivity|]. destruct R as [[-> R]|R]; [left; now rewrite R|now right].
  Qed.

  Lemma ready_connect d c k l : ready admits fresh d c k -> on_connect l = Works -> exists c1, mysql_connect admits fresh d c (on_connect l) = Some c1 /\ m_link c1 = Some k.
  Proof.
    intros [[Lk _]|[Lk (p & Sp & Ad & ->)]] L; unfold mysql_connect; rewrite Lk; [eauto|]. rewrite Sp, L. cbv zeta. fold (as_c p). rewrite Ad. eexists. split; reflexivity.
  Qed.

  Lemma query_complete d c k text args l ls n cols xs : text <> [] -> ready admits fresh d c k -> lucky l ->
    prepare d (current k) (rest k) text = Some (n, cols) -> MysqlModel.execute off n args = MysqlModel.Sends xs ->
    forall d' db t o, perform d (current k) (rest k) text xs = (d', db, t, o) ->
    match o with
    | None => seen (query d c text args l ls) = (d', Result no_report)
    | Some r => proper cols r -> exists j failed, seen (query d c text args l ls) = (d', Result (whole cols r (firstn j (table_of r)) failed))
        /\ (failed = false -> firstn j (table_of r) = table_of r) /\ (Forall (eq Works) ls -> failed = false)
    end.
  Proof.
    intros Nt Rd (L1 & L2 & L3 & L4 & L5) Pr Ex d' db t o Pf. destruct (ready_connect _ _ _ _ Rd L1) as (c1 & Cn & Lk).
    assert (Up : up k = true) by (destruct Rd as [[_ U]|[_ (p & _ & _ & ->)]]; [exact U|reflexivity]).
    unfold mysql_query, mysql_execute. destruct text as [|ch text]; [congruence|]. rewrite Cn, L2, Lk, L3, Up, Pr, Ex, L4, L5, Pf. destruct o as [r|]; [|reflexivity].
    intros Pp. set (c2 := set_stmt _ _). destruct (executed_query c2 cols r ls eq_refl eq_refl Pp) as (c3 & f & F1 & F2 & F3 & c' & j & a & E & R).
    rewrite F1, F2, F3. cbn [ahead]. rewrite E. exists j. destruct R as [[-> R]|[-> R]].
    - exists false. split; [reflexivity|]. auto.
    - exists true. split; [reflexivity|]. split; [discriminate|]. tauto.
  Qed.

  (** All that may happen *)
  Lemma query_any d c text args l ls : (forall n, MysqlModel.execute off n args <> MysqlModel.Undefined) ->
    seen (query d c text args l ls) = (d, Result no_report)
    \/ exists k n cols xs d' db t o, ready admits fresh d c k /\ prepare d (current k) (rest k) text = Some (n, cols) /\ MysqlModel.execute off n args = MysqlModel.Sends xs
       /\ perform d (current k) (rest k) text xs = (d', db, t, o)
       /\ (seen (query d c text args l ls) = (d', Result no_report)
           \/ exists r, o = Some r /\ (proper cols r -> exists j failed, seen (query d c text args l ls) = (d', Result (whole cols r (firstn j (table_of r)) failed))
               /\ (failed = false -> firstn j (table_of r) = table_of r))).
  Proof.
    intros NU. unfold mysql_query, mysql_execute. destruct text as [|ch text]; [now left|]. destruct (mysql_connect admits fresh d c (on_connect l)) as [c1|] eqn:Cn; [|now left].
    assert (Lk : exists k, m_link c1 = Some k /\ (up k = true -> ready admits fresh d c k)).
    { unfold mysql_connect in Cn. destruct (m_link c) as [k|] eqn:E.
      - injection Cn as <-. exists k. split; [exact E|]. intros U. left. auto.
      - destruct (service_params mysql_defaults (m_uri c)) as [p|] eqn:Sp; [|discriminate]. cbv zeta in Cn. destruct (on_connect l); [|discriminate..]. fold (as_c p) in Cn.
        destruct (admits d (as_c p) (c_str (m_password c))) eqn:Ad; [|discriminate]. injection Cn as <-. eexists. split; [reflexivity|]. intros _. right. split; [exact E|]. exists p. auto. }
    destruct Lk as (k & Lk & Rd). rewrite Lk. destruct (on_init l); try (now left). destruct (on_prepare l); try (now left). destruct (up k); [|now left]. specialize (Rd eq_refl).
    destruct (prepare d (current k) (rest k) (ch :: text)) as [[n cols]|] eqn:Pr; [|now left]. specialize (NU n). destruct (MysqlModel.execute off n args) as [| |xs] eqn:Ex; [now left|congruence|].
    destruct (on_bind l); try (now left).
    destruct (perform d (current k) (rest k) (ch :: text) xs) as [[[d' db] t] o] eqn:Pf.
    destruct (on_execute l); try (now left); right; exists k, n, cols, xs, d', db, t, o; (split; [exact Rd|]; split; [exact Pr|]; split; [exact Ex|]; split; [exact Pf|]); [|now left].
    destruct o as [r|]; [|now left]. right. exists r. split; [reflexivity|]. intros Pp. set (c2 := set_stmt _ _). destruct (executed_query c2 cols r ls eq_refl eq_refl Pp) as (c3 & f & F1 & F2 & F3 & c' & j & a & E & R).
    rewrite F1, F2, F3. cbn [ahead]. rewrite E. exists j. destruct R as [[-> R]|[-> R]].
    - exists false. split; [reflexivity|]. auto.
    - exists true. split; [reflexivity|]. discriminate.
  Qed.

  (** A connection that waits is as good as a new one. *)
  Lemma my_as_new neat pc c d text args l ls : myH neat pc c -> on_connect l = Works ->
    (forall p, service_params mysql_defaults (PoolModel.c_uri pc) = Some p -> admits d (as_c p) (c_str (PoolModel.c_pass pc)) = true) ->
    let got := seen (query d c text args l ls) in
    let new := seen (query d (mysql_new (PoolModel.c_uri pc) (PoolModel.c_pass pc)) text args l ls) in
    (got = new \/ got = (d, Result no_report)) /\ (neat = true -> got = new).
  Proof.
    intros ((G1 & G2 & G3) & Cl & Ne) Lc Ad got new.
    destruct (m_link c) as [k|] eqn:Lk.
    - destruct (G3 k Lk) as (p & P1 & P2 & P3 & P4). specialize (P4 Cl). destruct (up k) eqn:Up.
      + assert (E : got = new); [|auto]. unfold got, new. set (k0 := mkLink true (as_c p) (p_database (as_c p)) (fresh (as_c p))).
        assert (Ek : k = k0) by (destruct k as [u s cu re]; cbn [up self current rest] in *; subst; reflexivity). rewrite Ek in Lk.
        rewrite (query_core d c (set_link c (Some k0)) text args l ls k0 Lk eq_refl).
        unfold mysql_query, mysql_execute. destruct text as [|ch text]; [reflexivity|].
        set (n1 := mkMysql (PoolModel.c_uri pc) [] (Some k0) None None).
        assert (C1 : mysql_connect admits fresh d (mysql_new (PoolModel.c_uri pc) (PoolModel.c_pass pc)) (on_connect l) = Some n1).
        { unfold mysql_connect, mysql_new. cbn [m_link m_uri m_password]. rewrite P1, Lc. cbv zeta. fold (as_c p). now rewrite (Ad p P1). }
        rewrite C1. pose proof (query_core d (set_link c (Some k0)) n1 (ch :: text) args l ls k0 eq_refl eq_refl) as Q.
        unfold mysql_query, mysql_execute in Q. assert (C2 : mysql_connect admits fresh d n1 (on_connect l) = Some n1) by reflexivity. rewrite C2 in Q. exact Q.
      + split.
        * right. unfold got, mysql_query, mysql_execute. destruct text as [|ch text]; [reflexivity|]. unfold mysql_connect. rewrite Lk, Lk. destruct (on_init l); try reflexivity.
          rewrite Up. destruct (on_prepare l); reflexivity.
        * intros N. specialize (Ne N k eq_refl). congruence.
    - assert (E : got = new); [|auto]. unfold got, new, mysql_query, mysql_execute. destruct text as [|ch text]; [reflexivity|]. unfold mysql_connect at 1 2, mysql_new. rewrite Lk. cbn [m_link m_uri m_password]. rewrite G1.
      destruct (service_params mysql_defaults (PoolModel.c_uri pc)) as [p|] eqn:Sp; [|reflexivity]. cbv zeta. fold (as_c p). rewrite Lc, G2 by reflexivity. rewrite (Ad p eq_refl).
      set (k0 := mkLink true (as_c p) (p_database (as_c p)) (fresh (as_c p))).
      pose proof (query_core d (mkMysql (PoolModel.c_uri pc) [] (Some k0) (m_stmt c) (m_meta c)) (mkMysql (PoolModel.c_uri pc) [] (Some k0) None None) (ch :: text) args l ls k0 eq_refl eq_refl) as Q.
      unfold mysql_query, mysql_execute in Q. unfold mysql_connect in Q. cbn [m_link] in Q. exact Q.
  Qed.
End Mysql.
