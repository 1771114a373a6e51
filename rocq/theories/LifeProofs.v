(** Proofs about the life of easy servers. *)
From Coq Require Import ZArith List Bool Lia ZifyBool.
From Verif Require Import Base BaseLemmas AddrModel LifeModel LifeSpec.
Import ListNotations.

Lemma nth_set {A} (l : list A) i x j : (i < length l)%nat -> nth_error (firstn i l ++ x :: skipn (S i) l) j = if (j =? i)%nat then Some x else nth_error l j.
Proof.
  revert i j. induction l as [|y l IH]; intros i j H; [cbn in H; lia|]. destruct i as [|i]; destruct j as [|j]; try reflexivity. cbn [firstn List.app nth_error]. cbn [length] in H. change (skipn (S (S i)) (y :: l)) with (skipn (S i) l). rewrite IH by lia. reflexivity.
Qed.
Lemma length_set {A} (l : list A) i x : (i < length l)%nat -> length (firstn i l ++ x :: skipn (S i) l) = length l.
Proof. intros H. rewrite app_length, firstn_length. cbn [length]. rewrite skipn_length. lia. Qed.
Lemma nth_lt {A} (l : list A) i x : nth_error l i = Some x -> (i < length l)%nat.
Proof. intros H. apply nth_error_Some. congruence. Qed.
Lemma nth_snoc {A} (l : list A) x i y : nth_error (l ++ [x]) i = Some y -> nth_error l i = Some y \/ i = length l /\ y = x.
Proof.
  intros H. destruct (Nat.lt_ge_cases i (length l)) as [L|L]; [left; now rewrite nth_error_app1 in H|]. rewrite nth_error_app2 in H by exact L.
  destruct (i - length l)%nat as [|k] eqn:E; cbn in H; [right; split; [lia|congruence]|destruct k; discriminate].
Qed.
Lemma busy_spec st g : existsb (fun s => (s_table s =? g)%nat && s_busy s) (sessions st) = true <-> in_callback st g.
Proof.
  rewrite existsb_exists. split.
  - intros (s & I & H). apply In_nth_error in I as [i I]. exists i, s. split; [exact I|]. apply andb_prop in H as [H1 H2]. split; [lia|exact H2].
  - intros (i & s & I & H1 & H2). exists s. split; [eapply nth_error_In, I|]. rewrite H2. lia.
Qed.
Lemma table_spec st g : table_exists st g = true <-> owner st = Some g \/ in_callback st g.
Proof.
  unfold table_exists. rewrite orb_true_iff, busy_spec. destruct (owner st) as [o|]; [|intuition discriminate].
  rewrite Nat.eqb_eq. split; intros [H|H]; auto; left; congruence.
Qed.
Lemma refs_spec (r : list holder) : negb (match r with [] => true | _ => false end) = true <-> exists h t, r = h :: t.
Proof. destruct r as [|h r]; cbn; split; [discriminate|intros (h & t & [=])|intros _; eauto|reflexivity]. Qed.
Lemma acceptor_spec st g m : nth_error (gens st) g = Some m -> (acceptor_exists st g m = true <-> owner st = Some g \/ kept_acceptor st g).
Proof.
  intros N. unfold acceptor_exists. rewrite orb_true_iff, refs_spec. split.
  - intros [H|(h & t & H)]; [left; destruct (owner st) as [o|]; [apply Nat.eqb_eq in H; congruence|discriminate]|right; exists m, h, t; auto].
  - intros [->|(m' & h & t & N' & H)]; [left; apply Nat.eqb_refl|right; replace m with m' by congruence; eauto].
Qed.
Lemma listening_spec st g a : listening st g = Some a <-> exists m, nth_error (gens st) g = Some m /\ m_addr m = Some a /\ (owner st = Some g \/ kept_acceptor st g).
Proof.
  unfold listening. split.
  - destruct (nth_error (gens st) g) as [m|] eqn:N; [|discriminate]. destruct (acceptor_exists st g m) eqn:E; [|discriminate]. intros H. exists m. repeat split; auto. now apply (acceptor_spec st g m N).
  - intros (m & N & M & H). rewrite N. apply (acceptor_spec st g m N) in H. now rewrite H.
Qed.
Lemma open_spec st i : is_open st i = true <->
  exists s, nth_error (sessions st) i = Some s /\ (s_in s = true /\ (owner st = Some (s_table s) \/ in_callback st (s_table s)) \/ s_busy s = true \/ kept_session st i).
Proof.
  unfold is_open, open_session. destruct (nth_error (sessions st) i) as [s|] eqn:N; [|split; [discriminate|intros (s & H & _); discriminate]].
  rewrite !orb_true_iff, andb_true_iff, table_spec, refs_spec. split.
  - intros [[H|H]|(h & t & H)]; exists s; (split; [reflexivity|]); auto. right. right. exists s, h, t. auto.
  - intros (s' & E & H). injection E as <-. destruct H as [H|[H|(s' & h & t & N' & H)]]; auto. right. exists h, t. congruence.
Qed.

Section Life.
  Variables (read : list Z -> option address) (clash : address -> address -> bool).
  Notation step := (step read clash).
  Notation run := (run read clash).

  Lemma run_app es1 : forall st es2, run st (es1 ++ es2) = match run st es1 with Some st1 => run st1 es2 | None => None end.
  Proof. induction es1 as [|e es1 IH]; intros st es2; [reflexivity|]. cbn [List.app LifeModel.run]. destruct (step st e); [apply IH|reflexivity]. Qed.

  Lemma taken_spec st a : taken clash st a = true <-> exists g b, listening st g = Some b /\ clash a b = true.
  Proof.
    unfold taken. rewrite existsb_exists. split.
    - intros (g & _ & H). destruct (listening st g) as [b|] eqn:E; [|discriminate]. eauto.
    - intros (g & b & L & H). exists g. rewrite L. split; [|exact H]. apply in_seq. apply listening_spec in L as (m & N & _). apply nth_lt in N. lia.
  Qed.

  (** Objects are created in order, and connections keep their tables. *)
  Definition wf (st : state) : Prop :=
    (forall o, owner st = Some o -> (o < length (gens st))%nat) /\ Forall (fun s => (s_table s < length (gens st))%nat) (sessions st).
  Lemma listening_lt st g a : listening st g = Some a -> (g < length (gens st))%nat.
  Proof. intros L. apply listening_spec in L as (m & N & _). eapply nth_lt, N. Qed.
  Lemma Forall_set {A} (P : A -> Prop) l i x y : Forall P l -> nth_error l i = Some y -> P x -> Forall P (firstn i l ++ x :: skipn (S i) l).
  Proof.
    intros F N Px. apply Forall_app. rewrite Forall_forall in F. split; [|constructor; [exact Px|]]; apply Forall_forall; intros z I; apply F.
    - rewrite <- (firstn_skipn i l). apply in_or_app. now left.
    - rewrite <- (firstn_skipn (S i) l). apply in_or_app. now right.
  Qed.
  Ltac inv H := first [discriminate H | injection H; clear H; intros; subst].
  Lemma step_wf st e st' : wf st -> step st e = Some st' -> wf st' /\ (length (gens st) <= length (gens st'))%nat
    /\ (forall i s, nth_error (sessions st) i = Some s -> exists s', nth_error (sessions st') i = Some s' /\ s_table s' = s_table s)
    /\ exists new, log st' = log st ++ new.
  Proof.
    intros [W1 W2] H.
    assert (SAY : forall i, wf (say st i) /\ (length (gens st) <= length (gens (say st i)))%nat
      /\ (forall j s, nth_error (sessions st) j = Some s -> exists s', nth_error (sessions (say st i)) j = Some s' /\ s_table s' = s_table s) /\ exists new, log (say st i) = log st ++ new).
    { intros i. split; [split; [exact W1|exact W2]|]. split; [cbn; lia|]. split; [intros j s N; exists s; auto|]. exists [i]. reflexivity. }
    assert (SES : forall i s s' new, nth_error (sessions st) i = Some s -> s_table s' = s_table s ->
      forall st', st' = mkState (owner st) (gens st) (firstn i (sessions st) ++ s' :: skipn (S i) (sessions st)) (log st ++ new) ->
      wf st' /\ (length (gens st) <= length (gens st'))%nat
      /\ (forall j s, nth_error (sessions st) j = Some s -> exists s', nth_error (sessions st') j = Some s' /\ s_table s' = s_table s) /\ exists new, log st' = log st ++ new).
    { intros i s s' new N T st1 ->. split; [split; [exact W1|]|]; cbn [sessions gens log].
      - apply (Forall_set _ _ _ _ s); [exact W2|exact N|]. rewrite T. rewrite Forall_forall in W2. eapply W2, nth_error_In, N.
      - split; [lia|]. split; [|now exists new]. intros j s0 N0. rewrite nth_set by (eapply nth_lt, N). destruct (j =? i)%nat eqn:E; [|eauto]. apply Nat.eqb_eq in E as ->. exists s'. split; [reflexivity|congruence]. }
    assert (GEN : forall g m m', nth_error (gens st) g = Some m -> wf (set_made st g m') /\ (length (gens st) <= length (gens (set_made st g m')))%nat
      /\ (forall j s, nth_error (sessions st) j = Some s -> exists s', nth_error (sessions (set_made st g m')) j = Some s' /\ s_table s' = s_table s) /\ exists new, log (set_made st g m') = log st ++ new).
    { intros g m m' N. assert (L : length (gens (set_made st g m')) = length (gens st)) by (cbn [gens set_made]; apply length_set; eapply nth_lt, N).
      split; [split; rewrite L; [exact W1|exact W2]|]. split; [lia|]. split; [intros j s Nj; exists s; auto|]. exists []. now rewrite app_nil_r. }
    assert (Z0 : forall st1, sessions st1 = sessions st -> gens st1 = gens st -> owner st1 = None -> log st1 = log st -> wf st1 /\ (length (gens st) <= length (gens st1))%nat
      /\ (forall j s, nth_error (sessions st) j = Some s -> exists s', nth_error (sessions st1) j = Some s' /\ s_table s' = s_table s) /\ exists new, log st1 = log st ++ new).
    { intros st1 E1 E2 E3 E4. unfold wf. rewrite E1, E2, E3, E4. split; [split; [discriminate|exact W2]|]. split; [lia|]. split; [eauto|]. exists []. now rewrite app_nil_r. }
    assert (Sd : forall i s s', nth_error (sessions st) i = Some s -> s_table s' = s_table s -> wf (set_session st i s') /\ (length (gens st) <= length (gens (set_session st i s')))%nat
      /\ (forall j s, nth_error (sessions st) j = Some s -> exists s'', nth_error (sessions (set_session st i s')) j = Some s'' /\ s_table s'' = s_table s) /\ exists new, log (set_session st i s') = log st ++ new).
    { intros i s s' N T. apply (SES i s s' [] N T). unfold set_session. now rewrite app_nil_r. }
    destruct e; cbn [LifeModel.step] in H.
    - destruct (resolve read pl) as [a|]; [|inv H; apply SAY]. destruct (negb ok || taken clash st (bound a picked)); inv H; [apply SAY|].
      split; [split|].
      + cbn [owner gens]. intros o [= <-]. rewrite app_length. cbn [length]. lia.
      + cbn [sessions gens]. eapply Forall_impl; [|exact W2]. cbv beta. intros s Hs. rewrite app_length. lia.
      + cbn [gens sessions log]. rewrite app_length. split; [lia|]. split; [eauto|]. eexists. reflexivity.
    - inv H. apply Z0; reflexivity.
    - destruct (owner st) as [g|] eqn:O; inv H; cbn [gens sessions log owner].
      + split; [split; cbn [owner gens sessions]; [intros o [= <-]; now apply W1|apply Forall_app; split; [exact W2|constructor; [now apply W1|constructor]]]|].
        split; [lia|]. split; [|exists []; now rewrite app_nil_r]. intros j s N. exists s. rewrite nth_error_app1 by (eapply nth_lt, N). auto.
      + split; [split; cbn [owner gens sessions]; rewrite app_length; cbn [length]|].
        * intros o [= <-]. lia.
        * apply Forall_app. split; [eapply Forall_impl; [|exact W2]; cbv beta; intros; lia|constructor; [cbn [s_table]; lia|constructor]].
        * rewrite app_length. split; [lia|]. split; [|exists []; now rewrite app_nil_r]. intros j s N. exists s. rewrite nth_error_app1 by (eapply nth_lt, N). auto.
    - destruct (listening st g) as [a|] eqn:L; [|discriminate]. destruct (table_exists st g); inv H; [|apply SAY]. cbn [gens sessions log].
      split; [split; cbn [owner gens sessions]; [exact W1|apply Forall_app; split; [exact W2|constructor; [eapply listening_lt, L|constructor]]]|].
      split; [lia|]. split; [|eexists; reflexivity]. intros j s N. exists s. rewrite nth_error_app1 by (eapply nth_lt, N). auto.
    - destruct (nth_error (sessions st) s) as [s0|] eqn:N; [|discriminate]. destruct (table_exists st (s_table s0) && s_in s0 && negb (s_busy s0) && s_watched s0); inv H.
      eapply (SES s s0 _ [Called s] N); [|reflexivity]; reflexivity.
    - destruct (nth_error (sessions st) s) as [s0|] eqn:N; [|discriminate]. destruct (s_busy s0); inv H. eapply Sd; [exact N|reflexivity].
    - destruct (nth_error (sessions st) s) as [s0|] eqn:N; [|discriminate]. destruct (open_session st s0 && s_watched s0); inv H. eapply Sd; [exact N|reflexivity].
    - destruct (nth_error (sessions st) s) as [s0|] eqn:N; [|discriminate]. destruct (open_session st s0 && match h with User => true | Network => s_watched s0 end); inv H. eapply Sd; [exact N|reflexivity].
    - destruct (nth_error (sessions st) s) as [s0|] eqn:N; [|discriminate]. destruct (s_refs s0); inv H. eapply Sd; [exact N|reflexivity].
    - destruct (nth_error (gens st) g) as [m|] eqn:N; [|discriminate]. destruct (acceptor_exists st g m); inv H. eapply GEN, N.
    - destruct (nth_error (gens st) g) as [m|] eqn:N; [|discriminate]. destruct (m_refs m); inv H. eapply GEN, N.
  Qed.
  Lemma init_wf : wf init.
  Proof. split; [discriminate|constructor]. Qed.
  Lemma run_wf es : forall st st', wf st -> run st es = Some st' -> wf st' /\ (length (gens st) <= length (gens st'))%nat
    /\ (forall i s, nth_error (sessions st) i = Some s -> exists s', nth_error (sessions st') i = Some s' /\ s_table s' = s_table s)
    /\ exists new, log st' = log st ++ new.
  Proof.
    induction es as [|e es IH]; intros st st' W R; cbn [LifeModel.run] in R.
    - injection R as <-. split; [exact W|]. split; [lia|]. split; [eauto|]. exists []. now rewrite app_nil_r.
    - destruct (step st e) as [st1|] eqn:E; [|discriminate]. destruct (step_wf st e st1 W E) as (W1 & L1 & T1 & n1 & G1). destruct (IH st1 st' W1 R) as (W2 & L2 & T2 & n2 & G2).
      split; [exact W2|]. split; [lia|]. split.
      + intros i s N. destruct (T1 i s N) as (s1 & N1 & Q1). destruct (T2 i s1 N1) as (s2 & N2 & Q2). exists s2. split; [exact N2|congruence].
      + exists (n1 ++ n2). now rewrite G2, G1, app_assoc.
  Qed.

  (** A table that is gone does not return. *)
  Definition gone (st : state) (g : nat) : Prop := (g < length (gens st))%nat /\ owner st <> Some g /\ ~ in_callback st g.
  Lemma in_callback_set st i s0 s' : nth_error (sessions st) i = Some s0 -> s_table s' = s_table s0 -> forall g st',
    sessions st' = firstn i (sessions st) ++ s' :: skipn (S i) (sessions st) -> in_callback st' g -> in_callback st g \/ g = s_table s0 /\ s_busy s' = true.
  Proof.
    intros N T g st' E (j & s & Nj & Tj & Bj). rewrite E, nth_set in Nj by (eapply nth_lt, N). destruct (j =? i)%nat eqn:Q.
    - injection Nj as <-. right. split; congruence.
    - left. exists j, s. auto.
  Qed.
  Lemma in_callback_ext st st' g : sessions st' = sessions st -> in_callback st' g -> in_callback st g.
  Proof. intros E (i & s & N & H). exists i, s. now rewrite <- E. Qed.
  Lemma in_callback_snoc st st' x g : sessions st' = sessions st ++ [x] -> s_busy x = false -> in_callback st' g -> in_callback st g.
  Proof. intros E B (i & s & N & H). rewrite E in N. apply nth_snoc in N as [N|[_ ->]]; [exists i, s; auto|]. destruct H as [_ H]. congruence. Qed.
  Lemma step_gone st e st' g : wf st -> gone st g -> step st e = Some st' -> gone st' g /\ exists new, log st' = log st ++ new /\ silent st' g new.
  Proof.
    intros W (L & O & C) H. destruct (step_wf st e st' W H) as (W' & LL & TT & _). assert (L' : (g < length (gens st'))%nat) by lia.
    assert (Q : owner st' <> Some g -> ~ in_callback st' g -> forall new, log st' = log st ++ new -> silent st' g new -> gone st' g /\ exists new, log st' = log st ++ new /\ silent st' g new)
      by (intros; split; [repeat split; auto|eauto]).
    assert (NT : table_exists st g = false) by (destruct (table_exists st g) eqn:E; [|reflexivity]; apply table_spec in E as [E|E]; contradiction).
    assert (SN : silent st' g []) by constructor.
    destruct e; cbn [LifeModel.step] in H.
    - destruct (resolve read pl) as [a|]; [|inv H; eapply Q; [exact O|exact C|reflexivity|repeat constructor]].
      destruct (negb ok || taken clash st (bound a picked)); inv H; [eapply Q; [exact O|exact C|reflexivity|repeat constructor]|].
      eapply Q; [cbn [owner]; intros [= E]; lia|exact C|reflexivity|]. constructor; [lia|constructor].
    - inv H. eapply Q; [discriminate|exact C|cbn [log]; symmetry; apply app_nil_r|exact SN].
    - destruct (owner st) as [o|] eqn:Ow; inv H; (eapply Q; [|intros D; apply C; eapply in_callback_snoc; [| |exact D]; reflexivity|cbn [log]; symmetry; apply app_nil_r|exact SN]); cbn [owner]; [exact O|intros [= E]; lia].
    - destruct (listening st g0) as [a|] eqn:Li; [|discriminate]. destruct (table_exists st g0) eqn:Ta; inv H.
      + eapply Q; [exact O|intros D; apply C; eapply in_callback_snoc; [| |exact D]; reflexivity|reflexivity|]. constructor; [intros ->; congruence|constructor].
      + eapply Q; [exact O|exact C|reflexivity|repeat constructor].
    - destruct (nth_error (sessions st) s) as [s0|] eqn:N; [|discriminate]. destruct (table_exists st (s_table s0)) eqn:Ta; [|discriminate]. cbn [andb] in H. destruct (s_in s0 && negb (s_busy s0) && s_watched s0); inv H.
      assert (NE : s_table s0 <> g) by congruence.
      eapply Q; [exact O| |reflexivity|].
      + intros D. eapply in_callback_set in D; [|exact N| |reflexivity]; [|reflexivity]. destruct D as [D|[D _]]; [now apply C|congruence].
      + constructor; [|constructor]. destruct (TT s s0 N) as (s2 & N2 & T2). exists (s_table s0). split; [exact NE|]. exists s2. auto.
    - destruct (nth_error (sessions st) s) as [s0|] eqn:N; [|discriminate]. destruct (s_busy s0) eqn:B; inv H.
      eapply Q; [exact O| |cbn [log set_session]; symmetry; apply app_nil_r|exact SN]. intros D. eapply in_callback_set in D; [|exact N| |reflexivity]; [|reflexivity]. destruct D as [D|[_ D]]; [now apply C|discriminate].
    - destruct (nth_error (sessions st) s) as [s0|] eqn:N; [|discriminate]. destruct (open_session st s0 && s_watched s0); inv H.
      eapply Q; [exact O| |cbn [log set_session]; symmetry; apply app_nil_r|exact SN]. intros D. eapply in_callback_set in D; [|exact N| |reflexivity]; [|reflexivity]. destruct D as [D|[-> D]]; [now apply C|].
      apply C. exists s, s0. auto.
    - destruct (nth_error (sessions st) s) as [s0|] eqn:N; [|discriminate]. destruct (open_session st s0 && match h with User => true | Network => s_watched s0 end); inv H.
      eapply Q; [exact O| |cbn [log set_session]; symmetry; apply app_nil_r|exact SN]. intros D. eapply in_callback_set in D; [|exact N| |reflexivity]; [|reflexivity]. destruct D as [D|[-> D]]; [now apply C|].
      apply C. exists s, s0. auto.
    - destruct (nth_error (sessions st) s) as [s0|] eqn:N; [|discriminate]. destruct (s_refs s0); inv H.
      eapply Q; [exact O| |cbn [log set_session]; symmetry; apply app_nil_r|exact SN]. intros D. eapply in_callback_set in D; [|exact N| |reflexivity]; [|reflexivity]. destruct D as [D|[-> D]]; [now apply C|].
      apply C. exists s, s0. auto.
    - destruct (nth_error (gens st) g0) as [m|] eqn:N; [|discriminate]. destruct (acceptor_exists st g0 m); inv H. eapply Q; [exact O|exact C|cbn [log set_made]; symmetry; apply app_nil_r|exact SN].
    - destruct (nth_error (gens st) g0) as [m|] eqn:N; [|discriminate]. destruct (m_refs m); inv H. eapply Q; [exact O|exact C|cbn [log set_made]; symmetry; apply app_nil_r|exact SN].
  Qed.
  Lemma run_gone es : forall st st' g, wf st -> gone st g -> run st es = Some st' -> gone st' g /\ exists new, log st' = log st ++ new /\ silent st' g new.
  Proof.
    induction es as [|e es IH]; intros st st' g W G R; cbn [LifeModel.run] in R.
    - injection R as <-. split; [exact G|]. exists []. split; [now rewrite app_nil_r|constructor].
    - destruct (step st e) as [st1|] eqn:E; [|discriminate]. destruct (step_wf st e st1 W E) as (W1 & _). destruct (step_gone st e st1 g W G E) as (G1 & n1 & L1 & S1).
      destruct (IH st1 st' g W1 G1 R) as (G2 & n2 & L2 & S2). split; [exact G2|]. exists (n1 ++ n2). split; [now rewrite L2, L1, app_assoc|].
      apply Forall_app. split; [|exact S2]. eapply Forall_impl; [|exact S1]. intros it. destruct it; auto. intros (h & NE & s1 & N1 & T1). exists h. split; [exact NE|].
      destruct (run_wf es st1 st' W1 R) as (_ & _ & TT & _). destruct (TT _ s1 N1) as (s2 & N2 & T2). exists s2. split; [exact N2|congruence].
  Qed.

  (** A connection in the table of the server stays. *)
  Definition owned (st : state) (g i : nat) (a : option address) : Prop :=
    owner st = Some g /\ (exists s, nth_error (sessions st) i = Some s /\ s_table s = g /\ s_in s = true) /\ exists m, nth_error (gens st) g = Some m /\ m_addr m = a.
  Lemma step_owned st e st' g i a : owned st g i a -> lasting i [e] -> step st e = Some st' -> owned st' g i a.
  Proof.
    intros (O & (s & N & T & I) & m & M & A) La H. inversion La as [|? ? La1 _]; subst. clear La.
    assert (SES : forall st1 j sj s', nth_error (sessions st) j = Some sj -> (j = i -> s_table s' = s_table s /\ s_in s' = true) -> owner st1 = owner st -> gens st1 = gens st ->
      sessions st1 = firstn j (sessions st) ++ s' :: skipn (S j) (sessions st) -> owned st1 (s_table s) i (m_addr m)).
    { intros st1 j sj s' Nj Hj Eo Eg Es. split; [congruence|]. split; [|exists m; split; [congruence|reflexivity]]. rewrite Es, nth_set by (eapply nth_lt, Nj).
      destruct (i =? j)%nat eqn:Q; [|exists s; auto]. apply Nat.eqb_eq in Q. exists s'. split; [reflexivity|]. apply Hj. congruence. }
    assert (GEN : forall h mh m', nth_error (gens st) h = Some mh -> m_addr m' = m_addr mh -> owned (set_made st h m') (s_table s) i (m_addr m)).
    { intros h mh m' Nh E. split; [exact O|]. split; [exists s; auto|]. cbn [gens set_made]. rewrite nth_set by (eapply nth_lt, Nh). destruct (s_table s =? h)%nat eqn:Q; [|exists m; auto].
      apply Nat.eqb_eq in Q. exists m'. split; [reflexivity|]. congruence. }
    assert (SNO : forall x l, owned (mkState (owner st) (gens st) (sessions st ++ [x]) l) (s_table s) i (m_addr m)).
    { intros x l. split; [exact O|]. split; [exists s; cbn [sessions]; rewrite nth_error_app1 by (eapply nth_lt, N); auto|]. exists m. auto. }
    destruct e; cbn [LifeModel.step] in H; try contradiction.
    - rewrite O in H. inv H. rewrite <- O. apply SNO.
    - destruct (listening st g) as [b|]; [|discriminate]. destruct (table_exists st g); inv H; [apply SNO|]. split; [exact O|]. split; [exists s; auto|exists m; auto].
    - destruct (nth_error (sessions st) s0) as [s1|] eqn:N1; [|discriminate]. destruct (table_exists st (s_table s1) && s_in s1 && negb (s_busy s1) && s_watched s1) eqn:G; inv H.
      eapply (SES _ s0 s1); [exact N1| |reflexivity|reflexivity|reflexivity]. intros E. specialize (La1 E). subst. cbn [s_table s_in negb]. split; congruence.
    - destruct (nth_error (sessions st) s0) as [s1|] eqn:N1; [|discriminate]. destruct (s_busy s1); inv H. eapply (SES _ s0 s1); [exact N1| |reflexivity|reflexivity|reflexivity]. intros E. subst. cbn [s_table s_in]. split; congruence.
    - destruct (nth_error (sessions st) s0) as [s1|] eqn:N1; [|discriminate]. destruct (open_session st s1 && s_watched s1); inv H. eapply (SES _ s0 s1); [exact N1| |reflexivity|reflexivity|reflexivity]. intros E. contradiction.
    - destruct (nth_error (sessions st) s0) as [s1|] eqn:N1; [|discriminate]. destruct (open_session st s1 && match h with User => true | Network => s_watched s1 end); inv H. eapply (SES _ s0 s1); [exact N1| |reflexivity|reflexivity|reflexivity]. intros E. subst. cbn [s_table s_in]. split; congruence.
    - destruct (nth_error (sessions st) s0) as [s1|] eqn:N1; [|discriminate]. destruct (s_refs s1); inv H. eapply (SES _ s0 s1); [exact N1| |reflexivity|reflexivity|reflexivity]. intros E. subst. cbn [s_table s_in]. split; congruence.
    - destruct (nth_error (gens st) g) as [m1|] eqn:N1; [|discriminate]. destruct (acceptor_exists st g m1); inv H. eapply GEN; [exact N1|reflexivity].
    - destruct (nth_error (gens st) g) as [m1|] eqn:N1; [|discriminate]. destruct (m_refs m1); inv H. eapply GEN; [exact N1|reflexivity].
  Qed.
  Lemma run_owned es : forall st st' g i a, owned st g i a -> lasting i es -> run st es = Some st' -> owned st' g i a.
  Proof.
    induction es as [|e es IH]; intros st st' g i a W La R; cbn [LifeModel.run] in R; [now injection R as <-|]. inversion La as [|? ? L1 L2]; subst.
    destruct (step st e) as [st1|] eqn:E; [|discriminate]. eapply IH; [|exact L2|exact R]. eapply step_owned; [exact W| |exact E]. constructor; [exact L1|constructor].
  Qed.
  Lemma owned_open st g i a : owned st g i a -> is_open st i = true /\ listening st g = a.
  Proof.
    intros (O & (s & N & T & I) & m & M & A). split.
    - apply open_spec. exists s. split; [exact N|]. left. split; [exact I|]. left. congruence.
    - unfold listening, acceptor_exists. rewrite M, O, Nat.eqb_refl. exact A.
  Qed.

  (** The scheduler never begins to watch a connection later. *)
  Definition unwatched (st : state) (i : nat) : Prop := exists s, nth_error (sessions st) i = Some s /\ s_watched s = false.
  Lemma step_unwatched st e st' i : step st e = Some st' -> unwatched st i -> unwatched st' i /\ (~ In (Called i) (log st) -> ~ In (Called i) (log st')).
  Proof.
    intros H (s & N & Wa).
    assert (SES : forall j sj s' new, nth_error (sessions st) j = Some sj -> s_watched s' = s_watched sj -> ~ In (Called i) new ->
      forall st1, st1 = mkState (owner st) (gens st) (firstn j (sessions st) ++ s' :: skipn (S j) (sessions st)) (log st ++ new) -> unwatched st1 i /\ (~ In (Called i) (log st) -> ~ In (Called i) (log st1))).
    { intros j sj s' new Nj E NI st1 ->. split.
      - unfold unwatched. cbn [sessions]. rewrite nth_set by (eapply nth_lt, Nj). destruct (i =? j)%nat eqn:Q; [|exists s; auto]. apply Nat.eqb_eq in Q. exists s'. split; [reflexivity|]. congruence.
      - cbn [log]. intros NL Q. apply in_app_or in Q as [Q|Q]; contradiction. }
    assert (Sd : forall j sj s', nth_error (sessions st) j = Some sj -> s_watched s' = s_watched sj -> unwatched (set_session st j s') i /\ (~ In (Called i) (log st) -> ~ In (Called i) (log (set_session st j s')))).
    { intros j sj s' Nj E. apply (SES j sj s' [] Nj E (fun x => x)). unfold set_session. now rewrite app_nil_r. }
    assert (SNO : forall o gs x new, ~ In (Called i) new -> unwatched (mkState o gs (sessions st ++ x) (log st ++ new)) i /\ (~ In (Called i) (log st) -> ~ In (Called i) (log (mkState o gs (sessions st ++ x) (log st ++ new))))).
    { intros o gs x new NI. split; [exists s; cbn [sessions]; rewrite nth_error_app1 by (eapply nth_lt, N); auto|]. cbn [log]. intros NL Q. apply in_app_or in Q as [Q|Q]; contradiction. }
    assert (SN1 : forall o gs new, ~ In (Called i) new -> unwatched (mkState o gs (sessions st) (log st ++ new)) i /\ (~ In (Called i) (log st) -> ~ In (Called i) (log (mkState o gs (sessions st) (log st ++ new))))).
    { intros o gs new NI. specialize (SNO o gs [] new NI). now rewrite app_nil_r in SNO. }
    assert (D1 : forall it, it <> Called i -> ~ In (Called i) [it]) by (intros it NE [Q|[]]; contradiction).
    destruct e; cbn [LifeModel.step] in H.
    - destruct (resolve read pl) as [a|]; [|inv H; apply SN1, D1; discriminate]. destruct (negb ok || taken clash st (bound a picked)); inv H; apply SN1, D1; discriminate.
    - inv H. split; [exists s; auto|auto].
    - destruct (owner st) as [o|]; inv H; (split; [exists s; cbn [sessions]; rewrite nth_error_app1 by (eapply nth_lt, N); auto|auto]).
    - destruct (listening st g) as [b|]; [|discriminate]. destruct (table_exists st g); inv H; [apply SNO|apply SN1]; apply D1; discriminate.
    - destruct (nth_error (sessions st) s0) as [s1|] eqn:N1; [|discriminate]. destruct (table_exists st (s_table s1) && s_in s1 && negb (s_busy s1)); [|discriminate]. destruct (s_watched s1) eqn:W1; inv H.
      eapply (SES s0 s1 _ [Called s0]); [exact N1| | |reflexivity]; [exact (eq_sym W1)|]. apply D1. intros [= ->]. congruence.
    - destruct (nth_error (sessions st) s0) as [s1|] eqn:N1; [|discriminate]. destruct (s_busy s1); inv H. eapply Sd; [exact N1|reflexivity].
    - destruct (nth_error (sessions st) s0) as [s1|] eqn:N1; [|discriminate]. destruct (open_session st s1 && s_watched s1); inv H. eapply Sd; [exact N1|reflexivity].
    - destruct (nth_error (sessions st) s0) as [s1|] eqn:N1; [|discriminate]. destruct (open_session st s1 && match h with User => true | Network => s_watched s1 end); inv H. eapply Sd; [exact N1|reflexivity].
    - destruct (nth_error (sessions st) s0) as [s1|] eqn:N1; [|discriminate]. destruct (s_refs s1); inv H. eapply Sd; [exact N1|reflexivity].
    - destruct (nth_error (gens st) g) as [m1|] eqn:N1; [|discriminate]. destruct (acceptor_exists st g m1); inv H. split; [exists s; auto|auto].
    - destruct (nth_error (gens st) g) as [m1|] eqn:N1; [|discriminate]. destruct (m_refs m1); inv H. split; [exists s; auto|auto].
  Qed.

  (** A connection that has been removed from its table does not return. *)
  Definition removed (st : state) (i : nat) : Prop := exists s, nth_error (sessions st) i = Some s /\ s_in s = false.
  Lemma step_removed st e st' i : step st e = Some st' -> removed st i -> removed st' i.
  Proof.
    intros H (s & N & Ou).
    assert (SES : forall j sj s' st1, nth_error (sessions st) j = Some sj -> (j = i -> s_in s' = false) -> sessions st1 = firstn j (sessions st) ++ s' :: skipn (S j) (sessions st) -> removed st1 i).
    { intros j sj s' st1 Nj E E1. unfold removed. rewrite E1, nth_set by (eapply nth_lt, Nj). destruct (i =? j)%nat eqn:Q; [|exists s; auto]. apply Nat.eqb_eq in Q. exists s'. auto. }
    assert (SNO : forall st1 x, sessions st1 = sessions st ++ x -> removed st1 i).
    { intros st1 x E. exists s. rewrite E, nth_error_app1 by (eapply nth_lt, N). auto. }
    assert (SAM : forall st1, sessions st1 = sessions st -> removed st1 i) by (intros st1 E; exists s; now rewrite E).
    assert (Same : forall j sj, nth_error (sessions st) j = Some sj -> j = i -> s_in sj = false) by (intros j sj Nj ->; congruence).
    destruct e; cbn [LifeModel.step] in H.
    - destruct (resolve read pl) as [a|]; [|inv H; now apply SAM]. destruct (negb ok || taken clash st (bound a picked)); inv H; now apply SAM.
    - inv H. now apply SAM.
    - destruct (owner st) as [o|]; inv H; eapply SNO; reflexivity.
    - destruct (listening st g) as [b|]; [|discriminate]. destruct (table_exists st g); inv H; [eapply SNO|apply SAM]; reflexivity.
    - destruct (nth_error (sessions st) s0) as [s1|] eqn:N1; [|discriminate]. destruct (table_exists st (s_table s1)); [|discriminate]. cbn [andb] in H. destruct (s_in s1) eqn:I1; [|discriminate]. destruct (true && negb (s_busy s1) && s_watched s1); inv H.
      eapply (SES s0 s1); [exact N1| |reflexivity]. intros E. specialize (Same _ _ N1 E). congruence.
    - destruct (nth_error (sessions st) s0) as [s1|] eqn:N1; [|discriminate]. destruct (s_busy s1); inv H. eapply (SES s0 s1); [exact N1| |reflexivity]; intros E; exact (Same _ _ N1 E).
    - destruct (nth_error (sessions st) s0) as [s1|] eqn:N1; [|discriminate]. destruct (open_session st s1 && s_watched s1); inv H. eapply (SES s0 s1); [exact N1| |reflexivity]. intros E. cbn [s_in]. destruct (table_exists st (s_table s1)); [reflexivity|exact (Same _ _ N1 E)].
    - destruct (nth_error (sessions st) s0) as [s1|] eqn:N1; [|discriminate]. destruct (open_session st s1 && match h with User => true | Network => s_watched s1 end); inv H. eapply (SES s0 s1); [exact N1| |reflexivity]; intros E; exact (Same _ _ N1 E).
    - destruct (nth_error (sessions st) s0) as [s1|] eqn:N1; [|discriminate]. destruct (s_refs s1); inv H. eapply (SES s0 s1); [exact N1| |reflexivity]; intros E; exact (Same _ _ N1 E).
    - destruct (nth_error (gens st) g) as [m1|] eqn:N1; [|discriminate]. destruct (acceptor_exists st g m1); inv H. now apply SAM.
    - destruct (nth_error (gens st) g) as [m1|] eqn:N1; [|discriminate]. destruct (m_refs m1); inv H. now apply SAM.
  Qed.
  Lemma run_removed es : forall st st' i, run st es = Some st' -> removed st i -> removed st' i.
  Proof.
    induction es as [|e es IH]; intros st st' i R H; cbn [LifeModel.run] in R; [now injection R as <-|]. destruct (step st e) as [st1|] eqn:E; [|discriminate].
    apply (IH st1 st' i R). eapply step_removed; eauto.
  Qed.
End Life.
