(** Theorems about appointments. *)
From Coq Require Import List ZArith Bool Lia ZifyBool ZifyNat.
From Verif Require Import ApptModel ApptSpec.
Import ListNotations.
Open Scope list_scope.
Open Scope Z_scope.

Section appointments.
Variable of_process : nat -> list nat.
Notation step := (step of_process).
Notation run := (run of_process).

Definition fd_of (x : status) : option nat := match x with Idle => None | Scanning fd _ | Held fd _ => Some fd end.

(** The locks are those of the appointments that are enrolled; [acq] are the
    descriptions which have ever acquired a lock. *)
Record inv (acq : list nat) (s : state) : Prop := {
  inv_fresh : forall a fd, fd_of (appt s a) = Some fd -> (fd < next_fd s)%nat;
  inv_own : forall a b fd, fd_of (appt s a) = Some fd -> fd_of (appt s b) = Some fd -> a = b;
  inv_locks : forall fd k, In (fd, k) (locks s) <-> exists a, appt s a = Held fd k;
  inv_once : forall fd1 fd2 k, In (fd1, k) (locks s) -> In (fd2, k) (locks s) -> fd1 = fd2;
  inv_held : forall a fd k, appt s a = Held fd k -> 0 <= k < Z.of_nat (length acq);
  inv_scan : forall a fd k, appt s a = Scanning fd k -> 0 <= k <= Z.of_nat (length acq) /\ ~ In fd acq;
  inv_nodup : NoDup acq;
  inv_acq : forall fd, In fd acq -> (fd < next_fd s)%nat }.

Lemma inv_init : inv [] init.
Proof.
  split; cbn; try discriminate; try tauto.
  - intros fd k. split; [intros []|intros (a & H); discriminate].
  - constructor.
Qed.

Lemma set_eq st a x : set st a x a = x.
Proof. unfold set. rewrite Nat.eqb_refl. reflexivity. Qed.
Lemma set_ne st a b x : b <> a -> set st a x b = st b.
Proof. intros H. unfold set. destruct (Nat.eqb_spec b a); [contradiction|reflexivity]. Qed.

Lemma in_close x l fd k : In (fd, k) (close x l) <-> In (fd, k) l /\ fd_of x <> Some fd.
Proof.
  destruct x as [|f j|f j]; cbn [close fd_of]; [intuition discriminate|..]; rewrite filter_In; cbn [fst];
    (split; intros (H & E); (split; [exact H|])).
  - intros [= ->]. rewrite Nat.eqb_refl in E. discriminate.
  - destruct (Nat.eqb_spec fd f); [congruence|reflexivity].
  - intros [= ->]. rewrite Nat.eqb_refl in E. discriminate.
  - destruct (Nat.eqb_spec fd f); [congruence|reflexivity].
Qed.

Lemma in_close_all st l : forall ls fd k, In (fd, k) (close_all st l ls) <-> In (fd, k) ls /\ forall a, In a l -> fd_of (st a) <> Some fd.
Proof.
  unfold close_all. induction l as [|a l IH]; intros ls fd k; cbn [fold_left].
  - cbn [In]. intuition.
  - rewrite IH, in_close. cbn [In]. split.
    + intros ((H1 & H2) & H3). split; [exact H1|]. intros b [<-|I]; auto.
    + intros (H1 & H2). split; [split|]; auto.
Qed.

(** Appointments become idle; everything else stays. *)
Lemma inv_idle acq s st' l' : inv acq s ->
  (forall a, st' a = Idle \/ st' a = appt s a) ->
  (forall fd k, In (fd, k) l' <-> In (fd, k) (locks s) /\ forall a, st' a = Idle -> fd_of (appt s a) <> Some fd) ->
  inv acq (mkState l' (next_fd s) st').
Proof.
  intros [F Ow L U H Sc N Q] A B. split; cbn; try assumption.
  - intros a fd E. destruct (A a) as [Ha|Ha]; rewrite Ha in E; [discriminate|eauto].
  - intros a b fd E1 E2. destruct (A a) as [Ha|Ha], (A b) as [Hb|Hb]; rewrite Ha in E1; rewrite Hb in E2; try discriminate. eauto.
  - intros fd k. rewrite B, L. split.
    + intros ((a & Ha) & M). exists a. destruct (A a) as [E|E]; [|congruence].
      exfalso. apply (M a E). rewrite Ha. reflexivity.
    + intros (a & Ha). destruct (A a) as [E|E]; rewrite Ha in E; [discriminate|]. split; [exists a; auto|].
      intros b Hb Fb. assert (b = a) by (apply (Ow b a fd); [exact Fb|rewrite <- E; reflexivity]). subst b. congruence.
  - intros fd1 fd2 k H1 H2. apply B in H1, H2. destruct H1 as (H1 & _), H2 as (H2 & _). exact (U fd1 fd2 k H1 H2).
  - intros a fd k E. destruct (A a) as [Ha|Ha]; rewrite Ha in E; [discriminate|]. exact (H a fd k E).
  - intros a fd k E. destruct (A a) as [Ha|Ha]; rewrite Ha in E; [discriminate|]. exact (Sc a fd k E).
Qed.

Lemma inv_leave acq s a : inv acq s -> inv acq (mkState (close (appt s a) (locks s)) (next_fd s) (set (appt s) a Idle)).
Proof.
  intros I. apply inv_idle; [exact I|..].
  - intros b. destruct (Nat.eq_dec b a) as [->|N]; [left; apply set_eq|right; apply set_ne, N].
  - intros fd k. rewrite in_close. split; intros (H1 & H2); (split; [exact H1|]).
    + intros b Hb. destruct (Nat.eq_dec b a) as [->|N]; [exact H2|]. rewrite set_ne in Hb by exact N. rewrite Hb. discriminate.
    + apply H2, set_eq.
Qed.

(** The status of [a] changes from idle to scanning, or from scanning to
    scanning further. *)
Lemma inv_rescan acq s a n fd k : inv acq s -> (next_fd s <= n)%nat -> (fd < n)%nat ->
  (forall g j, appt s a <> Held g j) ->
  (forall b, b <> a -> fd_of (appt s b) <> Some fd) ->
  0 <= k <= Z.of_nat (length acq) -> ~ In fd acq ->
  inv acq (mkState (locks s) n (set (appt s) a (Scanning fd k))).
Proof.
  intros [F Ow L U H Sc N Q] Hn Hf Hh Ho Hk Ha. split; cbn; try assumption.
  - intros b f E. destruct (Nat.eq_dec b a) as [->|M]; [rewrite set_eq in E; injection E as <-; lia|].
    rewrite set_ne in E by exact M. apply F in E. lia.
  - intros b c f E1 E2. destruct (Nat.eq_dec b a) as [->|M1], (Nat.eq_dec c a) as [->|M2]; [reflexivity|..].
    + rewrite set_eq in E1. rewrite set_ne in E2 by exact M2. injection E1 as <-. exfalso. exact (Ho c M2 E2).
    + rewrite set_eq in E2. rewrite set_ne in E1 by exact M1. injection E2 as <-. exfalso. exact (Ho b M1 E1).
    + rewrite set_ne in E1 by exact M1. rewrite set_ne in E2 by exact M2. eauto.
  - intros f j. rewrite L. split; intros (b & E); exists b.
    + rewrite set_ne; [exact E|]. intros ->. exact (Hh _ _ E).
    + destruct (Nat.eq_dec b a) as [->|M]; [rewrite set_eq in E; discriminate|]. rewrite set_ne in E by exact M. exact E.
  - intros b f j E. destruct (Nat.eq_dec b a) as [->|M]; [rewrite set_eq in E; discriminate|]. rewrite set_ne in E by exact M. exact (H b f j E).
  - intros b f j E. destruct (Nat.eq_dec b a) as [->|M]; [rewrite set_eq in E; injection E as <- <-; auto|]. rewrite set_ne in E by exact M. exact (Sc b f j E).
  - intros f E. apply Q in E. lia.
Qed.

Lemma locked_spec fd k l : locked fd k l = true <-> exists g, g <> fd /\ In (g, k) l.
Proof.
  unfold locked. rewrite existsb_exists. split.
  - intros ((g & j) & I & E). cbn [fst snd] in E. apply andb_prop in E. destruct E as (E1 & E2).
    apply Z.eqb_eq in E2. subst j. exists g. split; [|exact I]. intros ->. rewrite Nat.eqb_refl in E1. discriminate.
  - intros (g & N & I). exists (g, k). split; [exact I|]. cbn [fst snd]. rewrite Z.eqb_refl.
    destruct (Nat.eqb_spec g fd); [contradiction|reflexivity].
Qed.

(** Who holds the byte that is being tried. *)
Lemma locked_who acq s a fd k : inv acq s -> appt s a = Scanning fd k ->
  locked fd k (locks s) = true <-> exists b g, b <> a /\ appt s b = Held g k.
Proof.
  intros I E. rewrite locked_spec. split.
  - intros (g & N & H). apply (inv_locks _ _ I) in H. destruct H as (b & Hb). exists b, g. split; [|exact Hb]. intros ->. congruence.
  - intros (b & g & N & Hb). exists g. split; [|apply (inv_locks _ _ I); eauto].
    intros ->. apply N. apply (inv_own _ _ I b a fd); [rewrite Hb|rewrite E]; reflexivity.
Qed.

Lemma inv_step acq s e s' : inv acq s -> step s e = Some s' ->
  exists acq', inv acq' s' /\ (next_fd s' = next_fd s + match e with Enroll _ => 1 | _ => 0 end)%nat.
Proof.
  intros I H. destruct e as [a|a|a|a|p]; cbn in H.
  - assert (E : s' = mkState (close (appt s a) (locks s)) (S (next_fd s)) (set (appt s) a (Scanning (next_fd s) 0))) by (destruct (appt s a) in H |- *; cbn [close] in *; congruence).
    exists acq. split; [|subst; cbn; lia].
    pose proof (inv_leave acq s a I) as J.
    pose proof (inv_rescan acq _ a (S (next_fd s)) (next_fd s) 0 J) as R. cbn in R.
    assert (X : forall b, set (set (appt s) a Idle) a (Scanning (next_fd s) 0) b = set (appt s) a (Scanning (next_fd s) 0) b) by (intros b; unfold set; destruct (b =? a)%nat; reflexivity).
    assert (inv acq (mkState (close (appt s a) (locks s)) (S (next_fd s)) (set (set (appt s) a Idle) a (Scanning (next_fd s) 0)))) as K.
    { apply R; try lia.
      - intros g j. rewrite set_eq. discriminate.
      - intros b N. rewrite set_ne by exact N. intros E2. apply (inv_fresh _ _ I) in E2. lia.
      - intros Q. apply (inv_acq _ _ I) in Q. lia. }
    clear - K X E. subst s'. destruct K as [F Ow L U Hd Sc N Q]. cbn in *. split; cbn; try assumption.
    + intros b. rewrite <- X. apply F.
    + intros b c. rewrite <- !X. apply Ow.
    + intros fd k. rewrite L. split; intros (b & Hb); exists b; [rewrite <- X|rewrite X]; exact Hb.
    + intros b. rewrite <- X. apply Hd.
    + intros b. rewrite <- X. apply Sc.
  - destruct (appt s a) as [|fd k|fd k] eqn:E; try discriminate.
    destruct (locked fd k (locks s)) eqn:Lk; injection H as <-.
    + exists acq. split; [|cbn; lia]. apply (inv_rescan acq s a (next_fd s) fd (k + 1)).
      * exact I.
      * lia.
      * apply (inv_fresh _ _ I a). rewrite E. reflexivity.
      * intros g j. congruence.
      * intros b N Eb. apply N. apply (inv_own _ _ I b a fd); [exact Eb|rewrite E; reflexivity].
      * apply (locked_who acq s a fd k I E) in Lk. destruct Lk as (b & g & _ & Hb). apply (inv_held _ _ I) in Hb. lia.
      * apply (inv_scan _ _ I a fd k E).
    + exists (fd :: acq). split; [|cbn; lia]. destruct (inv_scan _ _ I a fd k E) as (Hk & Hq).
      assert (Nl : ~ exists b g, b <> a /\ appt s b = Held g k) by (rewrite <- (locked_who acq s a fd k I E), Lk; discriminate).
      assert (Hf : (fd < next_fd s)%nat) by (apply (inv_fresh _ _ I a); rewrite E; reflexivity).
      assert (No : forall b, b <> a -> fd_of (appt s b) <> Some fd).
      { intros b N Eb. apply N. apply (inv_own _ _ I b a fd); [exact Eb|rewrite E; reflexivity]. }
      destruct I as [F Ow L U Hd Sc N Q]. split; cbn [appt locks next_fd length].
      * intros b f Eb. destruct (Nat.eq_dec b a) as [->|M]; [rewrite set_eq in Eb; injection Eb as <-; exact Hf|].
        rewrite set_ne in Eb by exact M. eauto.
      * intros b c f E1 E2. destruct (Nat.eq_dec b a) as [->|M1], (Nat.eq_dec c a) as [->|M2]; [reflexivity|..].
        -- rewrite set_eq in E1. rewrite set_ne in E2 by exact M2. injection E1 as <-. exfalso. exact (No c M2 E2).
        -- rewrite set_eq in E2. rewrite set_ne in E1 by exact M1. injection E2 as <-. exfalso. exact (No b M1 E1).
        -- rewrite set_ne in E1 by exact M1. rewrite set_ne in E2 by exact M2. eauto.
      * intros f j. cbn [In]. rewrite L. split.
        -- intros [[= <- <-]|(b & Hb)]; [exists a; apply set_eq|]. exists b. rewrite set_ne; [exact Hb|]. intros ->. congruence.
        -- intros (b & Hb). destruct (Nat.eq_dec b a) as [->|M]; [rewrite set_eq in Hb; injection Hb as <- <-; auto|].
           rewrite set_ne in Hb by exact M. right. eauto.
      * assert (Y : forall g, ~ In (g, k) (locks s)).
        { intros g G. apply L in G. destruct G as (b & Hb). apply Nl. exists b, g. split; [|exact Hb]. intros ->. congruence. }
        intros f1 f2 j [[= <- <-]|H1] [[= <-]|H2]; auto.
        -- exfalso. exact (Y _ H2).
        -- exfalso. subst j. exact (Y _ H1).
        -- exact (U f1 f2 j H1 H2).
      * intros b f j Eb. destruct (Nat.eq_dec b a) as [->|M]; [rewrite set_eq in Eb; injection Eb as <- <-; lia|].
        rewrite set_ne in Eb by exact M. apply Hd in Eb. lia.
      * intros b f j Eb. destruct (Nat.eq_dec b a) as [->|M]; [rewrite set_eq in Eb; discriminate|].
        rewrite set_ne in Eb by exact M. destruct (Sc b f j Eb) as (S1 & S2). split; [lia|].
        intros [->|G]; [|exact (S2 G)]. apply (No b M). rewrite Eb. reflexivity.
      * constructor; assumption.
      * intros f [<-|G]; auto.
  - destruct (appt s a) as [|fd k|fd k] eqn:E; try discriminate. injection H as <-. exists acq. split; [|cbn; lia].
    pose proof (inv_leave acq s a I) as J. rewrite E in J. exact J.
  - assert (E : s' = mkState (close (appt s a) (locks s)) (next_fd s) (set (appt s) a Idle)) by (destruct (appt s a) in H |- *; cbn [close] in *; congruence).
    subst s'. exists acq. split; [|cbn; lia]. apply inv_leave, I.
  - injection H as <-. exists acq. split; [|cbn; lia]. apply inv_idle; [exact I|..].
    + intros b. unfold set_all. destruct (existsb _ _); auto.
    + intros fd k. rewrite in_close_all. split; intros (H1 & H2); (split; [exact H1|]).
      * intros b Hb. unfold set_all in Hb. destruct (existsb (Nat.eqb b) (of_process p)) eqn:X; [|rewrite Hb; discriminate].
        apply existsb_exists in X. destruct X as (c & Hc & Ec). apply Nat.eqb_eq in Ec. subst c. apply H2, Hc.
      * intros b Hb. apply H2. unfold set_all. replace (existsb (Nat.eqb b) (of_process p)) with true; [reflexivity|].
        symmetry. apply existsb_exists. exists b. split; [exact Hb|apply Nat.eqb_refl].
Qed.

Lemma inv_run es : forall acq s s', inv acq s -> run s es = Some s' ->
  exists acq', inv acq' s' /\ Z.of_nat (next_fd s') = Z.of_nat (next_fd s) + enrolled es.
Proof.
  induction es as [|e es IH]; intros acq s s' I H; cbn [ApptModel.run] in H.
  - injection H as <-. exists acq. split; [exact I|]. cbn. lia.
  - destruct (step s e) as [s1|] eqn:E; [|discriminate].
    destruct (inv_step acq s e s1 I E) as (acq1 & I1 & N1). destruct (IH acq1 s1 s' I1 H) as (acq2 & I2 & N2).
    exists acq2. split; [exact I2|]. rewrite N2, N1. cbn [enrolled]. destruct e; lia.
Qed.

Lemma run_app es1 : forall es2 s, run s (es1 ++ es2) = match run s es1 with Some s' => run s' es2 | None => None end.
Proof. induction es1 as [|e es1 IH]; intros es2 s; cbn [app ApptModel.run]; [reflexivity|]. destruct (step s e); [apply IH|reflexivity]. Qed.

Lemma acq_bound acq s : inv acq s -> (length acq <= next_fd s)%nat.
Proof.
  intros I. rewrite <- (seq_length (next_fd s) 0). apply NoDup_incl_length; [apply (inv_nodup _ _ I)|].
  intros f H. apply in_seq. apply (inv_acq _ _ I) in H. lia.
Qed.

Lemma reached es s : run init es = Some s -> exists acq, inv acq s /\ Z.of_nat (length acq) <= enrolled es.
Proof.
  intros H. destruct (inv_run es [] init s inv_init H) as (acq & I & N). exists acq. split; [exact I|].
  pose proof (acq_bound acq s I). cbn in N. lia.
Qed.

Lemma index_held acq s a k : inv acq s -> Z.of_nat (length acq) < 2 ^ 31 ->
  has_index s a k <-> exists fd, appt s a = Held fd k.
Proof.
  intros I B. unfold has_index, index. destruct (appt s a) as [|fd j|fd j] eqn:E.
  - split; [intros (H & P); lia|intros (fd & H); discriminate].
  - split; [intros (H & P); lia|intros (g & H); discriminate].
  - destruct (inv_held _ _ I a fd j E). rewrite Z.mod_small by lia. replace (j <? 2 ^ 31) with true by lia.
    split; [intros (-> & _); eauto|]. intros (g & [= -> ->]). lia.
Qed.

(** C47: no two appointments have the same index at the same time, whatever
    has happened before. *)
Theorem appt_exclusive es s a b k : run init es = Some s -> enrolled es < 2 ^ 31 ->
  has_index s a k -> has_index s b k -> a = b.
Proof.
  intros R B Ha Hb. destruct (reached es s R) as (acq & I & N).
  apply (index_held acq) in Ha; [|assumption|lia]. apply (index_held acq) in Hb; [|assumption|lia].
  destruct Ha as (f & Ha), Hb as (g & Hb).
  assert (f = g) as <- by (apply (inv_once _ _ I f g k); apply (inv_locks _ _ I); eauto).
  apply (inv_own _ _ I a b f); [rewrite Ha|rewrite Hb]; reflexivity.
Qed.

(** Whoever is enrolled has an index, and nobody else has. *)
Theorem appt_live es s a : run init es = Some s -> enrolled es < 2 ^ 31 ->
  (live s a <-> exists k, has_index s a k) /\ (~ live s a <-> index s a = -1).
Proof.
  intros R B. destruct (reached es s R) as (acq & I & N).
  assert (E : live s a <-> exists k, has_index s a k).
  { unfold live. split; [intros (fd & k & H)|intros (k & H)].
    - exists k. apply (index_held acq); eauto. lia.
    - apply (index_held acq) in H; [|assumption|lia]. destruct H as (fd & H). eauto. }
  split; [exact E|]. rewrite E. split.
  - intros M. unfold index. destruct (appt s a) as [|fd j|fd j] eqn:F; try reflexivity.
    exfalso. apply M. exists j. apply (index_held acq); eauto. lia.
  - intros H (k & K & P). lia.
Qed.

(** Another trip of the loop in [enroll()] takes the byte if and only if nobody
    has its index. *)
Theorem appt_try es s a fd k s' : run init es = Some s -> enrolled es < 2 ^ 31 ->
  appt s a = Scanning fd k -> step s (Try a) = Some s' ->
  (has_index s' a k /\ forall b, ~ has_index s b k)
  \/ (appt s' a = Scanning fd (k + 1) /\ exists b, b <> a /\ has_index s b k).
Proof.
  intros R B E H. destruct (reached es s R) as (acq & I & N).
  assert (R' : run init (es ++ [Try a]) = Some s') by (rewrite run_app, R; cbn [ApptModel.run]; rewrite H; reflexivity).
  assert (Ee : enrolled (es ++ [Try a]) = enrolled es) by (clear; induction es as [|[] es IH]; cbn; lia).
  destruct (reached _ s' R') as (acq' & I' & N').
  cbn in H. rewrite E in H. destruct (locked fd k (locks s)) eqn:L; injection H as <-.
  - right. split; [apply set_eq|]. apply (locked_who acq s a fd k I E) in L. destruct L as (b & g & M & Hb).
    exists b. split; [exact M|]. apply (index_held acq); eauto. lia.
  - left. split.
    + apply (index_held acq'); [exact I'|lia|]. exists fd. apply set_eq.
    + intros b Hb. apply (index_held acq) in Hb; [|assumption|lia]. destruct Hb as (g & Hb).
      assert (locked fd k (locks s) = true); [|congruence]. apply (locked_who acq s a fd k I E). exists b, g. split; [|exact Hb]. intros ->. congruence.
Qed.

(** While [a] was enrolling, each index below the one it got was somebody
    else's at some time. *)
Theorem appt_lower es1 s1 a s2 es s3 k : run init es1 = Some s1 -> step s1 (Enroll a) = Some s2 ->
  run s2 es = Some s3 -> Forall (foreign of_process a) es -> enrolled (es1 ++ [Enroll a] ++ es) < 2 ^ 31 ->
  has_index s3 a k ->
  forall j, 0 <= j < k -> exists es' es'' s' b, es = es' ++ es'' /\ run s2 es' = Some s' /\ b <> a /\ has_index s' b j.
Proof.
  intros R1 E R F B H.
  assert (En : forall x y, enrolled (x ++ y) = enrolled x + enrolled y) by (intros x y; induction x as [|[] x IH]; cbn [app enrolled]; lia).
  assert (R2 : run init (es1 ++ [Enroll a]) = Some s2) by (rewrite run_app, R1; cbn [ApptModel.run]; rewrite E; reflexivity).
  assert (A2 : exists fd, appt s2 a = Scanning fd 0).
  { cbn in E. destruct (appt s1 a); try discriminate; injection E as <-; eexists; apply set_eq. }
  rewrite app_assoc in B. set (hist := es1 ++ [Enroll a]) in *. clearbody hist. clear E R1 es1 s1.
  (* While the events happen, [a] is scanning or enrolled, and what is below has been seen. *)
  assert (G : forall es'' es' s', es = es' ++ es'' -> run s2 es' = Some s' ->
     (exists fd m, (appt s' a = Scanning fd m \/ appt s' a = Held fd m) /\ forall j, 0 <= j < m -> exists p q t b, es' = p ++ q /\ run s2 p = Some t /\ b <> a /\ has_index t b j) ->
     forall j, 0 <= j < k -> exists es' es'' s' b, es = es' ++ es'' /\ run s2 es' = Some s' /\ b <> a /\ has_index s' b j).
  { induction es'' as [|e es'' IH]; intros es' s' Es Rs (fd & m & St & Seen).
    - rewrite app_nil_r in Es. subst es'. rewrite Rs in R. injection R as ->.
      destruct (reached (hist ++ es) s3) as (acq & I & N); [rewrite run_app, R2; exact Rs|].
      apply (index_held acq) in H; [|assumption|lia]. destruct H as (g & H).
      assert (m = k) as -> by (destruct St; congruence).
      intros j Hj. destruct (Seen j Hj) as (p & q & t & b & Ep & Rp & Nb & Hb). exists p, q, t, b. auto.
    - assert (F1 : foreign of_process a e) by (rewrite Forall_forall in F; apply F; rewrite Es; apply in_or_app; right; left; reflexivity).
      assert (Rn : run s2 (es' ++ [e]) = step s' e) by (rewrite run_app, Rs; cbn [ApptModel.run]; destruct (step s' e); reflexivity).
      destruct (step s' e) as [s''|] eqn:Se.
      2: { exfalso. rewrite Es, run_app, Rs in R. cbn [ApptModel.run] in R. rewrite Se in R. discriminate. }
      apply (IH (es' ++ [e]) s''); [rewrite <- app_assoc; exact Es|exact Rn|].
      assert (Seen' : forall j, 0 <= j < m -> exists p q t b, es' ++ [e] = p ++ q /\ run s2 p = Some t /\ b <> a /\ has_index t b j).
      { intros j Hj. destruct (Seen j Hj) as (p & q & t & b & -> & Rp & Nb & Hb). exists p, (q ++ [e]), t, b. rewrite app_assoc. auto. }
      assert (Same : appt s'' a = appt s' a -> exists fd m, (appt s'' a = Scanning fd m \/ appt s'' a = Held fd m) /\ forall j, 0 <= j < m -> exists p q t b, es' ++ [e] = p ++ q /\ run s2 p = Some t /\ b <> a /\ has_index t b j).
      { intros Q. exists fd, m. rewrite Q. auto. }
      destruct e as [b|b|b|b|p]; cbn [foreign] in F1.
      + apply Same. cbn in Se. destruct (appt s' b); try discriminate; injection Se as <-; cbn [appt]; apply set_ne; congruence.
      + destruct (Nat.eq_dec b a) as [->|Nb].
        * destruct St as [St|St]; [|cbn in Se; rewrite St in Se; discriminate].
          assert (Rh : run init (hist ++ es') = Some s') by (rewrite run_app, R2; exact Rs).
          assert (Bh : enrolled (hist ++ es') < 2 ^ 31).
          { rewrite !En in *. rewrite Es, En in B. cbn [enrolled] in B.
            assert (forall x, 0 <= enrolled x) as P by (induction x as [|[] x IHx]; cbn [enrolled]; lia). specialize (P es''). lia. }
          destruct (appt_try _ s' a fd m s'' Rh Bh St Se) as [(Q & _)|(Q & c & Nc & Hc)].
          -- cbn in Se. rewrite St in Se. destruct (locked fd m (locks s')) eqn:Lk; injection Se as <-.
             ++ cbn [appt] in *. unfold has_index, index in Q. cbn [appt] in Q. rewrite set_eq in Q. lia.
             ++ exists fd, m. cbn [appt]. rewrite set_eq. auto.
          -- exists fd, (m + 1). split; [auto|]. intros j Hj. destruct (Z.eq_dec j m) as [->|Nj]; [|apply Seen'; lia].
             exists es', [Try a], s', c. auto.
        * apply Same. cbn in Se. destruct (appt s' b) as [|g i|g i]; try discriminate. destruct (locked g i (locks s')); injection Se as <-; cbn [appt]; apply set_ne; congruence.
      + apply Same. cbn in Se. destruct (appt s' b); try discriminate; injection Se as <-; cbn [appt]; apply set_ne; congruence.
      + apply Same. cbn in Se. destruct (appt s' b); try discriminate; injection Se as <-; cbn [appt]; apply set_ne; congruence.
      + apply Same. cbn in Se. injection Se as <-. cbn [appt]. unfold set_all.
        destruct (existsb (Nat.eqb a) (of_process p)) eqn:X; [|reflexivity]. exfalso. apply F1.
        apply existsb_exists in X. destruct X as (c & Hc & Ec). apply Nat.eqb_eq in Ec. subst c. exact Hc. }
  apply (G es [] s2); [reflexivity|reflexivity|]. destruct A2 as (fd & A2). exists fd, 0. split; [auto|]. intros j Hj. lia.
Qed.

(** If nobody else acts meanwhile then [enroll()] ends, with the least index
    that nobody has. *)
Theorem appt_alone es s a s1 : run init es = Some s -> enrolled es + 1 < 2 ^ 31 -> step s (Enroll a) = Some s1 ->
  exists n s2 k, run s1 (repeat (Try a) n) = Some s2 /\ has_index s2 a k
  /\ (forall b, b <> a -> ~ has_index s b k)
  /\ (forall j, 0 <= j < k -> exists b, b <> a /\ has_index s b j)
  /\ (forall b, b <> a -> index s2 b = index s b).
Proof.
  intros R B E.
  assert (En : forall x y, enrolled (x ++ y) = enrolled x + enrolled y) by (intros x y; induction x as [|[] x IH]; cbn [app enrolled]; lia).
  assert (R1 : run init (es ++ [Enroll a]) = Some s1) by (rewrite run_app, R; cbn [ApptModel.run]; rewrite E; reflexivity).
  assert (B1 : enrolled (es ++ [Enroll a]) < 2 ^ 31) by (rewrite En; cbn; lia).
  assert (A1 : exists fd, appt s1 a = Scanning fd 0).
  { cbn in E. destruct (appt s a); try discriminate; injection E as <-; eexists; apply set_eq. }
  assert (Ot : forall b, b <> a -> appt s1 b = appt s b).
  { intros b Nb. cbn in E. destruct (appt s a); try discriminate; injection E as <-; apply set_ne, Nb. }
  assert (Ix : forall s x y, appt s x = y -> index s x = match y with Held _ k => let y := k mod 2 ^ 32 in if y <? 2 ^ 31 then y else y - 2 ^ 32 | _ => -1 end) by (intros ? ? ? <-; reflexivity).
  destruct A1 as (fd & A1).
  assert (G : forall d m s', run s1 (repeat (Try a) m) = Some s' -> appt s' a = Scanning fd (Z.of_nat m) ->
     (forall b, b <> a -> appt s' b = appt s b) ->
     (forall j, 0 <= j < Z.of_nat m -> exists b, b <> a /\ has_index s b j) ->
     Z.of_nat d + Z.of_nat m = enrolled es + 2 ->
     exists n s2 k, run s1 (repeat (Try a) n) = Some s2 /\ has_index s2 a k
     /\ (forall b, b <> a -> ~ has_index s b k)
     /\ (forall j, 0 <= j < k -> exists b, b <> a /\ has_index s b j)
     /\ (forall b, b <> a -> index s2 b = index s b)).
  { induction d as [|d IH]; intros m s' Rm Am Om Sm Dm.
    - exfalso. assert (Rh : run init ((es ++ [Enroll a]) ++ repeat (Try a) m) = Some s') by (rewrite run_app, R1; exact Rm).
      destruct (reached _ s' Rh) as (acq & I & N). destruct (inv_scan _ _ I _ _ _ Am).
      assert (Et : enrolled (repeat (Try a) m) = 0) by (clear; induction m; cbn [repeat enrolled]; lia).
      rewrite !En, Et in N. cbn [enrolled] in N. lia.
    - assert (Rh : run init ((es ++ [Enroll a]) ++ repeat (Try a) m) = Some s') by (rewrite run_app, R1; exact Rm).
      assert (Et : enrolled (repeat (Try a) m) = 0) by (clear; induction m; cbn [repeat enrolled]; lia).
      assert (Bh : enrolled ((es ++ [Enroll a]) ++ repeat (Try a) m) < 2 ^ 31) by (rewrite !En, Et; cbn [enrolled]; lia).
      destruct (step s' (Try a)) as [s''|] eqn:St.
      2: { cbn in St. rewrite Am in St. destruct (locked _ _ _); discriminate. }
      assert (Rn : run s1 (repeat (Try a) (S m)) = Some s'').
      { replace (S m) with (m + 1)%nat by lia. rewrite repeat_app, run_app, Rm. cbn [repeat ApptModel.run]. rewrite St. reflexivity. }
      assert (On : forall b, b <> a -> appt s'' b = appt s b).
      { intros b Nb. rewrite <- (Om b Nb). cbn in St. rewrite Am in St. destruct (locked _ _ _); injection St as <-; apply set_ne, Nb. }
      destruct (appt_try _ s' a fd (Z.of_nat m) s'' Rh Bh Am St) as [(Q & Fr)|(Q & c & Nc & Hc)].
      + exists (S m), s'', (Z.of_nat m). split; [exact Rn|]. split; [exact Q|]. split; [|split; [exact Sm|]].
        * intros b Nb Hb. apply (Fr b). unfold has_index in *. rewrite (Ix s' b _ (Om b Nb)). exact Hb.
        * intros b Nb. rewrite (Ix s'' b _ (On b Nb)). reflexivity.
      + apply (IH (S m) s''); [exact Rn|rewrite Q; f_equal; lia|exact On| |lia].
        intros j Hj. destruct (Z.eq_dec j (Z.of_nat m)) as [->|Nj]; [|apply Sm; lia].
        exists c. split; [exact Nc|]. unfold has_index in *. rewrite (Ix s' c _ (Om c Nc)) in Hc. exact Hc. }
  assert (P : 0 <= enrolled es) by (clear; induction es as [|[] es IH]; cbn [enrolled]; lia).
  apply (G (Z.to_nat (enrolled es + 2)) O s1); [reflexivity|exact A1|exact Ot| |lia]. intros j Hj. cbn in Hj. lia.
Qed.
End appointments.
Print Assumptions appt_exclusive.
Print Assumptions appt_live.
Print Assumptions appt_try.
Print Assumptions appt_lower.
Print Assumptions appt_alone.

(** Three appointments, two of them in the same process: the second dies, its
    index becomes free and is taken again. *)
Definition process (p : nat) : list nat := match p with O => [0; 1]%nat | _ => [2]%nat end.
Definition story : list event :=
  [Enroll 0; Try 0; Enroll 2; Enroll 1; Try 2; Try 2; Try 1; Try 1; Try 1; Withdraw 0; Enroll 0; Try 0; Die 0; Enroll 1; Try 1]%nat.
Example appt_story :
  option_map (fun s => (index s 0, index s 1, index s 2)) (run process init story) = Some (-1, 0, 1) /\ enrolled story = 5.
Proof. vm_compute. split; reflexivity. Qed.

(** Cases of the theorems: an attempt that fails and one that succeeds, and an appointment that got the second index because the first was
    taken while it looked, although it is free in the end. *)
Example appt_try_case : exists s s', run process init [Enroll 0; Try 0; Enroll 2]%nat = Some s /\ appt s 2 = Scanning 1 0 /\ step process s (Try 2%nat) = Some s'
  /\ appt s' 2 = Scanning 1 1 /\ exists s'', step process s' (Try 2%nat) = Some s'' /\ has_index s'' 2 1.
Proof. eexists. eexists. split; [vm_compute; reflexivity|]. split; [vm_compute; reflexivity|]. split; [vm_compute; reflexivity|]. split; [vm_compute; reflexivity|]. eexists. split; [vm_compute; reflexivity|]. split; [vm_compute; reflexivity|lia]. Qed.
Example appt_lower_case : exists s1 s2 s3, run process init [Enroll 0; Try 0]%nat = Some s1 /\ step process s1 (Enroll 2%nat) = Some s2
  /\ run process s2 [Try 2; Withdraw 0; Try 2]%nat = Some s3 /\ Forall (foreign process 2) [Try 2; Withdraw 0; Try 2]%nat /\ has_index s3 2 1.
Proof.
  eexists. eexists. eexists. split; [vm_compute; reflexivity|]. split; [vm_compute; reflexivity|]. split; [vm_compute; reflexivity|].
  split; [repeat constructor; cbn; try discriminate; auto|]. split; [vm_compute; reflexivity|lia].
Qed.
