(** Proofs about easy servers and clients. *)
From Coq Require Import List ZArith Bool Lia ZifyBool ZifyNat.
From Verif Require Import EasyModel EasySpec.
Import ListNotations.
Open Scope list_scope.
Open Scope nat_scope.

Arguments occurred : simpl never.
Arguments upd : simpl never.
Arguments expired : simpl never.

Lemma upd_eq {A} (m : nat -> A) k x : upd m k x k = x.
Proof. unfold upd. rewrite Nat.eqb_refl. reflexivity. Qed.
Lemma upd_ne {A} (m : nat -> A) k x i : i <> k -> upd m k x i = m i.
Proof. intros H. unfold upd. destruct (Nat.eqb_spec i k); [contradiction|reflexivity]. Qed.
Lemma upd_inv {A} (m : nat -> A) k x i y : upd m k x i = y -> (i = k /\ x = y) \/ (i <> k /\ m i = y).
Proof. unfold upd. destruct (Nat.eqb_spec i k); auto. Qed.

Lemma occurred_snoc s l t e : occurred s (l ++ [(t, e)]) = occurred s l ++ (if t =? s then [e] else []).
Proof. unfold occurred. rewrite filter_app, map_app. cbn [filter fst]. destruct (t =? s); reflexivity. Qed.

Lemma delivered_app s l1 : forall l2, delivered s (l1 ++ l2) = delivered s l1 ++ delivered s l2.
Proof.
  induction l1 as [|[f t e v|f t e r] l1 IH]; intros l2; cbn [app delivered]; [reflexivity| |apply IH].
  rewrite IH. destruct (t =? s); reflexivity.
Qed.

(** The sockets that exist. *)
Definition alive (A : nat -> nat) (st : state) (s : nat) : Prop :=
  (exists x, net st s = Some x) \/ (exists q, table st (A s) = Some q /\ socket q = s)
  \/ (exists f a e, fibers st f = Some (a, Calling s e)).

Record inv (A : nat -> nat) (st : state) : Prop := {
  v_table : forall a q, table st a = Some q -> socket q < next_socket st /\ A (socket q) = a;
  v_fib : forall f a x, fibers st f = Some (a, x) -> f < next_fiber st /\ match x with Calling s _ => s < next_socket st /\ A s = a | Top => True end;
  v_net : forall s a c, net st s = Some (a, c) -> s < next_socket st /\ A s = a;
  v_uniq : forall s s', alive A st s -> alive A st s' -> A s = A s' -> s = s';
  v_queue : forall a q, table st a = Some q -> occurred (socket q) (pushed st) = delivered (socket q) (log st) ++ events q;
  v_prefix : forall s, prefix (delivered s (log st)) (occurred s (pushed st));
  v_fresh : forall s, next_socket st <= s -> occurred s (pushed st) = [] /\ delivered s (log st) = [];
  v_active : forall a q, table st a = Some q -> events q <> [] -> fiber_active q = true;
  v_some : expired st = false -> forall a q, table st a = Some q -> fiber_active q = true -> exists f x, fibers st f = Some (a, x);
  v_open : forall s a, net st s = Some (a, false) -> Forall (fun e => is_close e = false) (occurred s (pushed st));
  v_last : forall s es1 c es2, occurred s (pushed st) = es1 ++ Close c :: es2 -> es2 = [] }.

(** No exception so far. *)
Record smooth (A : nat -> nat) (st : state) : Prop := {
  w_done : forall s, s < next_socket st -> (forall q, table st (A s) = Some q -> socket q <> s) -> delivered s (log st) = occurred s (pushed st);
  w_entry : forall s a, net st s = Some (a, false) -> exists q, table st a = Some q /\ socket q = s }.

Lemma alive_mono A st st' s : alive A st' s ->
  (forall x, net st' s = Some x -> exists y, net st s = Some y) ->
  (forall q, table st' (A s) = Some q -> socket q = s -> alive A st s) ->
  (forall f a e, fibers st' f = Some (a, Calling s e) -> alive A st s) -> alive A st s.
Proof.
  intros [(x & N)|[(q & T & S)|(f & a & e & F)]] H1 H2 H3.
  - left. eauto.
  - eauto.
  - eauto.
Qed.

Lemma some_fiber_spec A st p : inv A st -> some_fiber st p = true <-> exists f a x, fibers st f = Some (a, x) /\ p a x = true.
Proof.
  intros I. unfold some_fiber. rewrite existsb_exists. split.
  - intros (f & _ & H). destruct (fibers st f) as [(a, x)|] eqn:E; [|discriminate]. exists f, a, x. auto.
  - intros (f & a & x & E & H). exists f. rewrite E. split; [|exact H]. apply in_seq. destruct (v_fib _ _ I _ _ _ E). lia.
Qed.

Lemma available_spec A st careful a : inv A st -> available careful st a = true ->
  (forall s c, net st s <> Some (a, c)) /\ table st a = None /\
  (forall f x, fibers st f = Some (a, x) -> calling x = false /\ careful = false).
Proof.
  intros I H. unfold available in H. apply andb_prop in H. destruct H as (H & H3). apply andb_prop in H. destruct H as (H1 & H2).
  split; [|split].
  - intros s c N. rewrite forallb_forall in H1. destruct (v_net _ _ I _ _ _ N) as (L & _).
    specialize (H1 s ltac:(apply in_seq; lia)). rewrite N, Nat.eqb_refl in H1. discriminate.
  - destruct (table st a); [discriminate|reflexivity].
  - intros f x F. apply negb_true_iff in H3.
    assert (G : (careful || calling x) = false).
    { apply not_true_iff_false. intros C. rewrite <- not_true_iff_false in H3. apply H3. apply (some_fiber_spec A); [exact I|].
      exists f, a, x. rewrite Nat.eqb_refl. auto. }
    destruct careful, (calling x); cbn in G; try discriminate; auto.
Qed.

Lemma prefix_refl {T} (l : list T) : prefix l l.
Proof. exists []. rewrite app_nil_r. reflexivity. Qed.
Lemma prefix_app {T} (a b c : list T) : prefix a b -> prefix a (b ++ c).
Proof. intros (d & ->). exists (d ++ c). rewrite app_assoc. reflexivity. Qed.

Lemma inv_init A : inv A init /\ smooth A init.
Proof.
  split; split; cbn; try discriminate; try lia; auto.
  - intros s s' [(x & H)|[(q & H & _)|(f & a & e & H)]]; discriminate.
  - intros s. apply prefix_refl.
  - intros s es1 c es2 H. destruct es1; discriminate.
Qed.

(** Adding an event to the history of an open socket. *)
Lemma last_snoc (l : list ev) e es1 c es2 : Forall (fun e => is_close e = false) l -> l ++ [e] = es1 ++ Close c :: es2 -> es2 = [].
Proof.
  intros F H. destruct (exists_last (l := Close c :: es2)) as (r & x & E); [discriminate|].
  rewrite E, app_assoc in H. apply app_inj_tail in H. destruct H as (-> & ->).
  destruct r as [|y r]; [injection E as _ ->; reflexivity|].
  cbn in E. injection E as <- E. rewrite Forall_forall in F. specialize (F (Close c)). cbn in F.
  assert (true = false) by (apply F, in_or_app; right; left; reflexivity). discriminate.
Qed.

Section steps.
Variable careful : bool.
Variable A : nat -> nat.
Variable st : state.
Hypothesis I : inv A st.

Lemma expired_calling f a s e : expired st = true -> fibers st f <> Some (a, Calling s e).
Proof.
  intros X F. unfold expired in X. apply andb_prop in X. destruct X as (_ & X). apply negb_true_iff in X.
  apply not_true_iff_false in X. apply X. apply (some_fiber_spec A st _ I). exists f, a, (Calling s e). auto.
Qed.

(** A table that is gone does not come back. *)
Lemma expired_mono st' : (stopped st = true -> stopped st' = true) ->
  (expired st = true -> forall f a x, fibers st' f = Some (a, x) -> x = Top \/ fibers st f = Some (a, x)) ->
  expired st = true -> expired st' = true.
Proof.
  intros Sp F X. unfold expired. rewrite Sp by (unfold expired in X; apply andb_prop in X; apply X). cbn [andb].
  apply negb_true_iff, not_true_iff_false. intros C. unfold some_fiber in C. apply existsb_exists in C.
  destruct C as (f & _ & C). destruct (fibers st' f) as [(a, x)|] eqn:Fx; [|discriminate].
  destruct (F X _ _ _ Fx) as [->|Fo]; [discriminate|]. destruct x as [|s e]; [discriminate|]. exact (expired_calling _ _ _ _ X Fo).
Qed.

Lemma step_expired x st' : step careful st x = Some st' -> expired st' = false -> expired st = false.
Proof.
  intros H E. apply not_true_iff_false. intros X. apply not_true_iff_false in E. apply E. clear E.
  assert (G : (stopped st = true -> stopped st' = true) /\ (forall f a y, fibers st' f = Some (a, y) -> y = Top \/ fibers st f = Some (a, y))).
  2: { destruct G as (G1 & G2). apply expired_mono; auto. }
  destruct x as [a|s e|s b|s|f|f r|]; cbn [step] in H; rewrite ?X in H; cbn [orb] in H.
  - discriminate.
  - destruct (net st s) as [(a, [|])|]; try discriminate. injection H as <-. cbn. auto.
  - destruct (net st s) as [(a, [|])|]; discriminate.
  - destruct (net st s) as [(a, [|])|]; try discriminate. injection H as <-. cbn. auto.
  - destruct (fibers st f) as [(a, [|? ?])|]; try discriminate. injection H as <-. cbn. split; [auto|].
    intros g b y Fy. apply upd_inv in Fy. destruct Fy as [(_ & Y)|(_ & Y)]; [discriminate|auto].
  - destruct (fibers st f) as [(a, [|s e])|] eqn:Fi; try discriminate. exfalso. exact (expired_calling _ _ _ _ X Fi).
  - injection H as <-. cbn. auto.
Qed.

Lemma accept_inv a st' : step careful st (Accept a) = Some st' ->
  let A' := upd A (next_socket st) a in inv A' st' /\ (smooth A st -> smooth A' st').
Proof.
  intros H A'. pose proof (step_expired _ _ H) as Ex. cbn [step] in H. destruct (expired st) eqn:Xp; [discriminate|]. cbn [orb] in H.
  destruct (available careful st a) eqn:V; [|discriminate]. injection H as <-.
  destruct (available_spec A st careful a I V) as (V1 & V2 & V3).
  set (n := next_socket st) in *.
  assert (Old : forall s, s < n -> A' s = A s) by (intros s Hs; apply upd_ne; lia).
  assert (New : A' n = a) by apply upd_eq.
  (* Nobody who exists is at the address. *)
  assert (Far : forall s, alive A st s -> s < n /\ A s <> a).
  { intros s [((b, c) & N)|[(q & T & S)|(f & b & e & F)]].
    - destruct (v_net _ _ I _ _ _ N) as (L & Eb). split; [exact L|]. intros Ea. apply (V1 s c). congruence.
    - destruct (v_table _ _ I _ _ T) as (L & Eb). rewrite S in L. split; [exact L|]. intros Ea. rewrite Ea in T. congruence.
    - destruct (v_fib _ _ I _ _ _ F) as (_ & L & Eb). split; [exact L|]. intros Ea. rewrite <- Eb, Ea in F.
      destruct (V3 _ _ F). discriminate. }
  set (st' := mkState _ _ _ _ _ _ _ _ _).
  assert (Al : forall s, alive A' st' s -> s = n \/ (s <> n /\ alive A st s)).
  { intros s H. destruct (Nat.eq_dec s n) as [->|Ns]; [left; reflexivity|right]. split; [exact Ns|].
    destruct H as [(x & N)|[(q & T & S)|(f & b & e & F)]]; cbn in *.
    - rewrite upd_ne in N by exact Ns. left. eauto.
    - assert (EA : A' s = A s) by (apply upd_ne; exact Ns). rewrite EA in T.
      apply upd_inv in T. destruct T as [(_ & [= <-])|(Na & T)]; [cbn in S; congruence|].
      right. left. eauto.
    - right. right. eauto. }
  split; [split; cbn; unfold st'; cbn|].
  - intros b q T. apply upd_inv in T. destruct T as [(-> & [= <-])|(Nb & T)]; cbn; [split; [lia|exact New]|].
    destruct (v_table _ _ I _ _ T) as (L & E). split; [lia|]. rewrite Old; [exact E|exact L].
  - intros f b x F. destruct (v_fib _ _ I _ _ _ F) as (L & E). split; [exact L|]. destruct x as [|s e]; [exact E|].
    destruct E as (E1 & E2). split; [lia|]. rewrite Old; [exact E2|exact E1].
  - intros s b c N. apply upd_inv in N. destruct N as [(-> & [= <- <-])|(Ns & N)]; [split; [lia|exact New]|].
    destruct (v_net _ _ I _ _ _ N) as (L & E). split; [lia|]. rewrite Old; [exact E|exact L].
  - intros s s' H1 H2 E. apply Al in H1, H2. destruct H1 as [->|(N1 & H1)], H2 as [->|(N2 & H2)]; [reflexivity|..].
    + exfalso. apply Far in H2. destruct H2 as (L & D). rewrite New, Old in E by exact L. congruence.
    + exfalso. apply Far in H1. destruct H1 as (L & D). rewrite New, Old in E by exact L. congruence.
    + apply (v_uniq _ _ I); try assumption. rewrite !Old in E; [exact E|apply Far; exact H2|apply Far; exact H1].
  - intros b q T. apply upd_inv in T. destruct T as [(-> & [= <-])|(Nb & T)]; [|apply (v_queue _ _ I _ _ T)].
    cbn [socket events]. destruct (v_fresh _ _ I n (le_n _)) as (-> & ->). reflexivity.
  - apply (v_prefix _ _ I).
  - intros s L. apply (v_fresh _ _ I). lia.
  - intros b q T. apply upd_inv in T. destruct T as [(-> & [= <-])|(Nb & T)]; [cbn; congruence|apply (v_active _ _ I _ _ T)].
  - intros _ b q T. apply upd_inv in T. destruct T as [(-> & [= <-])|(Nb & T)]; [discriminate|apply (v_some _ _ I Xp _ _ T)].
  - intros s b N. apply upd_inv in N. destruct N as [(-> & _)|(Ns & N)]; [|apply (v_open _ _ I _ _ N)].
    destruct (v_fresh _ _ I n (le_n _)) as (-> & _). constructor.
  - apply (v_last _ _ I).
  - intros W. split; cbn; unfold st'; cbn.
    + intros s L T. destruct (Nat.eq_dec s n) as [->|Ns].
      * exfalso. apply (T (mkEntry n [] false [])); [|reflexivity]. rewrite New. apply upd_eq.
      * apply (w_done _ _ W); [lia|]. intros q Tq. apply T. rewrite Old by lia. rewrite upd_ne; [exact Tq|].
        intros Ea. rewrite Ea in Tq. congruence.
    + intros s b N. apply upd_inv in N. destruct N as [(-> & [= <-])|(Ns & N)]; [rewrite upd_eq; eauto|].
      destruct (w_entry _ _ W _ _ N) as (q & T & E). exists q. rewrite upd_ne; [auto|]. intros ->. congruence.
Qed.

(** The table, the sockets and the history stay. *)
Lemma frame_inv st' : table st' = table st -> next_socket st' = next_socket st -> pushed st' = pushed st ->
  (forall s, delivered s (log st') = delivered s (log st)) ->
  next_fiber st <= next_fiber st' ->
  (forall f a x, fibers st' f = Some (a, x) -> f < next_fiber st' /\ (x = Top \/ fibers st f = Some (a, x))) ->
  (expired st' = false -> expired st = false) ->
  (expired st' = false -> forall a q, table st a = Some q -> (exists f x, fibers st f = Some (a, x)) -> exists f x, fibers st' f = Some (a, x)) ->
  (forall s a c, net st' s = Some (a, c) -> exists c', net st s = Some (a, c') /\ (c = false -> c' = false)) ->
  inv A st' /\ (smooth A st -> smooth A st').
Proof.
  intros T S P L NF F Ex E N. split; [split|].
  - intros a q. rewrite T, S. apply (v_table _ _ I).
  - intros f a x Fx. destruct (F _ _ _ Fx) as (Lf & [->|Fo]); [auto|]. split; [exact Lf|]. rewrite S. apply (v_fib _ _ I _ _ _ Fo).
  - intros s a c Ns. destruct (N _ _ _ Ns) as (c' & Nc & _). rewrite S. apply (v_net _ _ I _ _ _ Nc).
  - assert (Al : forall s, alive A st' s -> alive A st s).
    { intros s H. apply (alive_mono A st st' s H).
      - intros (a, c) Ns. destruct (N _ _ _ Ns) as (c' & Nc & _). eauto.
      - intros q Tq Sq. rewrite T in Tq. right. left. eauto.
      - intros f a e Fx. destruct (F _ _ _ Fx) as (_ & [X|Fo]); [discriminate|]. right. right. eauto. }
    intros s s' H1 H2. apply (v_uniq _ _ I); apply Al; assumption.
  - intros a q. rewrite T, P, L. apply (v_queue _ _ I).
  - intros s. rewrite P, L. apply (v_prefix _ _ I).
  - intros s. rewrite S, P, L. apply (v_fresh _ _ I).
  - intros a q. rewrite T. apply (v_active _ _ I).
  - intros X a q. rewrite T. intros Tq Ac. apply (E X a q Tq). apply (v_some _ _ I (Ex X) _ _ Tq Ac).
  - intros s a Ns. rewrite P. destruct (N _ _ _ Ns) as (c' & Nc & C). rewrite C in Nc by reflexivity. apply (v_open _ _ I _ _ Nc).
  - rewrite P. apply (v_last _ _ I).
  - intros W. split.
    + intros s. rewrite S, T, L, P. apply (w_done _ _ W).
    + intros s a Ns. rewrite T. destruct (N _ _ _ Ns) as (c' & Nc & C). rewrite C in Nc by reflexivity. apply (w_entry _ _ W _ _ Nc).
Qed.

(** The entry of the socket [s] is the one at its address. *)
Lemma entry_of s a c q : net st s = Some (a, c) -> table st a = Some q -> socket q = s.
Proof.
  intros N T. destruct (v_net _ _ I _ _ _ N) as (_ & Es). destruct (v_table _ _ I _ _ T) as (_ & Eq).
  apply (v_uniq _ _ I).
  - right. left. exists q. rewrite Eq. auto.
  - left. eauto.
  - congruence.
Qed.

Lemma push_inv s e st' : step careful st (Push s e) = Some st' -> inv A st' /\ (smooth A st -> smooth A st').
Proof.
  intros H. pose proof (step_expired _ _ H) as Ex. cbn [step] in H. destruct (net st s) as [(a, [|])|] eqn:N; try discriminate.
  set (net' := if is_close e then upd (net st) s (Some (a, true)) else net st) in H.
  assert (Nn : forall s1 a1 c1, net' s1 = Some (a1, c1) -> exists c', net st s1 = Some (a1, c') /\ (c1 = false -> c' = false /\ (s1 = s -> is_close e = false))).
  { intros s1 a1 c1. unfold net'. destruct (is_close e) eqn:C.
    - intros X. apply upd_inv in X. destruct X as [(-> & [= <- <-])|(Ns & X)]; [exists false; split; [exact N|discriminate]|].
      exists c1. split; [exact X|]. intros ->. split; [reflexivity|]. intros ->. contradiction.
    - intros X. exists c1. split; [exact X|auto]. }
  destruct (if expired st then None else table st a) as [q|] eqn:Q.
  2: { injection H as <-. apply frame_inv; cbn; auto.
       - intros f b x Fx. destruct (v_fib _ _ I _ _ _ Fx). auto.
       - intros s1 a1 c1 X. destruct (Nn _ _ _ X) as (c' & Nc & C). exists c'. split; [exact Nc|]. intros Y. apply C, Y. }
  assert (T : table st a = Some q) by (destruct (expired st); [discriminate|exact Q]).
  assert (Xp : expired st = false) by (destruct (expired st); [discriminate|reflexivity]). clear Q.
  pose proof (entry_of s a false q N T) as Eq.
  destruct (v_table _ _ I _ _ T) as (Lq & Aq). rewrite Eq in Lq, Aq.
  set (q' := mkEntry (socket q) (events q ++ [e]) true (data_stream q)) in H.
  set (fibs := if fiber_active q then fibers st else upd (fibers st) (next_fiber st) (Some (a, Top))).
  set (nf := if fiber_active q then next_fiber st else S (next_fiber st)).
  assert (E : st' = mkState (upd (table st) a (Some q')) fibs nf net' (next_socket st) (stopped st) (dangling st) (pushed st ++ [(s, e)]) (log st)).
  { unfold fibs, nf. destruct (fiber_active q); injection H as <-; reflexivity. }
  clear H. subst st'.
  assert (Ff : forall f b x, fibs f = Some (b, x) -> f < nf /\ (x = Top \/ fibers st f = Some (b, x))).
  { intros f b x. unfold fibs, nf. destruct (fiber_active q); intros Fx.
    - destruct (v_fib _ _ I _ _ _ Fx). auto.
    - apply upd_inv in Fx. destruct Fx as [(-> & [= <- <-])|(Nf & Fx)]; [split; [lia|auto]|]. destruct (v_fib _ _ I _ _ _ Fx). split; [lia|auto]. }
  assert (Fo : forall f b x, fibers st f = Some (b, x) -> fibs f = Some (b, x)).
  { intros f b x Fx. unfold fibs. destruct (fiber_active q); [exact Fx|]. rewrite upd_ne; [exact Fx|].
    destruct (v_fib _ _ I _ _ _ Fx). lia. }
  assert (Fa : exists f x, fibs f = Some (a, x)).
  { unfold fibs. destruct (fiber_active q) eqn:Ac; [apply (v_some _ _ I Xp _ _ T Ac)|]. exists (next_fiber st), Top. apply upd_eq. }
  pose proof (v_open _ _ I _ _ N) as Op.
  split; [split; cbn|].
  - intros b p Tp. apply upd_inv in Tp. destruct Tp as [(-> & [= <-])|(Nb & Tp)]; [cbn; rewrite Eq; auto|apply (v_table _ _ I _ _ Tp)].
  - intros f b x Fx. destruct (Ff _ _ _ Fx) as (Lf & [->|Fx']); [auto|]. split; [exact Lf|]. apply (v_fib _ _ I _ _ _ Fx').
  - intros s1 a1 c1 X. destruct (Nn _ _ _ X) as (c' & Nc & _). apply (v_net _ _ I _ _ _ Nc).
  - match goal with |- forall s0 s', alive A ?st1 s0 -> _ => assert (Al : forall t, alive A st1 t -> alive A st t) end.
    { intros t Ht. apply (alive_mono A st _ t Ht); cbn.
      - intros (a1, c1) X. destruct (Nn _ _ _ X) as (c' & Nc & _). eauto.
      - intros p Tp Sp. apply upd_inv in Tp. destruct Tp as [(Ea & [= <-])|(Nb & Tp)]; [|right; left; eauto].
        cbn in Sp. right. left. exists q. rewrite Ea. auto.
      - intros f b e' Fx. destruct (Ff _ _ _ Fx) as (_ & [X|Fx']); [discriminate|]. right. right. eauto. }
    intros t t' H1 H2. apply (v_uniq _ _ I); apply Al; assumption.
  - intros b p Tp. rewrite occurred_snoc. apply upd_inv in Tp. destruct Tp as [(-> & [= <-])|(Nb & Tp)].
    + cbn. rewrite (v_queue _ _ I _ _ T), Eq, Nat.eqb_refl, app_assoc. reflexivity.
    + rewrite (v_queue _ _ I _ _ Tp). destruct (Nat.eqb_spec s (socket p)) as [->|]; [|rewrite app_nil_r; reflexivity].
      exfalso. destruct (v_table _ _ I _ _ Tp) as (_ & X). congruence.
  - intros t. rewrite occurred_snoc. apply prefix_app, (v_prefix _ _ I).
  - intros t L. rewrite occurred_snoc. destruct (v_fresh _ _ I t L) as (-> & ->).
    destruct (Nat.eqb_spec s t) as [->|]; [lia|]. auto.
  - intros b p Tp. apply upd_inv in Tp. destruct Tp as [(-> & [= <-])|(Nb & Tp)]; [reflexivity|apply (v_active _ _ I _ _ Tp)].
  - intros _ b p Tp Ac. apply upd_inv in Tp. destruct Tp as [(-> & [= <-])|(Nb & Tp)]; [exact Fa|].
    destruct (v_some _ _ I Xp _ _ Tp Ac) as (f & x & Fx). exists f, x. apply Fo, Fx.
  - intros t b X. rewrite occurred_snoc. destruct (Nn _ _ _ X) as (c' & Nc & C). destruct (C eq_refl) as (-> & C2).
    apply Forall_app. split; [apply (v_open _ _ I _ _ Nc)|]. destruct (Nat.eqb_spec s t) as [->|]; [|constructor]. constructor; [apply C2; reflexivity|constructor].
  - intros t es1 c es2. rewrite occurred_snoc. destruct (Nat.eqb_spec s t) as [<-|].
    + apply last_snoc, Op.
    + rewrite app_nil_r. apply (v_last _ _ I).
  - intros W. split; cbn.
    + intros t L X. rewrite occurred_snoc. destruct (Nat.eqb_spec s t) as [<-|Nt].
      * exfalso. apply (X q'); [rewrite Aq; apply upd_eq|exact Eq].
      * rewrite app_nil_r. apply (w_done _ _ W); [exact L|]. intros p Tp Sp.
        destruct (Nat.eq_dec (A t) a) as [Ea|Na]; [|apply (X p); [rewrite upd_ne; assumption|exact Sp]].
        rewrite Ea in Tp. assert (p = q) by congruence. subst p. congruence.
    + intros t b X. destruct (Nn _ _ _ X) as (c' & Nc & C). destruct (C eq_refl) as (-> & _).
      destruct (w_entry _ _ W _ _ Nc) as (p & Tp & Sp). destruct (Nat.eq_dec b a) as [->|Nb].
      * exists q'. rewrite upd_eq. split; [reflexivity|]. cbn. congruence.
      * exists p. rewrite upd_ne by exact Nb. auto.
Qed.

Lemma fail_inv s b st' : step careful st (Push_fail s b) = Some st' -> inv A st'.
Proof.
  intros H. cbn [step] in H. destruct (net st s) as [(a, [|])|] eqn:N; try discriminate.
  destruct (if expired st then None else table st a) as [q|] eqn:Q; [|discriminate].
  assert (Xp : expired st = false) by (destruct (expired st); [discriminate|reflexivity]).
  set (la := b && negb (fiber_active q)) in H. injection H as <-.
  assert (Ff : forall f c x, (if la then upd (fibers st) (next_fiber st) (Some (a, Top)) else fibers st) f = Some (c, x) ->
     f < (if la then S (next_fiber st) else next_fiber st) /\ (x = Top \/ fibers st f = Some (c, x))).
  { intros f c x. destruct la; intros Fx.
    - apply upd_inv in Fx. destruct Fx as [(-> & [= <- <-])|(Nf & Fx)]; [split; [lia|auto]|]. destruct (v_fib _ _ I _ _ _ Fx). split; [lia|auto].
    - destruct (v_fib _ _ I _ _ _ Fx). auto. }
  assert (Fo : forall f c x, fibers st f = Some (c, x) -> (if la then upd (fibers st) (next_fiber st) (Some (a, Top)) else fibers st) f = Some (c, x)).
  { intros f c x Fx. destruct la; [|exact Fx]. rewrite upd_ne; [exact Fx|]. destruct (v_fib _ _ I _ _ _ Fx). lia. }
  assert (Tt : forall c p, upd (table st) a None c = Some p -> table st c = Some p).
  { intros c p Tp. apply upd_inv in Tp. destruct Tp as [(_ & X)|(_ & Tp)]; [discriminate|exact Tp]. }
  split; cbn.
  - intros c p Tp. apply (v_table _ _ I _ _ (Tt _ _ Tp)).
  - intros f c x Fx. destruct (Ff _ _ _ Fx) as (Lf & [->|Fx']); [auto|]. split; [exact Lf|]. apply (v_fib _ _ I _ _ _ Fx').
  - apply (v_net _ _ I).
  - match goal with |- forall s0 s', alive A ?st1 s0 -> _ => assert (Al : forall t, alive A st1 t -> alive A st t) end.
    { intros t Ht. apply (alive_mono A st _ t Ht); cbn.
      - eauto.
      - intros p Tp Sp. right. left. exists p. split; [apply Tt, Tp|exact Sp].
      - intros f c e' Fx. destruct (Ff _ _ _ Fx) as (_ & [X|Fx']); [discriminate|]. right. right. eauto. }
    intros t t' H1 H2. apply (v_uniq _ _ I); apply Al; assumption.
  - intros c p Tp. apply (v_queue _ _ I _ _ (Tt _ _ Tp)).
  - apply (v_prefix _ _ I).
  - apply (v_fresh _ _ I).
  - intros c p Tp. apply (v_active _ _ I _ _ (Tt _ _ Tp)).
  - intros _ c p Tp Ac. destruct (v_some _ _ I Xp _ _ (Tt _ _ Tp) Ac) as (f & x & Fx). exists f, x. apply Fo, Fx.
  - apply (v_open _ _ I).
  - apply (v_last _ _ I).
Qed.

Lemma release_inv s st' : step careful st (Release s) = Some st' -> inv A st' /\ (smooth A st -> smooth A st').
Proof.
  intros H. pose proof (step_expired _ _ H) as Ex. cbn [step] in H. destruct (net st s) as [(a, [|])|] eqn:N; try discriminate. injection H as <-.
  apply frame_inv; cbn; auto.
  - intros f b x Fx. destruct (v_fib _ _ I _ _ _ Fx). auto.
  - intros s1 a1 c1 X. apply upd_inv in X. destruct X as [(_ & X)|(_ & X)]; [discriminate|]. eauto.
Qed.

Lemma stop_inv st' : step careful st Stop = Some st' -> inv A st' /\ (smooth A st -> smooth A st').
Proof.
  intros H. pose proof (step_expired _ _ H) as Ex. cbn [step] in H. injection H as <-. apply frame_inv; cbn; auto.
  - intros f b x Fx. destruct (v_fib _ _ I _ _ _ Fx). auto.
  - eauto.
Qed.

(** An entry is replaced by one with the same socket and events. *)
Lemma replace_inv a q q' st' : table st a = Some q -> table st' = upd (table st) a (Some q') ->
  socket q' = socket q -> events q' = events q ->
  (events q <> [] -> fiber_active q' = true) -> (expired st' = false -> fiber_active q' = true -> exists f x, fibers st' f = Some (a, x)) ->
  next_socket st' = next_socket st -> pushed st' = pushed st -> net st' = net st ->
  (forall s, delivered s (log st') = delivered s (log st)) -> next_fiber st' = next_fiber st ->
  (forall f c x, fibers st' f = Some (c, x) -> f < next_fiber st' /\ (x = Top \/ fibers st f = Some (c, x))) ->
  (expired st' = false -> expired st = false) ->
  (forall c p, c <> a -> table st c = Some p -> (exists f x, fibers st f = Some (c, x)) -> exists f x, fibers st' f = Some (c, x)) ->
  inv A st' /\ (smooth A st -> smooth A st').
Proof.
  intros T Tt S Ev Ac As Ns P N L Nf F Ex E. split; [split|]; rewrite ?Ns, ?P, ?N.
  - intros b p. rewrite Tt. intros Tp. apply upd_inv in Tp. destruct Tp as [(-> & [= <-])|(Nb & Tp)]; [rewrite S; apply (v_table _ _ I _ _ T)|apply (v_table _ _ I _ _ Tp)].
  - intros f b x Fx. destruct (F _ _ _ Fx) as (Lf & [->|Fx']); [auto|]. split; [exact Lf|]. apply (v_fib _ _ I _ _ _ Fx').
  - apply (v_net _ _ I).
  - assert (Al : forall t, alive A st' t -> alive A st t).
    { intros t Ht. apply (alive_mono A st st' t Ht); rewrite ?N, ?Tt.
      - eauto.
      - intros p Tp Sp. apply upd_inv in Tp. destruct Tp as [(Ea & [= <-])|(Nb & Tp)]; [|right; left; eauto].
        right. left. exists q. rewrite Ea. split; [exact T|congruence].
      - intros f c e' Fx. destruct (F _ _ _ Fx) as (_ & [X|Fx']); [discriminate|]. right. right. eauto. }
    intros t t' H1 H2. apply (v_uniq _ _ I); apply Al; assumption.
  - intros b p. rewrite Tt, L. intros Tp. apply upd_inv in Tp. destruct Tp as [(-> & [= <-])|(Nb & Tp)]; [rewrite S, Ev; apply (v_queue _ _ I _ _ T)|apply (v_queue _ _ I _ _ Tp)].
  - intros s. rewrite L. apply (v_prefix _ _ I).
  - intros s. rewrite L. apply (v_fresh _ _ I).
  - intros b p. rewrite Tt. intros Tp. apply upd_inv in Tp. destruct Tp as [(-> & [= <-])|(Nb & Tp)]; [rewrite Ev; exact Ac|apply (v_active _ _ I _ _ Tp)].
  - intros X b p. rewrite Tt. intros Tp Ab. apply upd_inv in Tp. destruct Tp as [(-> & [= <-])|(Nb & Tp)]; [apply (As X), Ab|].
    apply (E b p Nb Tp). apply (v_some _ _ I (Ex X) _ _ Tp Ab).
  - apply (v_open _ _ I).
  - apply (v_last _ _ I).
  - intros W. split; rewrite ?Ns, ?P, ?N.
    + intros s Ls X. rewrite L. apply (w_done _ _ W); [exact Ls|]. intros p Tp Sp.
      destruct (Nat.eq_dec (A s) a) as [Ea|Na]; [|apply (X p); [rewrite Tt, upd_ne; assumption|exact Sp]].
      rewrite Ea in Tp. assert (p = q) by congruence. subst p. apply (X q'); [rewrite Tt, Ea; apply upd_eq|congruence].
    + intros s b X. destruct (w_entry _ _ W _ _ X) as (p & Tp & Sp). rewrite Tt. destruct (Nat.eq_dec b a) as [->|Nb].
      * exists q'. rewrite upd_eq. split; [reflexivity|]. congruence.
      * exists p. rewrite upd_ne by exact Nb. auto.
Qed.

Lemma pop_inv f st' : step careful st (Pop f) = Some st' -> inv A st' /\ (smooth A st -> smooth A st').
Proof.
  intros H. pose proof (step_expired _ _ H) as Ex. cbn [step] in H. destruct (fibers st f) as [(a, [|? ?])|] eqn:Fi; try discriminate.
  destruct (v_fib _ _ I _ _ _ Fi) as (Lf & _).
  assert (Fd : forall g c x, upd (fibers st) f None g = Some (c, x) -> g < next_fiber st /\ (x = Top \/ fibers st g = Some (c, x))).
  { intros g c x X. apply upd_inv in X. destruct X as [(_ & X)|(_ & X)]; [discriminate|]. destruct (v_fib _ _ I _ _ _ X). auto. }
  destruct (if expired st then None else table st a) as [q|] eqn:Q.
  2: { injection H as <-. apply frame_inv; cbn; auto.
       - (* the table is out of reach, or there is no entry *)
         intros X c p Tp (g & x & Gx). destruct (Nat.eq_dec g f) as [->|Ng]; [|exists g, x; rewrite upd_ne; assumption].
         rewrite Fi in Gx. injection Gx as <- <-. rewrite (Ex X) in Q. congruence.
       - intros s1 a1 c1 X. eauto. }
  assert (T : table st a = Some q) by (destruct (expired st); [discriminate|exact Q]).
  assert (Xp : expired st = false) by (destruct (expired st); [discriminate|reflexivity]). clear Q.
  destruct (v_table _ _ I _ _ T) as (Lq & Aq).
  destruct (events q) as [|e es] eqn:Ev.
  { injection H as <-. eapply replace_inv with (a := a) (q := q); cbn; try reflexivity; auto; cbn; auto.
    - congruence.
    - intros c p Nc Tp (g & x & Gx). exists g, x. rewrite upd_ne; [exact Gx|]. intros ->. congruence. }
  injection H as <-. set (view := match e with Data d _ => data_stream q ++ d | _ => [] end).
  set (stream := match e with Data _ _ => view | _ => data_stream q end). set (s := socket q) in *.
  pose proof (v_queue _ _ I _ _ T) as Qu. rewrite Ev in Qu. fold s in Qu.
  assert (Tt : forall b p, upd (table st) a (if is_close e then None else Some (mkEntry s es (fiber_active q) stream)) b = Some p ->
     (b = a /\ is_close e = false /\ p = mkEntry s es (fiber_active q) stream) \/ (b <> a /\ table st b = Some p)).
  { intros b p X. apply upd_inv in X. destruct X as [(-> & X)|X]; [left|right; exact X]. destruct (is_close e); [discriminate|]. injection X as <-. auto. }
  assert (Ff : forall g c x, upd (fibers st) f (Some (a, Calling s e)) g = Some (c, x) ->
     g < next_fiber st /\ ((g = f /\ c = a /\ x = Calling s e) \/ (g <> f /\ fibers st g = Some (c, x)))).
  { intros g c x X. apply upd_inv in X. destruct X as [(-> & [= <- <-])|(Ng & X)]; [auto|]. destruct (v_fib _ _ I _ _ _ X). auto. }
  assert (Fo : forall g c x, fibers st g = Some (c, x) -> exists y, upd (fibers st) f (Some (a, Calling s e)) g = Some (c, y)).
  { intros g c x Gx. destruct (Nat.eq_dec g f) as [->|Ng]; [rewrite upd_eq; rewrite Fi in Gx; injection Gx as <- <-; eauto|rewrite upd_ne by exact Ng; eauto]. }
  assert (Lg : forall t, delivered t (log st ++ [Began f s e view]) = delivered t (log st) ++ (if s =? t then [e] else [])).
  { intros t. rewrite delivered_app. cbn [delivered]. destruct (s =? t); reflexivity. }
  split; [split; cbn|].
  - intros b p Tp. destruct (Tt _ _ Tp) as [(-> & _ & ->)|(Nb & Tp')]; [auto|apply (v_table _ _ I _ _ Tp')].
  - intros g c x Gx. destruct (Ff _ _ _ Gx) as (Lg' & [(-> & -> & ->)|(Ng & Gx')]); [auto|apply (v_fib _ _ I _ _ _ Gx')].
  - apply (v_net _ _ I).
  - match goal with |- forall s0 s', alive A ?st1 s0 -> _ => assert (Al : forall t, alive A st1 t -> alive A st t) end.
    { intros t Ht. apply (alive_mono A st _ t Ht); cbn.
      - eauto.
      - intros p Tp Sp. right. left. destruct (Tt _ _ Tp) as [(Ea & _ & ->)|(Nb & Tp')]; [|eauto].
        exists q. rewrite Ea. auto.
      - intros g c e' Gx. destruct (Ff _ _ _ Gx) as (_ & [(-> & -> & [= -> ->])|(_ & Gx')]); [|right; right; eauto].
        right. left. exists q. rewrite Aq. auto. }
    intros t t' H1 H2. apply (v_uniq _ _ I); apply Al; assumption.
  - intros b p Tp. rewrite Lg. destruct (Tt _ _ Tp) as [(-> & _ & ->)|(Nb & Tp')]; cbn.
    + rewrite Nat.eqb_refl, Qu, <- app_assoc. reflexivity.
    + rewrite (v_queue _ _ I _ _ Tp'). destruct (Nat.eqb_spec s (socket p)) as [E|]; [|rewrite app_nil_r; reflexivity].
      exfalso. destruct (v_table _ _ I _ _ Tp') as (_ & X). congruence.
  - intros t. rewrite Lg. destruct (Nat.eqb_spec s t) as [<-|]; [|rewrite app_nil_r; apply (v_prefix _ _ I)].
    exists es. rewrite Qu, <- app_assoc. reflexivity.
  - intros t L. rewrite Lg. destruct (v_fresh _ _ I t L) as (-> & ->). destruct (Nat.eqb_spec s t); [lia|auto].
  - intros b p Tp. destruct (Tt _ _ Tp) as [(-> & _ & ->)|(Nb & Tp')]; [cbn; intros _|apply (v_active _ _ I _ _ Tp')].
    apply (v_active _ _ I _ _ T). congruence.
  - intros _ b p Tp Ac. assert (exists f0 x, fibers st f0 = Some (b, x)) as (g & x & Gx).
    { destruct (Tt _ _ Tp) as [(-> & _ & ->)|(Nb & Tp')]; [eauto|apply (v_some _ _ I Xp _ _ Tp' Ac)]. }
    destruct (Fo _ _ _ Gx) as (y & Gy). eauto.
  - apply (v_open _ _ I).
  - apply (v_last _ _ I).
  - intros W. split; cbn.
    + intros t L X. rewrite Lg. destruct (Nat.eqb_spec s t) as [<-|Nt].
      * destruct (is_close e) eqn:C; [|exfalso; apply (X (mkEntry s es (fiber_active q) stream)); [rewrite Aq; apply upd_eq|reflexivity]].
        destruct e; try discriminate. rewrite (v_last _ _ I s _ _ _ Qu) in Qu. symmetry. exact Qu.
      * rewrite app_nil_r. apply (w_done _ _ W); [exact L|]. intros p Tp Sp.
        destruct (Nat.eq_dec (A t) a) as [Ea|Na]; [|apply (X p); [rewrite upd_ne; assumption|exact Sp]].
        rewrite Ea in Tp. assert (p = q) by congruence. subst p. apply Nt. exact Sp.
    + intros t b X. destruct (w_entry _ _ W _ _ X) as (p & Tp & Sp). destruct (Nat.eq_dec b a) as [->|Nb].
      * assert (p = q) by congruence. subst p. rewrite upd_eq. destruct (is_close e) eqn:C; [|eexists; split; [reflexivity|exact Sp]].
        exfalso. pose proof (v_open _ _ I _ _ X) as Op. rewrite <- Sp in Op. fold s in Op. rewrite Qu in Op.
        apply Forall_app in Op. destruct Op as (_ & Op). inversion Op; subst. congruence.
      * exists p. rewrite upd_ne by exact Nb. auto.
Qed.

Lemma return_inv f r st' : step careful st (Return f r) = Some st' -> inv A st' /\ (smooth A st -> smooth A st').
Proof.
  intros H. pose proof (step_expired _ _ H) as Ex. cbn [step] in H. destruct (fibers st f) as [(a, [|s e])|] eqn:Fi; try discriminate.
  destruct (v_fib _ _ I _ _ _ Fi) as (Lf & _).
  assert (Ff : forall g c x, upd (fibers st) f (Some (a, Top)) g = Some (c, x) -> g < next_fiber st /\ (x = Top \/ fibers st g = Some (c, x))).
  { intros g c x X. apply upd_inv in X. destruct X as [(-> & [= <- <-])|(_ & X)]; [auto|]. destruct (v_fib _ _ I _ _ _ X). auto. }
  assert (Fo : forall c, (exists g x, fibers st g = Some (c, x)) -> exists g y, upd (fibers st) f (Some (a, Top)) g = Some (c, y)).
  { intros c (g & x & Gx). exists g. destruct (Nat.eq_dec g f) as [->|Ng]; [rewrite upd_eq; rewrite Fi in Gx; injection Gx as <- <-; eauto|rewrite upd_ne by exact Ng; eauto]. }
  assert (Lg : forall r t, delivered t (log st ++ [Ended f s e r]) = delivered t (log st)).
  { intros r' t. rewrite delivered_app. cbn [delivered]. rewrite app_nil_r. reflexivity. }
  assert (P : forall r', inv A (mkState (table st) (upd (fibers st) f (Some (a, Top))) (next_fiber st) (net st) (next_socket st) (stopped st) (dangling st) (pushed st) (log st ++ [Ended f s e r']))
     /\ (smooth A st -> smooth A (mkState (table st) (upd (fibers st) f (Some (a, Top))) (next_fiber st) (net st) (next_socket st) (stopped st) (dangling st) (pushed st) (log st ++ [Ended f s e r'])))).
  { intros r'. apply frame_inv; cbn; auto.
    - intros _. destruct (expired st) eqn:Xp; [|reflexivity]. exfalso. exact (expired_calling _ _ _ _ Xp Fi).
    - eauto. }
  destruct e as [|d eof|m|c]; try (injection H as <-; apply P).
  destruct (table st a) as [q|] eqn:T; [|injection H as <-; apply P].
  injection H as <-. eapply replace_inv with (a := a) (q := q); cbn; try reflexivity; auto; cbn; auto.
  - apply (v_active _ _ I _ _ T).
  - intros _ Ac. apply Fo. eauto.
Qed.
End steps.

Lemma inv_step careful A st x st' : inv A st -> step careful st x = Some st' ->
  exists A', inv A' st' /\ (forall s, s < next_socket st -> A' s = A s)
  /\ ((forall s b, x <> Push_fail s b) -> smooth A st -> smooth A' st').
Proof.
  intros I H. destruct x as [a|s e|s b|s|f|f r|].
  - exists (upd A (next_socket st) a). destruct (accept_inv careful A st I a st' H) as (J & K). split; [exact J|]. split; [intros; apply upd_ne; lia|auto].
  - exists A. destruct (push_inv careful A st I s e st' H). auto.
  - exists A. split; [apply (fail_inv careful A st I s b st' H)|]. split; [auto|]. intros N. exfalso. eapply N. reflexivity.
  - exists A. destruct (release_inv careful A st I s st' H). auto.
  - exists A. destruct (pop_inv careful A st I f st' H). auto.
  - exists A. destruct (return_inv careful A st I f r st' H). auto.
  - exists A. destruct (stop_inv careful A st I st' H). auto.
Qed.

Lemma inv_run careful xs : forall A st st', inv A st -> run careful st xs = Some st' ->
  exists A', inv A' st' /\ (no_failure xs -> smooth A st -> smooth A' st').
Proof.
  induction xs as [|x xs IH]; intros A st st' I H; cbn [run] in H.
  - injection H as <-. exists A. auto.
  - destruct (step careful st x) as [st1|] eqn:E; [|discriminate].
    destruct (inv_step careful A st x st1 I E) as (A1 & I1 & _ & W1). destruct (IH A1 st1 st' I1 H) as (A2 & I2 & W2).
    exists A2. split; [exact I2|]. intros N W. apply W2; [|apply W1; [|exact W]].
    + intros s b Hin. apply (N s b). right. exact Hin.
    + intros s b ->. apply (N s b). left. reflexivity.
Qed.

(** Who is in the callback for a socket, and what it has left of the data. *)
Fixpoint held (s : nat) (busy : option nat) (l : list item) : option nat :=
  match l with
  | [] => busy
  | Began f s' _ _ :: l => held s (if s' =? s then Some f else busy) l
  | Ended _ s' _ _ :: l => held s (if s' =? s then None else busy) l
  end.

Fixpoint kept (s : nat) (left : list Z) (l : list item) : list Z :=
  match l with
  | [] => left
  | Began _ s' (Data _ _) view :: l => kept s (if s' =? s then view else left) l
  | Ended _ s' (Data _ _) rest :: l => kept s (if s' =? s then rest else left) l
  | _ :: l => kept s left l
  end.

Lemma held_app s l1 : forall b l2, held s b (l1 ++ l2) = held s (held s b l1) l2.
Proof. induction l1 as [|[f t e v|f t e r] l1 IH]; intros b l2; cbn [app held]; [reflexivity|apply IH|apply IH]. Qed.

Lemma kept_app s l1 : forall b l2, kept s b (l1 ++ l2) = kept s (kept s b l1) l2.
Proof. induction l1 as [|[f t [| | |] v|f t [| | |] r] l1 IH]; intros b l2; cbn [app kept]; try reflexivity; apply IH. Qed.

Lemma one_app s l1 : forall b l2, one_at_a_time s b l1 -> one_at_a_time s (held s b l1) l2 -> one_at_a_time s b (l1 ++ l2).
Proof.
  induction l1 as [|[f t e v|f t e r] l1 IH]; intros b l2; cbn [app held one_at_a_time]; [auto|..];
    (destruct (t =? s); [intros (H1 & H2) H; split; [exact H1|apply IH; assumption]|apply IH]).
Qed.

Lemma streamed_app s l1 : forall b l2, streamed s b l1 -> streamed s (kept s b l1) l2 -> streamed s b (l1 ++ l2).
Proof.
  induction l1 as [|[f t [| | |] v|f t [| | |] r] l1 IH]; intros b l2; cbn [app kept streamed]; auto;
    (destruct (t =? s); [intros (H1 & H2) H; split; [exact H1|apply IH; assumption]|apply IH]).
Qed.

Definition is_data (e : ev) : bool := match e with Data _ _ => true | _ => false end.

(** What holds if addresses are not used again too early. *)
Record single (st : state) : Prop := {
  c_one : forall f g a x y, fibers st f = Some (a, x) -> fibers st g = Some (a, y) -> f = g;
  c_idle : forall a q, table st a = Some q -> fiber_active q = false -> forall f x, fibers st f <> Some (a, x);
  c_hold : forall s f, held s None (log st) = Some f <-> exists a e, fibers st f = Some (a, Calling s e);
  c_alone : forall s, one_at_a_time s None (log st);
  c_kept : forall a q, table st a = Some q -> data_stream q = kept (socket q) [] (log st);
  c_new : forall s, next_socket st <= s -> kept s [] (log st) = [];
  c_stream : forall s, streamed s [] (log st) }.

Lemma single_init : single init.
Proof. split; cbn; try discriminate; auto. intros s f. split; [discriminate|intros (a & e & H); discriminate]. Qed.

(** Nothing is observed, and at most a fiber is launched. *)
Lemma single_quiet A st st' (n : bool) b0 : inv A st -> single st -> log st' = log st -> next_socket st <= next_socket st' ->
  fibers st' = (if n then upd (fibers st) (next_fiber st) (Some (b0, Top)) else fibers st) ->
  (n = true -> exists q, table st b0 = Some q /\ fiber_active q = false) ->
  (forall a q', table st' a = Some q' ->
     (exists q, table st a = Some q /\ socket q' = socket q /\ data_stream q' = data_stream q
                /\ (fiber_active q' = false -> fiber_active q = false /\ (n = true -> a <> b0)))
     \/ (socket q' = next_socket st /\ data_stream q' = [] /\ n = false /\ forall f x, fibers st f <> Some (a, x))) ->
  single st'.
Proof.
  intros I C L Ns F N T. split; rewrite ?L.
  - intros f g a x y. rewrite F. destruct n; [|apply (c_one _ C)]. destruct (N eq_refl) as (q & Tq & Ia).
    intros X Y. apply upd_inv in X, Y. destruct X as [(-> & [= <- <-])|(Nx & X)], Y as [(-> & Y)|(Ny & Y)].
    + reflexivity.
    + exfalso. exact (c_idle _ C _ _ Tq Ia _ _ Y).
    + injection Y as <- <-. exfalso. exact (c_idle _ C _ _ Tq Ia _ _ X).
    + exact (c_one _ C _ _ _ _ _ X Y).
  - intros a q' Tq Ia f x. rewrite F. destruct (T _ _ Tq) as [(q & To & _ & _ & H)|(_ & _ & -> & H)]; [|apply H].
    destruct (H Ia) as (Io & D). destruct n; [|apply (c_idle _ C _ _ To Io)].
    intros X. apply upd_inv in X. destruct X as [(-> & [= <- <-])|(_ & X)]; [apply D; reflexivity|exact (c_idle _ C _ _ To Io _ _ X)].
  - intros s f. rewrite (c_hold _ C), F. destruct n; [|reflexivity]. split; intros (a & e & X).
    + exists a, e. rewrite upd_ne; [exact X|]. destruct (v_fib _ _ I _ _ _ X). lia.
    + apply upd_inv in X. destruct X as [(_ & X)|(_ & X)]; [discriminate|eauto].
  - apply (c_alone _ C).
  - intros a q' Tq. destruct (T _ _ Tq) as [(q & To & -> & -> & _)|(-> & -> & _)]; [apply (c_kept _ C _ _ To)|].
    symmetry. apply (c_new _ C). lia.
  - intros s Hs. apply (c_new _ C). lia.
  - apply (c_stream _ C).
Qed.

Lemma single_step A st x st' : inv A st -> single st -> step true st x = Some st' -> single st'.
Proof.
  intros I C H. destruct x as [a|s e|s b|s|f|f r|]; cbn [step] in H.
  - destruct (expired st); [discriminate|]. cbn [orb] in H. destruct (available true st a) eqn:V; [|discriminate]. injection H as <-.
    destruct (available_spec A st true a I V) as (V1 & V2 & V3).
    apply (single_quiet A st _ false 0 I C); cbn; auto; [discriminate|].
    intros b q' T. apply upd_inv in T. destruct T as [(-> & [= <-])|(Nb & T)]; [right|left; exists q'; split; [exact T|repeat split; auto; discriminate]].
    cbn. repeat split. intros f x X. destruct (V3 _ _ X). discriminate.
  - destruct (net st s) as [(a, [|])|]; try discriminate.
    destruct (if expired st then None else table st a) as [q|] eqn:Q.
    2: { injection H as <-. apply (single_quiet A st _ false 0 I C); cbn; auto; [discriminate|].
         intros b q' T. left. exists q'. repeat split; auto; discriminate. }
    assert (T : table st a = Some q) by (destruct (expired st); [discriminate|exact Q]). clear Q.
    assert (G : forall b q', upd (table st) a (Some (mkEntry (socket q) (events q ++ [e]) true (data_stream q))) b = Some q' ->
       forall n, (n = true -> True) -> (exists q0, table st b = Some q0 /\ socket q' = socket q0 /\ data_stream q' = data_stream q0
                /\ (fiber_active q' = false -> fiber_active q0 = false /\ (n = true -> b <> a)))
       \/ (socket q' = next_socket st /\ data_stream q' = [] /\ n = false /\ forall f x, fibers st f <> Some (b, x))).
    { intros b q' T' n _. left. apply upd_inv in T'. destruct T' as [(-> & [= <-])|(Nb & T')]; [exists q|exists q']; cbn.
      - repeat split; auto; discriminate.
      - repeat split; auto. }
    destruct (fiber_active q) eqn:Ac; injection H as <-.
    + apply (single_quiet A st _ false a I C); cbn; auto; try discriminate; intros b q' T'; apply (G b q' T'); auto.
    + apply (single_quiet A st _ true a I C); cbn; eauto.
  - destruct (net st s) as [(a, [|])|]; try discriminate.
    destruct (if expired st then None else table st a) as [q|] eqn:Q; [|discriminate].
    assert (T : table st a = Some q) by (destruct (expired st); [discriminate|exact Q]). clear Q.
    injection H as <-. apply (single_quiet A st _ (b && negb (fiber_active q)) a I C); cbn; auto.
    + intros E. exists q. split; [exact T|]. destruct b, (fiber_active q); try discriminate; reflexivity.
    + intros c q' T'. apply upd_inv in T'. destruct T' as [(_ & X)|(Nb & T')]; [discriminate|]. left. exists q'. repeat split; auto.
  - destruct (net st s) as [(a, [|])|]; try discriminate. injection H as <-.
    apply (single_quiet A st _ false 0 I C); cbn; auto; [discriminate|].
    intros b q' T. left. exists q'. repeat split; auto; discriminate.
  - destruct (fibers st f) as [(a, [|? ?])|] eqn:Fi; try discriminate.
    (* no other fiber is at the address *)
    assert (Al : forall g x, fibers st g = Some (a, x) -> g = f) by (intros g x Gx; exact (c_one _ C _ _ _ _ _ Gx Fi)).
    assert (Fin : forall tab, (forall b q', tab b = Some q' ->
        (b <> a /\ table st b = Some q') \/ exists q, table st b = Some q /\ socket q' = socket q /\ data_stream q' = data_stream q /\ (fiber_active q' = false -> b = a \/ fiber_active q = false)) ->
      single (mkState tab (upd (fibers st) f None) (next_fiber st) (net st) (next_socket st) (stopped st) (dangling st) (pushed st) (log st))).
    { intros tab Ht. split; cbn.
      - intros g h b x y X Y. apply upd_inv in X, Y. destruct X as [(_ & X)|(_ & X)]; [discriminate|]. destruct Y as [(_ & Y)|(_ & Y)]; [discriminate|].
        exact (c_one _ C _ _ _ _ _ X Y).
      - intros b q' T' Ia g x X. apply upd_inv in X. destruct X as [(_ & X)|(Ng & X)]; [discriminate|].
        destruct (Ht _ _ T') as [(Nb & To)|(q & To & _ & _ & D)]; [exact (c_idle _ C _ _ To Ia _ _ X)|].
        destruct (D Ia) as [->|Io]; [|exact (c_idle _ C _ _ To Io _ _ X)]. apply Ng, (Al _ _ X).
      - intros s g. rewrite (c_hold _ C). split; intros (b & e & X); exists b, e.
        + rewrite upd_ne; [exact X|]. intros ->. congruence.
        + apply upd_inv in X. destruct X as [(_ & X)|(_ & X)]; [discriminate|exact X].
      - apply (c_alone _ C).
      - intros b q' T'. destruct (Ht _ _ T') as [(_ & To)|(q & To & -> & -> & _)]; apply (c_kept _ C _ _ To).
      - apply (c_new _ C).
      - apply (c_stream _ C). }
    destruct (if expired st then None else table st a) as [q|] eqn:Q.
    2: { injection H as <-. apply Fin. intros b q' T'. right. exists q'. auto. }
    assert (T : table st a = Some q) by (destruct (expired st); [discriminate|exact Q]). clear Q.
    destruct (events q) as [|e es] eqn:Ev.
    { injection H as <-. apply Fin. intros b q' T'. apply upd_inv in T'. destruct T' as [(-> & [= <-])|(Nb & T')]; [right; exists q; cbn; auto|auto]. }
    destruct (v_table _ _ I _ _ T) as (Lq & Aq). clear Fin. set (s := socket q) in *.
    set (view := match e with Data d _ => data_stream q ++ d | _ => [] end) in H.
    set (stream := match e with Data _ _ => view | _ => data_stream q end) in H.
    assert (Tt : forall b p, upd (table st) a (if is_close e then None else Some (mkEntry s es (fiber_active q) stream)) b = Some p ->
     (b = a /\ p = mkEntry s es (fiber_active q) stream) \/ (b <> a /\ table st b = Some p)).
    { intros b p X. apply upd_inv in X. destruct X as [(-> & X)|X]; [left|right; exact X]. destruct (is_close e); [discriminate|]. injection X as <-. auto. }
    assert (Free : held s None (log st) = None).
    { destruct (held s None (log st)) as [g|] eqn:E; [|reflexivity]. apply (c_hold _ C) in E. destruct E as (b & e' & G).
      destruct (v_fib _ _ I _ _ _ G) as (_ & _ & Eb). rewrite Aq in Eb. subst b. pose proof (Al _ _ G) as ->. congruence. }
    injection H as <-. split; cbn.
    + intros g h b x y X Y. apply upd_inv in X, Y. destruct X as [(-> & [= <- <-])|(Nx & X)], Y as [(-> & Y)|(Ny & Y)].
      * reflexivity.
      * symmetry. exact (Al _ _ Y).
      * injection Y as <- <-. exact (Al _ _ X).
      * exact (c_one _ C _ _ _ _ _ X Y).
    + intros b p T' Ia g x X. destruct (Tt _ _ T') as [(-> & ->)|(Nb & To)].
      * cbn in Ia. exact (c_idle _ C _ _ T Ia _ _ Fi).
      * apply upd_inv in X. destruct X as [(_ & [= <- <-])|(_ & X)]; [contradiction|exact (c_idle _ C _ _ To Ia _ _ X)].
    + intros t g. rewrite held_app. cbn [held]. destruct (Nat.eqb_spec s t) as [<-|Nt].
      * split.
        -- intros [= <-]. exists a, e. apply upd_eq.
        -- intros (b & e' & X). apply upd_inv in X. destruct X as [(-> & _)|(_ & X)]; [reflexivity|].
           exfalso. assert (held s None (log st) = Some g) by (apply (c_hold _ C); eauto). congruence.
      * rewrite (c_hold _ C). split; intros (b & e' & X); exists b, e'.
        -- rewrite upd_ne; [exact X|]. intros ->. congruence.
        -- apply upd_inv in X. destruct X as [(_ & X)|(_ & X)]; [|exact X]. injection X as _ X _. exfalso. exact (Nt X).
    + intros t. apply one_app; [apply (c_alone _ C)|]. cbn. destruct (Nat.eqb_spec s t) as [<-|]; [|exact Logic.I]. split; [exact Free|exact Logic.I].
    + intros b p T'. rewrite kept_app. destruct (Tt _ _ T') as [(-> & ->)|(Nb & To)]; cbn.
      * rewrite Nat.eqb_refl. pose proof (c_kept _ C _ _ T) as K. fold s in K. destruct e; cbn; auto.
      * rewrite (c_kept _ C _ _ To). assert (Ne : (s =? socket p) = false).
        { apply Nat.eqb_neq. intros E. destruct (v_table _ _ I _ _ To) as (_ & X). congruence. }
        rewrite Ne. destruct e; reflexivity.
    + intros t Lt. rewrite kept_app, (c_new _ C t Lt). cbn. assert (Ne : (s =? t) = false) by (apply Nat.eqb_neq; lia).
      rewrite Ne. destruct e; reflexivity.
    + intros t. apply streamed_app; [apply (c_stream _ C)|]. cbn. destruct e; auto.
      destruct (Nat.eqb_spec s t) as [<-|]; [|exact Logic.I]. split; [|exact Logic.I]. unfold view.
      rewrite (c_kept _ C _ _ T). reflexivity.
  - destruct (fibers st f) as [(a, [|s e])|] eqn:Fi; try discriminate.
    destruct (v_fib _ _ I _ _ _ Fi) as (_ & Ls & As).
    assert (Hs : held s None (log st) = Some f) by (apply (c_hold _ C); eauto).
    assert (Fin : forall tab rest, (exists gone, kept s [] (log st) = gone ++ rest) ->
      (forall b q', tab b = Some q' -> (table st b = Some q' /\ (is_data e = true -> socket q' <> s))
         \/ exists q, table st b = Some q /\ socket q = s /\ is_data e = true /\ q' = mkEntry s (events q) (fiber_active q) rest) ->
      single (mkState tab (upd (fibers st) f (Some (a, Top))) (next_fiber st) (net st) (next_socket st) (stopped st) (dangling st) (pushed st) (log st ++ [Ended f s e rest]))).
    { intros tab rest Hr Ht.
      assert (Fo : forall g b x, upd (fibers st) f (Some (a, Top)) g = Some (b, x) -> exists y, fibers st g = Some (b, y)).
      { intros g b x X. apply upd_inv in X. destruct X as [(-> & [= <- <-])|(_ & X)]; eauto. }
      split; cbn.
      - intros g h b x y X Y. apply Fo in X, Y. destruct X as (x' & X), Y as (y' & Y). exact (c_one _ C _ _ _ _ _ X Y).
      - intros b q' T' Ia g x X. apply Fo in X. destruct X as (x' & X).
        destruct (Ht _ _ T') as [(To & _)|(q & To & _ & _ & ->)]; exact (c_idle _ C _ _ To Ia _ _ X).
      - intros t g. rewrite held_app. cbn [held]. destruct (Nat.eqb_spec s t) as [<-|Nt].
        + split; [discriminate|]. intros (b & e' & X). apply upd_inv in X. destruct X as [(_ & X)|(Ng & X)]; [discriminate|].
          exfalso. assert (held s None (log st) = Some g) by (apply (c_hold _ C); eauto). congruence.
        + rewrite (c_hold _ C). split; intros (b & e' & X); exists b, e'.
          * rewrite upd_ne; [exact X|]. intros ->. congruence.
          * apply upd_inv in X. destruct X as [(_ & X)|(_ & X)]; [discriminate|exact X].
      - intros t. apply one_app; [apply (c_alone _ C)|]. cbn. destruct (Nat.eqb_spec s t) as [<-|]; [|exact Logic.I]. split; [exact Hs|exact Logic.I].
      - intros b q' T'. rewrite kept_app. destruct (Ht _ _ T') as [(To & D)|(q & To & Eq & D & ->)]; cbn.
        + rewrite (c_kept _ C _ _ To). destruct e; try reflexivity. destruct (Nat.eqb_spec s (socket q')) as [E|]; [|reflexivity].
          exfalso. apply D; auto.
        + rewrite Nat.eqb_refl. destruct e; try discriminate. reflexivity.
      - intros t Lt. rewrite kept_app, (c_new _ C t Lt). cbn. assert (Ne : (s =? t) = false) by (apply Nat.eqb_neq; lia).
        rewrite Ne. destruct e; reflexivity.
      - intros t. apply streamed_app; [apply (c_stream _ C)|]. cbn. destruct e; auto.
        destruct (Nat.eqb_spec s t) as [<-|]; [|exact Logic.I]. split; [exact Hr|exact Logic.I]. }
    assert (Same : forall b q, table st b = Some q -> socket q = s -> b = a).
    { intros b q T E. destruct (v_table _ _ I _ _ T) as (_ & X). congruence. }
    destruct (table st a) as [q|] eqn:T.
    + assert (Eq : socket q = s).
      { destruct (v_table _ _ I _ _ T) as (_ & Aq). apply (v_uniq _ _ I).
        - right. left. exists q. rewrite Aq. auto.
        - right. right. eauto.
        - congruence. }
      destruct e as [|d eof|m|c]; injection H as <-.
      1, 3, 4: apply Fin; [exists (kept s [] (log st)); rewrite app_nil_r; reflexivity|];
        intros b q' T'; left; split; [exact T'|discriminate].
      apply Fin.
      * rewrite <- Eq, <- (c_kept _ C _ _ T). exists (firstn (length (data_stream q) - r) (data_stream q)). symmetry. apply firstn_skipn.
      * intros b q' T'. apply upd_inv in T'. destruct T' as [(-> & [= <-])|(Nb & T')].
        -- right. exists q. rewrite Eq. auto.
        -- left. split; [exact T'|]. intros _ E. exact (Nb (Same _ _ T' E)).
    + assert (E : st' = mkState (table st) (upd (fibers st) f (Some (a, Top))) (next_fiber st) (net st) (next_socket st) (stopped st) (dangling st) (pushed st) (log st ++ [Ended f s e []])) by (destruct e; injection H as <-; reflexivity).
      subst st'. apply Fin; [exists (kept s [] (log st)); rewrite app_nil_r; reflexivity|].
      intros b q' T'. left. split; [exact T'|]. intros _ E. rewrite (Same _ _ T' E) in T'. congruence.
  - injection H as <-. apply (single_quiet A st _ false 0 I C); cbn; auto; [discriminate|].
    intros b q' T. left. exists q'. repeat split; auto; discriminate.
Qed.

Lemma single_run xs : forall A st st', inv A st -> single st -> run true st xs = Some st' -> single st'.
Proof.
  induction xs as [|x xs IH]; intros A st st' I C H; cbn [run] in H; [injection H as <-; exact C|].
  destruct (step true st x) as [st1|] eqn:E; [|discriminate].
  destruct (inv_step true A st x st1 I E) as (A1 & I1 & _). exact (IH A1 st1 st' I1 (single_step A st x st1 I C E) H).
Qed.
