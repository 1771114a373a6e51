(** Invariants of the fiber scheduler. *)
From Coq Require Import ZArith List Lia Bool ZifyBool.
From Verif Require Import TimerModel TimerProofs FiberModel FiberSpec.
From Verif Require Import FiberModel.
Import ListNotations.
Open Scope Z_scope.

Definition ids (l : list node) : list nat := map n_id l.

Lemma fstate_eqb_eq a b : fstate_eqb a b = true <-> a = b.
Proof. destruct a, b; cbn; split; congruence. Qed.

Lemma is_done_In s f : is_done s f = true <-> In f (done s).
Proof.
  unfold is_done. rewrite existsb_exists. split.
  - intros (x & Hx & E). apply Z.eqb_eq in E. now subst.
  - intros H. exists f. split; auto. apply Z.eqb_refl.
Qed.
Lemma is_abandoned_In s f : is_abandoned s f = true <-> In f (abandoned s).
Proof.
  unfold is_abandoned. rewrite existsb_exists. split.
  - intros (x & Hx & E). apply Z.eqb_eq in E. now subst.
  - intros H. exists f. split; auto. apply Z.eqb_refl.
Qed.

Definition keeps_id (g : node -> node) : Prop := forall n, n_id (g n) = n_id n.

Lemma ids_upd id g l : keeps_id g -> ids (upd id g l) = ids l.
Proof.
  intros K. unfold ids, upd. rewrite map_map. apply map_ext. intros n.
  destruct (Nat.eqb (n_id n) id); auto.
Qed.

Lemma In_upd id g l n : In n (upd id g l) ->
  exists m, In m l /\ ((n_id m = id /\ n = g m) \/ (n_id m <> id /\ n = m)).
Proof.
  unfold upd. rewrite in_map_iff. intros (m & E & Hm). exists m. split; [auto|].
  destruct (Nat.eqb (n_id m) id) eqn:X; [left|right]; split; auto; lia.
Qed.

Lemma In_upd_same id g l m : In m l -> n_id m = id -> In (g m) (upd id g l).
Proof. intros H E. unfold upd. apply in_map_iff. exists m. rewrite E, Nat.eqb_refl. auto. Qed.
Lemma In_upd_other id g l m : In m l -> n_id m <> id -> In m (upd id g l).
Proof. intros H E. unfold upd. apply in_map_iff. exists m. destruct (Nat.eqb (n_id m) id) eqn:X; [lia|auto]. Qed.

Lemma In_ids l n : In n l -> In (n_id n) (ids l).
Proof. apply in_map. Qed.

Lemma ids_unique l n m : NoDup (ids l) -> In n l -> In m l -> n_id n = n_id m -> n = m.
Proof.
  intros D Hn Hm E. induction l as [|x l IH]; [contradiction|]. cbn in D. inversion D as [|? ? N D']; subst.
  destruct Hn as [->|Hn], Hm as [->|Hm]; auto.
  - exfalso. apply N. rewrite E. now apply In_ids.
  - exfalso. apply N. rewrite <- E. now apply In_ids.
Qed.

Lemma find_node_In id l n : find_node id l = Some n -> In n l /\ n_id n = id.
Proof. unfold find_node. intros H. apply find_some in H as [H E]. split; [auto|lia]. Qed.
Lemma find_node_ex id l : In id (ids l) -> exists n, find_node id l = Some n.
Proof.
  intros H. unfold find_node. destruct (find _ l) eqn:E; [eauto|].
  unfold ids in H. apply in_map_iff in H as (n & <- & Hn).
  apply (find_none _ _ E) in Hn. rewrite Nat.eqb_refl in Hn. discriminate.
Qed.

Lemma tale_app id a b : tale id (a ++ b) = tale id a ++ tale id b.
Proof. apply filter_app. Qed.
Lemma tale_one id o : tale id [o] = if Nat.eqb (who o) id then [o] else [].
Proof. reflexivity. Qed.

(** ** The invariant *)
Definition state_ok (s : st) (n : node) : Prop :=
  match n_state n with
  | Pending => tale (n_id n) (log s) = [] /\ at_ s <> Inside (n_id n) /\ n_fut n = None
  | Suspended => alive (n_id n) (tale (n_id n) (log s)) /\ at_ s <> Inside (n_id n)
                 /\ (forall f, n_fut n = Some f -> ~ In f (done s) -> In (f, n_id n) (waiters s))
  | Running => alive (n_id n) (tale (n_id n) (log s)) /\ at_ s = Inside (n_id n)
  | Terminated => over (n_id n) (tale (n_id n) (log s)) /\ at_ s <> Inside (n_id n)
  end.

Definition at_ok (s : st) : Prop :=
  match at_ s with
  | Outside => True
  | Popped id _ fut _ => exists n, In n (nodes s) /\ n_id n = id /\ n_fut n = fut /\ (n_state n = Pending \/ n_state n = Suspended)
  | Inside id => exists n, In n (nodes s) /\ n_id n = id /\ n_state n = Running
  end.

Definition obs_ok (s : st) (o : obs) : Prop :=
  match o with
  | Resumed _ (Some f) since now fl normal =>
      (In f (done s) \/ since + fl <= now) /\ (normal = true -> In f (done s))
  | _ => True
  end.

Record Inv (s : st) : Prop := {
  inv_nodup : NoDup (ids (nodes s));
  inv_fiber : forall n, In n (nodes s) -> nth_error (launched s) (n_id n) = Some (n_fiber n);
  inv_state : forall n, In n (nodes s) -> state_ok s n;
  inv_at : at_ok s;
  inv_gone : forall id fb, nth_error (launched s) id = Some fb -> ~ In id (ids (nodes s)) ->
     over id (tale id (log s)) \/ (tale id (log s) = [] /\ In fb (abandoned s));
  inv_fresh : forall o, In o (log s) -> (who o < length (launched s))%nat;
  inv_obs : forall o, In o (log s) -> obs_ok s o;
  inv_wait : 0 <= wait s;
  inv_bad : bad s = false }.

Lemma inv_init w f : Inv (init w f).
Proof.
  split; cbn; try (intros; contradiction); try reflexivity; try exact Logic.I.
  - constructor.
  - intros [|id] fb; discriminate.
Qed.

Lemma inv_lt s n : Inv s -> In n (nodes s) -> (n_id n < length (launched s))%nat.
Proof. intros I H. apply (inv_fiber s I) in H. apply nth_error_Some. congruence. Qed.

(** [refresh] and the notification change times only. *)
Definition same_but_times (a b : node) : Prop :=
  n_id a = n_id b /\ n_fiber a = n_fiber b /\ n_state a = n_state b /\ n_fut a = n_fut b.

Lemma inv_times s l (Hlen : ids l = ids (nodes s))
  (Hs : forall n, In n l -> exists m, In m (nodes s) /\ same_but_times n m)
  (Hs' : forall m, In m (nodes s) -> exists n, In n l /\ same_but_times n m) :
  Inv s -> Inv (with_nodes s l).
Proof.
  intros I. destruct I as [I1 I2 I3 I4 I5 I6 I7 I8 I9]. split; cbn [with_nodes nodes log at_ done waiters launched abandoned wait bad]; auto.
  - now rewrite Hlen.
  - intros n Hn. destruct (Hs n Hn) as (m & Hm & -> & -> & _). auto.
  - intros n Hn. destruct (Hs n Hn) as (m & Hm & E1 & E2 & E3 & E4). specialize (I3 m Hm).
    unfold state_ok in *. cbn [with_nodes log at_ done waiters]. rewrite E1, E3, E4. exact I3.
  - unfold at_ok in *. cbn [with_nodes at_ nodes]. destruct (at_ s) as [|id now fut fl|id]; auto.
    + destruct I4 as (m & Hm & X1 & X2 & X3). destruct (Hs' m Hm) as (n & Hn & E1 & E2 & E3 & E4).
      exists n. rewrite E1, E3, E4. auto.
    + destruct I4 as (m & Hm & X1 & X2). destruct (Hs' m Hm) as (n & Hn & E1 & E2 & E3 & E4).
      exists n. rewrite E1, E3. auto.
  - intros id fb H. rewrite Hlen. auto.
Qed.

Lemma inv_refresh s w : Inv s -> 0 <= w -> Inv (with_wait (with_nodes s (refresh (nodes s))) w).
Proof.
  intros I W. assert (J : Inv (with_nodes s (refresh (nodes s)))).
  { apply inv_times; auto.
    - unfold ids, refresh. rewrite map_map. apply map_ext. auto.
    - intros n H. unfold refresh in H. apply in_map_iff in H as (m & <- & Hm). exists m. split; [auto|]. repeat split.
    - intros m Hm. eexists. split; [unfold refresh; apply in_map_iff; exists m; split; [reflexivity|auto]|]. repeat split. }
  destruct J as [I1 I2 I3 I4 I5 I6 I7 I8 I9]. split; auto.
Qed.

Lemma ids_app a b : ids (a ++ b) = ids a ++ ids b.
Proof. apply map_app. Qed.

Lemma NoDup_snoc {A} (l : list A) x : NoDup l -> ~ In x l -> NoDup (l ++ [x]).
Proof. intros D N. apply (Permutation.Permutation_NoDup (Permutation.Permutation_cons_append l x)). now constructor. Qed.

Lemma remove_ids a (n : node) b : NoDup (ids (a ++ n :: b)) -> NoDup (ids (a ++ b)) /\ ~ In (n_id n) (ids (a ++ b)).
Proof.
  rewrite !ids_app. cbn. intros H. split; [now apply NoDup_remove_1 in H|now apply NoDup_remove_2 in H].
Qed.

Lemma inv_pop s now front s' : Inv s -> at_ s = Outside -> nodes s <> [] -> pop s now front = Some s' -> Inv s'.
Proof.
  intros I A NE. unfold pop. destruct (nth_error (nodes s) front) as [n|] eqn:E.
  2:{ destruct (nodes s) eqn:Q; [congruence|discriminate]. }
  destruct (is_front n (nodes s)); cbn [negb]; [|discriminate].
  destruct (remove_nth_split _ _ _ E) as (a & b & Q & ->). intros H.
  assert (Hn : In n (nodes s)) by (rewrite Q; apply in_elt).
  destruct I as [I1 I2 I3 I4 I5 I6 I7 I8 I9].
  assert (ND : NoDup (ids (a ++ b)) /\ ~ In (n_id n) (ids (a ++ b))) by (apply remove_ids; now rewrite Q in I1).
  assert (Sub : forall x, In x (a ++ b) -> In x (nodes s)).
  { intros x Hx. rewrite Q. apply in_app_or in Hx as [Hx|Hx]; apply in_or_app; cbn; auto. }
  assert (Mem : forall id, In id (ids (nodes s)) <-> id = n_id n \/ In id (ids (a ++ b))).
  { intros id. rewrite Q, !ids_app, !in_app_iff. cbn. intuition. }
  destruct ((fstate_eqb (n_state n) Pending && is_abandoned s (n_fiber n)) || fstate_eqb (n_state n) Terminated) eqn:C;
    injection H as <-.
  - split; cbn [with_nodes nodes log at_ done waiters launched abandoned wait bad]; auto; try tauto.
    + intros x Hx. apply (I3 x). auto.
    + unfold at_ok. cbn [with_nodes at_]. rewrite A. exact Logic.I.
    + intros id fb Hf Hid. destruct (Nat.eq_dec id (n_id n)) as [->|Ne].
      * specialize (I3 n Hn). unfold state_ok in I3. specialize (I2 n Hn).
        apply orb_prop in C as [C|C].
        -- apply andb_prop in C as [C1 C2]. apply fstate_eqb_eq in C1. apply is_abandoned_In in C2.
           rewrite C1 in I3. right. split; [tauto|]. congruence.
        -- apply fstate_eqb_eq in C. rewrite C in I3. left. tauto.
      * apply (I5 id fb); auto. rewrite Mem. tauto.
  - apply orb_false_elim in C as [C1 C2].
    split; cbn [with_nodes with_at nodes log at_ done waiters launched abandoned wait bad]; auto.
    + rewrite ids_app. cbn [ids map push_back n_id]. apply NoDup_snoc; tauto.
    + intros x Hx. apply in_app_or in Hx as [Hx|[<-|[]]]; [auto|]. exact (I2 n Hn).
    + intros x Hx. apply in_app_or in Hx as [Hx|[<-|[]]].
      * specialize (I3 x (Sub x Hx)). unfold state_ok in *. cbn [with_at with_nodes at_ log done waiters]. rewrite A in I3.
        destruct (n_state x); intuition congruence.
      * specialize (I3 n Hn). unfold state_ok in *. cbn [with_at with_nodes at_ log done waiters push_back n_state n_id n_fut]. rewrite A in I3.
        destruct (n_state n); intuition congruence.
    + unfold at_ok. cbn [with_at at_ nodes]. exists (push_back s n). split; [apply in_or_app; cbn; auto|].
      cbn [push_back n_id n_fut n_state]. split; [auto|]. split; [auto|].
      specialize (I3 n Hn). unfold state_ok in I3. rewrite A in I3. destruct (n_state n); auto.
      * destruct I3; discriminate.
      * discriminate.
    + intros id fb Hf Hid. apply (I5 id fb); auto. rewrite Mem. rewrite ids_app, in_app_iff in Hid. cbn in Hid. intuition.
Qed.

Lemma min_check_In n l : exists m, In m (n :: l) /\ n_check m = min_check n l /\ forall x, In x (n :: l) -> min_check n l <= n_check x.
Proof.
  induction l as [|y l IH]; cbn [min_check fold_right].
  - exists n. split; [cbn; auto|]. split; [auto|]. intros x [<-|[]]. lia.
  - fold (min_check n l). destruct IH as (m & Hm & E & M).
    assert (M' : forall x, In x (n :: y :: l) -> Z.min (n_check y) (min_check n l) <= n_check x).
    { intros x [<-|[<-|Hx]]; [specialize (M n ltac:(cbn; auto))| |specialize (M x ltac:(cbn; auto))]; lia. }
    destruct (Z.min_spec (n_check y) (min_check n l)) as [[Lt ->]|[Lt ->]].
    + exists y. split; [cbn; auto|]. split; auto. intros x Hx. specialize (M' x Hx). lia.
    + exists m. split; [cbn in *; tauto|]. split; auto. intros x Hx. specialize (M' x Hx). lia.
Qed.

Definition settled (s : st) (w : Z) : st := with_wait (with_nodes s (refresh (nodes s))) w.

Lemma loop_cases s now front s' : Inv s -> loop s now front = Some s' ->
  at_ s = Outside /\
  ((exists w, 0 < w /\ s' = settled s w /\ forall n, In n (nodes s) -> now < n_check n)
   \/ (nodes s <> [] /\ pop s now front = Some s')
   \/ (nodes s <> [] /\ (forall n, In n (nodes s) -> now < n_check n) /\ pop (settled s 0) now front = Some s')).
Proof.
  intros I. unfold loop. destruct (at_ s); try discriminate. intros H. split; [reflexivity|].
  destruct (nodes s) as [|n l] eqn:Q.
  - cbn [refresh map stale existsb] in H.
    assert (W := inv_wait s I). set (w := Z.max 0 (Z.min (Z.min 999000000 (wait s * 2 + 1000)) 500000000)) in *.
    change (999000000 >? 0) with true in H. cbv iota in H.
    destruct (w >? 0) eqn:G; [|unfold w in G; lia]. left. exists w. injection H as <-.
    split; [lia|]. split; [unfold settled; rewrite Q; reflexivity|]. contradiction.
  - destruct (min_check n l - now >? 0) eqn:T.
    + assert (Late : forall x, In x (n :: l) -> now < n_check x).
      { intros x Hx. destruct (min_check_In n l) as (_ & _ & _ & M). specialize (M x Hx). lia. }
      cbn zeta in H. set (w := Z.max 0 _) in H. unfold settled. rewrite Q.
      destruct (w >? 0) eqn:G.
      * left. exists w. injection H as <-. split; [lia|]. auto.
      * right. right. split; [discriminate|]. split; [auto|].
        assert (w = 0) as E by (unfold w in *; lia). rewrite E in H. exact H.
    + right. left. split; [discriminate|auto].
Qed.

Lemma inv_loop s now front s' : Inv s -> loop s now front = Some s' -> Inv s'.
Proof.
  intros I H. destruct (loop_cases _ _ _ _ I H) as (A & [(w & W & -> & _)|[(N & P)|(N & _ & P)]]).
  - apply inv_refresh; [auto|lia].
  - eapply inv_pop; eauto.
  - eapply (inv_pop (settled s 0)); eauto.
    + apply inv_refresh; [auto|lia].
    + cbn [settled with_wait with_nodes nodes]. unfold refresh. destruct (nodes s); [congruence|discriminate].
Qed.

(** Changing the node that the scheduler is working on. *)
Lemma inv_update s s' id (g : node -> node) :
  keeps_id g -> (forall n, n_fiber (g n) = n_fiber n) ->
  Inv s -> In id (ids (nodes s)) ->
  nodes s' = upd id g (nodes s) ->
  launched s' = launched s -> abandoned s' = abandoned s -> done s' = done s ->
  (forall w, In w (waiters s) -> In w (waiters s')) -> wait s' = wait s -> bad s' = false ->
  (exists o, log s' = log s ++ o /\ Forall (fun x => who x = id /\ obs_ok s' x) o) ->
  (forall x, x <> id -> at_ s = Inside x <-> at_ s' = Inside x) ->
  (forall n, In n (nodes s) -> n_id n = id -> state_ok s' (g n)) ->
  at_ok s' -> Inv s'.
Proof.
  intros K Kf I Hid En El Ea Ed Ew Ewt Eb (o & Eo & Ho) Hat Hst Hok.
  destruct I as [I1 I2 I3 I4 I5 I6 I7 I8 I9].
  assert (Told : forall x, x <> id -> tale x (log s') = tale x (log s)).
  { intros x Nx. rewrite Eo, tale_app. unfold tale at 2. rewrite filter_none; [apply app_nil_r|].
    intros y Hy. rewrite Forall_forall in Ho. destruct (Ho y Hy) as [E _]. lia. }
  split; rewrite ?El, ?Ea, ?Ewt; auto.
  - now rewrite En, ids_upd.
  - rewrite En. intros n Hn. apply In_upd in Hn as (m & Hm & [[E ->]|[E ->]]); [rewrite K, Kf|]; auto.
  - rewrite En. intros n Hn. apply In_upd in Hn as (m & Hm & [[E ->]|[E ->]]); [auto|].
    specialize (I3 m Hm). unfold state_ok in *. rewrite (Told _ E), Ed. specialize (Hat _ E).
    destruct (n_state m); intuition.
  - rewrite En, ids_upd by auto. intros x fb Hx Hnx. rewrite Told by congruence. auto.
  - rewrite Eo. intros x Hx. apply in_app_or in Hx as [Hx|Hx]; [auto|].
    rewrite Forall_forall in Ho. destruct (Ho x Hx) as [-> _]. unfold ids in Hid. apply in_map_iff in Hid as (n & <- & Hn).
    apply I2 in Hn. apply nth_error_Some. congruence.
  - rewrite Eo. intros x Hx. apply in_app_or in Hx as [Hx|Hx].
    + specialize (I7 x Hx). unfold obs_ok in *. destruct x as [|? [f|]|]; auto. now rewrite Ed.
    + rewrite Forall_forall in Ho. apply (Ho x Hx).
Qed.

Lemma alive_start id : alive id [Started id].
Proof. exists []. split; auto. Qed.
Lemma alive_resume id l o : alive id l -> is_resumed o -> alive id (l ++ [o]).
Proof. intros (rs & -> & F) R. exists (rs ++ [o]). split; [reflexivity|]. apply Forall_app. auto. Qed.

Lemma enter_spec s n now fl : Inv s -> In n (nodes s) -> (n_state n = Pending \/ n_state n = Suspended) ->
  (match n_fut n with Some f => In f (done s) \/ n_yield n + fl <= now | None => True end) ->
  (forall x, at_ s <> Inside x) ->
  Inv (enter s n now fl).
Proof.
  intros I Hn C R A. assert (S := inv_state s I n Hn). unfold state_ok in S.
  assert (HI : In (n_id n) (ids (nodes s))) by now apply In_ids.
  assert (Hok : forall l lg, l = upd (n_id n) (fun x => mkN (n_id x) (n_fiber x) (n_async x) (n_check x) (n_yield x) Running
                                       lg) (nodes s) -> exists m, In m l /\ n_id m = n_id n /\ n_state m = Running).
  { intros l lg ->. eexists. split; [apply In_upd_same; [exact Hn|reflexivity]|]. cbn. auto. }
  unfold enter. destruct C as [C|C]; rewrite C in *.
  - eapply (inv_update s _ (n_id n)); cbn [with_log with_at with_nodes nodes launched abandoned done waiters wait bad log at_]; auto.
    + intros x. reflexivity.
    + reflexivity.
    + apply (inv_bad s I).
    + exists [Started (n_id n)]. split; [reflexivity|]. repeat constructor.
    + intros x Nx. split; intros X; [exfalso; eapply A; eauto|congruence].
    + intros m Hm Em. assert (m = n) as -> by (eapply ids_unique; eauto; apply (inv_nodup s I)).
      unfold state_ok. cbn [n_state n_id with_log log with_at at_]. destruct S as (S1 & _). rewrite tale_app. cbn [with_at with_nodes log]. rewrite S1, tale_one. cbn [who].
      rewrite Nat.eqb_refl. split; [apply alive_start|reflexivity].
    + unfold at_ok. cbn [with_log with_at at_ nodes]. eexists. split; [apply In_upd_same; [exact Hn|reflexivity]|]. cbn. auto.
  - eapply (inv_update s _ (n_id n)); cbn [with_log with_at with_nodes nodes launched abandoned done waiters wait bad log at_]; auto.
    + intros x. reflexivity.
    + reflexivity.
    + apply (inv_bad s I).
    + eexists. split; [reflexivity|]. repeat constructor. unfold obs_ok. cbn [with_log with_at with_nodes done].
      destruct (n_fut n) as [f|]; auto. split; [exact R|]. intros X. apply andb_prop in X as [X _]. now apply is_done_In.
    + intros x Nx. split; intros X; [exfalso; eapply A; eauto|congruence].
    + intros m Hm Em. assert (m = n) as -> by (eapply ids_unique; eauto; apply (inv_nodup s I)).
      unfold state_ok. cbn [n_state n_id with_log log with_at at_]. destruct S as (S1 & _). rewrite tale_app, tale_one. cbn [who with_nodes log].
      rewrite Nat.eqb_refl. split; [|reflexivity]. apply alive_resume; cbn; auto.
    + unfold at_ok. cbn [with_log with_at at_ nodes]. eexists. split; [apply In_upd_same; [exact Hn|reflexivity]|]. cbn. auto.
Qed.

Lemma inv_outside s : Inv s -> (forall x, at_ s <> Inside x) -> Inv (with_at s Outside).
Proof.
  intros I A. destruct I as [I1 I2 I3 I4 I5 I6 I7 I8 I9]. split; auto; [|exact Logic.I].
  intros n Hn. specialize (I3 n Hn). unfold state_ok in *. cbn [with_at at_ log done waiters].
  destruct (n_state n); intuition (try congruence).
Qed.

Lemma popped_node s id now fut fl : Inv s -> at_ s = Popped id now fut fl ->
  exists n, find_node id (nodes s) = Some n /\ In n (nodes s) /\ n_id n = id /\ n_fut n = fut
    /\ (n_state n = Pending \/ n_state n = Suspended).
Proof.
  intros I A. assert (K := inv_at s I). unfold at_ok in K. rewrite A in K. destruct K as (m & Hm & E1 & E2 & E3).
  destruct (find_node_ex id (nodes s)) as (n & F). { rewrite <- E1. now apply In_ids. }
  destruct (find_node_In _ _ _ F) as [Hn En].
  assert (n = m) as -> by (eapply ids_unique; eauto; [apply (inv_nodup s I)|congruence]). exists m. auto.
Qed.

Lemma decide_cases s s' : Inv s -> decide s = Some s' ->
  exists id now fut fl n, at_ s = Popped id now fut fl /\ In n (nodes s) /\ n_id n = id /\ n_fut n = fut
    /\ (n_state n = Pending \/ n_state n = Suspended) /\
    ((s' = with_at s Outside /\ now < n_yield n + fl /\ exists f, fut = Some f /\ ~ In f (done s))
     \/ (s' = enter s n now fl /\ match fut with Some f => In f (done s) \/ n_yield n + fl <= now | None => True end)).
Proof.
  intros I. unfold decide. destruct (at_ s) as [|id now fut fl|] eqn:A; try discriminate.
  destruct (popped_node _ _ _ _ _ I A) as (n & F & Hn & E1 & E2 & E3). rewrite F. intros H.
  exists id, now, fut, fl, n. repeat (split; [solve [auto]|]).
  destruct fut as [f|]; [|injection H as <-; right; auto].
  destruct (negb (now >=? n_yield n + fl) && negb (is_done s f)) eqn:C; injection H as <-.
  - left. split; [auto|]. split; [lia|]. exists f. split; [auto|]. intros X. apply is_done_In in X. rewrite X in C. lia.
  - right. split; [auto|]. destruct (is_done s f) eqn:D; [left; now apply is_done_In|right; lia].
Qed.

Lemma inv_decide s s' : Inv s -> decide s = Some s' -> Inv s'.
Proof.
  intros I H. destruct (decide_cases _ _ I H) as (id & now & fut & fl & n & A & Hn & E1 & E2 & E3 & [(-> & _)|(-> & R)]).
  - apply inv_outside; [auto|]. intros x. rewrite A. discriminate.
  - apply enter_spec; auto; [rewrite E2; auto|]. intros x. rewrite A. discriminate.
Qed.

Lemma inside_node s id : Inv s -> at_ s = Inside id -> exists n, In n (nodes s) /\ n_id n = id /\ n_state n = Running
  /\ alive id (tale id (log s)).
Proof.
  intros I A. assert (K := inv_at s I). unfold at_ok in K. rewrite A in K. destruct K as (n & Hn & E & R).
  exists n. split; [auto|]. split; [auto|]. split; [auto|]. assert (S := inv_state s I n Hn). unfold state_ok in S. rewrite R, E in S. tauto.
Qed.

Lemma inv_yield s fut now s' : Inv s -> yield_ s fut now = Some s' -> Inv s'.
Proof.
  intros I. unfold yield_. destruct (at_ s) as [| |id] eqn:A; try discriminate.
  destruct (inside_node _ _ I A) as (n & Hn & En & Rn & Al).
  assert (HI : In id (ids (nodes s))) by (rewrite <- En; now apply In_ids).
  intros H.
  assert (G : forall state w a, (state = Running /\ a = Inside id /\ w = waiters s \/ state = Suspended /\ a = Outside /\
      (exists l, w = waiters s ++ l) /\ forall f, fut = Some f -> ~ In f (done s) -> In (f, id) w) ->
    Inv (mkS (upd id (fun x => mkN (n_id x) (n_fiber x) now (n_check x) now state fut) (nodes s)) (wait s) (warn s) (fail s) (done s)
       w (notify s) (abandoned s) a (log s) (launched s) (bad s))).
  { intros state w a C. eapply (inv_update s _ id); cbn [nodes launched abandoned done waiters wait bad log at_]; auto.
    - intros x. reflexivity.
    - reflexivity.
    - intros x Hx. destruct C as [(_ & _ & ->)|(_ & _ & (l & ->) & _)]; [auto|]. apply in_or_app. auto.
    - apply (inv_bad s I).
    - exists []. split; [now rewrite app_nil_r|constructor].
    - intros x Nx. rewrite A. destruct C as [(_ & -> & _)|(_ & -> & _)]; split; congruence.
    - intros m Hm Em. unfold state_ok. cbn [n_state n_id log at_ done waiters n_fut]. rewrite Em.
      destruct C as [(-> & -> & _)|(-> & -> & _ & W)]; [split; auto|]. split; [auto|]. split; [discriminate|]. auto.
    - unfold at_ok. cbn [at_ nodes]. destruct C as [(-> & -> & _)|(-> & -> & _)]; [|exact Logic.I].
      eexists. split; [apply In_upd_same; [exact Hn|exact En]|]. cbn. auto. }
  destruct fut as [f|].
  - destruct (is_done s f) eqn:D; injection H as <-.
    + unfold with_nodes. rewrite A. apply G. auto.
    + apply G. right. split; [auto|]. split; [auto|]. split; [eauto|]. intros f' [= <-] _. apply in_or_app. cbn. auto.
  - injection H as <-. unfold with_at, with_nodes. cbn [nodes wait warn fail done waiters notify abandoned log launched bad].
    apply G. right. split; [auto|]. split; [auto|]. split; [exists []; now rewrite app_nil_r|]. discriminate.
Qed.

Lemma inv_finish s now s' : Inv s -> finish s now = Some s' -> Inv s'.
Proof.
  intros I. unfold finish. destruct (at_ s) as [| |id] eqn:A; try discriminate.
  destruct (inside_node _ _ I A) as (n & Hn & En & Rn & Al).
  assert (HI : In id (ids (nodes s))) by (rewrite <- En; now apply In_ids).
  intros [= <-]. eapply (inv_update s _ id); cbn [with_log with_at with_nodes nodes launched abandoned done waiters wait bad log at_]; auto.
  - intros x. reflexivity.
  - reflexivity.
  - apply (inv_bad s I).
  - eexists. split; [reflexivity|]. repeat constructor.
  - intros x Nx. rewrite A. split; congruence.
  - intros m Hm Em. unfold state_ok. cbn [n_state n_id log at_ with_log with_at with_nodes]. rewrite Em. split; [|discriminate].
    rewrite tale_app, tale_one. cbn [who]. rewrite Nat.eqb_refl. eexists. split; [reflexivity|auto].
  - exact Logic.I.
Qed.

Lemma inv_launch s fb now : Inv s -> Inv (launch s fb now).
Proof.
  intros I. destruct I as [I1 I2 I3 I4 I5 I6 I7 I8 I9].
  assert (Lt : forall x, In x (ids (nodes s)) -> (x < length (launched s))%nat).
  { intros x Hx. unfold ids in Hx. apply in_map_iff in Hx as (n & <- & Hn). apply I2 in Hn. apply nth_error_Some. congruence. }
  split; cbn [launch nodes launched log at_ done waiters abandoned wait bad]; auto.
  - rewrite ids_app. apply NoDup_snoc; [auto|]. intros X. apply Lt in X. cbn [n_id] in X. lia.
  - intros n Hn. apply in_app_or in Hn as [Hn|[<-|[]]].
    + rewrite nth_error_app1; [auto|]. apply Lt. now apply In_ids.
    + cbn [n_id n_fiber]. rewrite nth_error_app2, Nat.sub_diag by lia. reflexivity.
  - intros n Hn. apply in_app_or in Hn as [Hn|[<-|[]]]; [exact (I3 n Hn)|].
    unfold state_ok. cbn [n_state n_id launch log at_ n_fut]. split; [|split; auto].
    + apply filter_none. intros o Ho. apply I6 in Ho. lia.
    + intros X. unfold at_ok in I4. rewrite X in I4. destruct I4 as (n & Hn & En & _).
      assert (n_id n < length (launched s))%nat by (apply Lt; now apply In_ids). lia.
  - unfold at_ok in *. cbn [launch at_ nodes]. destruct (at_ s); auto.
    + destruct I4 as (n & Hn & Rest). exists n. split; [apply in_or_app; auto|auto].
    + destruct I4 as (n & Hn & Rest). exists n. split; [apply in_or_app; auto|auto].
  - intros id f H Hid. rewrite ids_app, in_app_iff in Hid. cbn in Hid.
    destruct (nth_error_snoc _ _ _ _ H) as [H'|[-> ->]]; [apply (I5 id f); tauto|]. exfalso. tauto.
  - intros o Ho. rewrite app_length. apply I6 in Ho. cbn. lia.
Qed.

Lemma inv_complete s f s' : Inv s -> complete s f = Some s' -> Inv s'.
Proof.
  intros I. unfold complete. destruct (is_done s f) eqn:D; [discriminate|]. intros [= <-].
  destruct I as [I1 I2 I3 I4 I5 I6 I7 I8 I9].
  split; cbn [nodes launched log at_ done waiters abandoned wait bad]; auto.
  - intros n Hn. specialize (I3 n Hn). unfold state_ok in *. cbn [log at_ done waiters].
    destruct (n_state n); auto. destruct I3 as (X & Y & W). split; [auto|]. split; [auto|].
    intros g Hg Ng. apply filter_In. split; [apply W; [auto|]; intros Z; apply Ng; cbn; auto|].
    cbn [fst]. destruct (g =? f) eqn:E; [|auto]. exfalso. apply Ng. cbn. left. lia.
  - intros o Ho. specialize (I7 o Ho). unfold obs_ok in *. cbn [done]. destruct o as [|? [g|]|]; auto. cbn. intuition.
Qed.

Lemma inv_notify s k now s' : Inv s -> notify_one s k now = Some s' -> Inv s'.
Proof.
  intros I. unfold notify_one. destruct (nth_error (notify s) k) as [id|]; [|discriminate]. intros [= <-].
  set (l := upd id _ _). assert (J : Inv (with_nodes s l)).
  { apply inv_times; auto.
    - apply ids_upd. intros x. reflexivity.
    - intros n Hn. apply In_upd in Hn as (m & Hm & [[_ ->]|[_ ->]]); exists m; repeat split; auto.
    - intros m Hm. destruct (Nat.eq_dec (n_id m) id) as [E|E].
      + eexists. split; [apply (In_upd_same id _ _ m); auto|]. repeat split.
      + exists m. split; [apply In_upd_other; auto|]. repeat split. }
  destruct J as [I1 I2 I3 I4 I5 I6 I7 I8 I9]. split; auto.
Qed.

Lemma inv_abandon s f : Inv s -> Inv (abandon s f).
Proof.
  intros I. destruct I as [I1 I2 I3 I4 I5 I6 I7 I8 I9]. split; auto.
  cbn [abandon nodes launched log abandoned]. intros id fb H Hid. destruct (I5 id fb H Hid) as [X|[X Y]]; [auto|]. right. cbn. auto.
Qed.

Lemma inv_step s e s' : Inv s -> step s e = Some s' -> Inv s'.
Proof.
  intros I. destruct e; cbn [step].
  - now apply inv_loop.
  - now apply inv_decide.
  - now apply inv_yield.
  - now apply inv_finish.
  - intros [= <-]. now apply inv_launch.
  - now apply inv_complete.
  - now apply inv_notify.
  - intros [= <-]. now apply inv_abandon.
  - intros [= <-]. destruct I as [I1 I2 I3 I4 I5 I6 I7 I8 I9]. split; auto.
Qed.

Lemma inv_run es s s' : Inv s -> run s es = Some s' -> Inv s'.
Proof.
  revert s. induction es as [|e es IH]; cbn; intros s I H; [now injection H as <-|].
  destruct (step s e) as [s1|] eqn:E; [|discriminate]. apply (IH s1); auto. eapply inv_step; eauto.
Qed.

(** ** Where the times in the log come from *)
Lemma run_app s e1 e2 : run s (e1 ++ e2) = match run s e1 with Some s1 => run s1 e2 | None => None end.
Proof. revert s. induction e1 as [|e e1 IH]; cbn; intros s; auto. destruct (step s e); auto. Qed.

Record Hist (es : list event) (s : st) : Prop := {
  h_node : forall n, In n (nodes s) -> n_state n = Suspended -> In (Yield (n_fut n) (n_yield n)) es;
  h_at : forall id now fut fl, at_ s = Popped id now fut fl -> exists front, In (Loop now front) es;
  h_log : forall id fut since now fl normal, In (Resumed id fut since now fl normal) (log s) ->
     In (Yield fut since) es /\ exists front, In (Loop now front) es }.

Lemma hist_more es e s : Hist es s -> Hist (es ++ [e]) s.
Proof.
  intros [H1 H2 H3]. split.
  - intros n Hn S. apply in_or_app. auto.
  - intros id now fut fl A. destruct (H2 _ _ _ _ A) as (fr & X). exists fr. apply in_or_app. auto.
  - intros id fut since now fl normal Ho. destruct (H3 _ _ _ _ _ _ Ho) as (X & fr & Y).
    split; [apply in_or_app; auto|]. exists fr. apply in_or_app. auto.
Qed.

Lemma hist_upd es s s' id g : Hist es s -> nodes s' = upd id g (nodes s) ->
  (forall n, n_state (g n) = Suspended -> In (Yield (n_fut (g n)) (n_yield (g n))) es) ->
  (forall i now fut fl, at_ s' <> Popped i now fut fl) -> 
  (forall i fut since now fl normal, In (Resumed i fut since now fl normal) (log s') ->
     In (Resumed i fut since now fl normal) (log s) \/ (In (Yield fut since) es /\ exists front, In (Loop now front) es)) ->
  Hist es s'.
Proof.
  intros [H1 H2 H3] En Hg Ha Hl. split.
  - rewrite En. intros n Hn S. apply In_upd in Hn as (m & Hm & [[_ ->]|[_ ->]]); auto.
  - intros id' now fut fl A. exfalso. eapply Ha; eauto.
  - intros i fut since now fl normal Ho. destruct (Hl _ _ _ _ _ _ Ho) as [X|X]; [eapply H3; eauto|exact X].
Qed.

Lemma hist_pop es s now front s' : Hist es s -> at_ s = Outside -> In (Loop now front) es -> pop s now front = Some s' -> Hist es s'.
Proof.
  intros [H1 H2 H3] A L. unfold pop. destruct (nth_error (nodes s) front) as [n|] eqn:E.
  2:{ destruct (nodes s) eqn:Q; [|discriminate]. intros [= <-]. split; cbn [with_bad nodes at_ log]; auto. rewrite Q. contradiction. }
  destruct (is_front n (nodes s)); cbn [negb]; [|discriminate].
  destruct (remove_nth_split _ _ _ E) as (a & b & Q & ->).
  assert (Sub : forall x, In x (a ++ b) -> In x (nodes s)).
  { intros x Hx. rewrite Q. apply in_app_or in Hx as [Hx|Hx]; apply in_or_app; cbn; auto. }
  destruct (_ || _); intros [= <-]; split; cbn [with_at with_nodes nodes at_ log]; auto.
  - intros x Hx. apply in_app_or in Hx as [Hx|[<-|[]]]; [auto|]. intros S. cbn [push_back n_fut n_yield n_state] in *.
    apply H1; auto. apply nth_error_In in E. exact E.
  - intros id nw fut fl [= _ <- _ _]. eauto.
Qed.

Lemma hist_step es s e s' : Inv s -> Hist es s -> step s e = Some s' -> Hist (es ++ [e]) s'.
Proof.
  intros I H E. apply (hist_more es e) in H. assert (Last : In e (es ++ [e])) by (apply in_or_app; cbn; auto).
  set (es' := es ++ [e]) in *. clearbody es'.
  destruct e as [now front| |fut now|now|f now|f|j now|f|w f]; cbn [step] in E.
  - destruct (loop_cases _ _ _ _ I E) as (A & [(w & W & -> & _)|[(N & P)|(N & _ & P)]]).
    + destruct H as [H1 H2 H3]. split; auto. cbn [settled with_wait with_nodes nodes]. intros n Hn. unfold refresh in Hn.
      apply in_map_iff in Hn as (m & <- & Hm). cbn. auto.
    + eapply hist_pop; eauto.
    + eapply (hist_pop _ (settled s 0)); eauto. destruct H as [H1 H2 H3]. split; auto. cbn [settled with_wait with_nodes nodes]. intros n Hn. unfold refresh in Hn.
      apply in_map_iff in Hn as (m & <- & Hm). cbn. auto.
  - destruct (decide_cases _ _ I E) as (id & now & fut & fl & n & A & Hn & E1 & E2 & E3 & [(-> & _)|(-> & _)]).
    + destruct H as [H1 H2 H3]. split; auto. discriminate.
    + unfold enter. destruct E3 as [E3|E3]; rewrite E3; (eapply (hist_upd _ s _ (n_id n)); [exact H|reflexivity|..]).
      * discriminate.
      * discriminate.
      * intros i ft since nw fl' normal Ho. cbn [with_log with_at with_nodes log] in Ho. apply in_app_or in Ho as [Ho|[Ho|[]]]; [auto|discriminate].
      * discriminate.
      * discriminate.
      * intros i ft since nw fl' normal Ho. cbn [with_log with_at with_nodes log] in Ho. apply in_app_or in Ho as [Ho|[Ho|[]]]; [auto|].
        injection Ho as <- <- <- <- <- <-. right. split; [apply (h_node _ _ H); auto|]. eapply (h_at _ _ H); eauto.
  - unfold yield_ in E. destruct (at_ s) as [| |id] eqn:A; try discriminate. destruct fut as [f|].
    + destruct (is_done s f); injection E as <-; (eapply (hist_upd _ s _ id); [exact H|reflexivity|..]); cbn [with_nodes at_ log n_state n_fut n_yield]; auto; try discriminate; rewrite A; discriminate.
    + injection E as <-. eapply (hist_upd _ s _ id); [exact H|reflexivity|..]; cbn [with_at with_nodes at_ log n_state n_fut n_yield]; auto. discriminate.
  - unfold finish in E. destruct (at_ s) as [| |id] eqn:A; try discriminate. injection E as <-.
    eapply (hist_upd _ s _ id); [exact H|reflexivity|..]; cbn [with_log with_at with_nodes at_ log n_state]; try discriminate.
    intros i ft since nw fl' normal Ho. apply in_app_or in Ho as [Ho|[Ho|[]]]; [auto|discriminate].
  - injection E as <-. destruct H as [H1 H2 H3]. split; auto. cbn [launch nodes]. intros n Hn. apply in_app_or in Hn as [Hn|[<-|[]]]; [auto|discriminate].
  - unfold complete in E. destruct (is_done s f); [discriminate|]. injection E as <-. destruct H as [H1 H2 H3]. split; auto.
  - unfold notify_one in E. destruct (nth_error (notify s) j) as [id|]; [|discriminate]. injection E as <-. destruct H as [H1 H2 H3]. split; auto.
    cbn [nodes]. intros n Hn. apply In_upd in Hn as (m & Hm & [[_ ->]|[_ ->]]); cbn; auto.
  - injection E as <-. destruct H as [H1 H2 H3]. split; auto.
  - injection E as <-. destruct H as [H1 H2 H3]. split; auto.
Qed.

Lemma hist_run w f es s : run (init w f) es = Some s ->
  forall id fut since now fl normal, In (Resumed id fut since now fl normal) (log s) ->
  In (Yield fut since) es /\ exists front, In (Loop now front) es.
Proof.
  intros H. enough (X : Hist es s) by apply X. revert s H.
  induction es as [|e es IH] using rev_ind; intros s H.
  - injection H as <-. split; cbn; try contradiction. discriminate.
  - rewrite run_app in H. destruct (run (init w f) es) as [s1|] eqn:E1; [|discriminate]. cbn in H.
    destruct (step s1 e) as [s2|] eqn:E2; [|discriminate]. injection H as ->.
    eapply hist_step; eauto. eapply inv_run; eauto. apply inv_init.
Qed.

(** ** Fibers that are abandoned before they begin *)
Definition doomed (id : nat) (fb : Z) (s : st) : Prop :=
  nth_error (launched s) id = Some fb /\ In fb (abandoned s) /\ tale id (log s) = []
  /\ forall now fut fl, at_ s <> Popped id now fut fl.

Lemma doomed_pop id fb s now front s' : Inv s -> at_ s = Outside -> doomed id fb s -> nodes s <> [] -> pop s now front = Some s' -> doomed id fb s'.
Proof.
  intros I A (D1 & D2 & D3 & D4) NE. unfold pop. destruct (nth_error (nodes s) front) as [n|] eqn:E.
  2:{ destruct (nodes s) eqn:Q; [congruence|discriminate]. }
  destruct (is_front n (nodes s)); cbn [negb]; [|discriminate]. assert (Hn := nth_error_In _ _ E).
  destruct (_ || _) eqn:C; intros [= <-].
  - split; [auto|]. split; [auto|]. split; auto.
  - split; [auto|]. split; [auto|]. split; [auto|]. cbn [with_at at_]. intros nw ft fl [= X _ _ _].
    assert (F := inv_fiber s I n Hn). rewrite X, D1 in F. injection F as F.
    assert (S := inv_state s I n Hn). unfold state_ok in S. rewrite X, D3 in S.
    destruct (n_state n) eqn:Sn; cbn in C.
    + assert (is_abandoned s (n_fiber n) = true) as B by (apply is_abandoned_In; congruence). rewrite B in C. discriminate.
    + destruct S as ((rs & S & _) & _). discriminate.
    + destruct S as ((rs & S & _) & _). discriminate.
    + discriminate.
Qed.

Lemma doomed_step id fb s e s' : Inv s -> doomed id fb s -> step s e = Some s' -> doomed id fb s'.
Proof.
  intros I D E. assert (D' := D). destruct D as (D1 & D2 & D3 & D4).
  destruct e as [now front| |fut now|now|f now|f|j now|f|w f]; cbn [step] in E.
  - destruct (loop_cases _ _ _ _ I E) as (A & [(w & W & -> & _)|[(N & P)|(N & _ & P)]]).
    + repeat (split; [solve [auto]|]). auto.
    + eapply doomed_pop; eauto.
    + eapply (doomed_pop id fb (settled s 0)); eauto.
      * apply inv_refresh; [auto|lia].
      * cbn [settled with_wait with_nodes nodes]. unfold refresh. destruct (nodes s); [congruence|discriminate].
  - destruct (decide_cases _ _ I E) as (i & now & fut & fl & n & A & Hn & E1 & E2 & E3 & [(-> & _)|(-> & _)]).
    + repeat (split; [solve [auto]|]). discriminate.
    + assert (n_id n <> id) by (intros X; apply (D4 now fut fl); rewrite A; congruence).
      unfold enter. destruct E3 as [E3|E3]; rewrite E3; (split; [auto|]); (split; [auto|]); cbn [with_log with_at with_nodes log at_];
        rewrite tale_app, D3, tale_one; cbn [who]; (destruct (Nat.eqb (n_id n) id) eqn:X; [lia|]); split; auto; discriminate.
  - unfold yield_ in E. destruct (at_ s) as [| |i] eqn:A; try discriminate.
    destruct fut as [f|]; [destruct (is_done s f)|]; injection E as <-; repeat (split; [solve [auto]|]); cbn; try discriminate. rewrite A. discriminate.
  - unfold finish in E. destruct (at_ s) as [| |i] eqn:A; try discriminate. injection E as <-.
    destruct (inside_node _ _ I A) as (n & Hn & En & Rn & (rs & Al & _)).
    split; [auto|]. split; [auto|]. cbn [with_log with_at with_nodes log at_]. rewrite tale_app, D3, tale_one. cbn [who].
    destruct (Nat.eqb i id) eqn:X; [|split; [auto|discriminate]]. assert (i = id) by lia. subst. congruence.
  - injection E as <-. split; [cbn [launch launched]; rewrite nth_error_app1; auto; apply nth_error_Some; congruence|]. split; [auto|]. split; auto.
  - unfold complete in E. destruct (is_done s f); [discriminate|]. injection E as <-. repeat (split; [solve [auto]|]). auto.
  - unfold notify_one in E. destruct (nth_error (notify s) j) as [i|]; [|discriminate]. injection E as <-. repeat (split; [solve [auto]|]). auto.
  - injection E as <-. split; [auto|]. split; [cbn; auto|]. split; auto.
  - injection E as <-. repeat (split; [solve [auto]|]). auto.
Qed.

Lemma doomed_run id fb es s s' : Inv s -> doomed id fb s -> run s es = Some s' -> doomed id fb s'.
Proof.
  revert s. induction es as [|e es IH]; cbn; intros s I D H; [now injection H as <-|].
  destruct (step s e) as [s1|] eqn:E; [|discriminate]. apply (IH s1); auto; [eapply inv_step|eapply doomed_step]; eauto.
Qed.
