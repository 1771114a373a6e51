(** C28: connection pools. *)
From Coq Require Import ZArith List Lia Bool Sorted.
From Verif Require Import PoolModel PoolSpec PoolProofs.
Import ListNotations.
Open Scope Z_scope.

(** In every history, a connection is in one place: it is held by one user, or
    it is being returned by one call, or it is once in the pool. *)
Theorem pool_exclusive f es s : run (init f) es = Some s -> NoDup (owned s).
Proof.
  intros H. apply reach in H as [I _ _ _ _]. rewrite (NoDup_count_occ Nat.eq_dec). intros x. specialize (I x). destruct (x <? made s)%nat; lia.
Qed.
Print Assumptions pool_exclusive.

(** A connection that an allocation hands out is appended to those held.  It is
    for the requested service and it has been reset; no other user has it. *)
Theorem pool_suited f es s k now a s' : run (init f) es = Some s ->
  nth_error (allocs s) k = Some a -> step s (AllocBody k now) = Some s' ->
  exists c, held s' = held s ++ [c] /\ c_uri c = a_uri a /\ c_clear c = true /\ ~ In (c_id c) (map c_id (held s)).
Proof.
  intros R N H. pose proof (reach _ _ _ R) as I. assert (R' : run (init f) (es ++ [AllocBody k now]) = Some s') by (rewrite run_app, R; cbn [run]; now rewrite H).
  apply pool_exclusive in R'. destruct I as [I1 _ I3 _ _]. cbn [step] in H. unfold alloc_body in H. rewrite N in H. destruct (clock s <=? now); [|discriminate].
  destruct (take (a_uri a) (pool s)) as [c l] eqn:T. apply take_spec in T. destruct c as [c|]; injection H as <-.
  - destruct T as (p & a1 & b1 & Ep & _ & Ec & Es & _). exists c. split; [reflexivity|]. split; [rewrite <- Ec; exact Es|]. split.
    + rewrite Ep in I3. apply Forall_app in I3 as [_ I3]. inversion I3. now subst.
    + cbn [held] in R'. unfold owned in R'. cbn [held rets pool] in R'. rewrite map_app in R'. intros X.
      rewrite (NoDup_count_occ Nat.eq_dec) in R'. specialize (R' (c_id c)). rewrite !count_occ_app in R'. cbn [map] in R'. rewrite cnt_cons in R'.
      unfold one in R'. destruct (Nat.eq_dec (c_id c) (c_id c)); [|congruence]. apply (count_occ_In Nat.eq_dec) in X. lia.
  - eexists. split; [reflexivity|]. cbn [c_uri c_clear c_id]. split; [reflexivity|]. split; [reflexivity|]. intros X.
    apply (count_occ_In Nat.eq_dec) in X. specialize (I1 (made s)). rewrite owned_cnt, Nat.ltb_irrefl in I1. lia.
Qed.
Print Assumptions pool_suited.

(** Every connection that went into the pool had been reset. *)
Theorem pool_clear f es s p : run (init f) es = Some s -> In p (pool s) -> c_clear (p_conn p) = true.
Proof. intros H Hp. apply reach in H as [_ _ I _ _]. rewrite Forall_forall in I. auto. Qed.
Print Assumptions pool_clear.

(** If the pool has a connection for the service then an allocation hands one out
    that was returned at least as late as every other one for the service; if it
    has none, a new connection is made. *)
Theorem pool_newest f es s k now a s' : run (init f) es = Some s ->
  nth_error (allocs s) k = Some a -> step s (AllocBody k now) = Some s' ->
  (exists p, In p (pool s) /\ suits (a_uri a) p /\ held s' = held s ++ [p_conn p] /\ made s' = made s /\
     forall q, In q (pool s) -> suits (a_uri a) q -> p_time q <= p_time p) \/
  ((forall q, In q (pool s) -> ~ suits (a_uri a) q) /\ made s' = S (made s) /\
     held s' = held s ++ [mkC (made s) (a_uri a) (a_pass a) true]).
Proof.
  intros R N H. destruct (reach _ _ _ R) as [_ _ _ I4 _]. cbn [step] in H. unfold alloc_body in H. rewrite N in H. destruct (clock s <=? now); [|discriminate].
  destruct (take (a_uri a) (pool s)) as [c l] eqn:T. apply take_spec in T. destruct c as [c|]; injection H as <-.
  - destruct T as (p & a1 & b1 & Ep & _ & Ec & Es & Fn). left. exists p. rewrite Ep. split; [apply in_app_iff; right; now left|]. split; [exact Es|].
    cbn [held made]. rewrite Ec. split; [reflexivity|]. split; [reflexivity|]. rewrite Ep in I4. apply sorted_app in I4 as (_ & S & _). inversion S as [|? ? S1 S2]; subst.
    rewrite Forall_forall in Fn, S2. intros q Hq Sq. apply in_app_iff in Hq as [Hq|[<-|Hq]]; [now apply Fn in Hq|lia|now apply S2 in Hq].
  - destruct T as [-> Fn]. right. rewrite Forall_forall in Fn. auto.
Qed.
Print Assumptions pool_newest.

(** The pool, in every history, is not larger than the largest size that was configured. *)
Definition sizes (f : config) (es : list event) : list nat :=
  f_size f :: flat_map (fun e => match e with Reload g => [f_size g] | _ => [] end) es.
Theorem pool_size f es s n : run (init f) es = Some s ->
  (forall m, In m (sizes f es) -> (m <= n)%nat) -> (length (pool s) <= n)%nat.
Proof.
  intros R H. cut ((length (pool s) <= n)%nat /\ (f_size (conf s) <= n)%nat /\ Forall (fun r => (f_size (r_conf r) <= n)%nat) (rets s)); [tauto|].
  revert s R. induction es as [|e es IH] using rev_ind; intros s R.
  - injection R as <-. cbn. split; [lia|]. split; [|constructor]. apply H. now left.
  - rewrite run_app in R. destruct (run (init f) es) as [s1|] eqn:E1; [|discriminate]. cbn [run] in R. destruct (step s1 e) as [s2|] eqn:E; [|discriminate].
    injection R as <-. destruct (reach _ _ _ E1) as [_ I2 _ _ _].
    assert (H1 : forall m, In m (sizes f es) -> (m <= n)%nat).
    { intros m Hm. apply H. unfold sizes in *. destruct Hm as [Hm|Hm]; [now left|right]. rewrite flat_map_app. apply in_app_iff. now left. }
    specialize (IH H1 s1 eq_refl) as (L & C & F).
    destruct e as [u p|k now|k|k now|k|k ok|k|g]; cbn [step] in E; try (injection E as <-; cbn; auto; fail).
    + unfold alloc_body in E. destruct (nth_error (allocs s1) k) as [a|]; [|discriminate]. destruct (clock s1 <=? now); [|discriminate].
      destruct (take (a_uri a) (pool s1)) as [c l] eqn:T. apply take_spec in T. destruct (purge_split now (f_idle (a_conf a)) l) as (t & Et & _).
      assert (Ll : (length l <= length (pool s1))%nat).
      { destruct c; [destruct T as (q & a1 & b1 & -> & -> & _)|destruct T as [-> _]; auto]. rewrite !app_length. cbn. lia. }
      rewrite Et, app_length in Ll. destruct c; injection E as <-; cbn [pool conf rets]; repeat split; auto; lia.
    + unfold put_begin in E. destruct (nth_error (held s1) k) as [c|]; [|discriminate]. destruct (negb (c_clear c)); [injection E as <-; auto|].
      destruct (f_size (conf s1) =? 0)%nat; injection E as <-; auto. cbn [pool conf rets]. repeat split; auto. apply Forall_app. split; auto.
    + unfold put_body in E. destruct (nth_error (rets s1) k) as [r|] eqn:N; [|discriminate]. destruct (clock s1 <=? now); [|discriminate].
      injection E as <-. cbn [pool conf rets length]. apply nth_error_In in N. rewrite Forall_forall in I2, F. specialize (F r N) as F1. apply I2 in N as [_ N].
      pose proof (trim_length (f_size (r_conf r)) (purge now (f_idle (r_conf r)) (pool s1)) N). repeat split; [lia|auto|].
      apply Forall_forall. intros x Hx. apply F. eapply in_remove; eauto.
    + injection E as <-. cbn [reload pool conf rets]. repeat split; auto. apply H. unfold sizes. right. rewrite flat_map_app. apply in_app_iff. right. now left.
Qed.
Print Assumptions pool_size.

(** More precisely, when a connection is put into the pool then the pool does not
    exceed the size that the call has read.  The connection is at the front, and of
    the others those that have been idle for too long are removed, and as many of
    the oldest as necessary. *)
Theorem pool_put f es s k now r s' : run (init f) es = Some s ->
  nth_error (rets s) k = Some r -> step s (PutBody k now) = Some s' ->
  (length (pool s') <= f_size (r_conf r))%nat /\
  exists kept gone, pool s = kept ++ gone /\ pool s' = mkP now (r_conn r) :: kept /\
    Forall (fun p => now - p_time p <= f_idle (r_conf r)) kept /\
    (forall p, In p gone -> f_idle (r_conf r) < now - p_time p \/ length (pool s') = f_size (r_conf r)).
Proof.
  intros R N H. destruct (reach _ _ _ R) as [_ I2 _ I4 _]. cbn [step] in H. unfold put_body in H. rewrite N in H. destruct (clock s <=? now); [|discriminate].
  injection H as <-. cbn [pool length]. apply nth_error_In in N. rewrite Forall_forall in I2. apply I2 in N as [_ N].
  set (size := f_size (r_conf r)) in *. set (idle := f_idle (r_conf r)). pose proof (trim_length size (purge now idle (pool s)) N) as L.
  split; [lia|]. destruct (purge_split now idle (pool s)) as (t & E & F). destruct (trim_split size (purge now idle (pool s))) as (t2 & E2).
  exists (trim size (purge now idle (pool s))), (t2 ++ t). split; [rewrite app_assoc, <- E2; auto|]. split; [reflexivity|].
  split.
  - pose proof (purge_all now idle (pool s) I4) as P. rewrite E2 in P. now apply Forall_app in P.
  - intros p Hp. apply in_app_iff in Hp as [Hp|Hp]; [|left; rewrite Forall_forall in F; auto]. right.
    destruct (trim_full size (purge now idle (pool s)) N) as [X|X]; [|lia]. rewrite X in E2. rewrite <- (app_nil_r (purge now idle (pool s))) in E2 at 1.
    apply app_inv_head in E2. subst t2. contradiction.
Qed.
Print Assumptions pool_put.

(** After an allocation nothing in the pool has been idle for longer than the timeout. *)
Theorem pool_idle f es s k now a s' : run (init f) es = Some s ->
  nth_error (allocs s) k = Some a -> step s (AllocBody k now) = Some s' ->
  Forall (fun p => now - p_time p <= f_idle (a_conf a)) (pool s').
Proof.
  intros R N H. destruct (reach _ _ _ R) as [_ _ _ I4 _]. cbn [step] in H. unfold alloc_body in H. rewrite N in H. destruct (clock s <=? now); [|discriminate].
  destruct (take (a_uri a) (pool s)) as [c l] eqn:T. apply take_spec in T.
  assert (S : StronglySorted newer l).
  { destruct c as [c|]; [|now destruct T as [-> _]]. destruct T as (p & a1 & b1 & Ep & -> & _). rewrite Ep in I4. apply sorted_app in I4 as (S1 & S2 & S3).
    inversion S2; subst. apply sorted_app. repeat split; auto. intros x y Hx Hy. apply S3; [auto|now right]. }
  pose proof (purge_all now (f_idle (a_conf a)) l S). destruct c; injection H as <-; cbn [pool]; auto.
Qed.
Print Assumptions pool_idle.

(** A connection which has not been reset, or any connection when the pool is
    disabled, stays with its user. *)
Theorem pool_refused s k c : nth_error (held s) k = Some c -> c_clear c = false \/ f_size (conf s) = O ->
  step s (PutBegin k) = Some s.
Proof.
  intros N H. cbn. unfold put_begin. rewrite N. destruct (c_clear c); cbn; [|reflexivity]. destruct H as [H|H]; [discriminate|]. now rewrite H.
Qed.
Print Assumptions pool_refused.

(** The opposite of that for the connection handed out: one that has been idle for longer than
    the timeout can be handed out, since the pool is searched before it is purged. *)
Definition u1 : list Z := [49]. Definition u2 : list Z := [50].
Definition wrong : list Z := [120].
Definition story : list event :=
  [AllocBegin u1 u2; AllocBegin u2 u2; AllocBegin u1 u2; AllocBody 0 5; AllocBody 0 5; AllocBody 0 6;
   Use 0; Use 1; Reset 0 true; Reset 1 true; PutBegin 1; PutBegin 0; PutBody 0 7; PutBody 0 8; PutBegin 0; PutBody 0 9].
Theorem pool_idle_refuted : exists f es s k now a s' p, run (init f) es = Some s /\
  nth_error (allocs s) k = Some a /\ step s (AllocBody k now) = Some s' /\
  In p (pool s) /\ held s' = held s ++ [p_conn p] /\ f_idle (a_conf a) < now - p_time p.
Proof.
  exists (mkF 2 60), (story ++ [AllocBegin u1 u2]).
  eexists. exists 0%nat, 1000. eexists. eexists. eexists. split; [vm_compute; reflexivity|]. split; [vm_compute; reflexivity|]. split; [vm_compute; reflexivity|].
  split; [vm_compute; left; reflexivity|]. split; [vm_compute; reflexivity|]. vm_compute. reflexivity.
Qed.
Print Assumptions pool_idle_refuted.

(** The password is not part of the match: a request with one password can be given a connection
    that was made with another one. *)
Theorem pool_password_refuted : exists f es s k now a s' c, run (init f) es = Some s /\
  nth_error (allocs s) k = Some a /\ step s (AllocBody k now) = Some s' /\ held s' = held s ++ [c] /\ c_pass c <> a_pass a.
Proof.
  exists (mkF 2 60), [AllocBegin u1 wrong; AllocBody 0 1; PutBegin 0; PutBody 0 2; AllocBegin u1 u2]. eexists. exists 0%nat, 3. eexists. eexists. eexists.
  split; [vm_compute; reflexivity|]. split; [vm_compute; reflexivity|]. split; [vm_compute; reflexivity|]. split; [vm_compute; reflexivity|]. vm_compute. discriminate.
Qed.
Print Assumptions pool_password_refuted.

(** The story meets the hypotheses: three connections, of which the two newest are
    in the pool at the end; the oldest was evicted.  Another allocation finds the newest. *)
Example story_ends : exists s, run (init (mkF 2 60)) story = Some s /\ map (fun p => c_id (p_conn p)) (pool s) = [2; 0]%nat
  /\ map p_time (pool s) = [9; 8] /\ held s = [] /\ made s = 3%nat.
Proof. eexists. split; [vm_compute; reflexivity|]. vm_compute. auto. Qed.
Example story_next : exists s a s', run (init (mkF 2 60)) (story ++ [AllocBegin u1 u2]) = Some s /\ nth_error (allocs s) 0 = Some a
  /\ step s (AllocBody 0 10) = Some s' /\ map c_id (held s') = [2%nat] /\ length (pool s') = 1%nat.
Proof. eexists. eexists. eexists. split; [vm_compute; reflexivity|]. split; [vm_compute; reflexivity|]. split; [vm_compute; reflexivity|]. vm_compute. auto. Qed.
Example story_put : exists s r s', run (init (mkF 2 60)) (removelast story) = Some s /\ nth_error (rets s) 0 = Some r
  /\ step s (PutBody 0 9) = Some s' /\ length (pool s) = 2%nat /\ length (pool s') = 2%nat.
Proof. eexists. eexists. eexists. split; [vm_compute; reflexivity|]. split; [vm_compute; reflexivity|]. split; [vm_compute; reflexivity|]. vm_compute. auto. Qed.
Example sizes_story : forall m, In m (sizes (mkF 2 60) story) -> (m <= 2)%nat.
Proof. cbn. intros m [<-|[]]. auto. Qed.
Example refused_case : exists s c, run (init (mkF 2 60)) [AllocBegin u1 u2; AllocBody 0 5; Use 0] = Some s /\ nth_error (held s) 0 = Some c /\ c_clear c = false.
Proof. eexists. eexists. split; [vm_compute; reflexivity|]. vm_compute. auto. Qed.
