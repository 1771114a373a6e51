(** Theorems about fibers (C20). *)
From Coq Require Import ZArith List Lia Bool ZifyBool.
From Verif Require Import TimerModel TimerProofs FiberModel FiberSpec FiberProofs FiberLive.
From Verif Require Import FiberModel.
Import ListNotations.
Open Scope Z_scope.

(** A history used by the examples, with the default timeouts of 15 and 300
    seconds.  Fiber 100 waits for future 7, which is completed by another
    thread; fiber 200 waits for future 8, which is never completed. *)
Definition sample : list event :=
  [Launch 100 10; Launch 200 20; Loop 30 0%nat; Decide; Yield (Some 7) 31; Loop 32 0%nat; Decide; Yield (Some 8) 33;
   Complete 7; Notify 0%nat 40; Loop 50 1%nat; Decide; Loop 70 0%nat; Decide].

Definition sample_log : list obs :=
  [Started 0%nat; Started 1%nat; Resumed 0%nat (Some 7) 31 70 300000000000 true].

Example sample_runs : match run (init 15000000000 300000000000) sample with
  | Some s => log s = sample_log /\ at_ s = Inside 0%nat
  | None => False end.
Proof. vm_compute. auto. Qed.

(** Whatever happens, what is seen of a fiber is nothing, or one beginning
    followed by resumptions, or that and one end with nothing after it. *)
Theorem fiber_life : forall (w f : Z) (es : list event) (s : st),
  run (init w f) es = Some s -> forall id,
  tale id (log s) = [] \/ alive id (tale id (log s)) \/ over id (tale id (log s)).
Proof.
  intros w f es s H id. assert (I := inv_run _ _ _ (inv_init w f) H).
  destruct (in_dec Nat.eq_dec id (ids (nodes s))) as [Y|N].
  - unfold ids in Y. apply in_map_iff in Y as (n & <- & Hn). assert (S := inv_state s I n Hn).
    unfold state_ok in S. destruct (n_state n); tauto.
  - destruct (nth_error (launched s) id) as [fb|] eqn:E.
    + destruct (inv_gone s I id fb E N) as [X|[X _]]; auto.
    + left. apply filter_none. intros o Ho. apply (inv_fresh s I) in Ho. apply nth_error_None in E. lia.
Qed.
Print Assumptions fiber_life.

Example fiber_life_ex : alive 0 (tale 0 sample_log) /\ alive 1 (tale 1 sample_log).
Proof. split; eexists; (split; [reflexivity|]); repeat constructor. Qed.

(** A fiber that waits for a future is resumed only after the future was
    completed, or if the fail timeout has passed since it began to wait; and
    [yield] comes back normally only if the future is completed. *)
Theorem fiber_reason : forall (w f : Z) (es : list event) (s : st),
  run (init w f) es = Some s ->
  forall id fut since now fl normal, In (Resumed id (Some fut) since now fl normal) (log s) ->
  (In (Complete fut) es \/ since + fl <= now)
  /\ (normal = true -> In (Complete fut) es)
  /\ In (Yield (Some fut) since) es
  /\ exists front, In (Loop now front) es.
Proof.
  intros w f es s H id fut since now fl normal Ho. assert (I := inv_run _ _ _ (inv_init w f) H).
  assert (D : forall g, In g (done s) -> In (Complete g) es).
  { clear - H. intros g.
    assert (G : forall es0 s0, run s0 es0 = Some s -> In g (done s) -> In g (done s0) \/ In (Complete g) es0).
    { induction es0 as [|e es0 IH]; cbn [run]; intros s0 H0 Hg; [injection H0 as <-; auto|].
      destruct (step s0 e) as [s1|] eqn:E; [|discriminate]. destruct (IH s1 H0 Hg) as [X|X]; [|cbn; auto].
      assert (P : forall s2 nw fr s3, pop s2 nw fr = Some s3 -> done s3 = done s2).
      { intros s2 nw fr s3. unfold pop. destruct (nth_error (nodes s2) fr); [|destruct (nodes s2); [intros [= <-]; auto|discriminate]].
        destruct (negb _); [discriminate|]. destruct (_ || _); intros [= <-]; reflexivity. }
      destruct e as [nw fr| |ft nw|nw|fb nw|c|j nw|fb|w' f']; cbn [step] in E.
      - left. unfold loop in E. destruct (at_ s0); try discriminate. cbn zeta in E.
        destruct (_ >? 0); [destruct (_ >? 0)|]; [injection E as <-; exact X|apply P in E; rewrite E in X; exact X..].
      - left. unfold decide in E. destruct (at_ s0) as [|id nw ft fl|]; try discriminate.
        destruct (find_node id (nodes s0)) as [n|]; [|injection E as <-; exact X].
        assert (Q : done (enter s0 n nw fl) = done s0) by (unfold enter; destruct (n_state n); reflexivity).
        destruct ft as [ft|]; [|injection E as <-; now rewrite Q in X].
        destruct (_ && _); injection E as <-; [exact X|now rewrite Q in X].
      - left. unfold yield_ in E. destruct (at_ s0); try discriminate. destruct ft as [ft|]; [destruct (is_done s0 ft)|]; injection E as <-; exact X.
      - left. unfold finish in E. destruct (at_ s0); try discriminate. injection E as <-. exact X.
      - left. injection E as <-. exact X.
      - unfold complete in E. destruct (is_done s0 c); [discriminate|]. injection E as <-. cbn in X. destruct X as [->|X]; cbn; auto.
      - left. unfold notify_one in E. destruct (nth_error (notify s0) j); [|discriminate]. injection E as <-. exact X.
      - left. injection E as <-. exact X.
      - left. injection E as <-. exact X. }
    intros Hg. destruct (G _ _ H Hg) as [X|X]; [contradiction|auto]. }
  assert (K := inv_obs s I _ Ho). cbn [obs_ok] in K. destruct K as [K1 K2].
  split; [destruct K1; auto|]. split; [auto|]. exact (hist_run w f es s H id (Some fut) since now fl normal Ho).
Qed.
Print Assumptions fiber_reason.

Example fiber_reason_ex : In (Resumed 0%nat (Some 7) 31 70 300000000000 true) sample_log /\ In (Complete 7) sample.
Proof. cbn. auto 20. Qed.
(** The other reason: the wait times out and [yield] throws. *)
Example fiber_reason_timeout_ex :
  match run (init 15000000000 300000000000)
        [Launch 100 10; Loop 30 0%nat; Decide; Yield (Some 7) 31; Loop 300000000031 0%nat; Decide] with
  | Some s => log s = [Started 0%nat; Resumed 0%nat (Some 7) 31 300000000031 300000000000 false]
  | None => False end.
Proof. vm_compute. auto. Qed.

(** No fiber is lost: as long as it has not ended, a launched fiber is in the
    queue, exactly once, unless it was abandoned before it began. *)
Theorem fiber_kept : forall (w f : Z) (es : list event) (s : st),
  run (init w f) es = Some s ->
  forall id fb, nth_error (launched s) id = Some fb ->
  ~ over id (tale id (log s)) -> (tale id (log s) = [] -> ~ In fb (abandoned s)) ->
  exists a n b, nodes s = a ++ n :: b /\ n_id n = id /\ n_fiber n = fb /\ ~ In id (map n_id (a ++ b)).
Proof.
  intros w f es s H id fb Hl No Na. assert (I := inv_run _ _ _ (inv_init w f) H).
  destruct (in_dec Nat.eq_dec id (ids (nodes s))) as [Y|N].
  - unfold ids in Y. apply in_map_iff in Y as (n & <- & Hn). assert (Fn := inv_fiber s I n Hn).
    apply in_split in Hn as (a & b & Q). exists a, n, b. split; [auto|]. split; [auto|]. split; [congruence|].
    apply remove_ids. rewrite <- Q. apply (inv_nodup s I).
  - destruct (inv_gone s I id fb Hl N) as [X|[X Y]]; [contradiction|]. exfalso. now apply Na.
Qed.
Print Assumptions fiber_kept.

Example fiber_kept_ex : match run (init 15000000000 300000000000) sample with
  | Some s => map n_id (nodes s) = [1; 0]%nat /\ map n_state (nodes s) = [Suspended; Running] /\ launched s = [100; 200]
  | None => False end.
Proof. vm_compute. auto. Qed.

(** Every fiber with something to do is entered.  Let the timeouts be positive
    and let a ready fiber be scheduled for time [x].  Then there is a number [N]
    such that it is entered in every continuation that calls the loop [N] times
    at clock readings after [x], whatever the other fibers and threads do, so
    long as the timeouts are not changed and the fiber is not abandoned. *)
Theorem fiber_progress : forall (w f : Z) (es : list event) (s : st) (n : node),
  run (init w f) es = Some s -> 0 < warn s -> 0 < fail s -> In n (nodes s) -> ready s n ->
  match at_ s with Popped id _ _ _ => id <> n_id n | _ => True end ->
  exists N : nat, forall es' s',
    run s es' = Some s' -> (N <= loops es')%nat ->
    Forall (clock_after (n_check n)) es' -> ~ In (Abandon (n_fiber n)) es' -> (forall a b, ~ In (Reload a b) es') ->
    exists l o, log s' = log s ++ l /\ In o l /\ who o = n_id n.
Proof.
  intros w f es s n H Pw Pf Hn R A. assert (I := inv_run _ _ _ (inv_init w f) H).
  exists (Z.to_nat (total (n_id n) (n_check n) (fail s) (at_ s) (nodes s) + 2)). intros es' s' H' L C Na Nr.
  apply (waiting_runs (n_id n) (n_check n) (warn s) (fail s) (n_fiber n) Pw Pf es' s s' I); auto.
  - split; [auto|]. split; [auto|]. split; [exists n; auto|].
    destruct (at_ s) as [|id|id] eqn:E; auto. intros ->. unfold ready in R. assert (S := inv_state s I n Hn). unfold state_ok in S.
    rewrite E in S. destruct (n_state n); tauto.
  - apply Forall_forall. intros e He. rewrite Forall_forall in C. split; [auto|]. destruct e; auto.
    + intros ->. contradiction.
    + eapply Nr; eauto.
  - assert (T := total_nonneg (n_id n) (n_check n) (fail s) (at_ s) (nodes s)). lia.
Qed.
Print Assumptions fiber_progress.

(** What is seen first of a fiber that had not begun is its beginning, so
    that every launched fiber starts. *)
Corollary fiber_starts : forall (w f : Z) (es : list event) (s : st) (n : node),
  run (init w f) es = Some s -> 0 < warn s -> 0 < fail s -> In n (nodes s) ->
  n_state n = Pending -> ~ In (n_fiber n) (abandoned s) ->
  match at_ s with Popped id _ _ _ => id <> n_id n | _ => True end ->
  exists N : nat, forall es' s',
    run s es' = Some s' -> (N <= loops es')%nat ->
    Forall (clock_after (n_check n)) es' -> ~ In (Abandon (n_fiber n)) es' -> (forall a b, ~ In (Reload a b) es') ->
    In (Started (n_id n)) (log s').
Proof.
  intros w f es s n H Pw Pf Hn Sn Nab A.
  destruct (fiber_progress w f es s n H Pw Pf Hn) as (N & P); auto. { unfold ready. now rewrite Sn. }
  exists N. intros es' s' H' L C Na Nr. destruct (P es' s' H' L C Na Nr) as (l & o & El & Ho & Wo).
  assert (H2 : run (init w f) (es ++ es') = Some s') by (rewrite run_app, H; exact H').
  assert (T : tale (n_id n) (log s') <> []).
  { rewrite El, tale_app. intros X. apply app_eq_nil in X as [_ X]. assert (Y : In o (tale (n_id n) l)).
    { apply filter_In. split; [auto|]. lia. } rewrite X in Y. contradiction. }
  assert (G : In (Started (n_id n)) (tale (n_id n) (log s'))).
  { destruct (fiber_life w f _ _ H2 (n_id n)) as [X|[(rs & -> & _)|(l' & -> & rs & -> & _)]]; [contradiction|cbn; auto|cbn; auto]. }
  apply filter_In in G. tauto.
Qed.
Print Assumptions fiber_starts.

Example fiber_progress_ex : match run (init 15000000000 300000000000) (firstn 5 sample) with
  | Some s => exists n, In n (nodes s) /\ n_id n = 1%nat /\ n_state n = Pending /\ ready s n /\ n_check n = 20
      /\ match run s [Loop 32 0%nat; Decide] with Some s' => In (Started 1%nat) (log s') | None => False end
  | None => False end.
Proof. vm_compute. eexists. split; [left; reflexivity|]. cbn. repeat split; auto. Qed.

(** With a warning timeout of zero, which the configuration allows, a fiber can
    keep others from starting: fiber 0 waits for a future, and fiber 1, which is
    ready, is never entered, no matter how often the loop runs before the wait
    of fiber 0 times out. *)
Definition starving : list event :=
  [Launch 100 1; Loop 2 0%nat; Decide; Yield (Some 7) 3; Launch 200 5].

Lemma starving_stuck : forall es s', (forall e, In e es -> match e with Loop now _ => 5 < now < 300000000000 | Decide => True | _ => False end) ->
  forall s, log s = [Started 0%nat] -> warn s = 0 -> fail s = 300000000000 -> done s = [] -> abandoned s = [] ->
  (nodes s = [mkN 0 100 3 1 3 Suspended (Some 7); mkN 1 200 5 5 5 Pending None] \/
   nodes s = [mkN 1 200 5 5 5 Pending None; mkN 0 100 3 1 3 Suspended (Some 7)]) ->
  (at_ s = Outside \/ exists now, at_ s = Popped 0%nat now (Some 7) 300000000000 /\ now < 300000000000) ->
  run s es = Some s' -> log s' = [Started 0%nat].
Proof.
  induction es as [|e es IH]; cbn [run]; intros s' He s Lg Wn Fl Dn Ab Nd At H.
  - injection H as <-. auto.
  - destruct (step s e) as [s1|] eqn:E; [|discriminate].
    assert (He' : forall e, In e es -> match e with Loop now _ => 5 < now < 300000000000 | Decide => True | _ => False end)
      by (intros; apply He; cbn; auto).
    assert (X := He e (or_introl eq_refl)). destruct e as [now front| | | | | | | |]; try contradiction; cbn [step] in E.
    + unfold loop in E. destruct At as [At|(n0 & At & _)]; rewrite At in E; [|discriminate].
      assert (M : match nodes s with [] => 999000000 | n :: l => min_check n l - now end = 1 - now).
      { destruct Nd as [-> | ->]; reflexivity. }
      rewrite M in E. destruct (1 - now >? 0) eqn:G; [lia|].
      unfold pop in E. destruct Nd as [Nd|Nd]; rewrite Nd in E;
        (destruct front as [|[|[|front]]]; cbn -[Z.min Z.eqb] in E; try discriminate);
        unfold push_back, next_check in E; rewrite Wn, Fl in E; injection E as <-;
        apply (IH s' He') in H; auto; cbn; rewrite ?Wn, ?Fl; auto; right; exists now; split; auto; lia.
    + unfold decide in E. destruct At as [At|(n0 & At & L0)]; rewrite At in E; [discriminate|].
      assert (F : find_node 0 (nodes s) = Some (mkN 0 100 3 1 3 Suspended (Some 7))) by (destruct Nd as [-> | ->]; reflexivity).
      rewrite F in E. cbn [n_yield] in E. unfold is_done in E. rewrite Dn in E. cbn [existsb] in E.
      destruct (n0 >=? 3 + 300000000000) eqn:G; [lia|]. cbn in E. injection E as <-.
      apply (IH s' He') in H; auto.
Qed.

Theorem fiber_starts_refuted_zero_warning : exists (s : st) (n : node),
  run (init 0 300000000000) starving = Some s /\ In n (nodes s) /\ n_check n = 5 /\ n_fiber n = 200 /\ ready s n /\
  (forall es s', (forall e, In e es -> match e with Loop now _ => 5 < now < 300000000000 | Decide => True | _ => False end) ->
     run s es = Some s' -> ~ In (Started (n_id n)) (log s')) /\
  (forall N : nat, exists es s', run s es = Some s' /\ loops es = N /\
     forall e, In e es -> match e with Loop now _ => 5 < now < 300000000000 | Decide => True | _ => False end).
Proof.
  eexists. exists (mkN 1 200 5 5 5 Pending None). split; [vm_compute; reflexivity|]. split; [cbn; auto|].
  split; [reflexivity|]. split; [reflexivity|]. split; [cbn; tauto|]. split.
  - intros es s' He H. erewrite starving_stuck; [|exact He| | | | | | | |exact H]; try reflexivity; auto.
    cbn. intros [X|[]]. discriminate.
  - assert (G : forall N, forall s, log s = [Started 0%nat] -> warn s = 0 -> fail s = 300000000000 -> done s = [] ->
        (nodes s = [mkN 0 100 3 1 3 Suspended (Some 7); mkN 1 200 5 5 5 Pending None] \/
         nodes s = [mkN 1 200 5 5 5 Pending None; mkN 0 100 3 1 3 Suspended (Some 7)]) -> at_ s = Outside -> abandoned s = [] ->
        exists es s', run s es = Some s' /\ loops es = N /\
          forall e, In e es -> match e with Loop now _ => 5 < now < 300000000000 | Decide => True | _ => False end).
    { induction N as [|N IH]; intros s Lg Wn Fl Dn Nd At Ab.
      - exists [], s. split; [reflexivity|]. split; [reflexivity|]. contradiction.
      - set (fr := match nodes s with n :: _ => if n_check n =? 1 then 0%nat else 1%nat | [] => 0%nat end).
        assert (St : exists s1, run s [Loop 10 fr; Decide] = Some s1 /\ log s1 = log s /\ warn s1 = 0 /\ fail s1 = 300000000000 /\ done s1 = [] /\
           nodes s1 = [mkN 1 200 5 5 5 Pending None; mkN 0 100 3 1 3 Suspended (Some 7)] /\ at_ s1 = Outside /\ abandoned s1 = []).
        { destruct s as [nd wt wn fl dn ws nt ab at0 lg ln bd]. cbn [nodes warn fail done abandoned at_ log] in *. subst.
          clear IH. unfold fr. clear fr.
          destruct Nd as [-> | ->]; eexists; (split; [vm_compute; reflexivity|]); cbn; auto 10. }
        destruct St as (s1 & R1 & B1 & B2 & B3 & B4 & B5 & B6 & B7).
        destruct (IH s1) as (es & s' & R & L & Q); auto; [congruence|].
        exists ([Loop 10 fr; Decide] ++ es), s'. rewrite run_app, R1. split; [auto|]. split; [cbn; now rewrite <- L|].
        intros e [<-|[<-|He]]; [lia|exact Logic.I|exact (Q e He)]. }
    intros N. apply G; auto.
Qed.
Print Assumptions fiber_starts_refuted_zero_warning.

(** A fiber that is abandoned before it begins, while the scheduler is not just
    about to enter it, never begins. *)
Theorem fiber_abandoned : forall (w f : Z) (before after : list event) (s s' : st) (id : nat) (fb : Z),
  run (init w f) before = Some s -> nth_error (launched s) id = Some fb ->
  tale id (log s) = [] -> (forall now fut fl, at_ s <> Popped id now fut fl) ->
  run s (Abandon fb :: after) = Some s' -> tale id (log s') = [].
Proof.
  intros w f before after s s' id fb H Hl T A H'. assert (I := inv_run _ _ _ (inv_init w f) H).
  cbn [run step] in H'. apply (doomed_run id fb after (abandon s fb) s'); auto.
  - now apply inv_abandon.
  - split; [auto|]. split; [cbn; auto|]. split; auto.
Qed.
Print Assumptions fiber_abandoned.

Example fiber_abandoned_ex : match run (init 15000000000 300000000000) [Launch 100 10; Launch 200 20] with
  | Some s => nth_error (launched s) 1 = Some 200 /\ match run s [Abandon 200; Loop 30 0%nat; Decide; Finish 31; Loop 40 0%nat] with
       | Some s' => map n_id (nodes s') = [0]%nat /\ log s' = [Started 0; Ended 0]%nat | None => False end
  | None => False end.
Proof. vm_compute. auto. Qed.

(** Wake-ups are not lost: a fiber that is suspended on a future which is not
    completed is registered with it, and when the future is completed, every
    fiber suspended on it is to be notified. *)
Theorem fiber_wakeup : forall (w f : Z) (es : list event) (s : st) (n : node) (fut : Z),
  run (init w f) es = Some s -> In n (nodes s) -> n_state n = Suspended -> n_fut n = Some fut -> ~ In fut (done s) ->
  In (fut, n_id n) (waiters s) /\
  exists s', step s (Complete fut) = Some s' /\ In (n_id n) (notify s') /\ ready s' n /\ In n (nodes s').
Proof.
  intros w f es s n fut H Hn Sn Fn Nd. assert (I := inv_run _ _ _ (inv_init w f) H).
  assert (S := inv_state s I n Hn). unfold state_ok in S. rewrite Sn in S. destruct S as (_ & _ & S). specialize (S fut Fn Nd).
  split; [auto|]. cbn [step]. unfold complete. destruct (is_done s fut) eqn:D; [apply is_done_In in D; contradiction|].
  eexists. split; [reflexivity|]. cbn [notify nodes]. split.
  - apply in_or_app. right. apply in_map_iff. exists (fut, n_id n). split; [auto|]. apply filter_In. split; [auto|]. cbn. lia.
  - split; [|auto]. unfold ready. rewrite Sn, Fn. cbn. auto.
Qed.
Print Assumptions fiber_wakeup.

Example fiber_wakeup_ex : match run (init 15000000000 300000000000) (firstn 5 sample) with
  | Some s => exists n, In n (nodes s) /\ n_state n = Suspended /\ n_fut n = Some 7 /\ ~ In 7 (done s)
  | None => False end.
Proof. vm_compute. eexists. split; [right; left; reflexivity|]. auto. Qed.

(** No assertion of the scheduler fails and [pop_heap] is never called on an
    empty heap; the scheduler never sleeps more than half a second. *)
Theorem fiber_no_assertion : forall (w f : Z) (es : list event) (s : st),
  run (init w f) es = Some s -> bad s = false /\ 0 <= wait s <= 500000000.
Proof.
  intros w f es s H. assert (I := inv_run _ _ _ (inv_init w f) H). split; [apply (inv_bad s I)|]. split; [apply (inv_wait s I)|].
  clear I. assert (G : forall es0 s0 s1, wait s0 <= 500000000 -> run s0 es0 = Some s1 -> wait s1 <= 500000000).
  { induction es0 as [|e es0 IH]; cbn [run]; intros s0 s1 L H0; [now injection H0 as <-|].
    destruct (step s0 e) as [s2|] eqn:E; [|discriminate]. apply (IH s2); auto. clear H0 IH.
    assert (P : forall s2 nw fr s3, pop s2 nw fr = Some s3 -> wait s3 = wait s2).
    { intros s3 nw fr s4. unfold pop. destruct (nth_error (nodes s3) fr); [|destruct (nodes s3); [intros [= <-]; auto|discriminate]].
      destruct (negb _); [discriminate|]. destruct (_ || _); intros [= <-]; reflexivity. }
    destruct e as [nw fr| |ft nw|nw|fb nw|c|j nw|fb|w' f']; cbn [step] in E.
    - unfold loop in E. destruct (at_ s0); try discriminate. cbn zeta in E.
      destruct (_ >? 0); [destruct (_ >? 0)|].
      + injection E as <-. cbn [with_wait wait]. lia.
      + apply P in E. rewrite E. cbn [with_wait wait]. lia.
      + apply P in E. now rewrite E.
    - unfold decide in E. destruct (at_ s0) as [|id nw ft fl|]; try discriminate.
      destruct (find_node id (nodes s0)) as [n|]; [|injection E as <-; exact L].
      assert (Q : wait (enter s0 n nw fl) = wait s0) by (unfold enter; destruct (n_state n); reflexivity).
      destruct ft as [ft|]; [|injection E as <-; now rewrite Q].
      destruct (_ && _); injection E as <-; [exact L|now rewrite Q].
    - unfold yield_ in E. destruct (at_ s0); try discriminate. destruct ft as [ft|]; [destruct (is_done s0 ft)|]; injection E as <-; exact L.
    - unfold finish in E. destruct (at_ s0); try discriminate. injection E as <-. exact L.
    - injection E as <-. exact L.
    - unfold complete in E. destruct (is_done s0 c); [discriminate|]. injection E as <-. exact L.
    - unfold notify_one in E. destruct (nth_error (notify s0) j); [|discriminate]. injection E as <-. exact L.
    - injection E as <-. exact L.
    - injection E as <-. exact L. }
  eapply G; [|exact H]. cbn. lia.
Qed.
Print Assumptions fiber_no_assertion.

Example fiber_no_assertion_ex : match run (init 15000000000 300000000000) (sample ++ [Finish 80; Loop 90 1%nat; Loop 90 0%nat; Loop 91 0%nat]) with
  | Some s => wait s = 3000 | None => False end.
Proof. vm_compute. auto. Qed.
