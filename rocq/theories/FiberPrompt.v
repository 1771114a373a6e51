(** No wake-up is lost (C20): proofs and theorems. *)
From Coq Require Import ZArith List Lia Bool ZifyBool.
From Verif Require Import TimerModel TimerProofs FiberModel FiberSpec FiberProofs.
From Verif Require Import FiberModel.
Import ListNotations.
Open Scope Z_scope.

(** The clock readings made by an event are not later than [t]. *)
Definition clock_upto (t : Z) (e : event) : Prop :=
  match e with
  | Loop now _ | Yield _ now | Finish now | Launch _ now | Notify _ now => now <= t
  | _ => True
  end.

Definition popped (s : st) (id : nat) : Prop := exists now fut fl, at_ s = Popped id now fut fl.

Definition Told (T : Z) (s : st) : Prop := forall n,
  In n (nodes s) -> ready s n -> ~ In (n_id n) (notify s) -> n_async n <= T \/ popped s (n_id n).

Lemma told_pop T s now front s' : Inv s -> at_ s = Outside -> nodes s <> [] -> Told T s -> pop s now front = Some s' -> Told T s'.
Proof.
  intros I A Ne H E n Hn R Nn. unfold pop in E.
  destruct (nth_error (nodes s) front) as [m|] eqn:F; [|destruct (nodes s); [contradiction|discriminate]].
  destruct (negb _); [discriminate|]. destruct (remove_nth_split _ _ _ F) as (a & b & Q & Q2).
  assert (K : forall x, In x (a ++ b) -> In x (nodes s)). { intros x Hx. rewrite Q. apply in_app_iff in Hx. apply in_app_iff. cbn. tauto. }
  assert (Old : forall x, In x (nodes s) -> ready s x -> ~ In (n_id x) (notify s) -> n_async x <= T).
  { intros x Hx Rx Nx. destruct (H x Hx Rx Nx) as [|(? & ? & ? & X)]; auto. congruence. }
  destruct (_ || _); injection E as <-.
  - left. apply Old; auto. apply K. rewrite <- Q2. exact Hn.
  - cbn [with_at with_nodes nodes] in Hn. rewrite Q2 in Hn. apply in_app_iff in Hn as [Hn|[<-|[]]].
    + left. apply Old; auto.
    + right. cbn. unfold popped. cbn. eauto.
Qed.

Lemma told_refresh T s w : Told T s -> at_ s = Outside -> Told T (settled s w).
Proof.
  intros H A n Hn R Nn. unfold settled in *. cbn [with_wait with_nodes nodes] in Hn. unfold refresh in Hn.
  apply in_map_iff in Hn as (m & <- & Hm). cbn [n_async n_id] in *. destruct (H m Hm) as [|(? & ? & ? & X)]; auto; congruence.
Qed.

Lemma told_step T s e s' : Inv s -> Told T s -> clock_upto T e -> step s e = Some s' -> Told T s'.
Proof.
  intros I H C E. destruct e as [nw fr| |ft nw|nw|fb nw|c|j nw|fb|w' f']; cbn [step clock_upto] in *.
  - destruct (loop_cases _ _ _ _ I E) as [A [(w & _ & -> & _)|[(Ne & P)|(Ne & _ & P)]]].
    + now apply told_refresh.
    + eapply told_pop; eauto.
    + eapply (told_pop T (settled s 0)); eauto.
      * apply inv_refresh; auto. lia.
      * cbn. destruct (nodes s); [contradiction|discriminate].
      * now apply told_refresh.
  - destruct (decide_cases _ _ I E) as (id & now & fut & fl & m & A & Hm & Em & Fm & Sm & [(-> & _ & f & Ef & Nd)|(-> & _)]).
    + intros n Hn R Nn. cbn [with_at nodes notify] in *. destruct (H n Hn R Nn) as [|(? & ? & ? & X)]; auto. exfalso.
      assert (n = m). { eapply ids_unique; eauto; [apply (inv_nodup s I)|congruence]. } subst n.
      unfold ready in R. pose proof (inv_state s I m Hm) as S. unfold state_ok in S. destruct Sm as [Sm|Sm]; rewrite Sm in *.
      * destruct S as (_ & _ & S). congruence.
      * rewrite Fm, Ef in R. contradiction.
    + intros n Hn R Nn. unfold enter in *.
      assert (G2 : In n (nodes s) /\ n_id n <> n_id m /\ ready s n /\ ~ In (n_id n) (notify s)).
      { destruct Sm as [Sm|Sm]; rewrite Sm in *; cbn [with_log with_at with_nodes nodes notify] in *;
          (apply In_upd in Hn as (y & Hy & [(Ey & ->)|(Ey & ->)]); [contradiction R|]); repeat split; auto. }
      destruct G2 as (G1 & G2 & G3 & G4). destruct (H n G1 G3 G4) as [|(? & ? & ? & X)]; auto. congruence.
  - unfold yield_ in E. destruct (at_ s) as [| |id] eqn:A; try discriminate.
    assert (G : forall st' s1, nodes s1 = upd id (fun x => mkN (n_id x) (n_fiber x) nw (n_check x) nw st' ft) (nodes s) ->
      notify s1 = notify s -> done s1 = done s -> abandoned s1 = abandoned s -> Told T s1).
    { intros st' s1 Q1 Q2 Q3 Q4 n Hn R Nn. rewrite Q1 in Hn. apply In_upd in Hn as (y & Hy & [(Ey & ->)|(Ey & ->)]); [left; exact C|].
      rewrite Q2 in Nn. assert (R' : ready s y) by (unfold ready in *; rewrite Q3, Q4 in R; exact R).
      destruct (H y Hy R' Nn) as [|(? & ? & ? & X)]; [auto|congruence]. }
    destruct ft as [f|]; [destruct (is_done s f)|]; injection E as <-; eapply G; reflexivity.
  - unfold finish in E. destruct (at_ s) as [| |id] eqn:A; try discriminate. injection E as <-. intros n Hn R Nn.
    cbn [with_log with_at with_nodes nodes notify] in *. apply In_upd in Hn as (y & Hy & [(Ey & ->)|(Ey & ->)]); [contradiction R|].
    destruct (H y Hy R Nn) as [|(? & ? & ? & X)]; [auto|congruence].
  - injection E as <-. intros n Hn R Nn. cbn [launch nodes notify] in *. apply in_app_iff in Hn as [Hn|[<-|[]]].
    + destruct (H n Hn R Nn) as [|X]; auto.
    + left. exact C.
  - unfold complete in E. destruct (is_done s c) eqn:D; [discriminate|]. injection E as <-. intros n Hn R Nn. cbn [nodes notify] in *.
    rewrite in_app_iff in Nn. assert (R' : ready s n \/ (n_state n = Suspended /\ n_fut n = Some c /\ ~ In c (done s))).
    { unfold ready in *. cbn [done abandoned] in R. destruct (n_state n); auto. destruct (n_fut n) as [f|]; auto. destruct R as [->|R]; auto.
      right. repeat split; auto. intros X. apply is_done_In in X. congruence. }
    destruct R' as [R'|(S & F & X)].
    + destruct (H n Hn R') as [|Y]; auto.
    + exfalso. apply Nn. right. apply in_map_iff. exists (c, n_id n). split; auto. apply filter_In. split; [|cbn; lia].
      pose proof (inv_state s I n Hn) as St. unfold state_ok in St. rewrite S in St. now apply St.
  - unfold notify_one in E. destruct (nth_error (notify s) j) as [id|] eqn:J; [|discriminate]. injection E as <-. intros n Hn R Nn.
    cbn [nodes notify] in *. destruct (remove_nth_split _ _ _ J) as (a & b & Q & Q2). rewrite Q2 in Nn.
    apply In_upd in Hn as (y & Hy & [(Ey & ->)|(Ey & ->)]); [left; exact C|].
    assert (Nn' : ~ In (n_id y) (notify s)). { rewrite Q, in_app_iff. cbn. rewrite in_app_iff in Nn. intuition. }
    destruct (H y Hy R Nn') as [|X]; auto.
  - injection E as <-. intros n Hn R Nn. cbn [abandon nodes notify] in *.
    assert (R' : ready s n). { unfold ready in *. cbn [abandon abandoned done] in R. destruct (n_state n); auto. intros X. apply R. now right. }
    destruct (H n Hn R' Nn) as [|X]; auto.
  - injection E as <-. intros n Hn R Nn. destruct (H n Hn R Nn) as [|X]; auto.
Qed.

Lemma told_run T es : forall s s', Inv s -> Told T s -> Forall (clock_upto T) es -> run s es = Some s' -> Told T s'.
Proof.
  induction es as [|e es IH]; cbn [run]; intros s s' I H F E; [now injection E as <-|].
  destruct (step s e) as [s1|] eqn:E1; [|discriminate]. inversion F; subst. apply (IH s1); auto.
  - eapply inv_step; eauto.
  - eapply told_step; eauto.
Qed.

(** A fiber which can go on (it was launched, it yielded, or the future for which
    it waits was completed and it was notified) carries a wake-up time that is
    not in the future, unless the scheduler is just looking at it: no wake-up is
    overwritten by the timeouts for which it was scheduled before. *)
Theorem fiber_woken : forall (w f T : Z) (es : list event) (s : st) (n : node),
  run (init w f) es = Some s -> Forall (clock_upto T) es ->
  In n (nodes s) -> ready s n -> ~ In (n_id n) (notify s) -> (forall now fut fl, at_ s <> Popped (n_id n) now fut fl) ->
  n_async n <= T.
Proof.
  intros w f T es s n H F Hn R Nn A.
  destruct (told_run T es _ _ (inv_init w f) (fun n (X : In n []) => match X with end) F H n Hn R Nn) as [|(? & ? & ? & X)]; auto.
  destruct (A _ _ _ X).
Qed.
Print Assumptions fiber_woken.

(** Fiber 100 is scheduled to be looked at 15 seconds later, and is notified at 40. *)
Definition sample : list event :=
  [Launch 100 10; Launch 200 20; Loop 30 0%nat; Decide; Yield (Some 7) 31; Loop 32 0%nat; Decide; Yield (Some 8) 33;
   Loop 34 0%nat; Decide; Loop 36 0%nat; Decide; Complete 7; Notify 0%nat 40].
Example fiber_woken_ex : match run (init 15000000000 300000000000) sample with
  | Some s => exists n, In n (nodes s) /\ n_id n = 0%nat /\ n_async n = 40 /\ n_check n = 15000000031 /\ notify s = []
  | None => False end.
Proof. vm_compute. eexists. split; [left; reflexivity|]. auto. Qed.

Lemma loop_late s now front s' : Inv s -> (forall m, In m (nodes s) -> now < n_check m) -> loop s now front = Some s' ->
  (exists w, s' = settled s w) \/ (nodes s <> [] /\ pop (settled s 0) now front = Some s').
Proof.
  intros I Late E. destruct (loop_cases _ _ _ _ I E) as [A _]. unfold loop in E. rewrite A in E.
  destruct (nodes s) as [|m l] eqn:Q.
  - cbn [refresh map stale existsb] in E. assert (W := inv_wait s I). change (999000000 >? 0) with true in E. cbv iota zeta in E.
    set (w := Z.max 0 _) in E. destruct (w >? 0) eqn:G; [|unfold w in G; lia]. left. exists w. injection E as <-. unfold settled. now rewrite Q.
  - destruct (min_check_In m l) as (y & Hy & Ey & _). pose proof (Late y Hy) as Ly.
    destruct (min_check m l - now >? 0) eqn:G; [|lia]. cbn zeta in E. set (w := Z.max 0 _) in E. unfold settled. rewrite Q. destruct (w >? 0) eqn:W.
    + left. exists w. now injection E as <-.
    + right. split; [discriminate|]. assert (w = 0) as W0 by (unfold w in *; lia). rewrite W0 in E. exact E.
Qed.

(** And the scheduler acts on it: as soon as no other fiber is due, the next call
    of [thread_loop] makes this time the one by which fibers are ordered, so that
    this fiber is due no later than the notification; or the scheduler looks at
    it at once. *)
Theorem fiber_noticed : forall (w f T now : Z) (front : nat) (es : list event) (s s' : st) (n : node),
  run (init w f) es = Some s -> Forall (clock_upto T) es ->
  In n (nodes s) -> ready s n -> ~ In (n_id n) (notify s) ->
  (forall m, In m (nodes s) -> now < n_check m) ->
  step s (Loop now front) = Some s' ->
  (exists n', In n' (nodes s') /\ n_id n' = n_id n /\ ready s' n' /\ n_check n' <= T)
  \/ popped s' (n_id n).
Proof.
  intros w f T now front es s s' n H F Hn R Nn Late E. assert (I := inv_run _ _ _ (inv_init w f) H). cbn [step] in E.
  destruct (loop_cases _ _ _ _ I E) as [A D].
  assert (B : n_async n <= T). { eapply fiber_woken; eauto. intros x y z. rewrite A. discriminate. }
  set (n1 := mkN (n_id n) (n_fiber n) (n_async n) (n_async n) (n_yield n) (n_state n) (n_fut n)).
  assert (Hn1 : In n1 (refresh (nodes s))) by (unfold refresh; apply in_map_iff; exists n; auto).
  clear D. destruct (loop_late _ _ _ _ I Late E) as [(x & ->)|(Ne & P)].
  - left. exists n1. repeat split; auto.
  - unfold pop in P. cbn [settled with_wait with_nodes nodes] in P.
    destruct (nth_error (refresh (nodes s)) front) as [m|] eqn:G; [|destruct (nodes s); [contradiction|discriminate]].
    destruct (negb _); [discriminate|]. destruct (remove_nth_split _ _ _ G) as (a & b & Q & Q2).
    rewrite Q in Hn1. apply in_app_iff in Hn1.
    destruct (_ || _) eqn:X; injection P as <-; cbn [with_nodes with_at nodes settled with_wait] in *.
    + left. exists n1. rewrite Q2. split; [|repeat split; auto]. apply in_app_iff. destruct Hn1 as [|[Em|]]; auto. exfalso. rewrite Em in X.
      apply orb_true_iff in X as [X|X].
      * apply andb_true_iff in X as [X Y]. apply fstate_eqb_eq in X. apply is_abandoned_In in Y. unfold ready in R. change (n_state n1) with (n_state n) in X. rewrite X in R. contradiction.
      * apply fstate_eqb_eq in X. unfold ready in R. change (n_state n1) with (n_state n) in X. rewrite X in R. contradiction.
    + destruct Hn1 as [K|[K|K]].
      * left. exists n1. rewrite Q2. split; [|repeat split; auto]. rewrite !in_app_iff. auto.
      * right. unfold popped. cbn. rewrite K. cbn. eauto.
      * left. exists n1. rewrite Q2. split; [|repeat split; auto]. rewrite !in_app_iff. auto.
Qed.
Print Assumptions fiber_noticed.
Example fiber_noticed_ex : match run (init 15000000000 300000000000) sample with
  | Some s => (forall m, In m (nodes s) -> 50 < n_check m) /\ match step s (Loop 50 0%nat) with
      | Some s' => at_ s' = Popped 0%nat 50 (Some 7) 300000000000 | None => False end
  | None => False end.
Proof. vm_compute. split; [|reflexivity]. intros m [<-|[<-|[]]]; reflexivity. Qed.

(** When the scheduler sleeps, it is not beyond the time of any fiber, as it stands at that moment, and not for more than half a second. *)
Theorem fiber_sleeps w0 f0 es s now front s' : run (init w0 f0) es = Some s -> step s (Loop now front) = Some s' -> at_ s' = Outside -> List.length (nodes s') = List.length (nodes s) ->
  0 < wait s' <= 500000000 /\ wait s' <= wait s * 2 + 1000
  /\ (forall n, In n (nodes s) -> now + wait s' <= n_async n) /\ (forall n, In n (nodes s') -> now + wait s' <= n_check n).
Proof.
  intros Ru E A L. pose proof (inv_wait s (inv_run _ _ _ (inv_init w0 f0) Ru)) as W0. cbn [step] in E. unfold loop in E. destruct (at_ s) eqn:At; try discriminate.
  assert (P : forall s1 s2, at_ s1 = Outside -> nodes s1 <> [] -> pop s1 now front = Some s2 -> at_ s2 = Outside -> List.length (nodes s2) <> List.length (nodes s1)).
  { intros s1 s2 At1 Ne H At2. unfold pop in H. destruct (nth_error (nodes s1) front) as [m|] eqn:G; [|destruct (nodes s1); [contradiction|discriminate]].
    destruct (negb (is_front m (nodes s1))); [discriminate|]. destruct (_ || _); injection H as <-.
    - cbn [with_nodes nodes]. destruct (remove_nth_split _ _ _ G) as (a & b & Q & Q2). rewrite Q2, Q, !app_length. cbn [List.length]. lia.
    - cbn [with_at at_] in At2. discriminate. }
  set (ttw := match nodes s with [] => 999000000 | n :: l => min_check n l - now end) in *.
  destruct (ttw >? 0) eqn:T.
  - set (ttw1 := if stale (nodes s) then _ else ttw) in E. cbv zeta in E. set (w := Z.max 0 (Z.min (Z.min ttw1 (wait s * 2 + 1000)) 500000000)) in E.
    destruct (w >? 0) eqn:G.
    + injection E as <-. cbn [with_wait with_nodes nodes wait]. split; [unfold w in *; lia|]. split; [unfold w in *; lia|].
      assert (K : forall n, In n (refresh (nodes s)) -> ttw1 <= n_check n - now).
      { intros n Hn. unfold ttw1. destruct (stale (nodes s)) eqn:St.
        - destruct (refresh (nodes s)) as [|x l] eqn:R; [contradiction|]. destruct (min_check_In x l) as (_ & _ & _ & M). specialize (M n Hn). lia.
        - unfold refresh in Hn. apply in_map_iff in Hn as (m & <- & Hm). cbn [n_check]. unfold ttw. destruct (nodes s) as [|x l] eqn:R; [contradiction|]. destruct (min_check_In x l) as (_ & _ & _ & M). specialize (M m Hm).
          assert (Q : n_check m = n_async m).
          { destruct (n_check m =? n_async m) eqn:Q; [lia|]. exfalso. rewrite <- R in *. unfold stale in St. assert (Z : existsb (fun n => negb (n_check n =? n_async n)) (nodes s) = true) by (apply existsb_exists; exists m; split; [congruence|now rewrite Q]). congruence. }
          lia. }
      assert (K2 : forall n, In n (refresh (nodes s)) -> now + w <= n_check n) by (intros n Hn; specialize (K n Hn); unfold w in *; lia).
      split; [|exact K2]. intros n Hn. apply (K2 (mkN (n_id n) (n_fiber n) (n_async n) (n_async n) (n_yield n) (n_state n) (n_fut n))). unfold refresh. apply in_map_iff. now exists n.
    + exfalso. assert (Ne : nodes s <> []).
      { intros Q. unfold w, ttw1, ttw in G. rewrite Q in G. cbn [stale existsb] in G. lia. }
      refine (P (with_wait (with_nodes s (refresh (nodes s))) w) s' At _ E A _); [cbn [with_wait with_nodes nodes]; unfold refresh; destruct (nodes s); [contradiction|discriminate]|]. rewrite L. cbn [with_wait with_nodes nodes]. unfold refresh. now rewrite map_length.
  - exfalso. assert (Ne : nodes s <> []) by (intros Q; unfold ttw in T; rewrite Q in T; discriminate). apply (P _ _ At Ne E A L).
Qed.
Print Assumptions fiber_sleeps.
Example fiber_sleeps_ex : match run (init 15000000000 300000000000) (firstn 12 sample) with
  | Some s => match step s (Loop 50 0%nat) with Some s' => at_ s' = Outside /\ List.length (nodes s') = List.length (nodes s) | None => False end
  | None => False end.
Proof. vm_compute. repeat split. Qed.
