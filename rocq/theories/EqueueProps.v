(** Properties of easy timers and UDP sockets. *)
From Coq Require Import List Bool Lia PeanoNat.
From Verif Require Import EqueueModel EqueueSpec.
Import ListNotations.
Open Scope list_scope.

Section proofs.
Context {V : Type}.
Implicit Types (st : state V) (l : list (item V)).

Lemma nth_set_at {A} (x : A) : forall (l : list A) i j, nth_error (set_at i x l) j = if (i =? j) && (i <? length l) then Some x else nth_error l j.
Proof.
  induction l as [|y l IH]; intros [|i] [|j]; cbn; try reflexivity.
  - destruct (i =? j); reflexivity.
  - rewrite IH. reflexivity.
Qed.

Lemma nth_snoc {A} (l : list A) x i : nth_error (l ++ [x]) i = if i =? length l then Some x else nth_error l i.
Proof.
  destruct (Nat.eqb_spec i (length l)) as [->|N].
  - rewrite nth_error_app2, Nat.sub_diag by lia. reflexivity.
  - destruct (Nat.le_gt_cases (length l) i).
    + rewrite nth_error_app2 by lia. assert (i - length l <> 0) by lia. destruct (i - length l); [lia|].
      cbn. replace (nth_error l i) with (@None A) by (symmetry; apply nth_error_None; lia). destruct n; reflexivity.
    + apply nth_error_app1. lia.
Qed.

(** Who is in the callback. *)
Fixpoint held (busy : option (nat * V)) l : option (nat * V) :=
  match l with
  | [] => busy
  | Began f v :: l => held (Some (f, v)) l
  | Ended _ _ :: l => held None l
  end.

Lemma held_app l1 : forall b l2, held b (l1 ++ l2) = held (held b l1) l2.
Proof. induction l1 as [|[f v|f v] l1 IH]; intros b l2; cbn; auto. Qed.
Lemma one_app l1 : forall b l2, one_at_a_time b l1 -> one_at_a_time (held b l1) l2 -> one_at_a_time b (l1 ++ l2).
Proof. induction l1 as [|[f v|f v] l1 IH]; intros b l2; cbn; auto; intros (H1 & H2) H; auto. Qed.
Lemma delivered_app l1 : forall l2, delivered (l1 ++ l2) = delivered l1 ++ delivered l2.
Proof. induction l1 as [|[f v|f v] l1 IH]; intros l2; cbn; rewrite ?IH; reflexivity. Qed.

Record inv st : Prop := {
  i_queue : pushed st = delivered (log st) ++ events st;
  i_active : forall i x, nth_error (fibers st) i = Some (Some x) -> fiber_active st = true;
  i_one : forall i j x y, nth_error (fibers st) i = Some (Some x) -> nth_error (fibers st) j = Some (Some y) -> i = j;
  i_some : expired st = false -> fiber_active st = true -> exists i x, nth_error (fibers st) i = Some (Some x);
  i_idle : fiber_active st = false -> events st = [];
  i_hold : forall f v, held None (log st) = Some (f, v) <-> nth_error (fibers st) f = Some (Some (Calling v));
  i_alone : one_at_a_time None (log st) }.

Lemma inv_init : inv init.
Proof.
  split; cbn; try discriminate; auto.
  - intros [|i] x H; discriminate.
  - intros [|i] j x y H; discriminate.
  - intros [|f] v; split; discriminate.
Qed.

Lemma expired_iff st : expired st = true <-> stopped st = true /\ forall i v, nth_error (fibers st) i <> Some (Some (Calling v)).
Proof.
  unfold expired. rewrite andb_true_iff, negb_true_iff. split; intros (S & H); (split; [exact S|]).
  - intros i v N. apply nth_error_In in N. apply not_true_iff_false in H. apply H. apply existsb_exists. exists (Some (Calling v)). auto.
  - apply not_true_iff_false. intros E. apply existsb_exists in E. destruct E as (x & Hin & C). apply In_nth_error in Hin.
    destruct Hin as (i & N). destruct x as [[|v]|]; try discriminate. exact (H i v N).
Qed.

Lemma expired_step st x st' : inv st -> step st x = Some st' -> expired st' = false -> expired st = false.
Proof.
  intros I H E. apply not_true_iff_false. intros X. apply not_true_iff_false in E. apply E. clear E.
  pose proof (proj1 (expired_iff st) X) as (S & N). destruct x as [v|b|f|f|]; cbn [step] in H; rewrite ?X in H; try discriminate.
  - injection H as <-. exact X.
  - destruct (nth_error (fibers st) f) as [[[|v]|]|] eqn:F; try discriminate. injection H as <-.
    apply expired_iff. cbn. split; [exact S|]. intros i v. rewrite nth_set_at. destruct (_ && _); [discriminate|apply N].
  - destruct (nth_error (fibers st) f) as [[[|v]|]|] eqn:F; try discriminate. exfalso. exact (N _ _ F).
  - injection H as <-. apply expired_iff. cbn. auto.
Qed.

Lemma set_other {A} (l : list A) f y x i z : nth_error l f = Some y -> nth_error (set_at f x l) i = z ->
  (i = f /\ z = Some x) \/ (i <> f /\ nth_error l i = z).
Proof.
  intros F. rewrite nth_set_at. assert (L : f < length l) by (apply nth_error_Some; congruence).
  apply Nat.ltb_lt in L. rewrite L, andb_true_r. destruct (Nat.eqb_spec f i) as [->|]; auto.
Qed.
Lemma set_same {A} (l : list A) f y x : nth_error l f = Some y -> nth_error (set_at f x l) f = Some x.
Proof.
  intros F. rewrite nth_set_at. assert (L : f < length l) by (apply nth_error_Some; congruence).
  apply Nat.ltb_lt in L. rewrite L, Nat.eqb_refl. reflexivity.
Qed.
Lemma set_ne {A} (l : list A) f x i : i <> f -> nth_error (set_at f x l) i = nth_error l i.
Proof. intros N. rewrite nth_set_at. destruct (Nat.eqb_spec f i); [congruence|reflexivity]. Qed.

Lemma launch_inv st es ps : inv st -> fiber_active st = false -> ps = delivered (log st) ++ es ->
  inv (mkState es true (fibers st ++ [Some Top]) (stopped st) ps (log st)).
Proof.
  intros I Ac E. assert (No : forall i x, nth_error (fibers st) i <> Some (Some x)).
  { intros i x N. pose proof (i_active _ I _ _ N). congruence. }
  split; cbn; auto.
  - intros i j x y. rewrite !nth_snoc. destruct (Nat.eqb_spec i (length (fibers st))) as [->|]; [|intros X; exfalso; exact (No _ _ X)].
    destruct (Nat.eqb_spec j (length (fibers st))) as [->|]; [reflexivity|]. intros _ X. exfalso. exact (No _ _ X).
  - intros _ _. exists (length (fibers st)), Top. rewrite nth_snoc, Nat.eqb_refl. reflexivity.
  - discriminate.
  - intros f v. rewrite (i_hold _ I), nth_snoc. destruct (Nat.eqb_spec f (length (fibers st))) as [->|]; [|reflexivity].
    split; [|discriminate]. intros X. exfalso. exact (No _ _ X).
  - apply (i_alone _ I).
Qed.

Lemma inv_step st x st' : inv st -> step st x = Some st' -> inv st'.
Proof.
  intros I H. pose proof (expired_step _ _ _ I H) as Ex. destruct x as [v|b|f|f|]; cbn [step] in H.
  - destruct (expired st) eqn:Xp; [injection H as <-; exact I|]. destruct (fiber_active st) eqn:Ac; injection H as <-.
    + split; cbn; try apply I; auto.
      * rewrite (i_queue _ I), app_assoc. reflexivity.
      * intros _ _. apply (i_some _ I Xp Ac).
      * discriminate.
    + apply launch_inv; auto. rewrite (i_queue _ I), app_assoc. reflexivity.
  - destruct (expired st); [discriminate|]. destruct (b && negb (fiber_active st)) eqn:B; injection H as <-; [|exact I].
    apply launch_inv; auto; [destruct b, (fiber_active st); try discriminate; reflexivity|apply (i_queue _ I)].
  - destruct (nth_error (fibers st) f) as [[[|v]|]|] eqn:F; try discriminate.
    assert (Al : forall i x, nth_error (fibers st) i = Some (Some x) -> i = f) by (intros i x N; exact (i_one _ I _ _ _ _ N F)).
    assert (Gone : forall i x, nth_error (set_at f None (fibers st)) i <> Some (Some x)).
    { intros i x N. destruct (set_other _ _ _ _ _ _ F N) as [(_ & X)|(D & N')]; [discriminate|exact (D (Al _ _ N'))]. }
    assert (Free : held None (log st) = None).
    { destruct (held None (log st)) as [(g, v)|] eqn:E; [|reflexivity]. apply (i_hold _ I) in E. pose proof (Al _ _ E). congruence. }
    assert (Hold : forall g v, held None (log st) = Some (g, v) <-> nth_error (set_at f None (fibers st)) g = Some (Some (Calling v))).
    { intros g v. rewrite Free. split; [discriminate|]. intros X. exfalso. exact (Gone _ _ X). }
    destruct (expired st) eqn:Xp.
    + injection H as <-. split; cbn; try apply I; auto.
      * intros i x N. exfalso. exact (Gone _ _ N).
      * intros i j x y N. exfalso. exact (Gone _ _ N).
      * intros X. discriminate (Ex X).
    + destruct (events st) as [|v vs] eqn:Ev; injection H as <-.
      * split; cbn; try apply I; auto; try discriminate.
        -- rewrite (i_queue _ I), Ev. reflexivity.
        -- intros i x N. exfalso. exact (Gone _ _ N).
        -- intros i j x y N. exfalso. exact (Gone _ _ N).
      * pose proof (i_active _ I _ _ F) as Ac. split; cbn.
        -- rewrite delivered_app, (i_queue _ I), Ev, <- app_assoc. reflexivity.
        -- auto.
        -- intros i j x y X Y. apply (set_other _ _ _ _ _ _ F) in X, Y.
           assert (i = f) as -> by (destruct X as [(-> & _)|(_ & X)]; [reflexivity|exact (Al _ _ X)]).
           destruct Y as [(-> & _)|(_ & Y)]; [reflexivity|symmetry; exact (Al _ _ Y)].
        -- intros _ _. exists f, (Calling v). eapply set_same; eauto.
        -- congruence.
        -- intros g w. rewrite held_app. cbn [held]. split.
           ++ intros [= <- <-]. eapply set_same; eauto.
           ++ intros X. destruct (set_other _ _ _ _ _ _ F X) as [(-> & [= ->])|(D & N')]; [reflexivity|]. exfalso. exact (D (Al _ _ N')).
        -- apply one_app; [apply (i_alone _ I)|]. cbn. auto.
  - destruct (nth_error (fibers st) f) as [[[|v]|]|] eqn:F; try discriminate. injection H as <-.
    assert (Al : forall i x, nth_error (fibers st) i = Some (Some x) -> i = f) by (intros i x N; exact (i_one _ I _ _ _ _ N F)).
    pose proof (i_active _ I _ _ F) as Ac. split; cbn; try apply I; auto.
    + rewrite delivered_app, app_nil_r. apply (i_queue _ I).
    + intros i j x y X Y. apply (set_other _ _ _ _ _ _ F) in X, Y.
      assert (i = f) as -> by (destruct X as [(-> & _)|(_ & X)]; [reflexivity|exact (Al _ _ X)]).
      destruct Y as [(-> & _)|(_ & Y)]; [reflexivity|symmetry; exact (Al _ _ Y)].
    + intros _ _. exists f, Top. eapply set_same; eauto.
    + intros g w. rewrite held_app. cbn [held]. split; [discriminate|]. intros X.
      destruct (set_other _ _ _ _ _ _ F X) as [(_ & Y)|(D & N')]; [discriminate|]. exfalso. exact (D (Al _ _ N')).
    + apply one_app; [apply (i_alone _ I)|]. cbn. split; [|auto]. apply (i_hold _ I), F.
  - injection H as <-. split; cbn; try apply I. intros X. apply (i_some _ I), Ex, X.
Qed.

Lemma inv_run xs : forall st st', inv st -> run st xs = Some st' -> inv st'.
Proof.
  induction xs as [|x xs IH]; intros st st' I H; cbn [run] in H; [injection H as <-; exact I|].
  destruct (step st x) as [st1|] eqn:E; [|discriminate]. exact (IH _ _ (inv_step _ _ _ I E) H).
Qed.

Lemma run_expired xs : forall st st', inv st -> expired st = true -> run st xs = Some st' -> pushed st' = pushed st /\ delivered (log st') = delivered (log st).
Proof.
  induction xs as [|x xs IH]; intros st st' I X H; cbn [run] in H; [injection H as <-; auto|].
  destruct (step st x) as [st1|] eqn:E; [|discriminate].
  assert (X1 : expired st1 = true). { destruct (expired st1) eqn:Y; [reflexivity|]. rewrite (expired_step _ _ _ I E Y) in X. discriminate. }
  destruct (IH _ _ (inv_step _ _ _ I E) X1 H) as (-> & ->).
  pose proof (proj1 (expired_iff st) X) as (_ & N). destruct x as [v|b|f|f|]; cbn [step] in E; rewrite ?X in E; try discriminate.
  - injection E as <-. auto.
  - destruct (nth_error (fibers st) f) as [[[|v]|]|] eqn:F; try discriminate. injection E as <-. auto.
  - destruct (nth_error (fibers st) f) as [[[|v]|]|] eqn:F; try discriminate. exfalso. exact (N _ _ F).
  - injection E as <-. auto.
Qed.

Lemma pushed_run xs : forall st st', inv st -> run st xs = Some st' ->
  exists mid rest, pushed st' = pushed st ++ mid /\ happened xs = mid ++ rest
  /\ (stopped st = false -> prefix (happened (before_stop xs)) mid /\ (~ In Stop xs -> rest = [] /\ stopped st' = false)).
Proof.
  induction xs as [|x xs IH]; intros st st' I H; cbn [run] in H.
  - injection H as <-. exists [], []. rewrite app_nil_r. split; [reflexivity|]. split; [reflexivity|]. intros S. split; [exists []; reflexivity|auto].
  - destruct (expired st) eqn:X.
    { destruct (run_expired (x :: xs) st st' I X H) as (P & _). exists [], (happened (x :: xs)). rewrite app_nil_r. split; [exact P|]. split; [reflexivity|].
      intros S. unfold expired in X. rewrite S in X. discriminate. }
    destruct (step st x) as [st1|] eqn:E; [|discriminate].
    destruct (IH _ _ (inv_step _ _ _ I E) H) as (mid & rest & P & Hp & Q).
    assert (P1 : pushed st1 = pushed st ++ match x with Push v => [v] | _ => [] end /\ (stopped st = false -> x <> Stop -> stopped st1 = false)).
    { destruct x as [v|b|f|f|]; cbn [step] in E; rewrite ?X in E; rewrite ?app_nil_r.
      - destruct (fiber_active st); injection E as <-; auto.
      - destruct (_ && _); injection E as <-; auto.
      - destruct (nth_error (fibers st) f) as [[[|v]|]|]; try discriminate. destruct (events st); injection E as <-; auto.
      - destruct (nth_error (fibers st) f) as [[[|v]|]|]; try discriminate. injection E as <-; auto.
      - injection E as <-. split; [reflexivity|congruence]. }
    destruct P1 as (P1 & S1). set (new := match x with Push v => [v] | _ => [] end) in *.
    exists (new ++ mid), rest. rewrite P, P1, app_assoc. split; [reflexivity|].
    split; [unfold new; destruct x; cbn [happened]; rewrite Hp; reflexivity|].
    intros S. destruct x as [v|b|f|f|]; try (specialize (Q (S1 S ltac:(discriminate))); destruct Q as ((c & Q1) & Q2); split;
      [exists c; cbn; rewrite Q1; reflexivity|intros N; apply Q2; intros Hin; apply N; right; exact Hin]).
    split; [exists mid; reflexivity|]. intros N. exfalso. apply N. left. reflexivity.
Qed.

(** The callback is called for ticks or packets in their order, without
    repetition or omission: at any time those for which it has been called are
    the first ones of those that have happened. *)
Theorem queue_order : forall xs st, run init xs = Some st -> prefix (delivered (log st)) (happened xs).
Proof.
  intros xs st H. pose proof (inv_run _ _ _ inv_init H) as I. destruct (pushed_run xs _ _ inv_init H) as (mid & rest & P & -> & _).
  cbn in P. rewrite <- P, (i_queue _ I), <- app_assoc. eexists. reflexivity.
Qed.

(** When all fibers have finished it has been called for all of them. *)
Theorem queue_complete : forall xs st, run init xs = Some st -> ~ In Stop xs -> quiet st -> delivered (log st) = happened xs.
Proof.
  intros xs st H N Q. pose proof (inv_run _ _ _ inv_init H) as I. destruct (pushed_run xs _ _ inv_init H) as (mid & rest & P & Hp & R).
  destruct (R eq_refl) as (_ & R2). destruct (R2 N) as (-> & S). rewrite app_nil_r in Hp. cbn in P. rewrite Hp, <- P, (i_queue _ I).
  destruct (events st) as [|v vs] eqn:Ev; [rewrite app_nil_r; reflexivity|]. exfalso.
  destruct (fiber_active st) eqn:Ac; [|rewrite (i_idle _ I Ac) in Ev; discriminate].
  destruct (i_some _ I) as (i & x & F); [unfold expired; rewrite S; reflexivity|exact Ac|].
  apply nth_error_In in F. apply Q in F. discriminate.
Qed.

(** Until then there is a fiber which can proceed. *)
Theorem queue_progress : forall xs st, run init xs = Some st -> expired st = false -> delivered (log st) <> pushed st ->
  exists f x, nth_error (fibers st) f = Some (Some x)
  /\ exists st', step st (match x with Top => Pop f | Calling _ => Return f end) = Some st'.
Proof.
  intros xs st H X D. pose proof (inv_run _ _ _ inv_init H) as I.
  destruct (fiber_active st) eqn:Ac; [|exfalso; apply D; rewrite (i_queue _ I), (i_idle _ I Ac), app_nil_r; reflexivity].
  destruct (i_some _ I X Ac) as (f & x & F). exists f, x. split; [exact F|]. destruct x; cbn [step]; rewrite F; [|eauto].
  rewrite X. destruct (events st); eauto.
Qed.

(** Callbacks do not overlap. *)
Theorem queue_exclusive : forall xs st, run init xs = Some st -> one_at_a_time None (log st).
Proof. intros xs st H. apply i_alone. exact (inv_run _ _ _ inv_init H). Qed.

(** After it has been stopped, and the callback has returned, the callback is
    not called again. *)
Theorem queue_stopped : forall xs ys st st', run init xs = Some st -> expired st = true -> run st ys = Some st' ->
  delivered (log st') = delivered (log st).
Proof. intros xs ys st st' H X H'. apply (run_expired ys st st' (inv_run _ _ _ inv_init H) X H'). Qed.
End proofs.

(** Three ticks, the second and third of which come while the callback is
    suspended; then another one, for which another fiber is launched, and an
    exception. *)
Definition ticks : list (event nat) :=
  [Push 1; Pop 0; Push 2; Push 3; Return 0; Pop 0; Return 0; Pop 0; Return 0; Pop 0; Push_fail true; Pop 1; Push 4; Pop 2; Return 2; Pop 2].

Example ticks_run : option_map (fun st => (log st, fibers st)) (run init ticks) =
  Some ([Began 0 1; Ended 0 1; Began 0 2; Ended 0 2; Began 0 3; Ended 0 3; Began 2 4; Ended 2 4], [None; None; None]).
Proof. vm_compute. reflexivity. Qed.

Example ticks_complete : exists st, run init ticks = Some st /\ ~ In Stop ticks /\ quiet st /\ happened ticks = [1; 2; 3; 4].
Proof.
  eexists. split; [vm_compute; reflexivity|]. split; [cbn; intuition discriminate|]. split; [|reflexivity].
  intros x. cbn. intuition congruence.
Qed.

Example stop_run : option_map (fun st => (expired st, log st, pushed st)) (run init [Push 1; Pop 0; Stop; Push 2; Return 0; Push 3; Pop 0]) =
  Some (true, [Began 0 1; Ended 0 1], [1; 2]).
Proof. vm_compute. reflexivity. Qed.

Print Assumptions queue_order.
Print Assumptions queue_complete.
Print Assumptions queue_progress.
Print Assumptions queue_exclusive.
Print Assumptions queue_stopped.

(** An event is pending, and there is a fiber that takes it. *)
Example queue_progress_case : exists st, run init [Push 1; Push 2; Pop 0; Return 0] = Some st /\ expired st = false /\ delivered (log st) <> pushed st.
Proof. eexists. split; [vm_compute; reflexivity|]. split; [reflexivity|]. vm_compute. discriminate. Qed.
