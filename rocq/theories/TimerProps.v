(** Theorems about timers (C19). *)
From Coq Require Import ZArith List Lia Bool.
From Verif Require Import TimerModel TimerSpec TimerProofs.
Import ListNotations.
Open Scope Z_scope.

(** A history used by the examples: timer 1 is one-shot, timer 2 has a period of
    10 ms, timer 3 is abandoned before it is due. *)
Definition sample : list event :=
  [Insert (Some 1) 0 5 0; Insert (Some 2) 1000000 2 10; Insert (Some 3) 0 4 1; Insert None 0 1 1;
   Insert (Some 4) 0 (-1) 0; Loop 2000000 1%nat; Forget 3; Loop 30000000 1%nat; Callback; Loop 30000000 1%nat;
   Loop 30000000 0%nat; Callback; Loop 30000000 0%nat].

Definition sample_state : st :=
  mkS [mkE 1 2 23000000 10000000] [3] (Some (mkT 1 2 13000000 30000000 3))
      [mkT 1 2 3000000 30000000 3; mkT 0 1 5000000 30000000 3]
      [mkI 1 0 5 0; mkI 2 1000000 2 10; mkI 3 0 4 1] false.

Example sample_runs : run init sample = Some sample_state.
Proof. vm_compute. reflexivity. Qed.

(** In every history, the callbacks made for one insertion are an initial piece
    of its schedule, in order and without repetition or gap, and they go to the
    timer that was inserted; there is at most one if the period is zero. *)
Theorem timer_schedule : forall (es : list event) (s : st),
  run init es = Some s ->
  forall (no : nat) (i : insertion), nth_error (inserted s) no = Some i ->
  exists n : nat, dues_of no (ran s) = map (due i) (seq 0 n)
    /\ (i_period i = 0 -> (n <= 1)%nat)
    /\ (forall t, In t (ran s) -> t_no t = no -> t_timer t = i_timer i).
Proof.
  intros es s H no i Hi. destruct (reach _ _ H) as [I O]. destruct (inv_ins s I no i Hi) as (A & n & D & C).
  assert (E : exists k, (k <= n)%nat /\ dues_of no (ran s) = map (due i) (seq 0 k)).
  { unfold all in D. rewrite dues_of_app in D.
    assert (L : (length (dues_of no (ran s)) <= n)%nat).
    { apply (f_equal (@length Z)) in D. rewrite app_length, map_length, seq_length in D. lia. }
    exists (length (dues_of no (ran s))). split; [auto|].
    apply (f_equal (firstn (length (dues_of no (ran s))))) in D.
    rewrite firstn_app, firstn_all, Nat.sub_diag, firstn_O, app_nil_r, firstn_map in D. rewrite D. f_equal.
    clear - L. revert L. generalize (length (dues_of no (ran s))) as k. generalize O as z.
    induction n as [|n IH]; intros z [|k] L; cbn; auto; try lia. f_equal. apply IH. lia. }
  destruct E as (k & Lk & Ek). exists k. split; [auto|]. split.
  - intros P. destruct C as [[_ C]|(_ & C & _)]; specialize (C P); lia.
  - intros t Ht E. assert (Ht' : In t (all s)) by (unfold all; apply in_or_app; auto).
    destruct (inv_tick s I t Ht') as (_ & _ & j & Hj & ->). congruence.
Qed.
Print Assumptions timer_schedule.

Example timer_schedule_ex : nth_error (inserted sample_state) 1 = Some (mkI 2 1000000 2 10)
  /\ dues_of 1 (ran sample_state ++ [mkT 1 2 13000000 30000000 3]) = [3000000; 13000000]
  /\ map (due (mkI 2 1000000 2 10)) (seq 0 2) = [3000000; 13000000].
Proof. vm_compute. auto. Qed.

(** No callback is made unless a clock reading has reached the time point that
    is passed to it. *)
Theorem timer_not_early : forall (es : list event) (s : st),
  run init es = Some s -> forall t, In t (ran s) -> t_due t <= t_now t /\ exists front, In (Loop (t_now t) front) es.
Proof.
  intros es s H t Ht. destruct (reach _ _ H) as [I O].
  assert (Ht' : In t (all s)) by (unfold all; apply in_or_app; auto). split.
  { apply (inv_tick s I t Ht'). }
  clear Ht I O. revert s H Ht'. induction es as [|e es IH] using rev_ind; intros s H Ht.
  - injection H as <-. contradiction.
  - rewrite run_app in H. destruct (run init es) as [s1|] eqn:E1; [|discriminate]. cbn in H.
    destruct (step s1 e) as [s2|] eqn:E2; [|discriminate]. injection H as ->.
    specialize (IH s1 eq_refl).
    assert (Old : In t (all s1) -> exists front, In (Loop (t_now t) front) (es ++ [e])).
    { intros X. destruct (IH X) as (f & Hf). exists f. apply in_or_app. auto. }
    destruct e as [u now d p|now f| |u]; cbn [step] in E2.
    + apply Old. injection E2 as <-. destruct (insert_cases s1 u now d p) as [X|(_ & v & _ & X)]; rewrite X in Ht; exact Ht.
    + apply take_cases in E2 as [->|(F & a & b & e & _ & _ & _ & C)]; [auto|].
      unfold all in Old. rewrite F, app_nil_r in Old.
      destruct C as [[_ ->]|[_ [[_ ->]|[_ ->]]]]; unfold all in Ht; cbn [ran flight] in Ht;
        apply in_app_or in Ht as [Ht|Ht]; auto; try contradiction; destruct Ht as [<-|[]]; exists f; apply in_or_app; cbn; auto.
    + apply Old. apply all_callback in E2 as (A & _). now rewrite A in Ht.
    + apply Old. injection E2 as <-. exact Ht.
Qed.
Print Assumptions timer_not_early.

Example timer_not_early_ex : In (mkT 0 1 5000000 30000000 3) (ran sample_state).
Proof. cbn. auto. Qed.

(** Callbacks come in the order of their time points: if the insertion of a
    later callback had been made when an earlier one was taken off the queue,
    the earlier one was due no later. *)
Theorem timer_order : forall (es : list event) (s : st) l1 a l2 b l3,
  run init es = Some s -> ran s = l1 ++ a :: l2 ++ b :: l3 ->
  (t_no b < t_known a)%nat -> t_due a <= t_due b.
Proof.
  intros es s l1 a l2 b l3 H E K. destruct (reach _ _ H) as [I O].
  refine (ord_log s O l1 a l2 b (l3 ++ match flight s with Some t => [t] | None => [] end) _ K).
  unfold all. rewrite E. rewrite <- !app_assoc. cbn. rewrite <- !app_assoc. reflexivity.
Qed.
Print Assumptions timer_order.

Example timer_order_ex : exists a b, ran sample_state = [] ++ a :: [] ++ b :: [] /\ (t_no b < t_known a)%nat.
Proof. exists (mkT 1 2 3000000 30000000 3), (mkT 0 1 5000000 30000000 3). cbn. split; [reflexivity|lia]. Qed.

(** After a timer was abandoned or destroyed, no callback is made for it, save
    for the one which the timer thread had already begun. *)
Theorem timer_abandoned : forall (before after : list event) (t : Z) (s s' : st),
  run init before = Some s -> run init (before ++ Forget t :: after) = Some s' ->
  exists later, ran s' = ran s ++ later
    /\ (count_of t later <= match flight s with Some k => if (t_timer k =? t)%Z then 1 else 0 | None => 0 end)%nat.
Proof.
  intros before after t s s' H1 H2. rewrite run_app, H1 in H2. cbn [run step] in H2.
  destruct (run_grow _ _ _ t H2) as (l & A & C); [cbn; auto|].
  replace (all (forget s t)) with (all s) in A by reflexivity. unfold all in A.
  destruct (flight s') as [u|] eqn:F'.
  - destruct l as [|x l _] using rev_ind.
    + (* nothing new: [u] is the one in flight *)
      rewrite app_nil_r in A. destruct (flight s) as [k|] eqn:F.
      * apply app_inj_tail in A as [A _]. exists []. rewrite app_nil_r. split; [auto|]. cbn. lia.
      * rewrite app_nil_r in A. exfalso. clear - A H2 F F'.
        assert (M : forall es a b, run a es = Some b -> (length (ran a) <= length (ran b))%nat).
        { induction es as [|e es IH]; cbn [run]; intros a b H; [injection H as <-; lia|].
          destruct (step a e) as [a1|] eqn:E; [|discriminate]. specialize (IH _ _ H).
          enough (length (ran a) <= length (ran a1))%nat by lia.
          destruct e as [w now d p|now f| |w]; cbn [step] in E.
          - injection E as <-. destruct (insert_cases a w now d p) as [->|(_ & v & _ & ->)]; auto.
          - apply take_cases in E as [->|(_ & q1 & q2 & e & _ & _ & _ & C)]; auto.
            destruct C as [[_ ->]|[_ [[_ ->]|[_ ->]]]]; auto.
          - apply all_callback in E as (_ & R & _). rewrite R. unfold all. rewrite app_length. lia.
          - injection E as <-. auto. }
        specialize (M _ _ _ H2). cbn [forget ran] in M. rewrite <- A, app_length in M. cbn in M. lia.
    + rewrite !app_assoc in A. apply app_inj_tail in A as [A _]. rewrite <- app_assoc in A.
      eexists. split; [exact A|]. rewrite count_app in C. rewrite count_app.
      destruct (flight s) as [k|]; unfold count_of in *; cbn [filter length] in *; [|lia].
      destruct (t_timer k =? t); cbn [length]; lia.
  - rewrite app_nil_r in A. rewrite <- app_assoc in A. eexists. split; [exact A|]. rewrite count_app.
    destruct (flight s) as [k|]; unfold count_of in *; cbn [filter length] in *; [|lia].
    destruct (t_timer k =? t); cbn [length]; lia.
Qed.
Print Assumptions timer_abandoned.

Example timer_abandoned_ex : exists s,
  run init (sample ++ [Forget 2; Callback; Loop 60000000 0%nat; Loop 60000000 0%nat]) = Some s
  /\ ran s = ran sample_state ++ [mkT 1 2 13000000 30000000 3] /\ pq s = [].
Proof. eexists. split; [vm_compute; reflexivity|]. vm_compute. auto. Qed.

(** Nothing is lost: once no queued timer is due at [now], every time point up
    to [now] of a timer which is alive has had its callback. *)
Theorem timer_complete : forall (es : list event) (s : st) (now : Z) (no k : nat) (i : insertion),
  run init es = Some s -> idle_at now s ->
  nth_error (inserted s) no = Some i -> ~ In (i_timer i) (gone s) ->
  (i_period i = 0 -> k = O) -> due i k <= now -> In (due i k) (dues_of no (ran s)).
Proof.
  intros es s now no k i H [F Q] Hi G K L. destruct (reach _ _ H) as [I O].
  destruct (inv_ins s I no i Hi) as ((A1 & A2) & n & D & C).
  unfold all in D. rewrite F, app_nil_r in D. rewrite D. apply in_map. apply in_seq.
  destruct C as [[C P]|(_ & _ & [[P1 P2]|C])]; [|rewrite K by auto; lia|contradiction].
  unfold entry_ok in C.
  assert (E : In (mkE no (i_timer i) (due i n) (i_period i * ms)) (pq s)).
  { apply (proj1 (filter_In (fun e => Nat.eqb (e_no e) no) _ _)). rewrite C. cbn. auto. }
  apply Q in E. cbn [e_next] in E. unfold due in *.
  assert (Z.of_nat k * i_period i < Z.of_nat n * i_period i) by lia. split; [lia|]. nia.
Qed.
Print Assumptions timer_complete.

Example timer_complete_ex : exists s,
  run init (sample ++ [Callback; Loop 24000000 0%nat; Callback]) = Some s /\ idle_at 32999999 s
  /\ ~ In 2 (gone s) /\ due (mkI 2 1000000 2 10) 2 <= 32999999.
Proof.
  eexists. split; [vm_compute; reflexivity|]. split.
  { split; [reflexivity|]. intros e [<-|[]]. reflexivity. }
  split; [cbn; intros [X|[]]; discriminate|]. vm_compute. discriminate.
Qed.

(** The timer thread catches up: in every reachable state, if the clock stands
    at [now] and no other thread interferes, a number of turns of the loop
    exists after which nothing is due, whichever front the heap chooses; and the
    turns are always possible. *)
Theorem timer_progress : forall (es : list event) (s : st) (now : Z),
  run init es = Some s -> flight s = None ->
  exists n : nat,
    (forall fronts s', length fronts = n -> turns now s fronts = Some s' -> idle_at now s')
    /\ exists fronts s', length fronts = n /\ turns now s fronts = Some s'.
Proof.
  intros es s now H F. destruct (reach _ _ H) as [I O]. exists (S (work now (pq s))). split.
  - intros fs s' L T. eapply turns_idle; eauto. lia.
  - now apply turns_exist.
Qed.
Print Assumptions timer_progress.

Example timer_progress_ex : exists s s', run init [Insert (Some 1) 0 0 1; Insert (Some 2) 0 1 0] = Some s
  /\ turns 2000000 s [0; 1; 0; 0; 0]%nat = Some s' /\ length (ran s') = 4%nat /\ map t_due (ran s') = [0; 1000000; 1000000; 2000000].
Proof. eexists. eexists. split; [vm_compute; reflexivity|]. vm_compute. auto. Qed.

(** What [insert_weak] accepts: a timer with a delay and a period of 0 to 24000
    hours, which is then on record; anything else leaves no trace. *)
Theorem timer_insert : forall (s : st) (timer : option Z) (now delay period : Z),
  match timer with
  | None => insert_weak s timer now delay period = s
  | Some t =>
      (acceptable delay period ->
       inserted (insert_weak s timer now delay period) = inserted s ++ [mkI t now delay period]
       /\ ran (insert_weak s timer now delay period) = ran s
       /\ flight (insert_weak s timer now delay period) = flight s)
      /\ (~ acceptable delay period -> insert_weak s timer now delay period = s)
  end.
Proof.
  intros s [t|] now d p; [|reflexivity]. destruct (insert_cases s (Some t) now d p) as [E|(A & u & [= <-] & ->)].
  - split; [|auto]. intros A. exfalso. revert E. unfold insert_weak, acceptable, max_ms in *.
    destruct ((d <? 0) || (d >? 86400000000)) eqn:E1; [lia|].
    destruct ((p <? 0) || (p >? 86400000000)) eqn:E2; [lia|].
    intros E. apply (f_equal inserted) in E. cbn [inserted] in E. apply (f_equal (@length _)) in E.
    rewrite app_length in E. cbn in E. lia.
  - split; [auto|]. intros X. contradiction.
Qed.
Print Assumptions timer_insert.

Example timer_insert_ex : acceptable 86400000000 0 /\ ~ acceptable 86400000001 0 /\ ~ acceptable 0 (-1).
Proof. unfold acceptable. lia. Qed.

(** The time points never overflow a signed 64-bit count of nanoseconds, as long
    as the clock leaves room for 24000 hours. *)
Theorem timer_no_overflow : forall (es : list event) (s : st),
  Forall sane_clock es -> run init es = Some s -> ub s = false.
Proof.
  intros es s C H. enough (X : Inv s /\ Small s) by apply X.
  revert s H. induction es as [|e es IH] using rev_ind; intros s H.
  - injection H as <-. split; [apply inv_init|]. split; [reflexivity|]. contradiction.
  - apply Forall_app in C as [C1 C2]. rewrite run_app in H. destruct (run init es) as [s1|]; [|discriminate].
    cbn in H. destruct (step s1 e) as [s2|] eqn:E; [|discriminate]. injection H as ->.
    destruct (IH C1 s1 eq_refl) as [I S]. inversion C2; subst. split; [eapply inv_step|eapply small_step]; eauto.
Qed.
Print Assumptions timer_no_overflow.

Example timer_no_overflow_ex : Forall sane_clock sample.
Proof. unfold sample. repeat (apply Forall_cons; [cbn; try lia; exact Logic.I|]). apply Forall_nil. Qed.
