(** Theorems about futures (C24, C25). *)
From Coq Require Import ZArith List Lia Bool ZifyBool.
From Verif Require Import FutureModel FutureSpec.
Import ListNotations.
Open Scope Z_scope.

Lemma run_app s e1 e2 : run s (e1 ++ e2) = match run s e1 with Some s1 => run s1 e2 | None => None end.
Proof. revert s. induction e1 as [|e e1 IH]; cbn; intros s; auto. destruct (step s e); auto. Qed.

Lemma count_app {A} (f : A -> bool) a b : count f (a ++ b) = (count f a + count f b)%nat.
Proof. unfold count. now rewrite filter_app, app_length. Qed.
Lemma count_one {A} (f : A -> bool) x : count f [x] = if f x then 1%nat else 0%nat.
Proof. unfold count. cbn. now destruct (f x). Qed.

Definition left_over (w : nat) (l : list (nat * list nat)) : nat :=
  fold_right (fun p n => (count (Nat.eqb w) (snd p) + n)%nat) 0%nat l.
Lemma left_over_app w a b : left_over w (a ++ b) = (left_over w a + left_over w b)%nat.
Proof. induction a as [|x a IH]; cbn [app left_over fold_right]; [reflexivity|]. fold (left_over w (a ++ b)) (left_over w a). lia. Qed.

Lemma pop_left t l w l' x : pop_pending t l = Some (w, l') ->
  (left_over x l = left_over x l' + (if Nat.eqb w x then 1 else 0))%nat /\ length l' = length l.
Proof.
  revert l'. induction l as [|[u ws] l IH]; cbn [pop_pending]; intros l'; [discriminate|].
  destruct (Nat.eqb u t).
  - destruct ws as [|y ws]; [discriminate|]. intros [= -> <-]. cbn [left_over fold_right snd length]. fold (left_over x l).
    unfold count. cbn [filter]. rewrite (Nat.eqb_sym w x). destruct (Nat.eqb x w); cbn [length]; split; lia.
  - destruct (pop_pending t l) as [[w' l'']|]; [|discriminate]. intros [= -> <-]. destruct (IH _ eq_refl) as [A B].
    cbn [left_over fold_right snd length]. fold (left_over x l) (left_over x l''). split; lia.
Qed.
Lemma drop_left t l l' x : drop_pending t l = Some l' -> left_over x l = left_over x l' /\ (length l = S (length l'))%nat.
Proof.
  revert l'. induction l as [|[u ws] l IH]; cbn [drop_pending]; intros l'; [discriminate|].
  destruct (Nat.eqb u t).
  - destruct ws as [|y ws]; [|discriminate]. intros [= ->]. cbn. auto.
  - destruct (drop_pending t l) as [l''|]; [|discriminate]. intros [= <-]. destruct (IH _ eq_refl) as [A B].
    cbn [left_over fold_right snd length]. fold (left_over x l) (left_over x l''). split; lia.
Qed.

Lemma ended_app a b : ended (a ++ b) = match ended a with Some o => Some o | None => ended b end.
Proof.
  induction a as [|e a IH]; cbn [app ended]; [reflexivity|]. destruct e as [|? [| |]| | |]; auto.
Qed.

(** The invariant of all executions. *)
Record Inv (es : list event) (s : st) : Prop := {
  i_begin : (count is_begin (log s) = count is_foreign es + (match holder s with Some _ => 1 | None => 0 end) + (if m_init s then 1 else 0))%nat;
  i_final : (count is_final (log s) + length (pending s) = if m_init s then 1 else 0)%nat;
  i_hold : m_init s = true -> holder s = None /\ m_waiters s = [];
  i_wait : forall w, count (is_wait w) es =
     (count (is_ready_now w) (log s) + count (is_notified w) (log s) + count (Nat.eqb w) (m_waiters s) + left_over w (pending s))%nat;
  i_end : if m_init s then exists o, ended es = Some o /\ m_except s = match o with Throws e => Some e | _ => None end
          else ended es = None /\ m_except s = None }.

Lemma inv_step es s e s' : Inv es s -> step s e = Some s' -> Inv (es ++ [e]) s'.
Proof.
  intros [I1 I2 I3 I4 I5] H. destruct e as [t|t o|t|t|w]; cbn [step] in H.
  - unfold enter in H. destruct (holder s) eqn:Hh; [discriminate|]. destruct (m_init s) eqn:Hi; injection H as <-.
    + split; rewrite ?count_app, ?count_one, ?Hi, ?Hh; cbn [is_foreign]; auto; try lia.
      * intros w. rewrite count_app, count_one. cbn. rewrite I4. lia.
      * destruct I5 as (o & E & X). exists o. rewrite ended_app, E. auto.
    + split; cbn [m_init m_except holder m_waiters pending log]; rewrite ?count_app, ?count_one; cbn [is_foreign is_begin is_final]; auto; try lia; try discriminate.
      * intros w. rewrite !count_app, !count_one. cbn. rewrite I4. lia.
      * destruct I5 as (E & X). rewrite ended_app, E. auto.
  - unfold leave in H. destruct (holder s) as [h|] eqn:Hh; [|discriminate]. destruct (Nat.eqb h t); cbn [negb] in H; [|discriminate].
    assert (Hi : m_init s = false) by (destruct (m_init s); auto; destruct (I3 eq_refl); congruence). rewrite Hi in *. destruct I5 as (E & X).
    assert (W : forall w, left_over w (pending s ++ [(t, m_waiters s)]) = (left_over w (pending s) + count (Nat.eqb w) (m_waiters s))%nat).
    { intros w. rewrite left_over_app. cbn [left_over fold_right snd]. lia. }
    destruct o as [|ex|]; injection H as <-.
    + split; cbn [m_init m_except holder m_waiters pending log]; rewrite ?count_app, ?count_one, ?app_length; cbn [is_foreign length]; auto; try lia.
      * intros w. rewrite count_app, count_one, W. cbn [is_wait]. rewrite I4. cbn. lia.
      * exists Returns. rewrite ended_app, E. auto.
    + split; cbn [m_init m_except holder m_waiters pending log]; rewrite ?count_app, ?count_one, ?app_length; cbn [is_foreign length]; auto; try lia.
      * intros w. rewrite count_app, count_one, W. cbn [is_wait]. rewrite I4. cbn. lia.
      * exists (Throws ex). rewrite ended_app, E. auto.
    + split; cbn [m_init m_except holder m_waiters pending log]; rewrite ?count_app, ?count_one, ?Hi; cbn [is_foreign]; auto; try lia; try discriminate.
      * intros w. rewrite count_app, count_one. cbn [is_wait]. rewrite I4. lia.
      * rewrite ended_app, E. auto.
  - unfold notify_one in H. destruct (pop_pending t (pending s)) as [[w l]|] eqn:P; [|discriminate]. injection H as <-.
    split; cbn [m_init m_except holder m_waiters pending log]; rewrite ?count_app, ?count_one; cbn [is_foreign is_begin is_final]; auto; try lia.
    + destruct (pop_left _ _ _ _ w P) as [_ L]. lia.
    + intros x. rewrite !count_app, !count_one. cbn [is_wait is_ready_now is_notified]. rewrite I4.
      destruct (pop_left _ _ _ _ x P) as [Q _]. rewrite Q. destruct (Nat.eqb w x); lia.
    + destruct (m_init s); [destruct I5 as (o & E & X); exists o|destruct I5 as (E & X)]; rewrite ended_app, E; auto.
  - unfold final in H. destruct (drop_pending t (pending s)) as [l|] eqn:P; [|discriminate]. injection H as <-.
    split; cbn [m_init m_except holder m_waiters pending log]; rewrite ?count_app, ?count_one; cbn [is_foreign is_begin is_final]; auto; try lia.
    + destruct (drop_left _ _ _ 0%nat P) as [_ L]. lia.
    + intros x. rewrite !count_app, !count_one. cbn [is_wait is_ready_now is_notified]. rewrite I4.
      destruct (drop_left _ _ _ x P) as [Q _]. lia.
    + destruct (m_init s); [destruct I5 as (o & E & X); exists o|destruct I5 as (E & X)]; rewrite ended_app, E; auto.
  - unfold wait in H. destruct (holder s) eqn:Hh; [discriminate|]. destruct (m_init s) eqn:Hi; injection H as <-.
    + split; cbn [m_init m_except holder m_waiters pending log]; rewrite ?count_app, ?count_one; cbn [is_foreign is_begin is_final]; auto; try lia.
      * intros x. rewrite !count_app, !count_one. cbn [is_wait is_ready_now is_notified]. rewrite I4. destruct (Nat.eqb w x); lia.
      * destruct I5 as (o & E & X). exists o. rewrite ended_app, E. auto.
    + split; cbn [m_init m_except holder m_waiters pending log]; rewrite ?count_app, ?count_one; cbn [is_foreign is_begin is_final]; auto; try lia; try discriminate.
      * intros x. rewrite !count_app, !count_one. cbn [is_wait]. rewrite I4, (Nat.eqb_sym x w). destruct (Nat.eqb w x); lia.
      * destruct I5 as (E & X). rewrite ended_app, E. auto.
Qed.

Lemma reach es s : run init es = Some s -> Inv es s.
Proof.
  revert s. induction es as [|e es IH] using rev_ind; intros s H.
  - injection H as <-. split; cbn; auto; discriminate.
  - rewrite run_app in H. destruct (run init es) as [s1|] eqn:E1; [|discriminate]. cbn in H.
    destruct (step s1 e) as [s2|] eqn:E2; [|discriminate]. injection H as ->. eapply inv_step; eauto.
Qed.

(** Two fibers wait, thread 1 fails with exception 9, thread 2 comes late. *)
Definition sample : list event :=
  [Wait 10; Enter 1; Leave 1 (Throws 9); Enter 2; Wait 20; NotifyOne 1; Final 1]%nat.
Example sample_runs : run init sample = Some (mkS true (Some 9) None [] [] [InitBegins 1; AlreadyReady 20; Notified 10; Finalizes 1]%nat).
Proof. vm_compute. reflexivity. Qed.

(** * C24 *)

(** The initialization callback begins at most once, in whichever threads and
    however often initialization is requested, provided that it does not throw
    something that is not a standard exception; in general, once more for each
    time it does. *)
Theorem future_once_partial : forall (es : list event) (s : st),
  run init es = Some s ->
  (count is_begin (log s) <= 1 + count is_foreign es)%nat
  /\ (count is_foreign es = 0%nat -> (count is_begin (log s) <= 1)%nat).
Proof.
  intros es s H. destruct (reach _ _ H) as [I1 _ I3 _ _].
  assert ((match holder s with Some _ => 1 | None => 0 end) + (if m_init s then 1 else 0) <= 1)%nat.
  { destruct (m_init s); [destruct (I3 eq_refl) as [-> _]; lia|destruct (holder s); lia]. }
  split; lia.
Qed.
Print Assumptions future_once_partial.
Example future_once_ex : count is_foreign sample = 0%nat.
Proof. reflexivity. Qed.

(** The full statement is false: a foreign exception is neither caught nor
    saved, and the callback runs again. *)
Theorem future_once_refuted : exists es s, run init es = Some s /\ count is_begin (log s) = 2%nat /\ m_except s = None.
Proof. exists [Enter 1; Leave 1 ThrowsForeign; Enter 2]%nat. eexists. split; [vm_compute; reflexivity|]. vm_compute. auto. Qed.
Print Assumptions future_once_refuted.

(** A future that is initialized stays so, with the same result. *)
Theorem future_stays : forall (es more : list event) (s s' : st),
  run init es = Some s -> run s more = Some s' -> initialized s = true ->
  initialized s' = true /\ successful s' = successful s /\ count is_begin (log s') = count is_begin (log s).
Proof.
  intros es more s s' H H' Hi. assert (H2 : run init (es ++ more) = Some s') by (rewrite run_app, H; auto).
  unfold initialized, successful in *.
  assert (G : m_init s' = true).
  { clear H H2. revert s H' Hi. induction more as [|e more IH]; cbn [run]; intros s H Hi; [injection H as <-; auto|].
    destruct (step s e) as [s1|] eqn:E; [|discriminate]. apply (IH s1); auto.
    destruct e as [t|t o|t|t|w]; cbn [step] in E.
    - unfold enter in E. destruct (holder s); [discriminate|]. rewrite Hi in E. injection E as <-. auto.
    - unfold leave in E. destruct (holder s); [|discriminate]. destruct (negb _); [discriminate|]. destruct o; injection E as <-; auto.
    - unfold notify_one in E. destruct (pop_pending t (pending s)) as [[w l]|]; [|discriminate]. injection E as <-. auto.
    - unfold final in E. destruct (drop_pending t (pending s)); [|discriminate]. injection E as <-. auto.
    - unfold wait in E. destruct (holder s); [discriminate|]. rewrite Hi in E. injection E as <-. auto. }
  destruct (reach _ _ H) as [I1 _ I3 _ I5]. destruct (reach _ _ H2) as [J1 _ J3 _ J5].
  rewrite Hi in *. rewrite G in *. destruct I5 as (o & E & X). destruct J5 as (o' & E' & X'). rewrite ended_app, E in E'. injection E' as <-.
  split; [auto|]. split; [now rewrite X, X'|].
  destruct (I3 eq_refl) as [A _]. destruct (J3 eq_refl) as [B _]. rewrite A in I1. rewrite B in J1. rewrite count_app in J1.
  enough (count is_foreign more = 0%nat) by lia.
  (* no callback can end any more *)
  clear - H' Hi I3 H. revert s H' Hi I3 H. 
  assert (M : forall more s, run s more = Some s' -> m_init s = true -> holder s = None -> count is_foreign more = 0%nat).
  { induction more0 as [|e l IH]; cbn [run]; intros s Hr Hi Hh; [reflexivity|].
    destruct (step s e) as [s1|] eqn:E; [|discriminate].
    assert (K : m_init s1 = true /\ holder s1 = None /\ is_foreign e = false).
    { destruct e as [t|t o|t|t|w]; cbn [step] in E.
      - unfold enter in E. rewrite Hh, Hi in E. injection E as <-. auto.
      - unfold leave in E. rewrite Hh in E. discriminate.
      - unfold notify_one in E. destruct (pop_pending t (pending s)) as [[w l0]|]; [|discriminate]. injection E as <-. auto.
      - unfold final in E. destruct (drop_pending t (pending s)); [|discriminate]. injection E as <-. auto.
      - unfold wait in E. rewrite Hh, Hi in E. injection E as <-. auto. }
    destruct K as (K1 & K2 & K3). unfold count. cbn [filter]. rewrite K3. apply (IH s1); auto. }
  intros s Hr Hi I3 H. apply (M more s); auto. now destruct (I3 eq_refl).
Qed.
Print Assumptions future_stays.
Example future_stays_ex : exists s s', run init (firstn 3 sample) = Some s /\ initialized s = true /\ run s (skipn 3 sample) = Some s'.
Proof. eexists. eexists. split; [vm_compute; reflexivity|]. split; vm_compute; reflexivity. Qed.

(** Every fiber which waits is accounted for: it finds the future ready, or it is
    notified, or it is still registered or about to be notified.  When the future
    is initialized and the initializing thread is done, each wait has ended in
    one of the first two ways, and the finalization callback has run once. *)
Theorem future_wakes_all : forall (es : list event) (s : st),
  run init es = Some s -> initialized s = true -> pending s = [] ->
  (forall w, count (is_wait w) es = count (is_ready_now w) (log s) + count (is_notified w) (log s))%nat
  /\ count is_final (log s) = 1%nat.
Proof.
  intros es s H Hi Hp. unfold initialized in Hi. destruct (reach _ _ H) as [_ I2 I3 I4 _]. rewrite Hi, Hp in *.
  destruct (I3 eq_refl) as [_ W]. split.
  - intros w. rewrite I4, W. cbn. lia.
  - cbn in I2. lia.
Qed.
Print Assumptions future_wakes_all.
Example future_wakes_all_ex : match run init sample with Some s => initialized s = true /\ pending s = [] | None => False end.
Proof. vm_compute. auto. Qed.

(** Nobody is notified, and nothing is finalized, before the future is
    initialized. *)
Theorem future_not_early : forall (es : list event) (s : st),
  run init es = Some s -> initialized s = false ->
  count is_final (log s) = 0%nat /\ forall w, count (is_notified w) (log s) = 0%nat /\ count (is_ready_now w) (log s) = 0%nat.
Proof.
  intros es s H Hi. unfold initialized in Hi. split.
  { destruct (reach _ _ H) as [_ I2 _ _ _]. rewrite Hi in I2. lia. }
  revert s H Hi. induction es as [|e es IH] using rev_ind; intros s H Hi w.
  - injection H as <-. auto.
  - rewrite run_app in H. destruct (run init es) as [s1|] eqn:E1; [|discriminate]. cbn in H.
    destruct (step s1 e) as [s2|] eqn:E2; [|discriminate]. injection H as ->. specialize (IH s1 eq_refl).
    destruct (reach _ _ E1) as [_ I2 I3 _ _].
    destruct e as [t|t o|t|t|x]; cbn [step] in E2.
    + unfold enter in E2. destruct (holder s1); [discriminate|]. destruct (m_init s1) eqn:Hi1; injection E2 as <-; [congruence|].
      destruct (IH eq_refl w) as [K1 K2]. cbn [log]. unfold count in *. rewrite !filter_app, !app_length. cbn [filter is_notified is_ready_now length]. lia.
    + unfold leave in E2. destruct (holder s1) eqn:Hh; [|discriminate]. destruct (negb _); [discriminate|].
      destruct o; injection E2 as <-; try discriminate Hi. exact (IH Hi w).
    + unfold notify_one in E2. destruct (pop_pending t (pending s1)) as [[y l]|] eqn:P; [|discriminate]. injection E2 as <-. cbn in Hi. rewrite Hi in *.
      destruct (pending s1); [discriminate|cbn in I2; lia].
    + unfold final in E2. destruct (drop_pending t (pending s1)) eqn:P; [|discriminate]. injection E2 as <-. cbn in Hi. rewrite Hi in *.
      destruct (pending s1); [discriminate|cbn in I2; lia].
    + unfold wait in E2. destruct (holder s1); [discriminate|]. destruct (m_init s1) eqn:Hi1; injection E2 as <-; [discriminate|]. exact (IH eq_refl w).
Qed.
Print Assumptions future_not_early.
Example future_not_early_ex : match run init (firstn 2 sample) with Some s => initialized s = false | None => False end.
Proof. vm_compute. auto. Qed.

(** [successful] tells the truth: the future is initialized and its callback
    returned; and a saved exception is the one that the callback threw. *)
Theorem future_successful : forall (es : list event) (s : st),
  run init es = Some s ->
  initialized s = (match ended es with Some _ => true | None => false end)
  /\ successful s = (match ended es with Some Returns => true | _ => false end)
  /\ forall e, m_except s = Some e <-> ended es = Some (Throws e).
Proof.
  intros es s H. destruct (reach _ _ H) as [_ _ _ _ I5]. unfold initialized, successful.
  assert (NF : forall l, ended l <> Some ThrowsForeign).
  { induction l as [|e l IH]; cbn; [discriminate|]. destruct e as [|? [| |]| | |]; auto; discriminate. }
  destruct (m_init s).
  - destruct I5 as (o & E & X). specialize (NF es). rewrite E in *. rewrite X. destruct o; cbn; repeat split; intros; congruence.
  - destruct I5 as (-> & ->). cbn. repeat split; intros; congruence.
Qed.
Print Assumptions future_successful.
Example future_successful_ex : ended sample = Some (Throws 9).
Proof. reflexivity. Qed.

(** * C25 *)

(** The out-of-line function rethrows the saved exception. *)
Theorem future_rethrow_partial : forall (es : list event) (s : st) (e : Z),
  run init es = Some s -> ended es = Some (Throws e) -> do_check_success s = Rethrown e.
Proof.
  intros es s e H E. destruct (future_successful es s H) as (A & _ & B). apply B in E as X. unfold initialized in A. rewrite E in A.
  unfold do_check_success. now rewrite A, X.
Qed.
Print Assumptions future_rethrow_partial.

(** A check of a future that is not initialized throws. *)
Theorem future_check_not_ready : forall (es : list event) (s : st),
  run init es = Some s -> initialized s = false -> check_success s s = NotReady.
Proof. intros es s _ H. unfold initialized in H. unfold check_success, do_check_success. now rewrite H. Qed.
Print Assumptions future_check_not_ready.

(** But [check_success], which users call, reports success for every failed
    future: it only calls the other function if the future is not initialized. *)
Theorem future_rethrow_refuted :
  (exists es s e, run init es = Some s /\ ended es = Some (Throws e) /\ check_success s s = Fine)
  /\ forall es s s', run init es = Some s -> initialized s = true -> check_success s s' = Fine.
Proof.
  split.
  - exists sample. eexists. exists 9. split; [vm_compute; reflexivity|]. split; reflexivity.
  - intros es s s' _ H. unfold initialized in H. unfold check_success. now rewrite H.
Qed.
Print Assumptions future_rethrow_refuted.
