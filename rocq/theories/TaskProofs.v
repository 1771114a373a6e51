(** Proofs about the task scheduler. *)
From Coq Require Import ZArith List Lia Bool Arith Permutation.
From Verif Require Import TaskModel TaskSpec.
Import ListNotations.

Lemma run_app s e1 e2 : run s (e1 ++ e2) = match run s e1 with Some s1 => run s1 e2 | None => None end.
Proof. revert s. induction e1 as [|e e1 IH]; cbn; intros s; auto. destruct (step s e); auto. Qed.

Lemma pop_back_app {A} (l l' : list A) x : pop_back l = Some (l', x) -> l = l' ++ [x].
Proof.
  revert l'. induction l as [|y l IH]; cbn; intros l'; [discriminate|].
  destruct (pop_back l) as [[l1 z]|] eqn:E; intros [= <- <-].
  - now rewrite (IH _ eq_refl).
  - destruct l as [|w l]; [reflexivity|]. cbn in E. destruct (pop_back l) as [[? ?]|]; discriminate.
Qed.
Lemma pop_back_none {A} (l : list A) : pop_back l = None -> l = [].
Proof. destruct l as [|y l]; auto. cbn. destruct (pop_back l) as [[? ?]|]; discriminate. Qed.
Lemma pop_back_snoc {A} (l : list A) x : pop_back (l ++ [x]) = Some (l, x).
Proof. induction l as [|y l IH]; cbn; auto. now rewrite IH. Qed.

Lemma remove_worker_split w l j l' : remove_worker w l = Some (j, l') ->
  exists a b, l = a ++ (w, j) :: b /\ l' = a ++ b.
Proof.
  revert l'. induction l as [|[v k] l IH]; cbn; intros l'; [discriminate|].
  destruct (Nat.eqb_spec v w) as [->|].
  - intros [= -> ->]. exists [], l'. auto.
  - destruct (remove_worker w l) as [[k' l'']|]; [|discriminate]. intros [= -> <-].
    destruct (IH _ eq_refl) as (a & b & -> & ->). exists ((v, k) :: a), b. auto.
Qed.

Lemma launches_app a b : launches (a ++ b) = launches a ++ launches b.
Proof. induction a as [|[] a IH]; cbn; auto. now rewrite IH. Qed.

(** The order in which jobs come off the queue. *)
Definition precedes (a b : job) : Prop := j_batch a < j_batch b \/ j_batch a = j_batch b /\ j_no b < j_no a.

Definition in_lock (s : st) : list job := match locker s with Some (_, j) => [j] | None => [] end.

Fixpoint sorted_by {A} (R : A -> A -> Prop) (l : list A) : Prop :=
  match l with
  | [] => True
  | x :: l => Forall (R x) l /\ sorted_by R l
  end.
Lemma sorted_snoc {A} (R : A -> A -> Prop) l x : sorted_by R (l ++ [x]) <-> sorted_by R l /\ Forall (fun y => R y x) l.
Proof.
  induction l as [|y l IH]; cbn [sorted_by app].
  - split; intros; repeat split; auto.
  - rewrite IH. split.
    + intros (A1 & A2 & A3). apply Forall_app in A1 as [A1 A4]. inversion A4; subst. repeat split; auto.
    + intros ((A1 & A2) & A3). inversion A3; subst. repeat split; auto. apply Forall_app. auto.
Qed.
Lemma sorted_before {A} (R : A -> A -> Prop) l a b : sorted_by R l -> before a b l -> R a b.
Proof.
  intros S (x & y & z & ->). induction x as [|c x IH]; cbn in S.
  - destruct S as [F _]. rewrite Forall_forall in F. apply F. apply in_app_iff. right. now left.
  - apply IH, S.
Qed.
Lemma two_in {A} (l : list A) a b : In a l -> In b l -> a <> b -> before a b l \/ before b a l.
Proof.
  intros Ha Hb N. apply in_split in Ha as (x & y & ->). apply in_app_iff in Hb as [Hb|[Hb|Hb]]; [right| |left].
  - apply in_split in Hb as (u & v & ->). exists u, v, y. now rewrite <- app_assoc.
  - congruence.
  - apply in_split in Hb as (u & v & ->). exists x, u, v. auto.
Qed.

Record Inv (es : list event) (s : st) : Prop := {
  i_all : Permutation (launched s) (front s ++ back s ++ in_lock s ++ map snd (running s) ++ finished s ++ dropped s);
  i_taken : Permutation (taken s) (in_lock s ++ map snd (running s) ++ finished s ++ dropped s);
  i_begun : Permutation (begun s) (map snd (running s) ++ finished s);
  i_tasks : map j_task (launched s) = launches es;
  i_nos : forall n j, nth_error (launched s) n = Some j -> j_no j = n;
  i_gone : forall t, In t (gone s) <-> In (Abandon t) es;
  i_drop : forall j, In j (dropped s) -> In (Abandon (j_task j)) es;
  i_back : Forall (fun j => j_batch j = swaps s) (back s) /\ sorted_by (fun a b => j_no a < j_no b) (back s);
  i_front : Forall (fun j => S (j_batch j) = swaps s) (front s) /\ sorted_by (fun a b => j_no a < j_no b) (front s);
  i_order : sorted_by precedes (taken s);
  i_past : Forall (fun j => j_batch j < swaps s) (taken s);
  i_last : Forall (fun a => Forall (fun b => precedes a b) (front s)) (taken s);
  i_mono : sorted_by (fun a b => j_batch a <= j_batch b) (launched s);
  i_cap : Forall (fun j => j_batch j <= swaps s) (launched s);
  i_excl : NoDup (map (fun r => j_task (snd r)) (running s));
  i_work : NoDup (map fst (running s) ++ match locker s with Some (w, _) => [w] | None => [] end) }.

Lemma Forall_imp {A} (P Q : A -> Prop) l : Forall P l -> (forall x, P x -> Q x) -> Forall Q l.
Proof. intros F H. eapply Forall_impl; eauto. Qed.

Lemma nos_lt s j : (forall n j, nth_error (launched s) n = Some j -> j_no j = n) -> In j (launched s) -> j_no j < length (launched s).
Proof. intros H Hj. apply In_nth_error in Hj as [n Hn]. rewrite (H _ _ Hn). apply nth_error_Some. congruence. Qed.

Lemma inv_step es s e s' : Inv es s -> step s e = Some s' -> Inv (es ++ [e]) s'.
Proof.
  intros [I1 I2 I3 I4 I5 I6 I7 [I8 I8'] [I9 I9'] I10 I11 I12 I13 I14 I15 I16] H.
  assert (G0 : forall e t, In (Abandon t) (es ++ [e]) <-> In (Abandon t) es \/ e = Abandon t).
  { intros e0 t. rewrite in_app_iff. cbn. intuition. }
  destruct e as [t|w|w|w|t]; cbn [step] in H.
  - (* launch *) unfold launch in H. destruct (locker s) as [[]|] eqn:L; [discriminate|]. injection H as <-. unfold in_lock in *. rewrite L in *.
    split; unfold in_lock; cbn [front back locker running gone finished dropped taken begun launched swaps]; auto.
    + generalize (mkJ (length (launched s)) t (swaps s)). intros j. rewrite <- (app_assoc (back s)). cbn [app] in *.
      rewrite <- Permutation_cons_append. rewrite I1.
      transitivity ((front s ++ back s) ++ j :: map snd (running s) ++ finished s ++ dropped s).
      * rewrite app_assoc. apply Permutation_middle.
      * rewrite <- app_assoc. reflexivity.
    + rewrite map_app, launches_app, I4. reflexivity.
    + intros n j Hn. destruct (Nat.lt_ge_cases n (length (launched s))).
      * rewrite nth_error_app1 in Hn by auto. auto.
      * rewrite nth_error_app2 in Hn by auto. destruct (n - length (launched s)) eqn:D; cbn in Hn; [injection Hn as <-; cbn; lia|destruct n0; discriminate].
    + intros x. rewrite G0, I6. intuition discriminate.
    + intros j Hj. apply G0. auto.
    + split; [apply Forall_app; split; auto|]. apply sorted_snoc. split; auto. apply Forall_forall. intros j Hj. cbn.
      apply (nos_lt s); auto. apply (Permutation_in j (Permutation_sym I1)). rewrite !in_app_iff. auto.
    + apply sorted_snoc. auto.
    + apply Forall_app. split; auto.
  - (* take *) unfold take in H. destruct (locker s) as [[]|] eqn:L; [discriminate|]. destruct (busy s w) eqn:B; [discriminate|].
    unfold in_lock in *. rewrite L in *. cbn [app] in *.
    set (fbk := if match front s with [] => true | _ => false end then (back s, front s, S (swaps s)) else (front s, back s, swaps s)) in H.
    assert (F : exists f b k, fbk = (f, b, k) /\ Permutation (f ++ b) (front s ++ back s)
      /\ Forall (fun j => j_batch j = k) b /\ sorted_by (fun a b => j_no a < j_no b) b
      /\ Forall (fun j => S (j_batch j) = k) f /\ sorted_by (fun a b => j_no a < j_no b) f
      /\ Forall (fun a => Forall (precedes a) f) (taken s) /\ swaps s <= k).
    { unfold fbk. destruct (front s) as [|x q] eqn:Q.
      - exists (back s), [], (S (swaps s)). repeat split; auto.
        + rewrite app_nil_r. reflexivity.
        + eapply Forall_imp; [exact I8|]. cbn. lia.
        + eapply Forall_imp; [exact I11|]. cbn. intros a Ha. eapply Forall_imp; [exact I8|]. cbn. unfold precedes. lia.
      - exists (x :: q), (back s), (swaps s). auto 10. }
    destruct F as (f & b & k & EF & P & F1 & F2 & F3 & F4 & F5 & F6). rewrite EF in H. clear fbk EF.
    destruct (pop_back f) as [[f' j]|] eqn:E; [|discriminate]. apply pop_back_app in E. subst f.
    apply Forall_app in F3 as [F3 F3']. inversion F3' as [|? ? Hj _]; subst. apply sorted_snoc in F4 as [F4 F4'].
    assert (C : Forall (fun a => precedes a j) (taken s)).
    { eapply Forall_imp; [exact F5|]. cbn. intros a Ha. rewrite Forall_forall in Ha. apply Ha, in_app_iff. cbn. auto. }
    assert (C2 : Forall (precedes j) f').
    { rewrite Forall_forall in *. intros y Hy. right. specialize (F3 y Hy). specialize (F4' y Hy). cbn in *. lia. }
    assert (C3 : Forall (fun a => Forall (precedes a) f') (taken s)).
    { eapply Forall_imp; [exact F5|]. cbn. intros a Ha. apply Forall_app in Ha. tauto. }
    assert (P2 : Permutation (front s ++ back s) (j :: f' ++ b)).
    { rewrite <- P, <- app_assoc. symmetry. apply Permutation_middle. }
    assert (C4 : Forall (fun a => j_batch a < S (j_batch j)) (taken s ++ [j])).
    { apply Forall_app. split; [|auto]. eapply Forall_imp; [exact I11|]. cbn. lia. }
    destruct (is_gone s (j_task j)) eqn:G; injection H as <-;
      (split; unfold in_lock; cbn [front back locker running gone finished dropped taken begun launched swaps]; auto).
    + rewrite I1, !app_assoc, P2. rewrite <- !app_assoc. cbn [app]. rewrite Permutation_cons_append, <- !app_assoc. reflexivity.
    + rewrite I2, <- !app_assoc. reflexivity.
    + rewrite launches_app, I4. cbn. now rewrite app_nil_r.
    + intros x. rewrite G0, I6. intuition discriminate.
    + intros x Hx. apply in_app_iff in Hx as [Hx|[<-|[]]]; [apply G0; auto|]. apply G0. left. apply I6.
      unfold is_gone in G. apply existsb_exists in G as (y & Hy & Ey). apply Nat.eqb_eq in Ey. now subst y.
    + apply sorted_snoc. auto.
    + apply Forall_app. split; auto.
    + eapply Forall_imp; [exact I14|]. cbn. lia.
    + rewrite I1, !app_assoc, P2. rewrite <- !app_assoc. cbn [app].
      rewrite (app_assoc f' b). transitivity ((f' ++ b) ++ j :: map snd (running s) ++ finished s ++ dropped s).
      * rewrite <- Permutation_middle. now rewrite <- !app_assoc.
      * now rewrite <- !app_assoc.
    + rewrite <- Permutation_cons_append. cbn [app]. now constructor.
    + rewrite launches_app, I4. cbn. now rewrite app_nil_r.
    + intros x. rewrite G0, I6. intuition discriminate.
    + intros x Hx. apply G0. auto.
    + apply sorted_snoc. auto.
    + apply Forall_app. split; auto.
    + eapply Forall_imp; [exact I14|]. cbn. lia.
    + rewrite app_nil_r in I16. apply (Permutation_NoDup (Permutation_cons_append _ _)). constructor; auto.
      intros Hin. apply in_map_iff in Hin as (r & Hr & Hr2). unfold busy in B.
      rewrite <- not_true_iff_false, existsb_exists in B. apply B. exists r. split; auto. now apply Nat.eqb_eq.
  - (* begin *) unfold begin_ in H. destruct (locker s) as [[v j]|] eqn:L; [|discriminate]. destruct (Nat.eqb_spec v w) as [->|]; [|discriminate].
    cbn [negb] in H. destruct (held s (j_task j)) eqn:Hh; [discriminate|]. injection H as <-.
    unfold in_lock in *. rewrite L in *.
    split; unfold in_lock; cbn [front back locker running gone finished dropped taken begun launched swaps map snd app fst] in *; auto.
    + rewrite <- Permutation_cons_append. now constructor.
    + rewrite launches_app, I4. cbn. now rewrite app_nil_r.
    + intros x. rewrite G0, I6. intuition discriminate.
    + intros x Hx. apply G0. auto.
    + constructor; auto. intros Hin. apply in_map_iff in Hin as (r & Hr & Hr2).
      unfold held in Hh. rewrite <- not_true_iff_false, existsb_exists in Hh. apply Hh. exists r. split; auto. now apply Nat.eqb_eq.
    + rewrite app_nil_r. apply (Permutation_NoDup (Permutation_sym (Permutation_cons_append _ _))). exact I16.
  - (* end *) unfold end_ in H. destruct (remove_worker w (running s)) as [[j l]|] eqn:R; [|discriminate]. injection H as <-.
    destruct (remove_worker_split _ _ _ _ R) as (a & b & Ra & ->).
    assert (PR : Permutation (map snd (running s)) (j :: map snd (a ++ b))).
    { rewrite Ra, !map_app. cbn [map snd]. symmetry. apply Permutation_middle. }
    split; unfold in_lock in *; cbn [front back locker running gone finished dropped taken begun launched swaps] in *; auto.
    + rewrite I1, PR. do 3 apply Permutation_app_head. cbn [app]. rewrite <- (app_assoc (finished s)). cbn [app].
      rewrite !app_assoc. rewrite <- Permutation_middle. reflexivity.
    + rewrite I2, PR. apply Permutation_app_head. cbn [app]. rewrite <- (app_assoc (finished s)). cbn [app].
      rewrite !app_assoc. rewrite <- Permutation_middle. reflexivity.
    + rewrite I3, PR. cbn [app]. rewrite app_assoc, <- Permutation_cons_append. reflexivity.
    + rewrite launches_app, I4. cbn. now rewrite app_nil_r.
    + intros x. rewrite G0, I6. intuition discriminate.
    + intros x Hx. apply G0. auto.
    + rewrite Ra, map_app in I15. cbn [map] in I15. rewrite map_app. eapply NoDup_remove_1; eauto.
    + rewrite Ra, map_app, <- app_assoc in I16. cbn [map app fst] in I16. rewrite map_app, <- app_assoc. eapply NoDup_remove_1; eauto.
  - (* abandon *) injection H as <-. unfold abandon.
    split; unfold in_lock in *; cbn [front back locker running gone finished dropped taken begun launched swaps] in *; auto.
    + rewrite launches_app, I4. cbn. now rewrite app_nil_r.
    + intros x. rewrite G0. cbn. rewrite I6. intuition congruence.
    + intros x Hx. apply G0. auto.
Qed.

Lemma reach es s : run init es = Some s -> Inv es s.
Proof.
  revert s. induction es as [|e es IH] using rev_ind; intros s H.
  - injection H as <-. split; cbn; auto; try constructor; try tauto; auto. intros [|n]; discriminate.
  - rewrite run_app in H. destruct (run init es) as [s1|] eqn:E1; [|discriminate]. cbn in H.
    destruct (step s1 e) as [s2|] eqn:E2; [|discriminate]. injection H as ->. eapply inv_step; eauto.
Qed.

Lemma launched_nodup es s : Inv es s -> NoDup (launched s).
Proof.
  intros [_ _ _ _ I5 _ _ _ _ _ _ _ _ _ _ _]. apply NoDup_nth_error. intros i j Hi E.
  destruct (nth_error (launched s) i) as [a|] eqn:A; [|apply nth_error_None in A; lia].
  rewrite <- (I5 _ _ A). symmetry in E. now rewrite (I5 _ _ E).
Qed.

Lemma taken_grows s e s' : step s e = Some s' -> exists l, taken s' = taken s ++ l.
Proof.
  destruct e as [t|w|w|w|t]; cbn [step].
  - unfold launch. destruct (locker s); [discriminate|]. intros [= <-]. exists []. cbn. now rewrite app_nil_r.
  - unfold take. destruct (locker s); [discriminate|]. destruct (busy s w); [discriminate|].
    destruct (if match front s with [] => true | _ => false end then _ else _) as [[f b] k].
    destruct (pop_back f) as [[f' j]|]; [|discriminate]. destruct (is_gone _ _); intros [= <-]; exists [j]; reflexivity.
  - unfold begin_. destruct (locker s) as [[v j]|]; [|discriminate]. destruct (negb _); [discriminate|]. destruct (held _ _); [discriminate|].
    intros [= <-]. exists []. cbn. now rewrite app_nil_r.
  - unfold end_. destruct (remove_worker _ _) as [[j l]|]; [|discriminate]. intros [= <-]. exists []. cbn. now rewrite app_nil_r.
  - intros [= <-]. exists []. cbn. now rewrite app_nil_r.
Qed.
Lemma taken_run s es s' : run s es = Some s' -> exists l, taken s' = taken s ++ l.
Proof.
  revert s. induction es as [|e es IH]; cbn [run]; intros s H; [injection H as <-; exists []; now rewrite app_nil_r|].
  destruct (step s e) as [s1|] eqn:E; [|discriminate]. destruct (taken_grows _ _ _ E) as [l Hl]. destruct (IH _ H) as [l' Hl'].
  exists (l ++ l'). rewrite Hl', Hl. now rewrite app_assoc.
Qed.

(** A take removes the last job of the front queue, if there is one. *)
Lemma front_step s e s' f b j : step s e = Some s' -> front s = f ++ j :: b ->
  match e with
  | Take _ => match pop_back b with
              | None => taken s' = taken s ++ [j]
              | Some (b', _) => front s' = f ++ j :: b'
              end
  | _ => front s' = front s
  end.
Proof.
  intros H Hf. destruct e as [t|w|w|w|t]; cbn [step] in H.
  - unfold launch in H. destruct (locker s); [discriminate|]. injection H as <-. reflexivity.
  - unfold take in H. destruct (locker s); [discriminate|]. destruct (busy s w); [discriminate|].
    assert (E : match front s with [] => true | _ => false end = false) by (rewrite Hf; destruct f; reflexivity).
    rewrite E in H. rewrite Hf in H.
    destruct (pop_back b) as [[b' x]|] eqn:Eb.
    + apply pop_back_app in Eb. subst b. rewrite (app_assoc f (j :: b') [x] : f ++ j :: b' ++ [x] = (f ++ j :: b') ++ [x]) in H.
      rewrite pop_back_snoc in H. destruct (is_gone _ _); injection H as <-; reflexivity.
    + apply pop_back_none in Eb. subst b. rewrite pop_back_snoc in H. destruct (is_gone _ _); injection H as <-; reflexivity.
  - unfold begin_ in H. destruct (locker s) as [[v k]|]; [|discriminate]. destruct (negb _); [discriminate|]. destruct (held _ _); [discriminate|].
    injection H as <-. reflexivity.
  - unfold end_ in H. destruct (remove_worker _ _) as [[k l]|]; [|discriminate]. injection H as <-. reflexivity.
  - injection H as <-. reflexivity.
Qed.

Lemma takes_cons e es : takes (e :: es) = (match e with Take _ => 1 | _ => 0 end) + takes es.
Proof. unfold takes. cbn [filter]. destruct e; reflexivity. Qed.

Lemma front_soon es s s' f j b : run s es = Some s' -> front s = f ++ j :: b -> length b < takes es -> In j (taken s').
Proof.
  revert s b. induction es as [|e es IH]; cbn [run]; intros s b H Hf Hn; [unfold takes in Hn; cbn in Hn; lia|].
  destruct (step s e) as [s1|] eqn:E; [|discriminate]. rewrite takes_cons in Hn. pose proof (front_step _ _ _ _ _ _ E Hf) as K.
  destruct e as [t|w|w|w|t]; try (apply (IH s1 b); auto; congruence).
  destruct (pop_back b) as [[b' x]|] eqn:Eb.
  - apply pop_back_app in Eb. subst b. rewrite app_length in Hn. cbn in Hn. apply (IH s1 b'); auto. lia.
  - destruct (taken_run _ _ _ H) as [l Hl]. rewrite Hl, K, !in_app_iff. left. right. now left.
Qed.

(** After as many takes as the front queue is long, plus one, a job that was in
    the back queue is in the front queue or has been taken. *)
Lemma back_step s e s' j : step s e = Some s' -> In j (back s) ->
  match e with
  | Take _ => match pop_back (front s) with
              | None => In j (front s') \/ In j (taken s')
              | Some (f', _) => front s' = f' /\ In j (back s')
              end
  | _ => front s' = front s /\ In j (back s')
  end.
Proof.
  intros H Hf. destruct e as [t|w|w|w|t]; cbn [step] in H.
  - unfold launch in H. destruct (locker s); [discriminate|]. injection H as <-. cbn. rewrite in_app_iff. auto.
  - unfold take in H. destruct (locker s); [discriminate|]. destruct (busy s w); [discriminate|].
    destruct (front s) as [|x q] eqn:Q.
    + cbn [pop_back]. destruct (pop_back (back s)) as [[f' k]|] eqn:E; [|discriminate]. apply pop_back_app in E. rewrite E in Hf.
      apply in_app_iff in Hf as [Hf|[->|[]]]; destruct (is_gone _ _); injection H as <-; cbn [front taken]; rewrite ?in_app_iff; cbn; auto.
    + destruct (pop_back (x :: q)) as [[f' k]|] eqn:E; [|discriminate]. destruct (is_gone _ _); injection H as <-; cbn; auto.
  - unfold begin_ in H. destruct (locker s) as [[v k]|]; [|discriminate]. destruct (negb _); [discriminate|]. destruct (held _ _); [discriminate|].
    injection H as <-. auto.
  - unfold end_ in H. destruct (remove_worker _ _) as [[k l]|]; [|discriminate]. injection H as <-. auto.
  - injection H as <-. auto.
Qed.

Lemma front_keeps s e s' j : step s e = Some s' -> In j (front s) -> In j (front s') \/ In j (taken s').
Proof.
  intros H Hj. apply in_split in Hj as (f & b & Hf). pose proof (front_step _ _ _ _ _ _ H Hf) as K.
  destruct e as [t|w|w|w|t]; try (left; rewrite K, Hf, in_app_iff; cbn; auto; fail).
  destruct (pop_back b) as [[b' x]|].
  - left. rewrite K, in_app_iff. cbn. auto.
  - right. rewrite K, in_app_iff. cbn. auto.
Qed.
Lemma front_keeps_run es s s' j : run s es = Some s' -> In j (front s) \/ In j (taken s) -> In j (front s') \/ In j (taken s').
Proof.
  revert s. induction es as [|e es IH]; cbn [run]; intros s H K; [injection H as <-; auto|].
  destruct (step s e) as [s1|] eqn:E; [|discriminate]. apply (IH s1); auto. destruct K as [K|K].
  - eapply front_keeps; eauto.
  - right. destruct (taken_grows _ _ _ E) as [l ->]. apply in_app_iff. auto.
Qed.

Lemma back_soon es s s' j : run s es = Some s' -> In j (back s) -> length (front s) < takes es -> In j (front s') \/ In j (taken s').
Proof.
  revert s. induction es as [|e es IH]; cbn [run]; intros s H Hj Hn; [unfold takes in Hn; cbn in Hn; lia|].
  destruct (step s e) as [s1|] eqn:E; [|discriminate]. rewrite takes_cons in Hn. pose proof (back_step _ _ _ _ E Hj) as K.
  destruct e as [t|w|w|w|t]; try (destruct K as [K1 K2]; apply (IH s1); auto; rewrite K1; auto; fail).
  destruct (pop_back (front s)) as [[f' x]|] eqn:Eb.
  - destruct K as [K1 K2]. apply pop_back_app in Eb. rewrite Eb, app_length in Hn. cbn in Hn. apply (IH s1); auto. rewrite K1. lia.
  - eapply front_keeps_run; eauto.
Qed.

Lemma NoDup_app_remove_l {A} (l l' : list A) : NoDup (l ++ l') -> NoDup l'.
Proof. induction l as [|x l IH]; cbn; auto. intros H. inversion H; auto. Qed.
Lemma NoDup_app_remove_r {A} (l l' : list A) : NoDup (l ++ l') -> NoDup l.
Proof. intros H. apply (NoDup_app_remove_l l' l). exact (Permutation_NoDup (Permutation_app_comm l l') H). Qed.
