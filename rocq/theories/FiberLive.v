(** Progress of the fiber scheduler: a ready fiber is entered after a bounded
    number of calls of the loop, whatever else happens. *)
From Coq Require Import ZArith List Lia Bool ZifyBool.
From Verif Require Import TimerModel TimerProofs FiberModel FiberSpec FiberProofs.
From Verif Require Import FiberModel.
Import ListNotations.
Open Scope Z_scope.

Section Live.
Variables (k : nat) (x W F fb : Z).
Hypothesis (HW : 0 < W) (HF : 0 < F).

Definition eff (n : node) : Z := Z.min (n_check n) (n_yield n + F).

Definition credit (a : where_) (n : node) : Z :=
  let plain := if fstate_eqb (n_state n) Terminated then 0 else if n_yield n + F <=? n_check n then 1 else 0 in
  match a with
  | Outside => plain
  | Popped id now _ fl => if Nat.eqb (n_id n) id then (if (now >=? n_yield n + F) && (fl =? F) then 0 else 1) else plain
  | Inside id => if Nat.eqb (n_id n) id then 0 else plain
  end.

Definition pot (a : where_) (n : node) : Z :=
  if Nat.eqb (n_id n) k then 0 else if eff n >? x then 0 else 2 * (x - eff n + 1) + credit a n.

Definition total (a : where_) (l : list node) : Z := fold_right (fun n t => pot a n + t) 0 l.

Lemma credit_bounds a n : 0 <= credit a n <= 1.
Proof.
  unfold credit. destruct a; repeat match goal with |- context [if ?b then _ else _] => destruct b end; lia.
Qed.
Lemma pot_nonneg a n : 0 <= pot a n.
Proof. assert (C := credit_bounds a n). unfold pot. destruct (Nat.eqb _ _); [lia|]. destruct (eff n >? x) eqn:E; lia. Qed.
Lemma total_nonneg a l : 0 <= total a l.
Proof. induction l as [|n l IH]; cbn [total fold_right]; [lia|]. assert (P := pot_nonneg a n). fold (total a l). lia. Qed.
Lemma total_app a l m : total a (l ++ m) = total a l + total a m.
Proof. induction l as [|n l IH]; cbn [app total fold_right]; [reflexivity|]. fold (total a (l ++ m)) (total a l). lia. Qed.

Lemma total_le a a' l : (forall n, In n l -> pot a' n <= pot a n) -> total a' l <= total a l.
Proof.
  induction l as [|n l IH]; cbn [total fold_right]; intros H; [lia|]. fold (total a' l) (total a l).
  assert (P := H n (or_introl eq_refl)). assert (Q := IH (fun m Hm => H m (or_intror Hm))). lia.
Qed.
Lemma total_upd a a' id g l :
  (forall n, In n l -> n_id n = id -> pot a' (g n) <= pot a n) ->
  (forall n, In n l -> n_id n <> id -> pot a' n <= pot a n) -> total a' (upd id g l) <= total a l.
Proof.
  induction l as [|n l IH]; cbn [upd map total fold_right]; intros H1 H2; [lia|]. fold (upd id g l). fold (total a' (upd id g l)) (total a l).
  assert (Q := IH (fun m Hm => H1 m (or_intror Hm)) (fun m Hm => H2 m (or_intror Hm))).
  destruct (Nat.eqb (n_id n) id) eqn:E.
  - assert (P := H1 n (or_introl eq_refl) ltac:(lia)). lia.
  - assert (P := H2 n (or_introl eq_refl) ltac:(lia)). lia.
Qed.

(** The pot of a node that the scheduler is not working on. *)
Definition away (a : where_) (n : node) : Prop :=
  match a with Outside => True | Popped id _ _ _ | Inside id => n_id n <> id end.
Lemma pot_away a a' n : away a n -> away a' n -> pot a' n = pot a n.
Proof.
  intros A A'. unfold pot. destruct (Nat.eqb (n_id n) k); [auto|]. destruct (eff n >? x); [auto|]. f_equal.
  unfold credit. destruct a, a'; cbn [away] in *; auto;
    repeat match goal with |- context [Nat.eqb ?p ?q] => destruct (Nat.eqb p q) eqn:?; [lia|] end; auto.
Qed.

Definition target (s : st) : Prop :=
  exists n, In n (nodes s) /\ n_id n = k /\ n_check n = x /\ n_fiber n = fb /\ ready s n.

Definition waiting (s : st) : Prop :=
  warn s = W /\ fail s = F /\ target s
  /\ match at_ s with Outside => True | Popped id _ _ _ | Inside id => id <> k end.

Definition chosen (s : st) : Prop :=
  exists now fut fl n, at_ s = Popped k now fut fl /\ In n (nodes s) /\ n_id n = k /\ n_fut n = fut
    /\ match n_state n with Pending => True | Suspended => match fut with None => True | Some f => In f (done s) end | _ => False end.

(** Events which the promise tolerates. *)
Definition allowed (e : event) : Prop :=
  clock_after x e /\ match e with Reload _ _ => False | Abandon f => f <> fb | _ => True end.

Lemma step_loop s now front s' : Inv s -> waiting s -> x < now -> loop s now front = Some s' ->
  (waiting s' /\ total (at_ s') (nodes s') + 1 <= total (at_ s) (nodes s)) \/ chosen s'.
Proof.
  intros I (Hw & Hf & (t & Ht & Et & Ct & Ft & Rt) & Ha) Nx H.
  destruct (loop_cases _ _ _ _ I H) as (A & [(w & _ & _ & L)|[(_ & P)|(_ & L & _)]]);
    [specialize (L t Ht); lia| |specialize (L t Ht); lia].
  unfold pop in P. destruct (nth_error (nodes s) front) as [n|] eqn:E.
  2:{ destruct (nodes s); [contradiction|discriminate]. }
  destruct (is_front n (nodes s)) eqn:Fr; cbn [negb] in P; [|discriminate].
  assert (Hn := nth_error_In _ _ E).
  assert (Lx : n_check n <= x).
  { unfold is_front in Fr. rewrite forallb_forall in Fr. specialize (Fr t Ht). lia. }
  destruct (remove_nth_split _ _ _ E) as (a & b & Q & Qr). rewrite Qr in P.
  assert (ND := inv_nodup s I).
  assert (NI : ~ In (n_id n) (ids (a ++ b))) by (apply remove_ids; now rewrite Q in ND).
  assert (Tot : total Outside (nodes s) = total Outside (a ++ b) + pot Outside n).
  { rewrite Q, !total_app. cbn [total fold_right]. fold (total Outside b). lia. }
  destruct (Nat.eq_dec (n_id n) k) as [Ek|Nk].
  - (* the target itself *)
    assert (n = t) as -> by (eapply ids_unique; eauto; congruence).
    right. unfold ready in Rt.
    destruct ((fstate_eqb (n_state t) Pending && is_abandoned s (n_fiber t)) || fstate_eqb (n_state t) Terminated) eqn:C.
    { exfalso. apply orb_prop in C as [C|C].
      - apply andb_prop in C as [C1 C2]. apply fstate_eqb_eq in C1. apply is_abandoned_In in C2. rewrite C1 in Rt. contradiction.
      - apply fstate_eqb_eq in C. rewrite C in Rt. contradiction. }
    injection P as <-. unfold chosen. cbn [with_at with_nodes at_ nodes done]. rewrite Ek.
    do 3 eexists. exists (push_back s t). split; [reflexivity|]. split; [apply in_or_app; cbn; auto|].
    cbn [push_back n_id n_fut n_state]. split; [auto|]. split; [auto|].
    destruct (n_state t); auto.
  - left.
    assert (Htab : In t (a ++ b)).
    { rewrite Q in Ht. apply in_app_or in Ht as [Ht|[<-|Ht]]; [|congruence|]; apply in_or_app; auto. }
    assert (Pn : pot Outside n = 2 * (x - eff n + 1) + credit Outside n).
    { unfold pot. destruct (Nat.eqb (n_id n) k) eqn:X; [lia|]. destruct (eff n >? x) eqn:Y; [unfold eff in Y; lia|]. reflexivity. }
    rewrite A, Tot, Pn.
    assert (Le : eff n <= x) by (unfold eff; lia).
    assert (Cb := credit_bounds Outside n).
    destruct ((fstate_eqb (n_state n) Pending && is_abandoned s (n_fiber n)) || fstate_eqb (n_state n) Terminated) eqn:C;
      injection P as <-; cbn [with_at with_nodes at_ nodes].
    + rewrite A. split; [|lia]. split; [auto|]. split; [auto|]. split; [exists t; auto|]. cbn [with_nodes at_]. now rewrite A.
    + apply orb_false_elim in C as [_ C]. split.
      { split; [auto|]. split; [auto|]. split; [|cbn; auto].
        exists t. cbn [with_at with_nodes nodes]. split; [apply in_or_app; auto|auto]. }
      rewrite total_app. cbn [total fold_right].
      assert (S1 : total (Popped (n_id n) now (n_fut n) (fail s)) (a ++ b) <= total Outside (a ++ b)).
      { apply total_le. intros m Hm. rewrite (pot_away Outside); [lia|exact Logic.I|]. cbn. intros X. apply NI. rewrite <- X. now apply In_ids. }
      enough (pot (Popped (n_id n) now (n_fut n) (fail s)) (push_back s n) + 1 <= 2 * (x - eff n + 1) + credit Outside n) by lia.
      unfold credit in *. rewrite C in *. unfold pot, credit, push_back, next_check, eff in *.
      cbn [n_id n_check n_yield n_state] in *. rewrite Nat.eqb_refl, Hw, Hf. destruct (Nat.eqb (n_id n) k) eqn:X; [lia|].
      clear - HW HF Le Lx Nx.
      destruct (n_yield n + F <=? n_check n) eqn:B.
      * replace (Z.min (n_check n + W) (n_yield n + F)) with (n_yield n + F) by lia.
        replace (Z.min (n_check n) (n_yield n + F)) with (n_yield n + F) in * by lia.
        rewrite Z.min_id, Z.eqb_refl. destruct (now >=? n_yield n + F) eqn:G; [|lia]. cbn [andb]. destruct (n_yield n + F >? x) eqn:Y; lia.
      * destruct (Z.min (Z.min (n_check n + W) (n_yield n + F)) (n_yield n + F) >? x) eqn:Y;
          destruct ((now >=? n_yield n + F) && (F =? F)); lia.
Qed.

Lemma step_decide s s' : Inv s -> waiting s -> decide s = Some s' ->
  waiting s' /\ total (at_ s') (nodes s') <= total (at_ s) (nodes s).
Proof.
  intros I (Hw & Hf & (t & Ht & Et & Ct & Ft & Rt) & Ha) H.
  destruct (decide_cases _ _ I H) as (id & now & fut & fl & n & A & Hn & E1 & E2 & E3 & C).
  rewrite A in Ha.
  destruct C as [(-> & L & _)|(-> & _)].
  - split. { split; [auto|]. split; [auto|]. split; [exists t; auto|exact Logic.I]. }
    cbn [with_at at_ nodes]. apply total_le. intros m Hm. rewrite A. destruct (Nat.eq_dec (n_id m) id) as [E|E].
    + assert (m = n) as -> by (eapply ids_unique; eauto; [apply (inv_nodup s I)|congruence]).
      unfold pot. destruct (Nat.eqb (n_id n) k); [lia|]. destruct (eff n >? x); [lia|].
      unfold credit. rewrite E, Nat.eqb_refl. destruct ((now >=? n_yield n + F) && (fl =? F)) eqn:G; [lia|].
      destruct (fstate_eqb (n_state n) Terminated); [lia|]. destruct (n_yield n + F <=? n_check n); lia.
    + rewrite (pot_away (Popped id now fut fl) Outside); [lia|exact E|exact Logic.I].
  - assert (Keep : forall s1, at_ s1 = Inside (n_id n) -> warn s1 = warn s -> fail s1 = fail s -> abandoned s1 = abandoned s -> done s1 = done s ->
       (exists lg, nodes s1 = upd (n_id n) (fun y => mkN (n_id y) (n_fiber y) (n_async y) (n_check y) (n_yield y) Running (lg y)) (nodes s)) ->
       waiting s1 /\ total (at_ s1) (nodes s1) <= total (at_ s) (nodes s)).
    { intros s1 B1 B2 B3 B4 B5 (lg & B6). split.
      - split; [congruence|]. split; [congruence|]. split.
        + exists t. rewrite B6. split; [apply In_upd_other; [auto|congruence]|].
          repeat (split; [solve [auto]|]). unfold ready in *. rewrite B4, B5. exact Rt.
        + rewrite B1. congruence.
      - rewrite B6, B1, A. apply total_upd.
        + intros m Hm Em. unfold pot, eff. cbn [n_id n_check n_yield].
          destruct (Nat.eqb (n_id m) k); [lia|]. destruct (Z.min (n_check m) (n_yield m + F) >? x); [lia|].
          assert (Cb := credit_bounds (Popped id now fut fl) m).
          enough (credit (Inside (n_id n)) (mkN (n_id m) (n_fiber m) (n_async m) (n_check m) (n_yield m) Running (lg m)) = 0) by lia.
          unfold credit. cbn [n_id]. now rewrite Em, Nat.eqb_refl.
        + intros m Hm Em. rewrite (pot_away (Popped id now fut fl) (Inside (n_id n))); [lia| |exact Em]. cbn. congruence. }
    unfold enter. destruct E3 as [E3|E3]; rewrite E3; apply Keep; cbn [with_log with_at with_nodes at_ warn fail abandoned done nodes]; auto; eauto.
    + exists (fun y => n_fut y). reflexivity.
    + exists (fun y => None). reflexivity.
Qed.

Lemma step_yield s fut now s' : Inv s -> waiting s -> x < now -> yield_ s fut now = Some s' ->
  waiting s' /\ total (at_ s') (nodes s') <= total (at_ s) (nodes s).
Proof.
  intros I (Hw & Hf & (t & Ht & Et & Ct & Ft & Rt) & Ha) Nx. unfold yield_.
  destruct (at_ s) as [| |id] eqn:A; try discriminate. intros H.
  assert (Keep : forall s1 state a, at_ s1 = a -> (a = Inside id \/ a = Outside) -> warn s1 = warn s -> fail s1 = fail s -> abandoned s1 = abandoned s -> done s1 = done s ->
     nodes s1 = upd id (fun y => mkN (n_id y) (n_fiber y) now (n_check y) now state fut) (nodes s) ->
     waiting s1 /\ total (at_ s1) (nodes s1) <= total (Inside id) (nodes s)).
  { intros s1 state a B1 B1' B2 B3 B4 B5 B6. split.
    - split; [congruence|]. split; [congruence|]. split.
      + exists t. rewrite B6. split; [apply In_upd_other; [auto|congruence]|].
        repeat (split; [solve [auto]|]). unfold ready in *. rewrite B4, B5. exact Rt.
      + rewrite B1. destruct B1' as [->| ->]; auto.
    - rewrite B6, B1. apply total_upd.
      + intros m Hm Em. unfold pot, eff. cbn [n_id n_check n_yield].
        destruct (Nat.eqb (n_id m) k); [lia|].
        destruct (Z.min (n_check m) (now + F) >? x) eqn:Y; [destruct (Z.min (n_check m) (n_yield m + F) >? x) eqn:Y2; assert (Cb := credit_bounds (Inside id) m); lia|].
        destruct (Z.min (n_check m) (n_yield m + F) >? x) eqn:Y2; [lia|].
        assert (Cb := credit_bounds (Inside id) m).
        enough (credit a (mkN (n_id m) (n_fiber m) now (n_check m) now state fut) = 0) by lia.
        unfold credit. cbn [n_id n_yield n_check n_state]. rewrite Em.
        destruct B1' as [->| ->]; [now rewrite Nat.eqb_refl|]. destruct (fstate_eqb state Terminated); [auto|].
        destruct (now + F <=? n_check m) eqn:Z3; [lia|auto].
      + intros m Hm Em. rewrite (pot_away (Inside id) a); [lia|exact Em|]. destruct B1' as [->| ->]; [exact Em|exact Logic.I]. }
  destruct fut as [f|].
  - destruct (is_done s f); injection H as <-.
    + eapply Keep; [reflexivity| | | | | |reflexivity]; auto.
    + eapply Keep; [reflexivity| | | | | |reflexivity]; auto.
  - injection H as <-. eapply Keep; [reflexivity| | | | | |reflexivity]; auto.
Qed.

Lemma step_finish s now s' : Inv s -> waiting s -> finish s now = Some s' ->
  waiting s' /\ total (at_ s') (nodes s') <= total (at_ s) (nodes s).
Proof.
  intros I (Hw & Hf & (t & Ht & Et & Ct & Ft & Rt) & Ha). unfold finish.
  destruct (at_ s) as [| |id] eqn:A; try discriminate. intros [= <-]. cbn [with_log with_at with_nodes at_ nodes]. split.
  - split; [auto|]. split; [auto|]. split; [|exact Logic.I].
    exists t. cbn [with_log with_at with_nodes at_ nodes]. split; [apply In_upd_other; [auto|congruence]|auto].
  - apply total_upd.
    + intros m Hm Em. unfold pot, eff, credit. cbn [n_id n_check n_yield n_state fstate_eqb]. rewrite Em, Nat.eqb_refl. lia.
    + intros m Hm Em. rewrite (pot_away (Inside id) Outside); [lia|exact Em|exact Logic.I].
Qed.

Lemma pot_same a n m : n_id n = n_id m -> n_check n = n_check m -> n_yield n = n_yield m -> n_state n = n_state m -> pot a n = pot a m.
Proof. intros E1 E2 E3 E4. unfold pot, eff, credit. now rewrite E1, E2, E3, E4. Qed.

Lemma step_waiting s e s' : Inv s -> waiting s -> allowed e -> step s e = Some s' ->
  (waiting s' /\ total (at_ s') (nodes s') + (if is_loop e then 1 else 0) <= total (at_ s) (nodes s)) \/ chosen s'.
Proof.
  intros I Wt [Cl Al] H. destruct e as [now front| |fut now|now|f now|f|j now|f|w f]; cbn [step clock_after is_loop] in *.
  - eapply step_loop; eauto.
  - left. rewrite Z.add_0_r. eapply step_decide; eauto.
  - left. rewrite Z.add_0_r. eapply step_yield; eauto.
  - left. rewrite Z.add_0_r. eapply step_finish; eauto.
  - left. rewrite Z.add_0_r. injection H as <-. destruct Wt as (Hw & Hf & (t & Ht & Et & Ct & Ft & Rt) & Ha).
    cbn [launch at_ nodes]. split.
    + split; [auto|]. split; [auto|]. split; [|exact Ha]. exists t. cbn [launch nodes]. split; [apply in_or_app; auto|auto].
    + rewrite total_app. cbn [total fold_right].
      enough (pot (at_ s) (mkN (length (launched s)) f now now now Pending None) = 0) by lia.
      unfold pot, eff. cbn [n_id n_check n_yield].
      destruct (Nat.eqb _ k); [lia|]. destruct (Z.min now (now + F) >? x) eqn:Y; lia.
  - left. rewrite Z.add_0_r. unfold complete in H. destruct (is_done s f); [discriminate|]. injection H as <-.
    destruct Wt as (Hw & Hf & (t & Ht & Et & Ct & Ft & Rt) & Ha). cbn [at_ nodes]. split; [|lia].
    split; [auto|]. split; [auto|]. split; [|exact Ha]. exists t. cbn [nodes]. repeat (split; [solve [auto]|]).
    unfold ready in *. cbn [done abandoned]. destruct (n_state t); auto. destruct (n_fut t); auto. cbn. auto.
  - left. rewrite Z.add_0_r. unfold notify_one in H. destruct (nth_error (notify s) j) as [id|]; [|discriminate]. injection H as <-.
    destruct Wt as (Hw & Hf & (t & Ht & Et & Ct & Ft & Rt) & Ha). cbn [at_ nodes]. split.
    + split; [auto|]. split; [auto|]. split; [|exact Ha]. destruct (Nat.eq_dec (n_id t) id) as [E|E].
      * eexists. split; [apply (In_upd_same id _ _ t); auto|]. cbn [n_id n_check n_fiber]. repeat (split; [solve [auto]|]). exact Rt.
      * exists t. split; [apply In_upd_other; auto|auto].
    + apply total_upd; intros m Hm Em; [|lia]. erewrite (pot_same _ _ m); [lia|reflexivity..].
  - left. rewrite Z.add_0_r. injection H as <-. destruct Wt as (Hw & Hf & (t & Ht & Et & Ct & Ft & Rt) & Ha). cbn [abandon at_ nodes]. split; [|lia].
    split; [auto|]. split; [auto|]. split; [|exact Ha]. exists t. cbn [abandon nodes]. repeat (split; [solve [auto]|]).
    unfold ready in *. cbn [abandon abandoned done]. destruct (n_state t); auto. cbn. intros [X|X]; [congruence|contradiction].
  - contradiction.
Qed.

Lemma step_log s e s' : step s e = Some s' -> exists l, log s' = log s ++ l.
Proof.
  assert (Z0 : exists l, log s = log s ++ l) by (exists []; now rewrite app_nil_r).
  assert (Pp : forall s1 now front s2, log s1 = log s -> pop s1 now front = Some s2 -> log s2 = log s).
  { intros s1 now front s2 E. unfold pop. destruct (nth_error (nodes s1) front) as [n|].
    - destruct (negb _); [discriminate|]. destruct (_ || _); intros [= <-]; exact E.
    - destruct (nodes s1); [intros [= <-]; exact E|discriminate]. }
  destruct e as [now front| |fut now|now|f now|f|j now|f|w f]; cbn [step]; intros H.
  - unfold loop in H. destruct (at_ s); try discriminate.
    match type of H with (if ?b then _ else _) = _ => destruct b end.
    + cbn zeta in H. match type of H with (if ?b then _ else _) = _ => destruct b end.
      * injection H as <-. exact Z0.
      * apply Pp in H; [|reflexivity]. rewrite H. exact Z0.
    + apply Pp in H; [|reflexivity]. rewrite H. exact Z0.
  - unfold decide in H. destruct (at_ s) as [|id now fut fl|]; try discriminate. destruct (find_node id (nodes s)) as [n|]; [|injection H as <-; exact Z0].
    assert (En : exists l, log (enter s n now fl) = log s ++ l) by (unfold enter; destruct (n_state n); cbn; eauto).
    destruct fut as [f|]; [|injection H as <-; exact En].
    match type of H with (if ?b then _ else _) = _ => destruct b end; injection H as <-; [exact Z0|exact En].
  - unfold yield_ in H. destruct (at_ s); try discriminate. destruct fut as [f|].
    + destruct (is_done s f); injection H as <-; exact Z0.
    + injection H as <-; exact Z0.
  - unfold finish in H. destruct (at_ s); try discriminate. injection H as <-. cbn. eauto.
  - injection H as <-; exact Z0.
  - unfold complete in H. destruct (is_done s f); [discriminate|]. injection H as <-; exact Z0.
  - unfold notify_one in H. destruct (nth_error (notify s) j); [|discriminate]. injection H as <-; exact Z0.
  - injection H as <-; exact Z0.
  - injection H as <-; exact Z0.
Qed.

Lemma run_log es s s' : run s es = Some s' -> exists l, log s' = log s ++ l.
Proof.
  revert s. induction es as [|e es IH]; cbn; intros s H.
  - injection H as <-. exists []. now rewrite app_nil_r.
  - destruct (step s e) as [s1|] eqn:E; [|discriminate]. apply step_log in E as (l & E). apply IH in H as (l' & ->).
    exists (l ++ l'). now rewrite E, app_assoc.
Qed.

Lemma step_chosen s e s' : Inv s -> chosen s -> step s e = Some s' ->
  is_loop e = false /\ (chosen s' \/ exists o, log s' = log s ++ [o] /\ who o = k).
Proof.
  intros I (now & fut & fl & n & A & Hn & En & Fn & Sn) H.
  destruct e as [nw front| |ft nw|nw|f nw|f|j nw|f|w f]; cbn [step is_loop] in *.
  - unfold loop in H. rewrite A in H. discriminate.
  - split; [auto|]. right.
    destruct (decide_cases _ _ I H) as (id & now' & fut' & fl' & n' & A' & Hn' & E1 & E2 & E3 & C).
    rewrite A in A'. injection A' as <- <- <- <-.
    assert (n' = n) as -> by (eapply ids_unique; eauto; [apply (inv_nodup s I)|congruence]).
    destruct C as [(_ & L & f & Ef & Nf)|(-> & _)].
    + exfalso. rewrite Ef in *. destruct E3 as [E3|E3]; rewrite E3 in Sn; [|contradiction].
      assert (X := inv_state s I n Hn). unfold state_ok in X. rewrite E3 in X. destruct X as (_ & _ & X). congruence.
    + unfold enter. destruct E3 as [E3|E3]; rewrite E3; cbn [with_log with_at with_nodes log]; eexists; (split; [reflexivity|exact En]).
  - unfold yield_ in H. rewrite A in H. discriminate.
  - unfold finish in H. rewrite A in H. discriminate.
  - split; [auto|]. left. injection H as <-. exists now, fut, fl, n. cbn [launch at_ nodes done]. split; [auto|]. split; [apply in_or_app; auto|auto].
  - split; [auto|]. left. unfold complete in H. destruct (is_done s f); [discriminate|]. injection H as <-. exists now, fut, fl, n. cbn [at_ nodes done].
    repeat (split; [solve [auto]|]). destruct (n_state n); auto. destruct fut; auto. cbn. auto.
  - split; [auto|]. left. unfold notify_one in H. destruct (nth_error (notify s) j) as [id|]; [|discriminate]. injection H as <-.
    destruct (Nat.eq_dec (n_id n) id) as [E|E].
    + exists now, fut, fl. eexists. cbn [at_ nodes done]. split; [auto|]. split; [apply (In_upd_same id _ _ n); auto|]. auto.
    + exists now, fut, fl, n. cbn [at_ nodes done]. split; [auto|]. split; [apply In_upd_other; auto|auto].
  - split; [auto|]. left. injection H as <-. exists now, fut, fl, n. auto.
  - split; [auto|]. left. injection H as <-. exists now, fut, fl, n. auto.
Qed.

Lemma loops_cons e es : Z.of_nat (loops (e :: es)) = (if is_loop e then 1 else 0) + Z.of_nat (loops es).
Proof. unfold loops. cbn [filter]. destruct (is_loop e); cbn [length]; lia. Qed.

Lemma chosen_runs es s s' : Inv s -> chosen s -> run s es = Some s' -> (0 < loops es)%nat ->
  exists l o, log s' = log s ++ l /\ In o l /\ who o = k.
Proof.
  revert s. induction es as [|e es IH]; cbn [run]; intros s I C H L; [cbn in L; lia|].
  destruct (step s e) as [s1|] eqn:E; [|discriminate].
  destruct (step_chosen _ _ _ I C E) as [Lp [C1|(o & Eo & Wo)]].
  - assert (I1 := inv_step _ _ _ I E). assert (Lq := loops_cons e es). rewrite Lp in Lq.
    destruct (IH s1 I1 C1 H) as (l & o & El & Ho & Wo); [lia|]. destruct (step_log _ _ _ E) as (l1 & E1).
    exists (l1 ++ l), o. rewrite El, E1, app_assoc. split; [auto|]. split; [apply in_or_app; auto|auto].
  - destruct (run_log _ _ _ H) as (l & El). exists (o :: l), o. rewrite El, Eo, <- app_assoc. split; [reflexivity|]. split; [cbn; auto|auto].
Qed.

Lemma waiting_runs es s s' : Inv s -> waiting s -> Forall allowed es -> run s es = Some s' ->
  total (at_ s) (nodes s) + 1 < Z.of_nat (loops es) ->
  exists l o, log s' = log s ++ l /\ In o l /\ who o = k.
Proof.
  revert s. induction es as [|e es IH]; cbn [run]; intros s I Wt Al H L.
  { cbn in L. assert (T := total_nonneg (at_ s) (nodes s)). lia. }
  destruct (step s e) as [s1|] eqn:E; [|discriminate]. inversion Al as [|? ? Ae Al']; subst.
  assert (I1 := inv_step _ _ _ I E). destruct (step_log _ _ _ E) as (l1 & E1). rewrite loops_cons in L.
  assert (T := total_nonneg (at_ s) (nodes s)).
  destruct (step_waiting _ _ _ I Wt Ae E) as [[W1 D]|C].
  - destruct (IH s1 I1 W1 Al' H) as (l & o & El & Ho & Wo); [lia|].
    exists (l1 ++ l), o. rewrite El, E1, app_assoc. split; [auto|]. split; [apply in_or_app; auto|auto].
  - destruct (chosen_runs _ _ _ I1 C H) as (l & o & El & Ho & Wo); [destruct (is_loop e); lia|].
    exists (l1 ++ l), o. rewrite El, E1, app_assoc. split; [auto|]. split; [apply in_or_app; auto|auto].
Qed.
End Live.
