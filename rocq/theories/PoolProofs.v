(** Proofs about connection pools. *)
From Coq Require Import ZArith List Lia Bool Sorted.
From Verif Require Import PoolModel PoolSpec.
Import ListNotations.
Open Scope Z_scope.

Lemma list_eqb_spec a b : list_eqb a b = true <-> a = b.
Proof.
  revert b. induction a as [|x a IH]; intros [|y b]; cbn; split; try discriminate; auto.
  - rewrite andb_true_iff, Z.eqb_eq, IH. intros [-> ->]. auto.
  - intros [= -> ->]. rewrite andb_true_iff, Z.eqb_eq, IH. auto.
Qed.

(** * Counting *)

Notation cnt l x := (count_occ Nat.eq_dec l x).
Definition one (a x : nat) : nat := if Nat.eq_dec a x then 1%nat else 0%nat.

Lemma cnt_cons a l x : cnt (a :: l) x = (one a x + cnt l x)%nat.
Proof. unfold one. cbn. destruct (Nat.eq_dec a x); reflexivity. Qed.

Lemma cnt_remove (A : Type) (f : A -> nat) l k a x : nth_error l k = Some a ->
  cnt (map f l) x = (one (f a) x + cnt (map f (remove_at k l)) x)%nat.
Proof.
  revert k. induction l as [|y l IH]; intros [|k] H; cbn [nth_error] in H; try discriminate.
  - injection H as ->. cbn [remove_at map]. apply cnt_cons.
  - cbn [remove_at map]. rewrite !cnt_cons, (IH _ H). lia.
Qed.
Lemma cnt_remove_le (A : Type) (f : A -> nat) l k x : (cnt (map f (remove_at k l)) x <= cnt (map f l) x)%nat.
Proof.
  revert k. induction l as [|y l IH]; intros [|k]; cbn [remove_at map]; auto; rewrite !cnt_cons; [lia|]. specialize (IH k). lia.
Qed.
Lemma in_remove (A : Type) (l : list A) k a : In a (remove_at k l) -> In a l.
Proof. revert k. induction l as [|y l IH]; intros [|k] H; cbn in *; auto. destruct H; eauto. Qed.

Lemma update_ids k b l : map c_id (update_at k (set_clear b) l) = map c_id l.
Proof. revert k. induction l as [|y l IH]; intros [|k]; cbn; auto. now rewrite IH. Qed.

Definition pid (p : pooled) : nat := c_id (p_conn p).
Definition rid (r : ret) : nat := c_id (r_conn r).

Lemma take_spec uri l : forall c l', take uri l = (c, l') ->
  match c with
  | None => l' = l /\ Forall (fun p => ~ suits uri p) l
  | Some c => exists p a b, l = a ++ p :: b /\ l' = a ++ b /\ p_conn p = c /\ suits uri p /\ Forall (fun p => ~ suits uri p) a
  end.
Proof.
  induction l as [|p l IH]; cbn [take]; intros c l' H.
  - injection H as <- <-. auto.
  - destruct (list_eqb (c_uri (p_conn p)) uri) eqn:E.
    + injection H as <- <-. apply list_eqb_spec in E. exists p, [], l. repeat split; auto.
    + destruct (take uri l) as [c0 l0]. injection H as <- <-. specialize (IH _ _ eq_refl).
      assert (N : ~ suits uri p) by (intros S; apply list_eqb_spec in S; congruence).
      destruct c0 as [c0|].
      * destruct IH as (q & a & b & -> & -> & H1 & H2 & H3). exists q, (p :: a), b. repeat split; auto.
      * destruct IH as [-> F]. auto.
Qed.

(** What [purge] and [trim] remove is at the end. *)
Lemma purge_rev_split now idle l : exists t, l = t ++ purge_rev now idle l /\ Forall (fun p => idle < now - p_time p) t
  /\ match purge_rev now idle l with [] => True | p :: _ => now - p_time p <= idle end.
Proof.
  induction l as [|p l IH]; cbn [purge_rev]; [exists []; auto|]. destruct (Z.ltb_spec idle (now - p_time p)).
  - destruct IH as (t & E & F & G). exists (p :: t). cbn. rewrite <- E. auto.
  - exists []. auto.
Qed.
Lemma purge_split now idle l : exists t, l = purge now idle l ++ t /\ Forall (fun p => idle < now - p_time p) t.
Proof.
  destruct (purge_rev_split now idle (rev l)) as (t & E & F & _). exists (rev t). split; [|apply Forall_rev; auto].
  unfold purge. apply (f_equal (@rev _)) in E. rewrite rev_involutive, rev_app_distr in E. auto.
Qed.
Lemma trim_rev_split n l : exists t, l = t ++ trim_rev n l.
Proof.
  induction l as [|p l IH]; cbn [trim_rev]; [exists []; auto|]. destruct (n <? length (p :: l) + 1)%nat.
  - destruct IH as (t & E). exists (p :: t). cbn. now rewrite <- E.
  - exists []. auto.
Qed.
Lemma trim_split n l : exists t, l = trim n l ++ t.
Proof.
  destruct (trim_rev_split n (rev l)) as (t & E). exists (rev t). unfold trim.
  apply (f_equal (@rev _)) in E. rewrite rev_involutive, rev_app_distr in E. auto.
Qed.
Lemma trim_length n l : (1 <= n)%nat -> (length (trim n l) + 1 <= n)%nat.
Proof.
  intros H. unfold trim. rewrite rev_length. generalize (rev l). clear l. intros l. induction l as [|p l IH]; [cbn; lia|].
  cbn [trim_rev]. destruct (Nat.ltb_spec n (length (p :: l) + 1)); [auto|lia].
Qed.
Lemma trim_fits n l : (length l + 1 <= n)%nat -> trim n l = l.
Proof.
  intros H. unfold trim. rewrite <- (rev_involutive l) at 2. f_equal. rewrite <- rev_length in H. generalize dependent (rev l). intros r Hr.
  destruct r as [|p r]; [reflexivity|]. cbn [trim_rev]. destruct (Nat.ltb_spec n (length (p :: r) + 1)); [lia|reflexivity].
Qed.

Lemma trim_full n l : (1 <= n)%nat -> trim n l = l \/ (length (trim n l) + 1 = n)%nat.
Proof.
  intros Hn. destruct (Nat.leb_spec (length l + 1) n) as [H|H]; [left; now apply trim_fits|right].
  unfold trim. rewrite rev_length. rewrite <- rev_length in H. generalize dependent (rev l). clear l. intros l H.
  induction l as [|p l IH]; [cbn in H; lia|]. cbn [trim_rev]. destruct (Nat.ltb_spec n (length (p :: l) + 1)); [|lia].
  destruct (Nat.ltb_spec n (length l + 1)); [auto|]. cbn [length] in *. destruct l as [|q l]; [cbn in *; lia|]. cbn [trim_rev].
  destruct (Nat.ltb_spec n (length (q :: l) + 1)); cbn [length] in *; lia.
Qed.

(** * Order *)
Definition newer (p q : pooled) : Prop := p_time q <= p_time p.
Lemma sorted_app (A : Type) (R : A -> A -> Prop) a b : StronglySorted R (a ++ b) <->
  StronglySorted R a /\ StronglySorted R b /\ (forall x y, In x a -> In y b -> R x y).
Proof.
  induction a as [|z a IH]; cbn.
  - split; [intros H; repeat split; auto; [constructor|contradiction]|tauto].
  - split.
    + intros H. inversion H as [|? ? H1 H2]; subst. apply IH in H1 as (A1 & A2 & A3). apply Forall_app in H2 as [F1 F2].
      repeat split; auto; [constructor; auto|]. rewrite Forall_forall in F2. intros x y [<-|Hx] Hy; auto.
    + intros (H1 & H2 & H3). inversion H1 as [|? ? H4 H5]; subst. constructor; [apply IH; repeat split; auto|].
      apply Forall_app. split; [auto|]. apply Forall_forall. intros y Hy. auto.
Qed.

(** Since the newest are at the beginning, all that have been idle for too long
    are removed. *)
Lemma purge_all now idle l : StronglySorted newer l -> Forall (fun p => now - p_time p <= idle) (purge now idle l).
Proof.
  intros S. destruct (purge_split now idle l) as (t & E & _). unfold purge.
  destruct (purge_rev_split now idle (rev l)) as (t' & E' & _ & G). unfold purge in E.
  destruct (purge_rev now idle (rev l)) as [|p r]; [constructor|]. cbn [rev] in *. rewrite E in S.
  apply sorted_app in S as (S & _ & _). apply sorted_app in S as (_ & _ & S).
  apply Forall_app. split; [|constructor; auto]. apply Forall_forall. intros x Hx. specialize (S x p Hx ltac:(now left)). unfold newer in S. lia.
Qed.

(** * Invariant *)
Record Inv (s : st) : Prop := {
  i_once : forall x, (cnt (owned s) x <= (if (x <? made s)%nat then 1 else 0))%nat;
  i_rets : Forall (fun r => c_clear (r_conn r) = true /\ (1 <= f_size (r_conf r))%nat) (rets s);
  i_clear : Forall (fun p => c_clear (p_conn p) = true) (pool s);
  i_sorted : StronglySorted newer (pool s);
  i_clock : Forall (fun p => p_time p <= clock s) (pool s) }.

Lemma owned_cnt s x : cnt (owned s) x = (cnt (map c_id (held s)) x + cnt (map rid (rets s)) x + cnt (map pid (pool s)) x)%nat.
Proof. unfold owned. rewrite !count_occ_app. unfold rid, pid. lia. Qed.

Lemma sub_sorted (l l' t : list pooled) : l = l' ++ t -> StronglySorted newer l -> StronglySorted newer l'.
Proof. intros -> S. now apply sorted_app in S. Qed.

Lemma inv_step s e s' : Inv s -> step s e = Some s' -> Inv s'.
Proof.
  intros I H. destruct I as [I1 I2 I3 I4 I5]. destruct e as [u p|k now|k|k now|k|k ok|k|f]; cbn [step] in H.
  - injection H as <-. split; auto.
  - unfold alloc_body in H. destruct (nth_error (allocs s) k) as [a|]; [|discriminate].
    destruct (Z.leb_spec (clock s) now); [|discriminate]. destruct (take (a_uri a) (pool s)) as [c l] eqn:T. apply take_spec in T.
    destruct (purge_split now (f_idle (a_conf a)) l) as (t & E & _). set (l' := purge now (f_idle (a_conf a)) l) in *.
    assert (Sub : (forall p, In p l -> In p (pool s)) -> StronglySorted newer l ->
      Forall (fun p => c_clear (p_conn p) = true) l' /\ StronglySorted newer l' /\ Forall (fun p => p_time p <= now) l').
    { intros Hin Hs. assert (Hin' : forall p, In p l' -> In p (pool s)) by (intros p Hp; apply Hin; rewrite E; apply in_app_iff; auto).
      rewrite Forall_forall in I3, I5. split; [apply Forall_forall; auto|]. split; [eapply sub_sorted; eauto|].
      apply Forall_forall. intros p Hp. specialize (I5 p (Hin' p Hp)). lia. }
    assert (Ct : forall x, (cnt (map pid l') x <= cnt (map pid l) x)%nat) by (intros x; rewrite E, map_app, count_occ_app; lia).
    destruct c as [c|]; injection H as <-.
    + destruct T as (q & a1 & b1 & Ep & El & Ec & Es & Fn). rewrite Ep in I4. subst l.
      destruct Sub as (F1 & F2 & F3).
      { intros p Hp. rewrite Ep. apply in_app_iff. apply in_app_iff in Hp as [Hp|Hp]; [auto|right; now right]. }
      { apply sorted_app in I4 as (S1 & S2 & S3). inversion S2; subst. apply sorted_app. repeat split; auto. intros x y Hx Hy. apply S3; [auto|now right]. }
      split; cbn [pool conf allocs rets held made clock]; auto. intros x. specialize (I1 x). rewrite owned_cnt in *.
      cbn [pool rets held]. rewrite map_app, count_occ_app. cbn [map]. rewrite cnt_cons. cbn [count_occ].
      rewrite Ep, map_app, count_occ_app in I1. cbn [map] in I1. rewrite cnt_cons in I1. specialize (Ct x). rewrite map_app, count_occ_app in Ct.
      unfold pid at 2 in I1. rewrite Ec in I1. cbn [made]. lia.
    + destruct T as [-> Fn]. destruct Sub as (F1 & F2 & F3); auto.
      split; cbn [pool conf allocs rets held made clock]; auto. intros x. specialize (I1 x). rewrite owned_cnt in *.
      cbn [pool rets held]. rewrite map_app, count_occ_app. cbn [map]. rewrite cnt_cons. cbn [count_occ c_id]. specialize (Ct x). unfold one.
      cbn [made]. destruct (Nat.eq_dec (made s) x) as [N|N]; destruct (Nat.ltb_spec x (made s)); destruct (Nat.ltb_spec x (S (made s))); lia.
  - unfold put_begin in H. destruct (nth_error (held s) k) as [c|] eqn:N; [|discriminate].
    destruct (c_clear c) eqn:C; cbn [negb] in H; [|injection H as <-; split; auto].
    destruct (Nat.eqb_spec (f_size (conf s)) 0); [injection H as <-; split; auto|]. injection H as <-.
    split; cbn [pool conf allocs rets held made clock]; auto.
    + intros x. specialize (I1 x). rewrite owned_cnt in *. cbn [pool rets held]. rewrite (cnt_remove _ c_id _ _ _ x N) in I1.
      rewrite map_app, count_occ_app. cbn [map]. rewrite cnt_cons. cbn [count_occ]. unfold rid at 2. cbn [r_conn]. lia.
    + apply Forall_app. split; [auto|]. constructor; [|constructor]. cbn. split; [auto|lia].
  - unfold put_body in H. destruct (nth_error (rets s) k) as [r|] eqn:N; [|discriminate].
    destruct (Z.leb_spec (clock s) now); [|discriminate]. injection H as <-.
    destruct (purge_split now (f_idle (r_conf r)) (pool s)) as (t & E & _). set (l := purge now (f_idle (r_conf r)) (pool s)) in *.
    destruct (trim_split (f_size (r_conf r)) l) as (t2 & E2). set (l2 := trim (f_size (r_conf r)) l) in *.
    assert (E3 : pool s = l2 ++ (t2 ++ t)) by (rewrite app_assoc, <- E2; auto).
    assert (Hin : forall p, In p l2 -> In p (pool s)) by (intros p Hp; rewrite E3; apply in_app_iff; auto).
    assert (Hr : c_clear (r_conn r) = true) by (rewrite Forall_forall in I2; apply (I2 r); eapply nth_error_In; eauto).
    rewrite Forall_forall in I3, I5.
    split; cbn [pool conf allocs rets held made clock].
    + intros x. specialize (I1 x). rewrite owned_cnt in *. cbn [pool rets held map]. rewrite cnt_cons. rewrite (cnt_remove _ rid _ _ _ x N) in I1.
      rewrite E3, map_app, count_occ_app in I1. unfold pid at 1. cbn [p_conn]. unfold rid at 1 in I1. lia.
    + rewrite Forall_forall in *. intros x Hx. apply I2. eapply in_remove; eauto.
    + constructor; [auto|]. apply Forall_forall. auto.
    + constructor; [eapply sub_sorted; eauto|]. apply Forall_forall. intros p Hp. unfold newer. cbn. specialize (I5 p (Hin p Hp)). lia.
    + constructor; [cbn; lia|]. apply Forall_forall. intros p Hp. specialize (I5 p (Hin p Hp)). lia.
  - injection H as <-. split; auto. intros x. specialize (I1 x). rewrite owned_cnt in *. cbn [mark pool rets held made]. now rewrite update_ids.
  - injection H as <-. split; auto. intros x. specialize (I1 x). rewrite owned_cnt in *. cbn [mark pool rets held made]. now rewrite update_ids.
  - injection H as <-. split; auto. intros x. specialize (I1 x). rewrite owned_cnt in *. cbn [drop pool rets held made].
    pose proof (cnt_remove_le _ c_id (held s) k x). lia.
  - injection H as <-. split; auto.
Qed.

Lemma inv_init f : Inv (init f).
Proof. split; try constructor. Qed.

Lemma run_app s e1 e2 : run s (e1 ++ e2) = match run s e1 with Some s1 => run s1 e2 | None => None end.
Proof. revert s. induction e1 as [|e e1 IH]; cbn; intros s; auto. destruct (step s e); auto. Qed.

Lemma reach f es s : run (init f) es = Some s -> Inv s.
Proof.
  revert s. induction es as [|e es IH] using rev_ind; intros s H.
  - injection H as <-. apply inv_init.
  - rewrite run_app in H. destruct (run (init f) es) as [s1|]; [|discriminate]. cbn in H. destruct (step s1 e) as [s2|] eqn:E; [|discriminate].
    injection H as <-. eapply inv_step; eauto.
Qed.
