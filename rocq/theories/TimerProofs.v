(** Invariants of the timer scheduler. *)
From Coq Require Import ZArith List Lia Bool ZifyBool Permutation.
From Verif Require Import TimerModel TimerSpec.
Import ListNotations.
Open Scope Z_scope.

Lemma remove_nth_split {A} (n : nat) (l : list A) (x : A) :
  nth_error l n = Some x -> exists a b, l = a ++ x :: b /\ remove_nth n l = a ++ b.
Proof.
  revert n. induction l as [|y l IH]; intros [|n] H; cbn in *; try discriminate.
  - injection H as ->. exists [], l. auto.
  - destruct (IH _ H) as (a & b & -> & ->). exists (y :: a), b. auto.
Qed.

Definition all (s : st) : list tick := ran s ++ match flight s with Some t => [t] | None => [] end.

Definition entry_ok (i : insertion) (no n : nat) (q : list entry) : Prop :=
  filter (fun e => Nat.eqb (e_no e) no) q = [mkE no (i_timer i) (due i n) (i_period i * ms)].

Definition ins_ok (s : st) (no : nat) (i : insertion) : Prop :=
  acceptable (i_delay i) (i_period i) /\
  exists n, dues_of no (all s) = map (due i) (seq 0 n) /\
    ((entry_ok i no n (pq s) /\ (i_period i = 0 -> n = O))
     \/ (filter (fun e => Nat.eqb (e_no e) no) (pq s) = [] /\
         (i_period i = 0 -> (n <= 1)%nat) /\
         ((i_period i = 0 /\ n = 1%nat) \/ In (i_timer i) (gone s)))).

Definition tick_ok (s : st) (t : tick) : Prop :=
  t_due t <= t_now t /\ (t_known t <= length (inserted s))%nat /\
  exists i, nth_error (inserted s) (t_no t) = Some i /\ t_timer t = i_timer i.

Record Inv (s : st) : Prop := {
  inv_ins : forall no i, nth_error (inserted s) no = Some i -> ins_ok s no i;
  inv_pq : forall e, In e (pq s) -> (e_no e < length (inserted s))%nat;
  inv_tick : forall t, In t (all s) -> tick_ok s t }.

Record Ord (s : st) : Prop := {
  ord_log : forall l1 a l2 b l3, all s = l1 ++ a :: l2 ++ b :: l3 ->
     (t_no b < t_known a)%nat -> t_due a <= t_due b;
  ord_pq : forall a e, In a (all s) -> In e (pq s) -> (e_no e < t_known a)%nat -> t_due a <= e_next e }.

Lemma filter_none {A} (f : A -> bool) l : (forall x, In x l -> f x = false) -> filter f l = [].
Proof.
  induction l as [|x l IH]; cbn; intros H; auto. rewrite (H x) by auto. apply IH. auto.
Qed.

Lemma dues_of_app no a b : dues_of no (a ++ b) = dues_of no a ++ dues_of no b.
Proof. unfold dues_of. now rewrite filter_app, map_app. Qed.

Lemma is_gone_In s t : is_gone s t = true <-> In t (gone s).
Proof.
  unfold is_gone. rewrite existsb_exists. split.
  - intros (x & Hx & E). apply Z.eqb_eq in E. now subst.
  - intros H. exists t. split; auto. apply Z.eqb_refl.
Qed.

Lemma due_S i n : due i (S n) = due i n + i_period i * ms.
Proof. unfold due, ms. lia. Qed.

(** ** Insertion *)
Lemma insert_cases s t now d p :
  insert_weak s t now d p = s \/
  (acceptable d p /\ exists u, t = Some u /\
   insert_weak s t now d p =
     mkS (pq s ++ [mkE (length (inserted s)) u (now + d * ms) (p * ms)]) (gone s) (flight s) (ran s)
         (inserted s ++ [mkI u now d p]) (ub s || negb (i64 (now + d * ms)))).
Proof.
  unfold insert_weak. destruct t as [u|]; [|auto].
  destruct ((d <? 0) || (d >? max_ms)) eqn:E1; [auto|].
  destruct ((p <? 0) || (p >? max_ms)) eqn:E2; [auto|].
  right. split; [unfold acceptable, max_ms in *; lia|]. exists u. auto.
Qed.

Lemma nth_error_snoc {A} (l : list A) x n y :
  nth_error (l ++ [x]) n = Some y -> nth_error l n = Some y \/ (n = length l /\ y = x).
Proof.
  intros H. destruct (Nat.lt_ge_cases n (length l)) as [L|L].
  - rewrite nth_error_app1 in H by auto. auto.
  - rewrite nth_error_app2 in H by auto. right.
    destruct (n - length l)%nat as [|k] eqn:E; cbn in H.
    + injection H as <-. split; [lia|auto].
    + destruct k; discriminate.
Qed.

Lemma nth_error_lt {A} (l : list A) n x : nth_error l n = Some x -> (n < length l)%nat.
Proof. intros H. apply nth_error_Some. congruence. Qed.

Lemma inv_insert s t now d p : Inv s -> Inv (insert_weak s t now d p).
Proof.
  intros I. destruct (insert_cases s t now d p) as [->|(Ac & u & -> & ->)]; [auto|].
  destruct I as [I1 I2 I3]. split; cbn [inserted pq gone flight ran].
  - intros no i H. apply nth_error_snoc in H as [H|[-> ->]].
    + destruct (I1 _ _ H) as (A & n & D & C). split; [auto|]. exists n. split; [exact D|].
      unfold entry_ok. cbn [pq gone]. rewrite filter_app. cbn [filter e_no].
      pose proof (nth_error_lt _ _ _ H). destruct (Nat.eqb (length (inserted s)) no) eqn:E; [lia|].
      rewrite app_nil_r. exact C.
    + split; [exact Ac|]. exists O. cbn [seq map]. split.
      * unfold dues_of. rewrite filter_none; [reflexivity|]. intros x Hx.
        destruct (I3 x Hx) as (_ & _ & i & Hi & _). apply nth_error_lt in Hi. lia.
      * left. split; [|auto]. unfold entry_ok. cbn [pq]. rewrite filter_app, filter_none.
        -- cbn [filter e_no app]. rewrite Nat.eqb_refl. f_equal. f_equal. unfold due, ms. cbn. lia.
        -- intros x Hx. specialize (I2 x Hx). lia.
  - intros e He. rewrite app_length. apply in_app_or in He as [He|[<-|[]]]; cbn [length].
    + specialize (I2 e He). lia.
    + cbn [e_no]. lia.
  - intros x Hx. destruct (I3 x Hx) as (A & B & i & C & D). split; [auto|]. cbn [inserted].
    rewrite app_length. split; [lia|]. exists i. split; [|auto].
    rewrite nth_error_app1; auto. apply nth_error_lt in C. auto.
Qed.

Lemma ord_insert s t now d p : Inv s -> Ord s -> Ord (insert_weak s t now d p).
Proof.
  intros I O. destruct (insert_cases s t now d p) as [->|(Ac & u & -> & ->)]; [auto|].
  destruct O as [O1 O2]. split; [exact O1|]. cbn [pq]. intros a e Ha He L.
  apply in_app_or in He as [He|[<-|[]]]; [now apply (O2 a e)|].
  cbn [e_no] in L. destruct (inv_tick s I a Ha) as (_ & B & _). lia.
Qed.

(** ** Taking an entry *)
Lemma take_cases s now f s' : take s now f = Some s' ->
  s' = s \/
  (flight s = None /\ exists a b e, pq s = a ++ e :: b /\ e_next e <= now /\
   (forall x, In x (pq s) -> e_next e <= e_next x) /\
   ((In (e_timer e) (gone s) /\ s' = mkS (a ++ b) (gone s) None (ran s) (inserted s) (ub s)) \/
    (~ In (e_timer e) (gone s) /\
     let t := mkT (e_no e) (e_timer e) (e_next e) now (length (inserted s)) in
     (e_period e = 0 /\ s' = mkS (a ++ b) (gone s) (Some t) (ran s) (inserted s) (ub s) \/
      e_period e <> 0 /\
      s' = mkS ((a ++ b) ++ [mkE (e_no e) (e_timer e) (e_next e + e_period e) (e_period e)]) (gone s) (Some t)
               (ran s) (inserted s) (ub s || negb (i64 (e_next e + e_period e))))))).
Proof.
  unfold take. destruct (flight s) eqn:F; [discriminate|].
  destruct (nth_error (pq s) f) as [e|] eqn:E.
  2:{ destruct (pq s); [intros [= <-]; auto|discriminate]. }
  destruct (is_front e (pq s)) eqn:Fr; cbn [negb]; [|discriminate].
  destruct (now <? e_next e) eqn:N; [intros [= <-]; auto|].
  destruct (remove_nth_split _ _ _ E) as (a & b & Q & ->).
  intros H. right. split; [auto|]. exists a, b, e. split; [auto|]. split; [lia|]. split.
  { intros x Hx. unfold is_front in Fr. rewrite forallb_forall in Fr. specialize (Fr x Hx). lia. }
  destruct (is_gone s (e_timer e)) eqn:G.
  - left. apply is_gone_In in G. injection H as <-. auto.
  - right. split. { intros X. apply is_gone_In in X. congruence. }
    destruct (e_period e =? 0) eqn:P; cbn [negb] in H; injection H as <-; [left|right]; split; auto; lia.
Qed.

Lemma filter_mid {A} (f : A -> bool) a x b :
  filter f (a ++ x :: b) = filter f a ++ (if f x then [x] else []) ++ filter f b.
Proof. rewrite filter_app. cbn. destruct (f x); reflexivity. Qed.

Lemma singleton_mid {A} (l1 l2 : list A) x y : l1 ++ [x] ++ l2 = [y] -> x = y /\ l1 = [] /\ l2 = [].
Proof.
  destruct l1 as [|z l1]; cbn; intros H; injection H as H1 H2; auto.
  apply app_eq_nil in H2 as [_ H2]. discriminate.
Qed.

Lemma inv_take s now f s' : Inv s -> take s now f = Some s' -> Inv s'.
Proof.
  intros I H. apply take_cases in H as [->|(F & a & b & e & Q & N & _ & C)]; [auto|].
  destruct I as [I1 I2 I3].
  assert (He : In e (pq s)) by (rewrite Q; apply in_elt).
  assert (Lno := I2 e He).
  destruct (nth_error (inserted s) (e_no e)) as [ie|] eqn:Ei.
  2:{ apply nth_error_None in Ei. lia. }
  assert (Hall : all s = ran s) by (unfold all; rewrite F; apply app_nil_r).
  (* what the invariant says about [e] itself *)
  assert (Own : acceptable (i_delay ie) (i_period ie) /\ exists n,
     dues_of (e_no e) (ran s) = map (due ie) (seq 0 n) /\ (i_period ie = 0 -> n = O) /\
     e = mkE (e_no e) (i_timer ie) (due ie n) (i_period ie * ms) /\
     filter (fun x => Nat.eqb (e_no x) (e_no e)) (a ++ b) = []).
  { destruct (I1 _ _ Ei) as (A & n & D & [[K P]|[K _]]).
    - split; [auto|]. exists n. unfold entry_ok in K. rewrite Q, filter_mid, Nat.eqb_refl in K.
      apply singleton_mid in K as (K1 & K2 & K3). rewrite Hall in D. split; [auto|]. split; [auto|]. split; [auto|].
      rewrite filter_app, K2, K3. reflexivity.
    - exfalso. rewrite Q, filter_mid, Nat.eqb_refl in K. destruct (filter _ a); discriminate. }
  destruct Own as (A & n & D & P0 & Ee & Fn).
  assert (Others : forall no i, nth_error (inserted s) no = Some i -> no <> e_no e ->
     filter (fun x => Nat.eqb (e_no x) no) (pq s) = filter (fun x => Nat.eqb (e_no x) no) (a ++ b)).
  { intros no i Hi Ne. rewrite Q, filter_mid, filter_app. destruct (Nat.eqb (e_no e) no) eqn:X; [lia|]. reflexivity. }
  assert (Lab : forall x, In x (a ++ b) -> (e_no x < length (inserted s))%nat).
  { intros x Hx. apply I2. rewrite Q. apply in_app_or in Hx as [Hx|Hx]; apply in_or_app; cbn; auto. }
  assert (I3' : forall t, In t (ran s) -> tick_ok s t) by (intros; apply I3; now rewrite Hall).
  destruct C as [[G ->]|[G C]].
  - (* the timer is gone *)
    split; cbn [inserted pq].
    + intros no i Hi. unfold ins_ok, entry_ok, all. cbn [pq gone flight ran]. rewrite app_nil_r.
      destruct (Nat.eq_dec no (e_no e)) as [->|Ne].
      * assert (i = ie) as -> by congruence. split; [auto|]. exists n. split; [auto|].
        right. split; [auto|]. split; [intros X; rewrite (P0 X); lia|]. right.
        rewrite Ee in G. exact G.
      * destruct (I1 _ _ Hi) as (Ai & m & Di & Ci). split; [auto|]. exists m. rewrite Hall in Di. split; [auto|].
        unfold entry_ok in Ci. rewrite (Others _ _ Hi Ne) in Ci. exact Ci.
    + exact Lab.
    + intros t. unfold all. cbn [ran flight]. rewrite app_nil_r. intros Ht. exact (I3' t Ht).
  - set (t := mkT (e_no e) (e_timer e) (e_next e) now (length (inserted s))) in *.
    assert (Tk : forall q u, forall x, In x (ran s ++ [t]) -> tick_ok (mkS q (gone s) (Some t) (ran s) (inserted s) u) x).
    { intros q u x Hx. apply in_app_or in Hx as [Hx|[<-|[]]].
      - destruct (I3' x Hx) as (X1 & X2 & X3). split; auto.
      - unfold tick_ok, t. cbn [t_due t_now t_known t_no t_timer inserted]. split; [auto|]. split; [lia|].
        exists ie. split; [auto|]. rewrite Ee. reflexivity. }
    assert (Dt : dues_of (e_no e) (ran s ++ [t]) = map (due ie) (seq 0 (S n))).
    { rewrite dues_of_app, D, seq_S, map_app. f_equal. unfold dues_of, t. cbn [filter t_no]. rewrite Nat.eqb_refl.
      cbn [map t_due]. rewrite Ee. reflexivity. }
    assert (Do : forall no, no <> e_no e -> dues_of no (ran s ++ [t]) = dues_of no (ran s)).
    { intros no Ne. rewrite dues_of_app. unfold dues_of at 2, t. cbn [filter t_no].
      destruct (Nat.eqb (e_no e) no) eqn:X; [lia|]. apply app_nil_r. }
    assert (Pe : e_period e = i_period ie * ms) by (rewrite Ee; reflexivity).
    destruct C as [[P ->]|[P ->]].
    + assert (Z0 : i_period ie = 0) by (unfold ms in Pe; lia).
      split; cbn [inserted pq].
      * intros no i Hi. unfold ins_ok, entry_ok, all. cbn [pq gone flight ran].
        destruct (Nat.eq_dec no (e_no e)) as [->|Ne].
        -- assert (i = ie) as -> by congruence. split; [auto|]. exists (S n). split; [auto|].
           right. rewrite (P0 Z0). split; [auto|]. split; [lia|]. left. auto.
        -- destruct (I1 _ _ Hi) as (Ai & m & Di & Ci). split; [auto|]. exists m. rewrite Hall in Di. rewrite (Do _ Ne). split; [auto|].
           unfold entry_ok in Ci. rewrite (Others _ _ Hi Ne) in Ci. exact Ci.
      * exact Lab.
      * intros x Hx. apply Tk. exact Hx.
    + split; cbn [inserted pq].
      * intros no i Hi. unfold ins_ok, entry_ok, all. cbn [pq gone flight ran]. rewrite filter_app. cbn [filter e_no].
        destruct (Nat.eq_dec no (e_no e)) as [->|Ne].
        -- assert (i = ie) as -> by congruence. split; [auto|]. exists (S n). split; [auto|].
           left. rewrite Fn, Nat.eqb_refl. split.
           ++ cbn [app]. f_equal. rewrite Pe, due_S. rewrite Ee. reflexivity.
           ++ intros X. exfalso. apply P. rewrite Pe, X. reflexivity.
        -- destruct (I1 _ _ Hi) as (Ai & m & Di & Ci). split; [auto|]. exists m. rewrite Hall in Di. rewrite (Do _ Ne). split; [auto|].
           unfold entry_ok in Ci. rewrite (Others _ _ Hi Ne) in Ci.
           destruct (Nat.eqb (e_no e) no) eqn:X; [lia|]. rewrite app_nil_r. exact Ci.
      * intros x Hx. apply in_app_or in Hx as [Hx|[<-|[]]]; auto.
      * intros x Hx. apply Tk. exact Hx.
Qed.

Lemma snoc_split {A} (l : list A) (t : A) l1 a l2 b l3 :
  l ++ [t] = l1 ++ a :: l2 ++ b :: l3 ->
  (exists l3', l3 = l3' ++ [t] /\ l = l1 ++ a :: l2 ++ b :: l3') \/ (l3 = [] /\ b = t /\ l = l1 ++ a :: l2).
Proof.
  destruct l3 as [|x l3 _] using rev_ind; intros H.
  - right. replace (l1 ++ a :: l2 ++ [b]) with ((l1 ++ a :: l2) ++ [b]) in H by (rewrite <- app_assoc; reflexivity).
    apply app_inj_tail in H as [-> ->]. auto.
  - left. replace (l1 ++ a :: l2 ++ b :: l3 ++ [x]) with ((l1 ++ a :: l2 ++ b :: l3) ++ [x]) in H.
    2:{ rewrite <- !app_assoc. cbn. rewrite <- !app_assoc. reflexivity. }
    apply app_inj_tail in H as [-> ->]. eauto.
Qed.

Lemma ord_take s now f s' : Inv s -> Ord s -> take s now f = Some s' -> Ord s'.
Proof.
  intros I O H. apply take_cases in H as [->|(F & a & b & e & Q & N & Mn & C)]; [auto|].
  destruct O as [O1 O2].
  assert (He : In e (pq s)) by (rewrite Q; apply in_elt).
  assert (Hall : all s = ran s) by (unfold all; rewrite F; apply app_nil_r).
  rewrite Hall in *.
  assert (Sub : forall x, In x (a ++ b) -> In x (pq s)).
  { intros x Hx. rewrite Q. apply in_app_or in Hx as [Hx|Hx]; apply in_or_app; cbn; auto. }
  destruct C as [[G ->]|[G C]].
  - split; unfold all; cbn [ran flight pq]; rewrite app_nil_r; [exact O1|]. intros; eapply O2; eauto.
  - cbn zeta in C. set (t := mkT (e_no e) (e_timer e) (e_next e) now (length (inserted s))) in *.
    assert (L : forall l1 x l2 y l3, ran s ++ [t] = l1 ++ x :: l2 ++ y :: l3 -> (t_no y < t_known x)%nat -> t_due x <= t_due y).
    { intros l1 x l2 y l3 E K. apply snoc_split in E as [(l3' & -> & E)|(-> & -> & E)]; [now apply (O1 _ _ _ _ _ E)|].
      unfold t in *. cbn [t_due t_no] in *. apply O2; auto. rewrite E. apply in_elt. }
    assert (M : forall x, In x (pq s) -> t_due t <= e_next x) by exact Mn.
    destruct C as [[P ->]|[P ->]]; split; try exact L; cbn [pq]; unfold all; cbn [ran flight]; intros x y Hx Hy K.
    + apply in_app_or in Hx as [Hx|[<-|[]]]; [apply O2; auto|]. apply M; auto.
    + assert (P1 : 0 < e_period e).
      { destruct (nth_error (inserted s) (e_no e)) as [ie|] eqn:Ei.
        - destruct (inv_ins s I _ _ Ei) as ((_ & A2) & n & D & [[K1 _]|[K1 _]]).
          + unfold entry_ok in K1. rewrite Q, filter_mid, Nat.eqb_refl in K1. apply singleton_mid in K1 as (K1 & _).
            rewrite K1 in P |- *. cbn [e_period] in *. unfold ms in *. lia.
          + rewrite Q, filter_mid, Nat.eqb_refl in K1. destruct (filter _ a); discriminate.
        - apply nth_error_None in Ei. assert (X := inv_pq s I e He). lia. }
      apply in_app_or in Hy as [Hy|[<-|[]]].
      * apply in_app_or in Hx as [Hx|[<-|[]]]; [apply O2; auto|]. apply M; auto.
      * cbn [e_no e_next] in *. apply in_app_or in Hx as [Hx|[<-|[]]].
        -- assert (X := O2 x e Hx He K). lia.
        -- cbn [t t_due]. lia.
Qed.

(** ** All events *)
Lemma all_callback s s' : callback s = Some s' ->
  all s' = all s /\ ran s' = all s /\ pq s' = pq s /\ gone s' = gone s /\ inserted s' = inserted s /\ ub s' = ub s /\ flight s' = None.
Proof.
  unfold callback, all. destruct (flight s) as [t|]; [|discriminate]. intros [= <-]. cbn. now rewrite app_nil_r.
Qed.

Lemma inv_step s e s' : Inv s -> step s e = Some s' -> Inv s'.
Proof.
  intros I. destruct e as [t now d p|now f| |t]; cbn [step].
  - intros [= <-]. now apply inv_insert.
  - now apply inv_take.
  - intros H. apply all_callback in H as (A & _ & Q & G & N & _). destruct I as [I1 I2 I3].
    split; unfold ins_ok, tick_ok; rewrite ?A, ?Q, ?G, ?N; auto.
  - intros [= <-]. destruct I as [I1 I2 I3]. split; cbn [forget inserted pq]; auto.
    intros no i H. destruct (I1 no i H) as (A & n & D & C). split; [auto|]. exists n. split; [exact D|].
    cbn [forget pq gone]. destruct C as [C|(C1 & C2 & C3)]; [auto|]. right. split; [auto|]. split; [auto|]. destruct C3; cbn; auto.
Qed.

Lemma ord_step s e s' : Inv s -> Ord s -> step s e = Some s' -> Ord s'.
Proof.
  intros I O. destruct e as [t now d p|now f| |t]; cbn [step].
  - intros [= <-]. now apply ord_insert.
  - now apply ord_take.
  - intros H. apply all_callback in H as (A & _ & Q & G & N & _). destruct O as [O1 O2].
    split; rewrite ?A, ?Q; auto.
  - intros [= <-]. destruct O as [O1 O2]. split; auto.
Qed.

Lemma inv_init : Inv init.
Proof. split; cbn; try contradiction. intros [|no] i; discriminate. Qed.
Lemma ord_init : Ord init.
Proof. split; cbn; try contradiction. intros [|x l1] a l2 b l3; discriminate. Qed.

Lemma run_app s e1 e2 : run s (e1 ++ e2) = match run s e1 with Some s1 => run s1 e2 | None => None end.
Proof. revert s. induction e1 as [|e e1 IH]; cbn; intros s; auto. destruct (step s e); auto. Qed.

Lemma run_inv es s s' : Inv s -> Ord s -> run s es = Some s' -> Inv s' /\ Ord s'.
Proof.
  revert s. induction es as [|e es IH]; cbn; intros s I O H.
  - injection H as <-. auto.
  - destruct (step s e) as [s1|] eqn:E; [|discriminate].
    apply (IH s1); auto; [eapply inv_step|eapply ord_step]; eauto.
Qed.

Lemma reach es s : run init es = Some s -> Inv s /\ Ord s.
Proof. apply run_inv; [apply inv_init|apply ord_init]. Qed.

(** [all] only grows, and no callback is taken for a timer that is gone. *)
Lemma step_grow s e s' t : step s e = Some s' -> In t (gone s) ->
  In t (gone s') /\ exists l, all s' = all s ++ l /\ count_of t l = O.
Proof.
  intros H G. assert (Same : forall s2, s2 = s -> In t (gone s2) /\ exists l, all s2 = all s ++ l /\ count_of t l = O).
  { intros s2 ->. split; [auto|]. exists []. split; [now rewrite app_nil_r|reflexivity]. }
  destruct e as [u now d p|now f| |u]; cbn [step] in H.
  - injection H as <-. destruct (insert_cases s u now d p) as [->|(_ & v & -> & ->)]; [now apply Same|].
    split; [auto|]. exists []. split; [now rewrite app_nil_r|reflexivity].
  - apply take_cases in H as [->|(F & a & b & e & Q & N & _ & C)]; [now apply Same|].
    assert (A : all s = ran s) by (unfold all; rewrite F; apply app_nil_r). rewrite A.
    destruct C as [[_ ->]|[G' [[_ ->]|[_ ->]]]]; split; auto; unfold all; cbn [ran flight gone].
    + exists []. auto.
    + eexists. split; [reflexivity|]. unfold count_of. cbn [filter t_timer]. destruct (e_timer e =? t) eqn:X; [|auto].
      apply Z.eqb_eq in X. subst. contradiction.
    + eexists. split; [reflexivity|]. unfold count_of. cbn [filter t_timer]. destruct (e_timer e =? t) eqn:X; [|auto].
      apply Z.eqb_eq in X. subst. contradiction.
  - apply all_callback in H as (A & _ & _ & Gn & _). rewrite A, Gn. split; [auto|]. exists [].
    split; [now rewrite app_nil_r|reflexivity].
  - injection H as <-. split; [cbn; auto|]. exists []. split; [unfold all; cbn [forget ran flight]; now rewrite app_nil_r|reflexivity].
Qed.

Lemma count_app t a b : count_of t (a ++ b) = (count_of t a + count_of t b)%nat.
Proof. unfold count_of. now rewrite filter_app, app_length. Qed.

Lemma run_grow es s s' t : run s es = Some s' -> In t (gone s) -> exists l, all s' = all s ++ l /\ count_of t l = O.
Proof.
  revert s. induction es as [|e es IH]; cbn; intros s H G.
  - injection H as <-. exists []. split; [now rewrite app_nil_r|reflexivity].
  - destruct (step s e) as [s1|] eqn:E; [|discriminate].
    destruct (step_grow _ _ _ _ E G) as (G1 & l & A & C). destruct (IH s1 H G1) as (l' & A' & C').
    exists (l ++ l'). rewrite A', A, app_assoc, count_app. split; [reflexivity|lia].
Qed.

(** ** No overflow *)
Definition cap : Z := 2 ^ 63 - 1 - 24000 * 3600 * 1000000000.
Definition Small (s : st) : Prop := ub s = false /\ forall e, In e (pq s) -> 0 <= e_next e <= 2 ^ 63 - 1.

Lemma small_step s e s' : Inv s -> Small s -> sane_clock e -> step s e = Some s' -> Small s'.
Proof.
  intros I [U S] C. destruct e as [t now d p|now f| |t]; cbn [step sane_clock] in *.
  - intros [= <-]. destruct (insert_cases s t now d p) as [->|(Ac & u & -> & ->)]; [split; auto|].
    unfold acceptable, ms in *. split; cbn [ub pq].
    + rewrite U. unfold i64. lia.
    + intros e He. apply in_app_or in He as [He|[<-|[]]]; [auto|]. cbn [e_next]. lia.
  - intros H. apply take_cases in H as [->|(F & a & b & e & Q & N & _ & K)]; [split; auto|].
    assert (He : In e (pq s)) by (rewrite Q; apply in_elt).
    assert (Sub : forall x, In x (a ++ b) -> 0 <= e_next x <= 2 ^ 63 - 1).
    { intros x Hx. apply S. rewrite Q. apply in_app_or in Hx as [Hx|Hx]; apply in_or_app; cbn; auto. }
    destruct K as [[_ ->]|[_ [[_ ->]|[P ->]]]]; [split; auto|split; auto|].
    assert (Pb : 0 <= e_period e <= 24000 * 3600 * 1000 * ms).
    { destruct (nth_error (inserted s) (e_no e)) as [ie|] eqn:Ei.
      - destruct (inv_ins s I _ _ Ei) as ((_ & A2) & n & D & [[K1 _]|[K1 _]]).
        + unfold entry_ok in K1. rewrite Q, filter_mid, Nat.eqb_refl in K1. apply singleton_mid in K1 as (K1 & _).
          rewrite K1. cbn [e_period]. unfold ms in *. lia.
        + rewrite Q, filter_mid, Nat.eqb_refl in K1. destruct (filter _ a); discriminate.
      - apply nth_error_None in Ei. assert (X := inv_pq s I e He). lia. }
    assert (X := S e He). unfold ms in *. split; cbn [ub pq].
    + rewrite U. unfold i64. lia.
    + intros x Hx. apply in_app_or in Hx as [Hx|[<-|[]]]; [auto|]. cbn [e_next]. lia.
  - intros H. apply all_callback in H as (_ & _ & Q & _ & _ & U' & _). unfold Small. now rewrite Q, U'.
  - intros [= <-]. split; auto.
Qed.

(** ** Progress *)
Definition need (now : Z) (e : entry) : nat :=
  if now <? e_next e then O
  else if e_period e =? 0 then 1%nat
  else S (Z.to_nat ((now - e_next e) / e_period e)).
Definition work (now : Z) (q : list entry) : nat := fold_right (fun e n => (need now e + n)%nat) O q.

Lemma work_app now a b : work now (a ++ b) = (work now a + work now b)%nat.
Proof. induction a as [|x a IH]; cbn [app work fold_right]; [reflexivity|]. fold (work now (a ++ b)). fold (work now a). lia. Qed.

Lemma need_next now e : e_next e <= now -> 0 < e_period e ->
  (need now (mkE (e_no e) (e_timer e) (e_next e + e_period e) (e_period e)) < need now e)%nat.
Proof.
  intros H P. unfold need. cbn [e_next e_period].
  destruct (now <? e_next e) eqn:E1; [lia|]. destruct (e_period e =? 0) eqn:E2; [lia|].
  destruct (now <? e_next e + e_period e) eqn:E3; [lia|].
  replace (now - e_next e) with ((now - (e_next e + e_period e)) + 1 * e_period e) by lia.
  rewrite Z.div_add by lia.
  assert (0 <= (now - (e_next e + e_period e)) / e_period e) by (apply Z.div_pos; lia).
  rewrite Z2Nat.inj_add by lia. cbn. lia.
Qed.

Lemma need_pos now e : e_next e <= now -> (0 < need now e)%nat.
Proof. intros H. unfold need. destruct (now <? e_next e) eqn:E1; [lia|]. destruct (e_period e =? 0); lia. Qed.

Lemma entry_period s e : Inv s -> In e (pq s) -> 0 <= e_period e.
Proof.
  intros I He. apply in_split in He as (a & b & Q).
  destruct (nth_error (inserted s) (e_no e)) as [ie|] eqn:Ei.
  - destruct (inv_ins s I _ _ Ei) as ((_ & A2) & n & D & [[K1 _]|[K1 _]]).
    + unfold entry_ok in K1. rewrite Q, filter_mid, Nat.eqb_refl in K1. apply singleton_mid in K1 as (K1 & _).
      rewrite K1. cbn [e_period]. unfold ms in *. lia.
    + rewrite Q, filter_mid, Nat.eqb_refl in K1. destruct (filter _ a); discriminate.
  - apply nth_error_None in Ei. assert (X : In e (pq s)) by (rewrite Q; apply in_elt). apply (inv_pq s I) in X. lia.
Qed.

Lemma turn_inv now s f s' : Inv s -> Ord s -> turn now s f = Some s' -> Inv s' /\ Ord s'.
Proof.
  intros I O. unfold turn. destruct (step s (Loop now f)) as [s1|] eqn:E; [|discriminate].
  assert (I1 := inv_step _ _ _ I E). assert (O1 := ord_step _ _ _ I O E).
  destruct (flight s1); [|intros [= <-]; auto].
  intros H. split; [eapply inv_step|eapply ord_step]; eauto.
Qed.

Lemma turn_work now s f s' : Inv s -> flight s = None -> turn now s f = Some s' ->
  flight s' = None /\ (idle_at now s' \/ (work now (pq s') < work now (pq s))%nat).
Proof.
  intros I F. unfold turn. cbn [step]. destruct (take s now f) as [s1|] eqn:E; [|discriminate].
  intros H.
  assert (Q1 : pq s' = pq s1 /\ flight s' = None).
  { destruct (flight s1) eqn:F1; [|injection H as <-; auto].
    apply all_callback in H as (_ & _ & Q & _ & _ & _ & N). auto. }
  destruct Q1 as [Q1 N']. split; [auto|]. rewrite Q1.
  unfold take in E. rewrite F in E. destruct (nth_error (pq s) f) as [e|] eqn:Ef.
  2:{ destruct (pq s) eqn:Qs; [|discriminate]. injection E as <-. left. split; [auto|]. rewrite Q1, Qs. contradiction. }
  destruct (is_front e (pq s)) eqn:Fr; cbn [negb] in E; [|discriminate].
  destruct (now <? e_next e) eqn:Nw.
  { injection E as <-. left. split; [auto|]. rewrite Q1. intros x Hx.
    unfold is_front in Fr. rewrite forallb_forall in Fr. specialize (Fr x Hx). lia. }
  right. assert (Hn : e_next e <= now) by lia.
  assert (He := nth_error_In _ _ Ef). assert (Pe := entry_period _ _ I He).
  destruct (remove_nth_split _ _ _ Ef) as (a & b & Qs & Qr). rewrite Qr in E.
  assert (W : work now (pq s) = (work now (a ++ b) + need now e)%nat).
  { rewrite Qs, !work_app. cbn [work fold_right]. fold (work now b). lia. }
  assert (X := need_pos now e Hn). rewrite W.
  destruct (is_gone s (e_timer e)).
  - injection E as <-. cbn [pq]. lia.
  - destruct (e_period e =? 0) eqn:P0; cbn [negb] in E; injection E as <-; cbn [pq]; [lia|].
    rewrite (work_app now (a ++ b)). cbn [work fold_right].
    assert (Y := need_next now e Hn ltac:(lia)). lia.
Qed.

Lemma idle_turn now s f s' : idle_at now s -> turn now s f = Some s' -> s' = s.
Proof.
  intros [F Q]. unfold turn. cbn [step]. unfold take. rewrite F.
  destruct (nth_error (pq s) f) as [e|] eqn:Ef.
  - destruct (is_front e (pq s)); cbn [negb]; [|discriminate]. apply nth_error_In in Ef. specialize (Q e Ef).
    destruct (now <? e_next e) eqn:X; [|lia]. rewrite F. intros [= <-]. auto.
  - destruct (pq s); [|discriminate]. rewrite F. intros [= <-]. auto.
Qed.

Lemma turns_idle now fs s s' : Inv s -> Ord s -> flight s = None -> (work now (pq s) < length fs)%nat ->
  turns now s fs = Some s' -> idle_at now s'.
Proof.
  revert s. induction fs as [|f fs IH]; cbn [turns length]; intros s I O F L H; [lia|].
  destruct (turn now s f) as [s1|] eqn:E; [|discriminate].
  destruct (turn_inv _ _ _ _ I O E) as [I1 O1].
  destruct (turn_work _ _ _ _ I F E) as (F1 & [Id|W]).
  - clear - H Id. revert H. generalize fs as l. induction l as [|g l IH]; cbn [turns]; intros H.
    + injection H as <-. auto.
    + destruct (turn now s1 g) as [s2|] eqn:E2; [|discriminate]. apply (idle_turn _ _ _ _ Id) in E2. subst. auto.
  - apply (IH s1); auto. lia.
Qed.

(** A heap that is not empty has a front. *)
Lemma front_exists (q : list entry) : q <> [] -> exists f e, nth_error q f = Some e /\ is_front e q = true.
Proof.
  induction q as [|x q IH]; [congruence|]. intros _. destruct q as [|y q].
  - exists O, x. split; [reflexivity|]. unfold is_front. cbn. lia.
  - destruct IH as (f & e & Hf & Fr); [discriminate|].
    destruct (e_next x <=? e_next e) eqn:C.
    + exists O, x. split; [reflexivity|]. unfold is_front in *. rewrite forallb_forall in Fr.
      apply forallb_forall. intros z [<-|Hz]; [lia|]. specialize (Fr z Hz). lia.
    + exists (S f), e. split; [exact Hf|]. unfold is_front in *. rewrite forallb_forall in Fr.
      apply forallb_forall. intros z [<-|Hz]; [lia|]. exact (Fr z Hz).
Qed.

Lemma turn_exists now s : flight s = None -> exists f s', turn now s f = Some s'.
Proof.
  intros F. destruct (pq s) as [|x q] eqn:Q.
  - exists O, s. unfold turn. cbn [step]. unfold take. rewrite F, Q. cbn. now rewrite F.
  - destruct (front_exists (pq s)) as (f & e & Hf & Fr); [congruence|]. exists f.
    unfold turn. cbn [step]. unfold take. rewrite F, Hf, Fr. cbn [negb].
    destruct (now <? e_next e); [rewrite F; eauto|]. destruct (is_gone s (e_timer e)); [cbn; eauto|].
    destruct (e_period e =? 0); cbn [negb flight step callback]; eauto.
Qed.

Lemma turns_exist now n s : Inv s -> Ord s -> flight s = None -> exists fs s', length fs = n /\ turns now s fs = Some s'.
Proof.
  revert s. induction n as [|n IH]; intros s I O F.
  - exists [], s. auto.
  - destruct (turn_exists now s F) as (f & s1 & E). destruct (turn_inv _ _ _ _ I O E) as [I1 O1].
    destruct (turn_work _ _ _ _ I F E) as (F1 & _). destruct (IH s1 I1 O1 F1) as (fs & s' & L & H).
    exists (f :: fs), s'. cbn [length turns]. rewrite E. auto.
Qed.
