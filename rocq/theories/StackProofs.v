(** Proofs about the cache of fiber stacks. *)
From Coq Require Import ZArith List Lia Bool.
From Verif Require Import StackModel StackSpec.
Import ListNotations.
Open Scope Z_scope.

Lemma run_app s e1 e2 : run s (e1 ++ e2) = match run s e1 with Some s1 => run s1 e2 | None => None end.
Proof. revert s. induction e1 as [|e e1 IH]; cbn; intros s; auto. destruct (step s e); auto. Qed.

Lemma set_same {A} (f : nat -> A) k v : set f k v k = v.
Proof. unfold set. now rewrite Nat.eqb_refl. Qed.
Lemma set_other {A} (f : nat -> A) k v x : x <> k -> set f k v x = f x.
Proof. unfold set. intros H. destruct (Nat.eqb_spec x k); congruence. Qed.

Lemma chain_ext nx nx' p l : chain nx p l -> (forall b, In b l -> nx' b = nx b) -> chain nx' p l.
Proof.
  revert p. induction l as [|b l IH]; cbn; intros p; auto. intros [-> C] H. split; auto. rewrite (H b) by auto. apply IH; auto.
Qed.

Inductive place := Nowhere | Cache | Thread (t : nat) | User.

Definition owns (nx : nat -> option nat) (p : pc) (l : list nat) : Prop :=
  match p with
  | Idle => l = []
  | A1 _ c => chain nx c l
  | A2 _ c n => exists l', l = c :: l' /\ nx c = Some n /\ chain nx (Some n) l'
  | A3 _ c old => exists l', l = c :: l' /\ chain nx old l'
  | A4 _ c => chain nx c l
  | F1 b | F2 b => l = [b]
  end.

Lemma owns_ext nx nx' p l : owns nx p l -> (forall b, In b l -> nx' b = nx b) -> owns nx' p l.
Proof.
  destruct p as [|vm c|vm c n|vm c old|vm c|b|b]; cbn; auto; try (intros; eapply chain_ext; eauto; fail).
  - intros (l' & -> & A & B) H. exists l'. repeat split; auto; [rewrite H; cbn; auto|]. eapply chain_ext; eauto. intros; apply H. cbn; auto.
  - intros (l' & -> & B) H. exists l'. split; auto. eapply chain_ext; eauto. intros; apply H. cbn; auto.
Qed.

Record InvW (s : st) (own : nat -> place) (L : list nat) (O : nat -> list nat) : Prop := {
  w_head : chain (nxt s) (head s) L;
  w_pcs : forall t, owns (nxt s) (pcs s t) (O t);
  w_nd : NoDup L;
  w_ndo : forall t, NoDup (O t);
  w_ndu : NoDup (map fst (users s));
  w_L : forall b, In b L <-> own b = Cache;
  w_O : forall t b, In b (O t) <-> own b = Thread t;
  w_U : forall b, In b (map fst (users s)) <-> own b = User;
  w_N : forall b, real s b = None <-> own b = Nowhere;
  w_siz : forall b, own b <> Nowhere -> own b <> User -> real s b = Some (siz s b);
  w_use : forall b z, In (b, z) (users s) -> real s b = Some z;
  w_bad : bad s = false;
  w_giv : Forall (fun g => let '(t, vm, b, z) := g in z = vm) (given s) }.

Definition Inv (s : st) : Prop := exists own L O, InvW s own L O.

Lemma take_user_split b l z l' : take_user b l = Some (z, l') -> exists x y, l = x ++ (b, z) :: y /\ l' = x ++ y.
Proof.
  revert l'. induction l as [|[c w] l IH]; cbn; intros l'; [discriminate|].
  destruct (Nat.eqb_spec c b) as [->|].
  - intros [= -> ->]. exists [], l'. auto.
  - destruct (take_user b l) as [[y l'']|]; [|discriminate]. intros [= -> <-].
    destruct (IH _ eq_refl) as (x & y & -> & ->). exists ((c, w) :: x), y. auto.
Qed.

Lemma touch_ok s b own L O : InvW s own L O -> own b <> Nowhere -> touch s b = false.
Proof. intros W H. unfold touch. destruct (real s b) eqn:E; auto. apply (w_N _ _ _ _ W) in E. contradiction. Qed.

(** A change of a thread's place that leaves everything else alone. *)
Lemma goes_inv s own L O t p l : InvW s own L O -> owns (nxt s) p l -> (forall b, In b l <-> In b (O t)) -> NoDup l ->
  InvW (goes s t p) own L (set O t l).
Proof.
  intros [] Hp Hl Hn. split; cbn [goes head nxt siz real pcs users given bad]; auto.
  - intros u. destruct (Nat.eq_dec u t) as [->|N]; [rewrite !set_same|rewrite !set_other]; auto.
  - intros u. destruct (Nat.eq_dec u t) as [->|N]; [rewrite !set_same|rewrite !set_other]; auto.
  - intros u b. destruct (Nat.eq_dec u t) as [->|N]; [rewrite !set_same|rewrite !set_other]; auto. rewrite Hl. auto.
Qed.

Lemma optnat_eqb_eq a b : optnat_eqb a b = true -> a = b.
Proof. destruct a, b; cbn; try discriminate; auto. intros H. apply Nat.eqb_eq in H. congruence. Qed.

Ltac thr t u Nq := destruct (Nat.eq_dec u t) as [->|Nq]; [rewrite ?set_same|rewrite ?(set_other _ _ _ _ Nq)].

Lemma inv_step s e s' : Inv s -> step s e = Some s' -> Inv s'.
Proof.
  intros (own & L & O & W) H. pose proof W as W0. destruct W as [Wh Wp Wn Wo Wnu WL WO WU WN Ws Wu Wb Wg].
  destruct e as [t vm|t|t r|t b|t x|b n z]; cbn [step] in H.
  - (* first exchange *)
    unfold alloc in H. destruct (pcs s t) eqn:P; try discriminate. injection H as <-.
    pose proof (Wp t) as Pt. rewrite P in Pt. cbn in Pt.
    exists (fun b => match own b with Cache => Thread t | p => p end), [], (set O t L).
    split; cbn [head nxt siz real pcs users given bad]; auto.
    + reflexivity.
    + intros u. thr t u Nq; auto.
    + constructor.
    + intros u. thr t u Nq; auto.
    + intros b. cbn. destruct (own b); split; try tauto; discriminate.
    + intros u b. thr t u Nq.
      * rewrite WL. destruct (own b) eqn:E; split; try discriminate; auto. intros Q. apply WO in E. injection Q as ->. rewrite Pt in E. destruct E.
      * rewrite WO. destruct (own b) eqn:E; split; try discriminate; auto. congruence.
    + intros b. rewrite WU. destruct (own b); split; congruence.
    + intros b. rewrite WN. destruct (own b); split; congruence.
    + intros b. specialize (Ws b). destruct (own b); intros; apply Ws; congruence.
  - unfold go in H. destruct (pcs s t) as [|vm c|vm c n|vm c old|vm c|b|b] eqn:P; try discriminate; pose proof (Wp t) as Pt; rewrite P in Pt; cbn [owns] in Pt.
    + (* read of cst->next *)
      injection H as <-. destruct c as [c|].
      * assert (Ic : In c (O t)) by (destruct (O t) as [|y l]; cbn in Pt; [discriminate|]; destruct Pt as [[= ->] _]; left; auto).
        assert (T : touch s c = false). { apply (touch_ok _ _ _ _ _ W0). apply WO in Ic. congruence. }
        exists own, L, (set O t (O t)). rewrite T.
        assert (G : forall p, owns (nxt s) p (O t) -> InvW (flag (goes s t p) false) own L (set O t (O t))).
        { intros p Hp. pose proof (goes_inv s own L O t p (O t) W0 Hp (fun b => iff_refl _) (Wo t)) as [].
          split; cbn [flag goes head nxt siz real pcs users given bad] in *; auto. now rewrite Wb. }
        destruct (nxt s c) as [n|] eqn:E; apply G; cbn [owns].
        -- destruct (O t) as [|y l]; cbn in Pt; [discriminate|]. destruct Pt as [[= ->] Pt]. rewrite E in Pt. exists l. auto.
        -- exact Pt.
      * exists own, L, (set O t (O t)). apply goes_inv; auto. reflexivity.
    + (* second exchange *)
      injection H as <-. destruct Pt as (l & Hl & Hn & Hc).
      assert (Ic : own c = Thread t) by (apply WO; rewrite Hl; left; auto).
      assert (Nd : NoDup (c :: l)) by (rewrite <- Hl; auto). inversion Nd as [|? ? Nc Nl]; subst.
      assert (LO : forall b, In b L -> In b (O t) -> False). { intros b A B. apply WL in A. apply WO in B. congruence. }
      exists (fun b => if Nat.eqb b c then Thread t else match own b with Cache => Thread t | Thread u => if Nat.eqb u t then Cache else Thread u | p => p end),
        l, (set O t (c :: L)).
      split; cbn [head nxt siz real pcs users given bad]; auto.
      * intros u. thr t u Nq; [|auto]. cbn [owns]. exists L. auto.
      * intros u. thr t u Nq; auto. constructor; auto. intros K. apply (LO c K). rewrite Hl. left; auto.
      * intros b. assert (Hb : In b (c :: l) <-> own b = Thread t) by (rewrite <- Hl; apply WO). cbn in Hb.
        destruct (Nat.eqb_spec b c) as [->|Nb].
        -- split; [intros K; contradiction|discriminate].
        -- destruct (own b) as [| |u|] eqn:E; try (split; [intros K; destruct Hb as [Hb _]; specialize (Hb (or_intror K)); discriminate|discriminate]).
           destruct (Nat.eqb_spec u t) as [->|Nu]; split; auto.
           ++ intros _. destruct Hb as [_ Hb]. destruct (Hb eq_refl); [congruence|auto].
           ++ intros K. destruct Hb as [Hb _]. specialize (Hb (or_intror K)). congruence.
           ++ congruence.
      * intros u b. thr t u Nq.
        -- cbn [In]. rewrite WL. destruct (Nat.eqb_spec b c) as [->|Nb]; [split; auto|].
           destruct (own b) as [| |u|] eqn:E; split; try discriminate; auto; try (intros [|]; [congruence|discriminate]).
           destruct (Nat.eqb_spec u t); congruence.
        -- rewrite WO. destruct (Nat.eqb_spec b c) as [->|Nb]; [rewrite Ic; split; congruence|].
           destruct (own b) as [| |v|] eqn:E; split; try discriminate; try congruence.
           ++ intros [= ->]. destruct (Nat.eqb_spec u t); congruence.
           ++ destruct (Nat.eqb_spec v t); congruence.
      * intros b. rewrite WU. destruct (Nat.eqb_spec b c) as [->|Nb]; [rewrite Ic; split; discriminate|].
        destruct (own b) as [| |v|]; split; try discriminate; auto. destruct (Nat.eqb v t); discriminate.
      * intros b. rewrite WN. destruct (Nat.eqb_spec b c) as [->|Nb]; [rewrite Ic; split; discriminate|].
        destruct (own b) as [| |v|]; split; try discriminate; auto. destruct (Nat.eqb v t); discriminate.
      * intros b H1 H2. revert H1 H2. destruct (Nat.eqb_spec b c) as [->|Nb]; intros H1 H2; [apply Ws; congruence|]. apply Ws; intros K; rewrite K in *; congruence.
    + (* store to cst->next *)
      injection H as <-. destruct Pt as (l & Hl & Hc).
      assert (Ic : own c = Thread t) by (apply WO; rewrite Hl; left; auto).
      assert (T : touch s c = false) by (apply (touch_ok _ _ _ _ _ W0); congruence).
      assert (Nd : NoDup (c :: l)) by (rewrite <- Hl; auto). inversion Nd as [|? ? Nc Nl]; subst.
      exists own, L, O. split; cbn [head nxt siz real pcs users given bad]; auto.
      * eapply chain_ext; eauto. intros b Hb. apply set_other. intros ->. apply WL in Hb. congruence.
      * intros u. thr t u Nq.
        -- cbn [owns]. rewrite Hl. cbn [chain]. split; auto. rewrite set_same. eapply chain_ext; eauto. intros b Hb. apply set_other. intros ->. contradiction.
        -- eapply owns_ext; eauto. intros b Hb. apply set_other. intros ->. apply WO in Hb. congruence.
      * now rewrite Wb, T.
    + (* the loop *)
      destruct c as [c|]; [|discriminate].
      assert (HO : exists l, O t = c :: l /\ chain (nxt s) (nxt s c) l).
      { destruct (O t) as [|y l]; cbn in Pt; [discriminate|]. destruct Pt as [[= ->] Pt]. eauto. }
      destruct HO as (l & Hl & Hc).
      assert (Ic : own c = Thread t) by (apply WO; rewrite Hl; left; auto).
      assert (T : touch s c = false) by (apply (touch_ok _ _ _ _ _ W0); congruence).
      assert (Rc : real s c = Some (siz s c)) by (apply Ws; congruence).
      assert (Nd : NoDup (c :: l)) by (rewrite <- Hl; auto). inversion Nd as [|? ? Nc Nl]; subst.
      destruct (match nxt s c with Some _ => true | None => negb (siz s c =? vm) end) eqn:A; injection H as <-.
      * exists (set own c Nowhere), L, (set O t l). split; cbn [head nxt siz real pcs users given bad]; auto.
        -- intros u. thr t u Nq; auto.
        -- intros u. thr t u Nq; auto.
        -- intros b. thr c b Nb; [|auto]. rewrite WL, Ic. split; discriminate.
        -- intros u b. assert (Hb : In b (c :: l) <-> own b = Thread t) by (rewrite <- Hl; apply WO). cbn in Hb. thr t u Nq.
           ++ thr c b Nb; [split; [contradiction|discriminate]|]. rewrite <- Hb. intuition congruence.
           ++ thr c b Nb; [rewrite WO, Ic; split; congruence|]. apply WO.
        -- intros b. thr c b Nb; [|auto]. rewrite WU, Ic. split; discriminate.
        -- intros b. thr c b Nb; [tauto|]. apply WN.
        -- intros b. thr c b Nb; [tauto|]. apply Ws.
        -- intros b z Hin. rewrite set_other; auto. intros ->.
           assert (own c = User) by (apply WU, in_map_iff; exists (c, z); auto). congruence.
        -- rewrite Wb, Rc, Z.eqb_refl. reflexivity.
      * destruct (nxt s c) as [|] eqn:En; [discriminate|]. apply negb_false_iff, Z.eqb_eq in A.
        destruct l as [|y l]; [|destruct Hc as [Hc _]; discriminate].
        exists (set own c User), L, (set O t []). split; cbn [head nxt siz real pcs users given bad map fst]; auto.
        -- intros u. thr t u Nq; cbn [owns]; auto.
        -- intros u. thr t u Nq; auto.
        -- constructor; auto. rewrite WU, Ic. discriminate.
        -- intros b. thr c b Nb; [|auto]. rewrite WL, Ic. split; discriminate.
        -- intros u b. assert (Hb : In b [c] <-> own b = Thread t) by (rewrite <- Hl; apply WO). cbn in Hb. thr t u Nq.
           ++ thr c b Nb; [split; [contradiction|discriminate]|]. rewrite <- Hb. cbn. intuition congruence.
           ++ thr c b Nb; [rewrite WO, Ic; split; congruence|]. apply WO.
        -- intros b. cbn [In]. thr c b Nb; [tauto|]. rewrite WU. intuition congruence.
        -- intros b. thr c b Nb; [rewrite Rc; split; discriminate|]. apply WN.
        -- intros b. thr c b Nb; [tauto|]. apply Ws.
        -- intros b z [[= <- <-]|Hin]; auto.
        -- now rewrite Wb, T.
        -- apply Forall_app. split; auto.
    + (* load *)
      injection H as <-.
      assert (Ic : own b = Thread t) by (apply WO; rewrite Pt; left; auto).
      assert (T : touch s b = false) by (apply (touch_ok _ _ _ _ _ W0); congruence).
      exists own, L, O. split; cbn [head nxt siz real pcs users given bad]; auto.
      * eapply chain_ext; eauto. intros c Hb. apply set_other. intros ->. apply WL in Hb. congruence.
      * intros u. thr t u Nq; [exact Pt|]. eapply owns_ext; eauto. intros c Hb. apply set_other. intros ->. apply WO in Hb. congruence.
      * now rewrite Wb, T.
  - (* mmap *)
    unfold mmap in H. destruct (pcs s t) as [| | | |vm [c|]| |] eqn:P; try discriminate. pose proof (Wp t) as Pt; rewrite P in Pt; cbn [owns] in Pt.
    assert (HO : O t = []) by (destruct (O t); cbn in Pt; [auto|destruct Pt; discriminate]).
    destruct r as [b|].
    + destruct (real s b) eqn:R; [discriminate|]. injection H as <-.
      assert (Nb : own b = Nowhere) by (apply WN; auto).
      exists (set own b User), L, O. split; cbn [head nxt siz real pcs users given bad map fst]; auto.
      * eapply chain_ext; eauto. intros c Hb. apply set_other. intros ->. apply WL in Hb. congruence.
      * intros u. thr t u Nq; [cbn; auto|]. eapply owns_ext; eauto. intros c Hb. apply set_other. intros ->. apply WO in Hb. congruence.
      * constructor; auto. rewrite WU, Nb. discriminate.
      * intros c. thr b c Nq; [|auto]. rewrite WL, Nb. split; discriminate.
      * intros u c. thr b c Nq; [|auto]. rewrite WO, Nb. split; discriminate.
      * intros c. cbn [In]. thr b c Nq; [tauto|]. rewrite WU. intuition congruence.
      * intros c. thr b c Nq; [split; discriminate|]. apply WN.
      * intros c. thr b c Nq; [tauto|]. apply Ws.
      * intros c z [[= <- <-]|Hin]; [now rewrite set_same|]. rewrite set_other; auto. intros ->.
        assert (own b = User) by (apply WU, in_map_iff; exists (b, z); auto). congruence.
      * apply Forall_app. split; auto.
    + injection H as <-. exists own, L, (set O t (O t)). apply goes_inv; auto. reflexivity.
  - (* free *)
    unfold free in H. destruct (pcs s t) eqn:P; try discriminate. pose proof (Wp t) as Pt; rewrite P in Pt; cbn [owns] in Pt.
    destruct (take_user b (users s)) as [[z l]|] eqn:E; [|discriminate]. injection H as <-.
    destruct (take_user_split _ _ _ _ E) as (x & y & Ex & ->).
    assert (Ib : own b = User) by (apply WU; rewrite Ex, map_app, in_app_iff; cbn; auto).
    assert (T : touch s b = false) by (apply (touch_ok _ _ _ _ _ W0); congruence).
    assert (Rb : real s b = Some z) by (apply Wu; rewrite Ex, in_app_iff; cbn; auto).
    assert (Nu : NoDup (map fst x ++ b :: map fst y)) by (rewrite Ex, map_app in Wnu; exact Wnu).
    exists (set own b (Thread t)), L, (set O t [b]). split; cbn [head nxt siz real pcs users given bad]; auto.
    + eapply chain_ext; eauto. intros c Hb. apply set_other. intros ->. apply WL in Hb. congruence.
    + intros u. thr t u Nq; [cbn; auto|]. eapply owns_ext; eauto. intros c Hb. apply set_other. intros ->. apply WO in Hb. congruence.
    + intros u. thr t u Nq; auto. constructor; [intros []|constructor].
    + rewrite map_app. eapply NoDup_remove_1; eauto.
    + intros c. thr b c Nq; [|auto]. rewrite WL, Ib. split; discriminate.
    + intros u c. thr t u Nq.
      * thr b c Nc; [cbn; tauto|]. cbn. pose proof (WO t c) as Q. rewrite Pt in Q. cbn in Q. rewrite <- Q. intuition congruence.
      * thr b c Nc; [rewrite WO, Ib; split; congruence|]. apply WO.
    + intros c. rewrite map_app, in_app_iff. thr b c Nc.
      * apply NoDup_remove_2 in Nu. rewrite in_app_iff in Nu. split; [tauto|discriminate].
      * rewrite <- WU, Ex, map_app, in_app_iff. cbn. intuition congruence.
    + intros c. thr b c Nc; [rewrite Rb; split; discriminate|]. apply WN.
    + intros c. thr b c Nc; [auto|]. apply Ws.
    + intros c w Hin. apply Wu. rewrite Ex. apply in_app_iff in Hin. apply in_app_iff. cbn. tauto.
    + now rewrite Wb, T.
  - (* compare and exchange *)
    unfold cas in H. destruct (pcs s t) eqn:P; try discriminate. pose proof (Wp t) as Pt; rewrite P in Pt; cbn [owns] in Pt. injection H as <-.
    assert (Ic : own b = Thread t) by (apply WO; rewrite Pt; left; auto).
    assert (T : touch s b = false) by (apply (touch_ok _ _ _ _ _ W0); congruence).
    destruct (optnat_eqb (head s) (nxt s b) && negb x) eqn:E.
    + apply andb_true_iff in E as [E _]. apply optnat_eqb_eq in E.
      exists (set own b Cache), (b :: L), (set O t []). split; cbn [head nxt siz real pcs users given bad]; auto.
      * cbn. split; auto. now rewrite <- E.
      * intros u. thr t u Nq; cbn; auto.
      * constructor; auto. rewrite WL, Ic. discriminate.
      * intros u. thr t u Nq; auto. constructor.
      * intros c. cbn [In]. thr b c Nq; [tauto|]. rewrite WL. intuition congruence.
      * intros u c. pose proof (WO t c) as Q. rewrite Pt in Q. cbn in Q. thr t u Nq.
        -- thr b c Nc; [split; [intros []|discriminate]|]. rewrite <- Q. cbn. intuition congruence.
        -- thr b c Nc; [rewrite WO, Ic; split; congruence|]. apply WO.
      * intros c. thr b c Nc; [rewrite WU, Ic; split; discriminate|]. apply WU.
      * intros c. thr b c Nc; [|apply WN]. rewrite WN, Ic. split; discriminate.
      * intros c. thr b c Nc; [|apply Ws]. intros _ _. apply Ws; congruence.
      * now rewrite Wb, T.
    + exists own, L, O. split; cbn [head nxt siz real pcs users given bad]; auto.
      * eapply chain_ext; eauto. intros c Hb. apply set_other. intros ->. apply WL in Hb. congruence.
      * intros u. destruct (Nat.eq_dec u t) as [->|Nt]; [rewrite P; exact Pt|].
        eapply (owns_ext (nxt s)); auto. intros c Hb. apply set_other. intros ->. apply WO in Hb. congruence.
      * now rewrite Wb, T.
  - (* a fiber writes to its stack *)
    unfold write in H. destruct (existsb _ (users s)) eqn:E; [|discriminate]. injection H as <-.
    apply existsb_exists in E as ((c & w) & Hc & Ec). cbn in Ec. apply Nat.eqb_eq in Ec. subst c.
    assert (Ib : own b = User) by (apply WU, in_map_iff; exists (b, w); auto).
    assert (T : touch s b = false) by (apply (touch_ok _ _ _ _ _ W0); congruence).
    exists own, L, O. split; cbn [head nxt siz real pcs users given bad]; auto.
    + eapply chain_ext; eauto. intros c Hb. apply set_other. intros ->. apply WL in Hb. congruence.
    + intros u. eapply owns_ext; eauto. intros c Hb. apply set_other. intros ->. apply WO in Hb. congruence.
    + intros c H1 H2. rewrite set_other; auto. congruence.
    + now rewrite Wb, T.
Qed.
