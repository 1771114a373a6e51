(** Proofs about the socket table. *)
From Coq Require Import ZArith List Lia Bool ZifyBool ZifyNat.
From Verif Require Import SockmapModel SockmapSpec.
Import ListNotations.
Open Scope Z_scope.
Ltac Zify.zify_post_hook ::= Z.div_mod_to_equations.

(** * Searching *)

Lemma find_weaken (A : Type) (p q : A -> bool) l k : find p l = Some k -> q k = true ->
  (forall x, q x = true -> p x = true) -> find q l = Some k.
Proof.
  intros H Qk Hq. induction l as [|x l IH]; cbn in *; [discriminate|]. destruct (p x) eqn:P.
  - injection H as ->. now rewrite Qk.
  - destruct (q x) eqn:Q; [apply Hq in Q; congruence|auto].
Qed.

Lemma find_exists (A : Type) (p : A -> bool) l x : In x l -> p x = true -> exists k, find p l = Some k.
Proof.
  intros I P. destruct (find p l) eqn:F; [eauto|]. pose proof (find_none _ _ F x I). congruence.
Qed.

Lemma origin_lt d a : (0 < d)%nat -> (origin d a < d)%nat.
Proof.
  intros H. unfold origin. assert (R : 0 <= ratio a < 2 ^ 32) by (unfold ratio; apply Z.mod_pos_bound; reflexivity).
  assert (0 <= Z.of_nat d * ratio a / 2 ^ 32 < Z.of_nat d).
  { split; [apply Z.div_pos; [nia|reflexivity]|]. apply Z.div_lt_upper_bound; [reflexivity|]. nia. }
  clear R. lia.
Qed.

Definition probe (d : nat) (a : Z) : list nat := seq (origin d a) (d - origin d a) ++ seq 0 (origin d a).
Lemma probe_all d a k : (k < d)%nat -> In k (probe d a).
Proof.
  intros H. pose proof (origin_lt d a ltac:(lia)). unfold probe. rewrite in_app_iff, !in_seq. lia.
Qed.
Lemma do_find_probe stor a : do_find stor a = find (hit stor a) (probe (length stor) a).
Proof. reflexivity. Qed.

(** * Tables *)

Lemma assign_length s k w : length (assign s k w) = length s.
Proof. revert k. induction s as [|x s IH]; intros [|k]; cbn; auto. Qed.
Lemma assign_same s k w : (k < length s)%nat -> nth_error (assign s k w) k = Some w.
Proof. revert k. induction s as [|x s IH]; intros [|k] H; cbn in *; try lia; auto. apply IH. lia. Qed.
Lemma assign_other s k w j : j <> k -> nth_error (assign s k w) j = nth_error s j.
Proof. revert k j. induction s as [|x s IH]; intros [|k] [|j] H; cbn; auto; try lia. Qed.

Definition full (x : slot) : bool := match x with Some _ => true | None => false end.
Definition occ (s : list slot) : nat := length (filter full s).

Lemma occ_assign s k w : (occ (assign s k w) <= S (occ s))%nat.
Proof.
  unfold occ. revert k. induction s as [|x s IH]; intros [|k]; cbn; auto.
  - destruct (full w), (full x); cbn; lia.
  - specialize (IH k). destruct (full x); cbn; lia.
Qed.
Lemma occ_hole s : (occ s < length s)%nat -> exists k, nth_error s k = Some None.
Proof.
  unfold occ. induction s as [|[w|] s IH]; cbn; intros H; [lia| |exists 0%nat; auto].
  destruct IH as [k Hk]; [lia|]. now exists (S k).
Qed.
Lemma occ_repeat n : occ (repeat None n) = 0%nat.
Proof. unfold occ. induction n; cbn; auto. Qed.

(** Each element is where a search for it ends. *)
Definition Tab (s : list slot) : Prop := forall k w, nth_error s k = Some (Some w) -> do_find s (addr w) = Some k.
(** What the counter means. *)
Definition Load (s : list slot) (u : nat) : Prop := (0 < length s)%nat /\ (occ s <= u)%nat /\ (u <= length s / 2)%nat.

Lemma find_total s u a : Load s u -> exists k, do_find s a = Some k /\ (k < length s)%nat
  /\ (nth_error s k = Some None \/ exists w, nth_error s k = Some (Some w) /\ addr w = a).
Proof.
  intros (L & O & U). destruct (occ_hole s ltac:(lia)) as [j Hj].
  assert (Lj : (j < length s)%nat) by (apply nth_error_Some; congruence).
  destruct (find_exists _ (hit s a) (probe (length s) a) j) as [k Hk]; [now apply probe_all|unfold hit; now rewrite Hj|].
  exists k. split; [exact Hk|]. apply find_some in Hk as [_ Hk]. unfold hit in Hk.
  destruct (nth_error s k) as [[w|]|] eqn:E; [| |discriminate].
  - split; [apply nth_error_Some; congruence|]. right. exists w. split; auto. lia.
  - split; [apply nth_error_Some; congruence|]. auto.
Qed.

Lemma tab_unique s k1 k2 w1 w2 : Tab s -> nth_error s k1 = Some (Some w1) -> nth_error s k2 = Some (Some w2) ->
  addr w1 = addr w2 -> k1 = k2.
Proof. intros T H1 H2 E. apply T in H1, H2. rewrite E in H1. congruence. Qed.

Lemma put_ok s u w : Tab s -> Load s u -> exists s', put s u w = Ok s' /\ Tab s' /\ length s' = length s /\ (occ s' <= S u)%nat
  /\ forall x, In (Some x) s' <-> x = w \/ (In (Some x) s /\ addr x <> addr w).
Proof.
  intros T L. destruct (find_total s u (addr w) L) as (k & F & Lk & C). destruct L as (L & O & U).
  unfold put. replace ((length s =? 0)%nat || (length s / 2 <? u)%nat) with false by lia. rewrite F.
  exists (assign s k (Some w)). split; [reflexivity|].
  assert (K : forall j x, j <> k -> nth_error s j = Some (Some x) -> addr x <> addr w).
  { intros j x N E A. apply N. apply T in E. rewrite A in E. congruence. }
  split; [|split; [apply assign_length|split; [pose proof (occ_assign s k (Some w)); lia|]]].
  - intros j x H. rewrite do_find_probe, assign_length.
    destruct (Nat.eq_dec j k) as [->|N].
    + rewrite assign_same in H by auto. injection H as <-. apply (find_weaken _ (hit s (addr w))); [exact F| |].
      * unfold hit. rewrite assign_same by auto. apply Z.eqb_refl.
      * intros y. unfold hit. destruct (Nat.eq_dec y k) as [->|Ny]; [|now rewrite assign_other].
        intros _. destruct C as [->|(v & -> & E)]; [reflexivity|lia].
    + rewrite assign_other in H by auto. pose proof (T _ _ H) as Fx. rewrite do_find_probe in Fx.
      apply (find_weaken _ (hit s (addr x))); [exact Fx| |].
      * unfold hit. rewrite assign_other by auto. rewrite H. apply Z.eqb_refl.
      * intros y. unfold hit. destruct (Nat.eq_dec y k) as [->|Ny]; [|now rewrite assign_other].
        rewrite assign_same by auto. intros E. destruct C as [->|(v & -> & Ev)]; [reflexivity|]. lia.
  - intros x. split.
    + intros I. apply In_nth_error in I as [j Hj]. destruct (Nat.eq_dec j k) as [->|N].
      * rewrite assign_same in Hj by auto. injection Hj as ->. auto.
      * rewrite assign_other in Hj by auto. right. split; [eapply nth_error_In; eauto|eauto].
    + intros [->|[I A]].
      * eapply nth_error_In. now apply assign_same.
      * apply In_nth_error in I as [j Hj]. destruct (Nat.eq_dec j k) as [->|N].
        -- destruct C as [C|(v & C & E)]; pose proof (eq_trans (eq_sym C) Hj) as Q; [discriminate|]. injection Q as ->. contradiction.
        -- apply (nth_error_In _ j). now rewrite assign_other.
Qed.

(** * Growth *)

Definition somes (l : list slot) : list sock := flat_map (fun x => match x with Some w => [w] | None => [] end) l.
Lemma in_somes l w : In w (somes l) <-> In (Some w) l.
Proof.
  unfold somes. rewrite in_flat_map. split.
  - intros ([v|] & I & H); [|destruct H]. destruct H as [->|[]]. auto.
  - intros I. exists (Some w). split; [auto|now left].
Qed.

Lemma somes_nodup l : (forall k1 k2 w1 w2, nth_error l k1 = Some (Some w1) -> nth_error l k2 = Some (Some w2) -> addr w1 = addr w2 -> k1 = k2) ->
  NoDup (map addr (somes l)).
Proof.
  induction l as [|x l IH]; intros H; [constructor|]. cbn [somes flat_map].
  assert (IHl : NoDup (map addr (somes l))).
  { apply IH. intros k1 k2 w1 w2 H1 H2 E. specialize (H (S k1) (S k2) w1 w2 H1 H2 E). lia. }
  destruct x as [w|]; [|exact IHl]. cbn [app map]. constructor; [|exact IHl]. intros I.
  apply in_map_iff in I as (v & E & I). apply in_somes in I. apply In_nth_error in I as [k Hk].
  specialize (H (S k) 0%nat v w Hk eq_refl E). lia.
Qed.

Lemma count_live_cons live x l : count_live live (x :: l) = ((if match x with Some w => live w | None => false end then 1 else 0) + count_live live l)%nat.
Proof. unfold count_live. cbn. destruct (match x with Some w => live w | None => false end); reflexivity. Qed.

Lemma move_all_ok live old : forall s u, NoDup (map addr (somes old)) ->
  (forall w x, In (Some w) old -> In (Some x) s -> addr w <> addr x) ->
  Tab s -> Load s u -> (u + count_live live old <= length s / 2)%nat ->
  exists s' u', move_all live old s u = Ok (s', u') /\ Tab s' /\ length s' = length s /\ Load s' u'
    /\ u' = (u + count_live live old)%nat
    /\ forall x, In (Some x) s' <-> In (Some x) s \/ (In (Some x) old /\ live x = true).
Proof.
  induction old as [|[w|] old IH]; intros s u ND Dj T L C.
  - exists s, u. cbn. unfold count_live. cbn. repeat split; auto; try apply L; try lia; intuition.
  - cbn [somes flat_map app map] in ND. inversion ND as [|? ? Nw ND']; subst. rewrite count_live_cons in C. cbv iota in C. cbn [move_all].
    destruct (live w) eqn:Lw.
    + destruct (put_ok s u w T L) as (s1 & P & T1 & L1 & O1 & I1). rewrite P.
      assert (Lo : Load s1 (S u)) by (destruct L as (A & B & D); repeat split; rewrite ?L1; lia).
      destruct (IH s1 (S u)) as (s' & u' & M & T' & L' & Lo' & U' & I'); auto.
      * intros v x Hv Hx. apply I1 in Hx as [->|[Hx Ax]].
        -- intros E. apply Nw. apply in_map_iff. exists v. split; [auto|]. now apply in_somes.
        -- apply Dj; [now right|auto].
      * rewrite L1. lia.
      * exists s', u'. split; [exact M|]. split; [auto|]. split; [congruence|]. split; [auto|].
        split; [rewrite count_live_cons, Lw; lia|]. intros x. rewrite I', I1. cbn [In]. split.
        -- intros [[->|[Hx _]]|[Hx Lx]]; auto.
        -- intros [Hx|[[E|Hx] Lx]]; [|injection E as ->; auto|auto]. left. right. split; [auto|].
           intros E. apply (Dj w x); [now left|auto|auto].
    + destruct (IH s u) as (s' & u' & M & T' & L' & Lo' & U' & I'); auto.
      * intros v x Hv Hx. apply Dj; [now right|auto].
      * exists s', u'. split; [exact M|]. split; [auto|]. split; [auto|]. split; [auto|].
        split; [rewrite count_live_cons, Lw; lia|]. intros x. rewrite I'. cbn [In]. split.
        -- intros [Hx|[Hx Lx]]; auto.
        -- intros [Hx|[[E|Hx] Lx]]; auto. injection E as ->. congruence.
  - cbn [somes flat_map app map] in ND. rewrite count_live_cons in C. cbv iota in C. cbn [move_all].
    destruct (IH s u) as (s' & u' & M & T' & L' & Lo' & U' & I'); auto.
    + intros v x Hv Hx. apply Dj; [now right|auto].
    + exists s', u'. split; [exact M|]. split; [auto|]. split; [auto|]. split; [auto|].
      split; [rewrite count_live_cons; auto|]. intros x. rewrite I'. cbn [In]. intuition discriminate.
Qed.

Lemma count_live_mono live1 live2 l : (forall x, live2 x = true -> live1 x = true) -> (count_live live2 l <= count_live live1 l)%nat.
Proof.
  intros H. induction l as [|x l IH]; [auto|]. rewrite !count_live_cons. destruct x as [w|]; [|lia].
  destruct (live2 w) eqn:E; [rewrite (H _ E); lia|]. destruct (live1 w); lia.
Qed.

(** Before the first insertion the table is empty. *)
Definition Okay (s : list slot) (u : nat) : Prop := Tab s /\ (s = [] /\ u = 0%nat \/ Load s u).

Lemma grow_ok live1 live2 s u : Okay s u -> (forall x, live2 x = true -> live1 x = true) ->
  exists s' u', grow live1 live2 s u = Ok (s', u') /\ Tab s' /\ Load s' u' /\ (u' < length s' / 2)%nat
    /\ (forall x, In (Some x) s' -> In (Some x) s)
    /\ (forall x, In (Some x) s -> live2 x = true -> In (Some x) s')
    /\ (length s' <= Nat.max (length s) (new_capacity live1 s))%nat.
Proof.
  intros [T L] M. unfold grow. destruct (Nat.leb_spec (length s / 2) u) as [G|G].
  - set (e := repeat (@None sock) (new_capacity live1 s)).
    assert (Le : length e = new_capacity live1 s) by apply repeat_length.
    assert (Ie : forall x, ~ In (Some x) e) by (intros x I; apply repeat_spec in I; discriminate).
    pose proof (count_live_mono live1 live2 s M) as Cm. unfold new_capacity in *.
    destruct (move_all_ok live2 s e 0%nat) as (s' & u' & R & T' & L' & Lo & U & I).
    + apply somes_nodup. intros. eapply tab_unique; eauto.
    + intros w x _ Hx. destruct (Ie x Hx).
    + intros k w H. apply nth_error_In in H. destruct (Ie w H).
    + unfold Load. unfold e at 2. rewrite occ_repeat, Le. lia.
    + rewrite Le. lia.
    + exists s', u'. split; [exact R|]. split; [auto|]. split; [auto|]. split; [rewrite L', Le; lia|]. split; [|split].
      * intros x Hx. apply I in Hx as [Hx|[Hx _]]; [destruct (Ie x Hx)|auto].
      * intros x Hx Lx. apply I. auto.
      * lia.
  - exists s, u. split; [reflexivity|]. split; [auto|]. destruct L as [[-> ->]|L]; [cbn in G; lia|]. split; [auto|]. split; [auto|].
    split; [auto|]. split; [auto|]. lia.
Qed.

(** * Histories *)

Lemma sock_eqb_spec x y : sock_eqb x y = true <-> x = y.
Proof.
  unfold sock_eqb. destruct x as [a i], y as [b j]. cbn. rewrite andb_true_iff, Z.eqb_eq, Nat.eqb_eq. split; [intros [-> ->]; auto|intros [= -> ->]; auto].
Qed.
Lemma live_in_spec l x : live_in l x = true <-> In x l.
Proof.
  unfold live_in. rewrite existsb_exists. split.
  - intros (y & I & E). apply sock_eqb_spec in E as ->. auto.
  - intros I. exists x. split; [auto|]. now apply sock_eqb_spec.
Qed.

Record Inv (es : list event) (s : st) : Prop := {
  i_okay : Okay (stor s) (used s);
  i_alive : forall x y, In x (alive s) -> In y (alive s) -> addr x = addr y -> x = y;
  i_made : forall x, In x (alive s) -> (ident x < made s)%nat /\ 0 < addr x;
  i_ins : forall x, In x (inserted s) <-> was_inserted es x;
  i_insmade : forall x, In x (inserted s) -> (ident x < made s)%nat;
  i_sub : forall x, In (Some x) (stor s) -> In x (inserted s);
  i_found : forall x, In x (inserted s) -> In x (alive s) -> In (Some x) (stor s);
  i_buf : forall x, In x (evbuf s) -> In x (inserted s) }.

Lemma was_snoc es e x : was_inserted (es ++ [e]) x <-> was_inserted es x \/ exists d, e = Insert x true d.
Proof.
  unfold was_inserted. split.
  - intros [d H]. apply in_app_iff in H as [H|[->|[]]]; [left|right]; eauto.
  - intros [[d H]|[d ->]]; exists d; apply in_app_iff; [auto|right; now left].
Qed.
Lemma was_snoc_other es e x : (forall d, e <> Insert x true d) -> was_inserted (es ++ [e]) x <-> was_inserted es x.
Proof. intros N. rewrite was_snoc. split; [intros [H|[d H]]; [auto|destruct (N d H)]|auto]. Qed.

Lemma lookup_ok es s a : Inv es s -> lookup s a = Ok None
  \/ exists w, lookup s a = Ok (Some w) /\ In w (alive s) /\ addr w = a /\ In (Some w) (stor s).
Proof.
  intros I. destruct (i_okay _ _ I) as [T L]. unfold lookup. destruct L as [[E _]|L]; [rewrite E; auto|].
  destruct (find_total _ _ a L) as (k & F & Lk & C). destruct L as (L & O & U).
  replace (length (stor s) =? 0)%nat with false by lia. replace (length (stor s) / 2 <? used s)%nat with false by lia. rewrite F.
  destruct C as [->|(w & E & A)]; [auto|]. rewrite E. destruct (live_in (alive s) w) eqn:Lw; [|auto].
  right. exists w. split; [reflexivity|]. split; [now apply live_in_spec|]. split; [auto|]. eapply nth_error_In; eauto.
Qed.

Lemma lookup_found es s w : Inv es s -> In w (inserted s) -> In w (alive s) -> lookup s (addr w) = Ok (Some w).
Proof.
  intros I Hi Ha. pose proof (i_found _ _ I w Hi Ha) as S. apply In_nth_error in S as [k Hk].
  destruct (i_okay _ _ I) as [T L]. pose proof (T _ _ Hk) as F. unfold lookup.
  destruct L as [[E _]|(L & O & U)]; [rewrite E in Hk; destruct k; discriminate|].
  replace (length (stor s) =? 0)%nat with false by lia. replace (length (stor s) / 2 <? used s)%nat with false by lia.
  rewrite F, Hk. replace (live_in (alive s) w) with true by (symmetry; now apply live_in_spec). reflexivity.
Qed.

Lemma inv_step es s e r : Inv es s -> step s e = Some r -> exists s', r = Ok s' /\ Inv (es ++ [e]) s'.
Proof.
  intros I H. pose proof I as I0. destruct I as [Ik Ia Im Ii Ij Is If Ib]. destruct e as [a|w|w ok dying|l|]; cbn [step] in H.
  - destruct ((0 <? a) && negb (existsb (fun x => addr x =? a) (alive s))) eqn:E; [|discriminate]. injection H as <-. eexists. split; [reflexivity|].
    assert (N : forall x, In x (alive s) -> addr x <> a).
    { intros x Hx A. apply andb_true_iff in E as [_ E]. apply negb_true_iff in E.
      assert (existsb (fun x => addr x =? a) (alive s) = true) by (apply existsb_exists; exists x; split; [auto|lia]). congruence. }
    split; cbn [stor used evbuf alive inserted made delivered]; auto.
    + intros x y [<-|Hx] [<-|Hy] A; cbn [addr] in *; auto.
      * destruct (N y Hy). auto.
      * destruct (N x Hx). auto.
    + intros x [<-|Hx]; cbn [ident addr]; [clear - E; lia|]. destruct (Im x Hx). lia.
    + intros x. rewrite Ii. symmetry. apply was_snoc_other. discriminate.
    + intros x Hx. specialize (Ij x Hx). lia.
    + intros x Hx [<-|Ha]; [|auto]. specialize (Ij _ Hx). cbn in Ij. lia.
  - injection H as <-. eexists. split; [reflexivity|]. split; cbn [stor used evbuf alive inserted made delivered]; auto.
    + intros x y Hx Hy. apply filter_In in Hx as [Hx _]. apply filter_In in Hy as [Hy _]. auto.
    + intros x Hx. apply filter_In in Hx as [Hx _]. auto.
    + intros x. rewrite Ii. symmetry. apply was_snoc_other. discriminate.
    + intros x Hi Ha. apply filter_In in Ha as [Ha _]. auto.
  - destruct (live_in (alive s) w && negb (live_in dying w)) eqn:E; [|discriminate]. injection H as <-.
    apply andb_true_iff in E as [Lw Dw]. apply live_in_spec in Lw. apply negb_true_iff in Dw.
    unfold insert_weak. set (alive' := filter (fun x => negb (live_in dying x)) (alive s)).
    assert (Sub : forall x, In x alive' -> In x (alive s)) by (intros x Hx; apply filter_In in Hx; tauto).
    assert (Lw' : In w alive') by (apply filter_In; split; [auto|now rewrite Dw]).
    destruct (grow_ok (live_in (alive s)) (live_in alive') _ _ Ik) as (s1 & u1 & G & T1 & L1 & U1 & B1 & F1 & _).
    { intros x Hx. apply live_in_spec. apply Sub. now apply live_in_spec. }
    rewrite G.
    assert (A' : forall x y, In x alive' -> In y alive' -> addr x = addr y -> x = y) by auto.
    assert (M' : forall x, In x alive' -> (ident x < made s)%nat /\ 0 < addr x) by auto.
    destruct ok.
    + destruct (put_ok s1 u1 w T1 L1) as (s2 & P & T2 & Len & O2 & C2). rewrite P. eexists. split; [reflexivity|].
      split; cbn [stor used evbuf alive inserted made delivered]; auto.
      * split; [auto|]. right. destruct L1 as (? & ? & ?). repeat split; rewrite ?Len; lia.
      * intros x. rewrite was_snoc. cbn [In]. rewrite Ii. split.
        -- intros [<-|Hx]; [right; eauto|auto].
        -- intros [Hx|[d [= -> ->]]]; auto.
      * intros x [<-|Hx]; [|auto]. destruct (Im w Lw). auto.
      * intros x Hx. apply C2 in Hx as [->|[Hx _]]; [now left|]. right. auto.
      * intros x [<-|Hi] Ha; apply C2; [auto|].
        assert (K : In (Some x) s1) by (apply F1; [auto|now apply live_in_spec]).
        destruct (Z.eq_dec (addr x) (addr w)) as [Q|Q]; [left; apply A'; auto|auto].
      * intros x Hx. right. auto.
    + eexists. split; [reflexivity|]. split; cbn [stor used evbuf alive inserted made delivered]; auto.
      * split; auto.
      * intros x. rewrite Ii. symmetry. apply was_snoc_other. discriminate.
      * intros x Hi Ha. apply F1; [auto|]. now apply live_in_spec.
  - destruct (evbuf s); [|discriminate]. destruct (forallb _ l && forallb _ l) eqn:E; [|discriminate]. injection H as <-.
    apply andb_true_iff in E as [E1 E2]. rewrite forallb_forall in E2.
    eexists. split; [reflexivity|]. split; cbn [stor used evbuf alive inserted made delivered]; auto.
    + intros x. rewrite Ii. symmetry. apply was_snoc_other. discriminate.
    + intros x Hx. apply live_in_spec. auto.
  - destruct (evbuf s) as [|w rest] eqn:E; [discriminate|]. injection H as <-.
    assert (W : forall x, In x (inserted s) <-> was_inserted (es ++ [Deliver]) x).
    { intros x. rewrite Ii. symmetry. apply was_snoc_other. discriminate. }
    destruct (lookup_ok _ _ (addr w) I0) as [->|(x & -> & _)]; (eexists; split; [reflexivity|]);
      split; cbn [stor used evbuf alive inserted made delivered]; auto; intros y Hy; apply Ib; now right.
Qed.

Lemma run_app s e1 e2 : run s (e1 ++ e2) = match run s e1 with Some (Ok s1) => run s1 e2 | r => r end.
Proof.
  revert s. induction e1 as [|e e1 IH]; cbn; intros s; auto. destruct (step s e) as [[s'|]|]; auto.
Qed.

Lemma inv_init : Inv [] init.
Proof.
  split; cbn; try contradiction; auto.
  - split; [intros [|k] w H; discriminate|auto].
  - intros x. split; [contradiction|]. intros [d []].
Qed.

Lemma reach es r : run init es = Some r -> exists s, r = Ok s /\ Inv es s.
Proof.
  revert r. induction es as [|e es IH] using rev_ind; intros r H.
  - injection H as <-. exists init. split; [reflexivity|]. apply inv_init.
  - rewrite run_app in H. destruct (run init es) as [r1|] eqn:E; [|discriminate].
    destruct (IH _ eq_refl) as (s1 & -> & I). cbn in H. destruct (step s1 e) as [r2|] eqn:E2; [|discriminate].
    destruct (inv_step _ _ _ _ I E2) as (s2 & -> & I2). injection H as <-. eauto.
Qed.
