(** Lemmas for NameProps.v *)
From Coq Require Import ZArith List Bool Lia.
From Verif Require Import Base BaseLemmas AddrModel AccModel AccSpec NameModel NameSpec.
Import ListNotations.
Open Scope Z_scope.

Lemma nth_set {A} i j (x : A) l : nth_error (set_at i x l) j = if (i =? j)%nat then match nth_error l j with Some _ => Some x | None => None end else nth_error l j.
Proof.
  revert i j. induction l as [|y l IH]; intros i j.
  - destruct i; cbn [set_at]; destruct j; cbn [nth_error]; destruct (_ =? _)%nat; reflexivity.
  - destruct i as [|i]; cbn [set_at]; destruct j as [|j]; cbn [nth_error Nat.eqb]; auto.
Qed.
Lemma map_set {A B} (f : A -> B) i x l y : nth_error l i = Some y -> f x = f y -> map f (set_at i x l) = map f l.
Proof.
  revert i. induction l as [|z l IH]; intros [|i] N E; cbn [nth_error set_at map] in *; try discriminate.
  - injection N as ->. now rewrite E.
  - f_equal. now apply IH.
Qed.

Lemma query_errno w e k : fst (query w e k) = e.
Proof. unfold query. destruct k as [x|b sa]; [destruct w; reflexivity|]. destruct b; [|reflexivity]. cbn [negb]. destruct (_ =? 0); reflexivity. Qed.
Lemma query_known w e k : match snd (query w e k) with
  | inr sa => known k = Some (of_sockaddr sa)
  | inl Invalid => known k = None /\ unnamed w k = ipv6_invalid
  | inl Unspecified => known k = None /\ unnamed w k = ipv6_unspecified
  | inl Member => False end.
Proof.
  unfold query, known, unnamed. destruct k as [x|b sa].
  - destruct w; cbn [snd]; [now split|]. destruct (x =? ENOTCONN); now split.
  - destruct b; cbn [negb snd]; [|now split]. destruct (_ =? 0); cbn [snd]; [now split|reflexivity].
Qed.

(** ** Any threads *)
Definition t_ok (n : address) (s : state) (t : thread) : Prop :=
  match t_pc t with
  | Store_addr sa => of_sockaddr sa = n
  | Store_port sa => of_sockaddr sa = n /\ m_addr s = a_addr n
  | Store_ready => m_addr s = a_addr n /\ m_port s = a_port n
  | _ => True
  end
  /\ (t_ref t = true -> ready s = true)
  /\ (forall d, t_read t = Some d -> d = a_addr n /\ ready s = true).
Definition inv (w : which) (n : address) (ks : list kname) (s : state) : Prop :=
  In (system s) ks
  /\ Forall (t_ok n s) (threads s)
  /\ (ready s = true -> m_addr s = a_addr n /\ m_port s = a_port n)
  /\ (ready s = true \/ (exists t, In t (threads s) /\ match t_pc t with Store_addr _ | Store_port _ | Store_ready => True | _ => False end) -> exists k, In k ks /\ known k = Some n)
  /\ Forall (fun o => match o with
       | Saw _ a => a = n /\ exists k, In k ks /\ known k = Some n
       | Returned _ Member => exists k, In k ks /\ known k = Some n
       | Returned _ Invalid => exists k, In k ks /\ known k = None /\ unnamed w k = ipv6_invalid
       | Returned _ Unspecified => exists k, In k ks /\ known k = None /\ unnamed w k = ipv6_unspecified
       end) (log s).

Lemma in_set {A} i (x y : A) l : In y (set_at i x l) -> y = x \/ In y l.
Proof. revert i. induction l as [|z l IH]; intros [|i] H; cbn [set_at] in H; try contradiction; destruct H as [<-|H]; auto; [right; now right|right; now left|]. destruct (IH _ H); [auto|right; now right]. Qed.
Lemma Forall_set {A} (P : A -> Prop) i x l : P x -> Forall P l -> Forall P (set_at i x l).
Proof. intros Px F. apply Forall_forall. intros y I. destruct (in_set _ _ _ _ I) as [->|I']; [exact Px|]. rewrite Forall_forall in F. now apply F. Qed.

Lemma same_addr n sa : of_sockaddr sa = n -> sa_addr sa = a_addr n /\ load_be (sa_port sa) = a_port n.
Proof. intros <-. now split. Qed.

Lemma inv_step w n ks s x : one_name n ks -> (forall k, x = System k -> In k ks) -> inv w n ks s -> inv w n ks (step w s x).
Proof.
  intros One Sx (K & T & R & Q & L). destruct x as [i|i|i|i|i e|k]; cbn [step].
  - destruct (nth_error (threads s) i) as [[p e r d]|] eqn:N; [|repeat split; auto; apply R; auto]. destruct p; try (repeat split; auto; apply R; auto; fail).
    assert (Ht : t_ok n s (mkT Idle e r d)) by (rewrite Forall_forall in T; apply T; eapply nth_error_In; eauto). destruct Ht as (_ & H2 & H3). cbn [t_ref t_read] in *.
    destruct (ready s) eqn:Rd; unfold upd; unfold inv; cbn [system threads ready m_addr m_port log].
    + split; [exact K|]. split; [|split; [intros _; exact (R eq_refl)|split; [|]]].
      * apply Forall_set; [|exact T]. split; [exact Logic.I|]. cbn [t_ref t_read ready]. rewrite Rd. split; auto.
      * intros _. apply Q. now left.
      * apply Forall_app. split; [exact L|]. constructor; [|constructor]. apply Q. now left.
    + split; [exact K|]. split; [|split; [intros X; congruence|split]].
      * apply Forall_set; [|exact T]. split; [exact Logic.I|]. cbn [t_ref t_read ready]. rewrite Rd. auto.
      * intros [X|(t & I & P)]; [congruence|]. apply Q. destruct (in_set _ _ _ _ I) as [->|I']; [destruct P|right; eauto].
      * rewrite app_nil_r. exact L.
  - destruct (nth_error (threads s) i) as [[p e r d]|] eqn:N; [|repeat split; auto; apply R; auto].
    assert (I0 := nth_error_In _ _ N).
    assert (Ht : t_ok n s (mkT p e r d)) by (rewrite Forall_forall in T; apply T; exact I0). destruct Ht as (H1 & H2 & H3). cbn [t_pc t_ref t_read] in *.
    destruct p as [| |sa|sa|]; try (repeat split; auto; apply R; auto; fail).
    + pose proof (query_known w e (system s)) as QK. destruct (query w e (system s)) as [e' [x|sa]]; cbn [snd] in QK; unfold upd, inv; cbn [system threads ready m_addr m_port log].
      * split; [exact K|]. split; [|split; [exact R|split]].
        -- apply Forall_set; [|eapply Forall_impl; [|exact T]; intros t Ht; exact Ht]. split; [exact Logic.I|]. cbn [t_ref t_read ready]. auto.
        -- intros [X|(t & I & P)]; [apply Q; now left|]. apply Q. destruct (in_set _ _ _ _ I) as [->|I']; [destruct P|right; eauto].
        -- apply Forall_app. split; [exact L|]. constructor; [|constructor]. destruct x; [exists (system s); tauto|exists (system s); tauto|contradiction].
      * pose proof (One _ _ K QK) as E. rewrite E in QK. split; [exact K|]. split; [|split; [exact R|split]].
        -- apply Forall_set; [|eapply Forall_impl; [|exact T]; intros t Ht; exact Ht]. split; [exact E|]. cbn [t_ref t_read ready]. auto.
        -- intros _. eauto.
        -- rewrite app_nil_r. exact L.
    + destruct (same_addr _ _ H1) as (A1 & A2). assert (Qn : exists k, In k ks /\ known k = Some n) by (apply Q; right; exists (mkT (Store_addr sa) e r d); now split). unfold inv; cbn [system threads ready m_addr m_port log].
      split; [exact K|]. split; [|split; [|split; [|exact L]]].
      * apply Forall_set. { split; [split; [exact H1|exact A1]|]. cbn [t_ref t_read ready]. auto. }
        eapply Forall_impl; [|exact T]. intros t (B1 & B2 & B3). split; [|cbn [ready]; auto]. cbn [m_addr m_port]. destruct (t_pc t); auto; tauto.
      * intros X. split; [exact A1|apply R, X].
      * auto.
    + destruct H1 as (H1 & H1'). destruct (same_addr _ _ H1) as (A1 & A2). assert (Qn : exists k, In k ks /\ known k = Some n) by (apply Q; right; exists (mkT (Store_port sa) e r d); now split). unfold inv; cbn [system threads ready m_addr m_port log].
      split; [exact K|]. split; [|split; [|split; [|exact L]]].
      * apply Forall_set. { split; [split; [exact H1'|exact A2]|]. cbn [t_ref t_read ready]. auto. }
        eapply Forall_impl; [|exact T]. intros t (B1 & B2 & B3). split; [|cbn [ready]; auto]. cbn [m_addr m_port]. destruct (t_pc t); auto; tauto.
      * intros X. split; [apply R, X|exact A2].
      * auto.
    + assert (Qn : exists k, In k ks /\ known k = Some n) by (apply Q; right; exists (mkT Store_ready e r d); now split). unfold inv; cbn [system threads ready m_addr m_port log].
      split; [exact K|]. split; [|split; [|split]].
      * apply Forall_set. { split; [exact Logic.I|]. cbn [t_ref t_read ready]. split; [auto|]. intros d' E. destruct (H3 d' E). auto. }
        eapply Forall_impl; [|exact T]. intros t (B1 & B2 & B3). split; [exact B1|]. cbn [ready]. split; [auto|]. intros d' E. destruct (B3 d' E). auto.
      * intros _. exact H1.
      * auto.
      * apply Forall_app. split; [exact L|]. constructor; [exact Qn|constructor].
  - destruct (nth_error (threads s) i) as [[p e r d]|] eqn:N; [|repeat split; auto; apply R; auto]. destruct p; try (repeat split; auto; apply R; auto; fail). destruct r; [|repeat split; auto; apply R; auto].
    assert (Ht : t_ok n s (mkT Idle e true d)) by (rewrite Forall_forall in T; apply T; eapply nth_error_In; eauto). destruct Ht as (_ & H2 & H3). cbn [t_ref t_read] in *. specialize (H2 eq_refl).
    unfold upd, inv; cbn [system threads ready m_addr m_port log]. split; [exact K|]. split; [|split; [exact R|split]].
    + apply Forall_set; [|exact T]. split; [exact Logic.I|]. cbn [t_ref t_read ready]. split; [auto|]. intros d' [= <-]. split; [apply R, H2|exact H2].
    + intros _. apply Q. now left.
    + rewrite app_nil_r. exact L.
  - destruct (nth_error (threads s) i) as [[p e r d]|] eqn:N; [|repeat split; auto; apply R; auto]. destruct p; try (repeat split; auto; apply R; auto; fail). destruct r; [|repeat split; auto; apply R; auto]. destruct d as [d|]; [|repeat split; auto; apply R; auto].
    assert (Ht : t_ok n s (mkT Idle e true (Some d))) by (rewrite Forall_forall in T; apply T; eapply nth_error_In; eauto). destruct Ht as (_ & H2 & H3). cbn [t_ref t_read] in *. specialize (H2 eq_refl). destruct (H3 d eq_refl) as (-> & _).
    unfold upd, inv; cbn [system threads ready m_addr m_port log]. split; [exact K|]. split; [|split; [exact R|split]].
    + apply Forall_set; [|exact T]. split; [exact Logic.I|]. cbn [t_ref t_read ready]. split; [auto|]. discriminate.
    + intros _. apply Q. now left.
    + apply Forall_app. split; [exact L|]. constructor; [|constructor]. destruct (R H2) as (_ & ->). split; [now destruct n|]. apply Q. now left.
  - destruct (nth_error (threads s) i) as [[p e' r d]|] eqn:N; [|repeat split; auto; apply R; auto]. destruct p; try (repeat split; auto; apply R; auto; fail).
    assert (Ht : t_ok n s (mkT Idle e' r d)) by (rewrite Forall_forall in T; apply T; eapply nth_error_In; eauto). destruct Ht as (_ & H2 & H3). cbn [t_ref t_read] in *.
    unfold upd, inv; cbn [system threads ready m_addr m_port log]. split; [exact K|]. split; [|split; [exact R|split]].
    + apply Forall_set; [|exact T]. split; [exact Logic.I|]. cbn [t_ref t_read ready]. auto.
    + intros [X|(t & I & P)]; [apply Q; now left|]. apply Q. destruct (in_set _ _ _ _ I) as [->|I']; [destruct P|right; eauto].
    + rewrite app_nil_r. exact L.
  - unfold inv; cbn [system threads ready m_addr m_port log]. split; [now apply Sx|]. split; [exact T|]. split; [exact R|]. split; [exact Q|exact L].
Qed.

Lemma inv_run w n ks xs s : one_name n ks -> (forall k, In (System k) xs -> In k ks) -> inv w n ks s -> inv w n ks (run w s xs).
Proof.
  intros One. revert s. induction xs as [|x xs IH]; intros s S H; [exact H|]. apply (IH (step w s x)); [intros k I; apply S; now right|].
  apply inv_step; [exact One|intros k ->; apply S; now left|exact H].
Qed.
Lemma inv_init w n ks k m : In k ks -> inv w n ks (init k m).
Proof.
  intros I. unfold init, inv. cbn [system threads ready m_addr m_port log]. split; [exact I|]. split; [|split; [discriminate|split; [|constructor]]].
  - apply Forall_forall. intros t H. apply repeat_spec in H. subst t. repeat split; discriminate.
  - intros [X|(t & H & P)]; [discriminate|]. apply repeat_spec in H. subst t. destruct P.
Qed.

(** ** One thread *)
Definition idle1 (s : state) : Prop := exists e r, threads s = [mkT Idle e r None] /\ (r = true -> ready s = true).
Definition after (s : state) (l : list obs) (cache : option address) : Prop :=
  idle1 s /\ log s = l /\ match cache with Some a => ready s = true /\ m_addr s = a_addr a /\ m_port s = a_port a | None => ready s = false end.
Lemma run_cons w s x xs : run w s (x :: xs) = run w (step w s x) xs.
Proof. reflexivity. Qed.
Lemma run_nil w s : run w s [] = s.
Proof. reflexivity. Qed.
Ltac next := rewrite run_cons; cbn [step nth_error threads ready set_at m_addr m_port system log]; unfold upd; cbn [nth_error threads ready set_at m_addr m_port system log].
Lemma one_call w s l cache k : after s l cache ->
  let now := match cache with Some a => Some a | None => known k end in
  exists l', after (run w s (whole_call k)) l' now /\ results l' = results l ++ [match now with Some a => a | None => unnamed w k end].
Proof.
  intros ((e & r & T & Rr) & Lg & C). destruct s as [ma mp rd sy th lg]. cbn [threads log ready m_addr m_port] in *. subst th lg.
  unfold whole_call. next.
  destruct cache as [a'|].
  - destruct C as (-> & -> & ->). do 7 next. rewrite run_nil. eexists. split.
    + split; [exists e, true; split; [reflexivity|auto]|]. split; [reflexivity|]. cbn [ready m_addr m_port]. auto.
    + cbn [log]. rewrite ?app_nil_r. unfold results. rewrite !flat_map_app. cbn [flat_map app]. rewrite app_nil_r. now destruct a'.
  - rewrite C in *. destruct r; [specialize (Rr eq_refl); discriminate|]. do 2 next.
    pose proof (query_known w e k) as QK. pose proof (query_errno w e k) as QE. destruct (query w e k) as [e' [x|sa]]; cbn [fst snd] in QK, QE; subst e'.
    + unfold upd; cbn [set_at threads m_addr m_port ready system log]. do 5 next. rewrite run_nil.
      destruct x; [| |contradiction]; destruct QK as (-> & ->); (eexists; split; [split; [exists e, false; split; [reflexivity|discriminate]|]; split; reflexivity|]; cbn [log]; rewrite ?app_nil_r; unfold results; rewrite !flat_map_app; reflexivity).
    + rewrite QK. unfold upd; cbn [set_at threads m_addr m_port ready system log]. do 5 next. rewrite run_nil. eexists. split.
      * split; [exists e, true; split; [reflexivity|auto]|]. split; [reflexivity|]. now split.
      * cbn [log]. rewrite ?app_nil_r. unfold results. rewrite !flat_map_app. cbn [flat_map app]. now rewrite app_nil_r.
Qed.
Lemma all_calls w ks : forall s l cache, after s l cache -> results (log (run w s (flat_map whole_call ks))) = results l ++ expected w cache ks.
Proof.
  induction ks as [|k ks IH]; intros s l cache A; cbn [flat_map expected]; [destruct A as (_ & <- & _); rewrite app_nil_r; reflexivity|].
  assert (RA : run w s (whole_call k ++ flat_map whole_call ks) = run w (run w s (whole_call k)) (flat_map whole_call ks)) by apply fold_left_app. rewrite RA. destruct (one_call w s l cache k A) as (l' & A' & E). rewrite (IH _ _ _ A'), E, <- app_assoc. reflexivity.
Qed.

(** ** Groups *)
Lemma memcmp_eq a b : length a = length b -> (memcmp a b =? 0) = true <-> a = b.
Proof.
  revert b. induction a as [|x a IH]; intros [|y b] L; cbn [length memcmp] in *; try discriminate; [tauto|].
  destruct (x <? y) eqn:E1; [split; [discriminate|intros [= -> _]; lia]|]. destruct (y <? x) eqn:E2; [split; [discriminate|intros [= -> _]; lia]|].
  assert (x = y) as -> by lia. rewrite IH by lia. split; [now intros ->|now intros [= ->]].
Qed.
Lemma is_ipv4_spec a p : length a = 16%nat -> if is_ipv4 (mkAddr a p) then writes4 a (skipn 12 a) else forall b, ~ writes4 a b.
Proof.
  intros L. unfold is_ipv4, writes4. cbn [a_addr]. assert (L' : length (firstn 12 a) = length (firstn 12 (a_addr ipv4_unspecified))) by (rewrite firstn_length, L; reflexivity).
  pose proof (memcmp_eq _ _ L') as M. destruct (memcmp _ _ =? 0).
  - rewrite <- (firstn_skipn 12 a) at 1. f_equal. now apply M.
  - intros b ->. destruct M as (_ & M). discriminate (M eq_refl).
Qed.
Lemma eqb_group_spec a b : length (fst a) = length (fst b) -> eqb_group a b = true <-> a = b.
Proof.
  intros L. unfold eqb_group. rewrite andb_true_iff, (memcmp_eq _ _ L), Z.eqb_eq. destruct a, b. cbn [fst snd]. split; [now intros (-> & ->)|now intros [= -> ->]].
Qed.
Lemma in_drop x g : Forall (fun y => length (fst y) = length (fst x)) g -> forall y, In y (filter (fun y => negb (eqb_group x y)) g) <-> In y g /\ y <> x.
Proof.
  intros F y. rewrite filter_In, negb_true_iff. rewrite Forall_forall in F. split; intros (I & E); split; auto.
  - intros ->. destruct (eqb_group_spec x x eq_refl) as (_ & H). rewrite (H eq_refl) in E. discriminate.
  - specialize (F y I). destruct (eqb_group x y) eqn:Q; [|reflexivity]. apply eqb_group_spec in Q; [|auto]. congruence.
Qed.
Lemma writes4_len m b : length m = 16%nat -> writes4 m b -> length b = 4%nat.
Proof. intros L ->. rewrite app_length in L. cbn in L. lia. Qed.
Lemma writes4_inj m b c : writes4 m b -> writes4 m c -> b = c.
Proof. unfold writes4. intros -> E. apply app_inv_head in E. auto. Qed.
