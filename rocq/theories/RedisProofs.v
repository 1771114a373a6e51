(** Proofs about Redis replies. *)
From Coq Require Import List ZArith Bool Lia Arith ZifyBool ZifyNat.
From Coq Require Import String.
From Verif Require Import Base Text NetrefSpec AddrTextModel AddrTextProofs RedisModel RedisSpec.
Import ListNotations.
Open Scope list_scope.
Open Scope Z_scope.
Notation length := List.length.

Section reply_ind.
  Variable P : reply -> Prop.
  Hypothesis Hnil : P Reply_nil.
  Hypothesis Hint : forall n, P (Reply_integer n).
  Hypothesis Hstr : forall s, P (Reply_string s).
  Hypothesis Harr : forall l, Forall P l -> P (Reply_array l).
  Hypothesis Hsta : forall s, P (Reply_status s).
  Hypothesis Herr : forall s, P (Reply_error s).
  Hypothesis Hoth : P Reply_other.
  Fixpoint reply_induct (r : reply) : P r :=
    match r with
    | Reply_nil => Hnil
    | Reply_integer n => Hint n
    | Reply_string s => Hstr s
    | Reply_array l => Harr l ((fix go l : Forall P l :=
        match l with [] => Forall_nil P | r :: l => Forall_cons r (reply_induct r) (go l) end) l)
    | Reply_status s => Hsta s
    | Reply_error s => Herr s
    | Reply_other => Hoth
    end.
End reply_ind.

Section value_ind.
  Variable P : value -> Prop.
  Hypothesis Hnil : P Nil.
  Hypothesis Hint : forall n, P (Int n).
  Hypothesis Hstr : forall s, P (Str s).
  Hypothesis Harr : forall l, Forall P l -> P (Arr l).
  Fixpoint value_induct (r : value) : P r :=
    match r with
    | Nil => Hnil
    | Int n => Hint n
    | Str s => Hstr s
    | Arr l => Harr l ((fix go l : Forall P l :=
        match l with [] => Forall_nil P | r :: l => Forall_cons r (value_induct r) (go l) end) l)
    end.
End value_ind.

(** *** Pointers *)

Lemma load_store p : forall v w x, load v p = Some w -> exists v', store v p x = Some v' /\ load v' p = Some x.
Proof.
  induction p as [|i p IH]; intros v w x H; cbn [load store] in *; [eauto|].
  destruct v as [|n|s|l]; try discriminate. destruct (nth_error l i) as [u|] eqn:E; [|discriminate].
  destruct (IH _ _ x H) as (u' & E1 & E2). rewrite E1. eexists. split; [reflexivity|]. cbn [load].
  assert (L : (i < length l)%nat) by (apply nth_error_Some; congruence).
  rewrite nth_error_app2; rewrite firstn_length, Nat.min_l by lia; [|lia]. rewrite Nat.sub_diag. exact E2.
Qed.

Lemma store_store p : forall v v1 x y, store v p x = Some v1 -> store v1 p y = store v p y.
Proof.
  induction p as [|i p IH]; intros v v1 x y H; cbn [store] in *; [reflexivity|].
  destruct v as [|n|s|l]; try discriminate. destruct (nth_error l i) as [u|] eqn:E; [|discriminate].
  destruct (store u p x) as [u1|] eqn:S1; [|discriminate]. injection H as <-.
  assert (L : (i < length l)%nat) by (apply nth_error_Some; congruence).
  rewrite nth_error_app2; rewrite firstn_length, Nat.min_l by lia; [|lia]. rewrite Nat.sub_diag. cbn [nth_error].
  rewrite (IH _ _ _ y S1). destruct (store u p y) as [u2|]; [|reflexivity]. do 2 f_equal.
  rewrite firstn_app, firstn_firstn, Nat.min_id, firstn_length, Nat.min_l, Nat.sub_diag by lia. cbn [firstn].
  rewrite app_nil_r. f_equal. f_equal. rewrite skipn_app, firstn_length, Nat.min_l by lia.
  rewrite (skipn_all2 (firstn i l)) by (rewrite firstn_length; lia).
  replace (S i - i)%nat with 1%nat by lia. reflexivity.
Qed.

Lemma store_load_same p : forall v w v', load v p = Some w -> store v p w = Some v' -> v' = v.
Proof.
  induction p as [|i p IH]; intros v w v' L S; cbn [load store] in *; [congruence|].
  destruct v as [|n|s|l]; try discriminate. destruct (nth_error l i) as [u|] eqn:E; [|discriminate].
  destruct (store u p w) as [u1|] eqn:S1; [|discriminate]. injection S as <-. rewrite (IH _ _ _ L S1). f_equal.
  apply nth_error_split in E. destruct E as (a & b & -> & <-).
  rewrite firstn_app, firstn_all, Nat.sub_diag. cbn [firstn]. rewrite app_nil_r.
  change (match a ++ u :: b with [] => [] | _ :: l => skipn (length a) l end) with (skipn (S (length a)) (a ++ u :: b)).
  rewrite skipn_app, skipn_all2 by lia. replace (S (length a) - length a)%nat with 1%nat by lia. reflexivity.
Qed.

Lemma load_app p : forall v q, load v (p ++ q) = match load v p with Some w => load w q | None => None end.
Proof.
  induction p as [|i p IH]; intros v q; cbn [load app]; [reflexivity|].
  destruct v; try reflexivity. destruct (nth_error l i); [apply IH|reflexivity].
Qed.

Lemma store_app p : forall v q w w' x, load v p = Some w -> store w q x = Some w' ->
  store v (p ++ q) x = store v p w'.
Proof.
  induction p as [|i p IH]; intros v q w w' x H E; cbn [load store app] in *; [injection H as <-; exact E|].
  destruct v as [|n|s|l]; try discriminate. destruct (nth_error l i) as [u|]; [|discriminate].
  rewrite (IH _ _ _ _ _ H E). reflexivity.
Qed.

Lemma store_last (l : list value) x : store (Arr (l ++ [Nil])) [length l] x = Some (Arr (l ++ [x])).
Proof.
  cbn [store]. rewrite nth_error_app2, Nat.sub_diag by lia. cbn [nth_error].
  rewrite firstn_app, firstn_all, Nat.sub_diag. cbn [firstn]. rewrite app_nil_r.
  rewrite skipn_all2 by (rewrite app_length; cbn [List.length]; lia). reflexivity.
Qed.

Lemma inside_prefix t : forall u, inside (t ++ u) t = false.
Proof. induction t as [|i t IH]; intros [|j u]; cbn [inside app]; rewrite ?Nat.eqb_refl, ?IH; reflexivity. Qed.

(** *** Conversion *)

Lemma steps_app n : forall m s, steps (n + m) s = match steps n s with Some s' => steps m s' | None => None end.
Proof. induction n as [|n IH]; intros m s; cbn [steps Nat.add]; [reflexivity|]. destruct (step s); [apply IH|reflexivity]. Qed.

Lemma steps_finished n v stk : steps n (v, Finished, stk) = Some (v, Finished, stk).
Proof. induction n as [|n IH]; [reflexivity|]. cbn [steps step]. exact IH. Qed.

Definition under (p : path) (stack : list frame) : Prop :=
  Forall (fun f => exists t, p = target f ++ t) stack.

Lemma under_inside p stack : under p stack -> existsb (fun f => inside p (target f)) stack = false.
Proof.
  induction 1 as [|f stack (t & Ht) H IH]; [reflexivity|]. cbn [existsb]. rewrite IH, orb_false_r.
  rewrite Ht. apply inside_prefix.
Qed.

Definition converts (r : reply) (x : value) : Prop := forall v p stack,
  load v p = Some Nil -> under p stack ->
  exists n v', (n <= 2 * weight r - 1)%nat /\ store v p x = Some v'
    /\ steps n (v, Pack p r, stack) = Some (v', Unwind, stack).

Lemma weight_pos r : (2 <= weight r)%nat.
Proof. destruct r; cbn [weight]; lia. Qed.

Lemma vweight_pos r : (2 <= vweight r)%nat.
Proof. destruct r; cbn [vweight]; lia. Qed.

Lemma emplace_ok v p w stack : load v p = Some w -> under p stack ->
  exists v', emplace v p stack = Some (v', p ++ [length (open_array w)])
    /\ store v p (Arr (open_array w ++ [Nil])) = Some v'
    /\ load v' p = Some (Arr (open_array w ++ [Nil])).
Proof.
  intros L U. unfold emplace. rewrite (under_inside _ _ U), L.
  destruct (load_store _ _ _ (Arr (open_array w ++ [Nil])) L) as (v' & S & L'). exists v'. rewrite S. auto.
Qed.

(** The elements of an array, from the one at which the conversion is. *)
Lemma converts_elements p els stack : under p stack -> forall rs xs, Forall2 converts rs xs ->
  forall r x pre done v w v1, converts r x -> els = pre ++ r :: rs -> length pre = length done ->
  load v p = Some w -> open_array w = done ->
  store v p (Arr (done ++ [Nil])) = Some v1 ->
  exists n v', (n <= 2 * (weight r + fold_right (fun r n => (weight r + n)%nat) O rs) + 1)%nat
    /\ store v p (Arr (done ++ x :: xs)) = Some v'
    /\ steps n (v1, Pack (p ++ [length done]) r, mkFrame p els :: stack) = Some (v', Unwind, stack).
Proof.
  intros U rs. induction rs as [|r' rs IH]; intros xs H2 r x pre done v w v1 Hr Hels Hlen L Ho Hs;
    inversion H2 as [|? y ? ys Hy Hys]; subst; clear H2.
  - destruct (load_store _ _ _ (Arr (open_array w ++ [Nil])) L) as (v1' & Hs' & L1).
    rewrite Hs in Hs'. injection Hs' as <-.
    assert (L2 : load v1 (p ++ [length (open_array w)]) = Some Nil).
    { rewrite load_app, L1. cbn [load]. rewrite nth_error_app2, Nat.sub_diag by lia. reflexivity. }
    destruct (Hr v1 (p ++ [length (open_array w)]) (mkFrame p (pre ++ [r]) :: stack) L2) as (n & v2 & Hn & S2 & E2).
    { constructor; [exists [length (open_array w)]; reflexivity|].
      eapply Forall_impl; [|exact U]. intros f (t & ->). exists (t ++ [length (open_array w)]). rewrite app_assoc. reflexivity. }
    rewrite (store_app _ _ _ _ _ _ L1 (store_last _ _)), (store_store _ _ _ _ _ Hs) in S2.
    exists (n + 1)%nat, v2. cbn [fold_right] in *. pose proof (weight_pos r). split; [lia|]. split; [exact S2|].
    rewrite steps_app, E2. cbn [steps step target elements].
    destruct (load_store _ _ _ (Arr (open_array w ++ [x])) L) as (v2' & S2' & L3). rewrite S2 in S2'. injection S2' as <-.
    rewrite L3. cbn [open_array]. rewrite !app_length, Hlen, Nat.eqb_refl. reflexivity.
  - destruct (load_store _ _ _ (Arr (open_array w ++ [Nil])) L) as (v1' & Hs' & L1).
    rewrite Hs in Hs'. injection Hs' as <-.
    assert (L2 : load v1 (p ++ [length (open_array w)]) = Some Nil).
    { rewrite load_app, L1. cbn [load]. rewrite nth_error_app2, Nat.sub_diag by lia. reflexivity. }
    set (els := pre ++ r :: r' :: rs) in *.
    assert (U' : under p (mkFrame p els :: stack)).
    { constructor; [exists []; rewrite app_nil_r; reflexivity|exact U]. }
    destruct (Hr v1 (p ++ [length (open_array w)]) (mkFrame p els :: stack) L2) as (n & v2 & Hn & S2 & E2).
    { eapply Forall_impl; [|exact U']. intros f (t & ->). exists (t ++ [length (open_array w)]). rewrite app_assoc. reflexivity. }
    rewrite (store_app _ _ _ _ _ _ L1 (store_last _ _)), (store_store _ _ _ _ _ Hs) in S2.
    destruct (load_store _ _ _ (Arr (open_array w ++ [x])) L) as (v2' & S2' & L3). rewrite S2 in S2'. injection S2' as <-.
    destruct (emplace_ok _ _ _ _ L3 U') as (v3 & E3 & S3 & L4). cbn [open_array] in *.
    destruct (IH _ Hys r' y (pre ++ [r]) (open_array w ++ [x]) v2 (Arr (open_array w ++ [x])) v3 Hy) as (m & v' & Hm & S' & E').
    { unfold els. rewrite <- app_assoc. reflexivity. }
    { rewrite !app_length, Hlen. reflexivity. }
    { exact L3. } { reflexivity. } { exact S3. }
    rewrite <- app_assoc in S'. cbn [app] in S'.
    exists (n + (1 + m))%nat, v'. cbn [fold_right] in *. pose proof (weight_pos r). split; [lia|]. split.
    { rewrite <- S'. symmetry. apply (store_store _ _ _ _ _ S2). }
    rewrite steps_app, E2. cbn [steps step Nat.add target elements]. rewrite L3. cbn [open_array].
    replace (length (open_array w ++ [x]) =? length els)%nat with false; cycle 1.
    { symmetry. apply Nat.eqb_neq. unfold els. rewrite !app_length. cbn [List.length]. lia. }
    rewrite E3. cbn [open_array]. unfold els at 1. rewrite nth_error_app2 by (rewrite app_length; cbn [List.length]; lia).
    rewrite app_length, Hlen. replace (length (open_array w) + length [x] - length (open_array w))%nat with 1%nat by (cbn [List.length]; lia).
    cbn [nth_error]. rewrite app_length in E'. exact E'.
Qed.

Lemma converts_all r : forall x, shown r x -> converts r x.
Proof.
  induction r as [| n | s | l IH | s | s |] using reply_induct; intros x H; inversion H; subst; clear H;
    intros v p stack L U.
  1-3: match goal with |- exists n v', _ /\ store _ _ ?x = _ /\ _ =>
         destruct (load_store _ _ _ x L) as (v' & S & L'); exists 1%nat, v';
         split; [cbn; lia|]; split; [exact S|]; cbn [steps step]; rewrite L; cbn [open_string app]; rewrite S; reflexivity end.
  2-4: exists 1%nat, v; split; [cbn; lia|]; split;
    [destruct (load_store _ _ _ Nil L) as (v' & S & _); rewrite S; f_equal; exact (store_load_same _ _ _ _ L S)|cbn [steps step]; rewrite L; reflexivity].
  rename H1 into H2.
  assert (C : Forall2 converts l vs).
  { clear - IH H2. induction H2 as [|r x l vs H _ IHl]; constructor; inversion IH; subst; auto. }
  destruct l as [|r l]; inversion C as [|? y ? ys Hy Hys]; subst.
  - destruct (load_store _ _ _ (Arr []) L) as (v' & S & L'). exists 1%nat, v'.
    split; [cbn; lia|]. split; [exact S|]. cbn [steps step]. rewrite L. cbn [open_array]. rewrite S. reflexivity.
  - assert (U' : under p (mkFrame p (r :: l) :: stack)) by (constructor; [exists []; rewrite app_nil_r; reflexivity|exact U]).
    destruct (emplace_ok _ _ _ _ L U') as (v1 & E1 & S1 & L1).
    destruct (converts_elements p (r :: l) stack U l _ Hys r y [] [] v Nil v1 Hy eq_refl eq_refl L eq_refl S1)
      as (n & v' & Hn & S & E).
    exists (1 + n)%nat, v'. cbn [weight fold_right]. split; [lia|]. split; [exact S|].
    cbn [steps step Nat.add]. rewrite L. cbv zeta. rewrite E1. exact E.
Qed.

Lemma fetch_shown r x : shown r x -> (forall s, r <> Reply_status s) -> fetch_reply r = Some ([], x).
Proof.
  intros H Ns. destruct (converts_all _ _ H Nil [] [] eq_refl (Forall_nil _)) as (n & v' & Hn & S & E).
  cbn [store] in S. injection S as <-.
  assert (Er : fetch_reply r = match steps (S (2 * weight r)) (Nil, Pack [] r, []) with
    | Some (v, Finished, _) => Some ([], v) | _ => None end) by (destruct r; try reflexivity; destruct (Ns s); reflexivity).
  rewrite Er. replace (S (2 * weight r)) with (n + (1 + (2 * weight r - n)))%nat by lia.
  rewrite steps_app, E. cbn [steps step Nat.add]. rewrite steps_finished. reflexivity.
Qed.

Lemma denotes_shown r : forall x, denotes r x -> shown r x.
Proof.
  induction r as [| n | s | l IH | s | s |] using reply_induct; intros x H; inversion H; subst; clear H; constructor.
  revert vs H1. induction IH as [|r l Hr _ IHl]; intros vs F; inversion F; subst; constructor; auto.
Qed.

Lemma fetch_ok r x : denotes r x -> fetch_reply r = Some ([], x).
Proof. intros H. apply fetch_shown; [apply denotes_shown, H|]. intros s C. subst r. inversion H. Qed.

Lemma shown_total r : exists x, shown r x.
Proof.
  induction r as [| n | s | l IH | s | s |] using reply_induct; try (eexists; constructor; fail).
  assert (C : exists vs, Forall2 shown l vs).
  { induction IH as [|r l (x & Hx) _ (vs & Hv)]; [exists []; constructor|exists (x :: vs); constructor; assumption]. }
  destruct C as (vs & C). exists (Arr vs). constructor. exact C.
Qed.

(** *** Printing *)

Lemma put_int_text n : - 2 ^ 63 <= n < 2 ^ 63 -> integer_text n (put_int n).
Proof.
  intros H. unfold put_int, integer_text, digits.
  assert (B : 2 ^ 63 < 10 ^ Z.of_nat 20) by reflexivity.
  destruct (Z.ltb_spec n 0).
  - right. split; [lia|]. eexists. split; [reflexivity|]. apply put_du_spec; lia.
  - left. split; [lia|]. apply put_du_spec; lia.
Qed.

Section printing.
  Variable quote : list Z -> list Z.

  Lemma psteps_app n : forall m s, psteps quote (n + m) s = psteps quote m (psteps quote n s).
  Proof. induction n as [|n IH]; intros m s; cbn [psteps Nat.add]; [reflexivity|apply IH]. Qed.

  Lemma psteps_printed n t stk : psteps quote n (t, Printed, stk) = (t, Printed, stk).
  Proof. induction n as [|n IH]; [reflexivity|]. cbn [psteps pstep]. exact IH. Qed.

  Definition prints (v : value) (u : list Z) : Prop := forall t stack,
    exists n, (n <= 2 * vweight v - 1)%nat /\ psteps quote n (t, Value v, stack) = (t ++ u, Next, stack).

  Lemma prints_elements l0 : forall vs us, Forall2 prints vs us -> forall v u pre t stack, prints v u ->
    l0 = pre ++ v :: vs ->
    exists n, (n <= 2 * (vweight v + fold_right (fun r n => (vweight r + n)%nat) O vs) + 1)%nat
      /\ psteps quote n (t, Value v, (l0, length pre) :: stack)
         = (t ++ comma_separated (u :: us) ++ [93], Next, stack).
  Proof.
    induction vs as [|v' vs IH]; intros us H2 v u pre t stack Hv ->; inversion H2 as [|? y ? ys Hy Hys]; subst; clear H2.
    - destruct (Hv t ((pre ++ [v], length pre) :: stack)) as (n & Hn & E). exists (n + 1)%nat.
      cbn [fold_right] in *. pose proof (vweight_pos v). split; [lia|]. rewrite psteps_app. rewrite E. cbn [psteps pstep].
      destruct (nth_error (pre ++ [v]) (S (length pre))) eqn:C.
      { assert (nth_error (pre ++ [v]) (S (length pre)) <> None) as D by congruence. apply nth_error_Some in D.
        rewrite app_length in D. cbn [List.length] in D. lia. }
      cbn [comma_separated]. rewrite <- app_assoc. reflexivity.
    - destruct (Hv t ((pre ++ v :: v' :: vs, length pre) :: stack)) as (n & Hn & E).
      destruct (IH _ Hys v' y (pre ++ [v]) ((t ++ u) ++ [44]) stack Hy) as (m & Hm & E').
      { rewrite <- app_assoc. reflexivity. }
      exists (n + (1 + m))%nat. cbn [fold_right] in *. pose proof (vweight_pos v). split; [lia|]. rewrite psteps_app, E.
      cbn [psteps pstep Nat.add]. rewrite nth_error_app2 by lia.
      replace (S (length pre) - length pre)%nat with 1%nat by lia. cbn [nth_error].
      rewrite app_length in E'. cbn [List.length] in E'. rewrite Nat.add_1_r in E'. rewrite E'.
      change (comma_separated (u :: y :: ys)) with (u ++ [44] ++ comma_separated (y :: ys)).
      rewrite <- !app_assoc. reflexivity.
  Qed.

  Lemma prints_all v : int64s v -> exists u, text_of quote v u /\ prints v u.
  Proof.
    induction v as [|n|s|l IH] using value_induct; intros W; inversion W; subst; clear W.
    - exists (txt "nil"). split; [constructor|]. intros t stack. exists 1%nat. split; [cbn; lia|reflexivity].
    - exists (put_int n). split; [constructor; apply put_int_text; assumption|].
      intros t stack. exists 1%nat. split; [cbn; lia|reflexivity].
    - exists ([34] ++ quote s ++ [34]). split; [constructor|]. intros t stack. exists 1%nat. split; [cbn; lia|reflexivity].
    - assert (C : exists us, Forall2 (text_of quote) l us /\ Forall2 prints l us).
      { clear - IH H0. induction l as [|v l IHl]; [exists []; split; constructor|].
        inversion IH as [|? ? A1 A2]; inversion H0 as [|? ? B1 B2]; subst. destruct (A1 B1) as (u & T & P). destruct (IHl A2 B2) as (us & Ts & Ps).
        exists (u :: us). split; constructor; assumption. }
      destruct C as (us & T & P). exists ([91] ++ comma_separated us ++ [93]). split; [constructor; exact T|].
      destruct l as [|v l]; inversion P as [|? y ? ys Hy Hys]; subst.
      + intros t stack. exists 1%nat. split; [cbn; lia|reflexivity].
      + intros t stack. destruct (prints_elements (v :: l) l ys Hys v y [] (t ++ [91]) stack Hy eq_refl) as (n & Hn & E).
        exists (1 + n)%nat. cbn [vweight fold_right]. split; [lia|]. cbn [psteps pstep Nat.add].
        change O with (length (@nil value)). rewrite E. rewrite <- app_assoc. reflexivity.
  Qed.

  Lemma print_ok v : int64s v -> exists u, print quote v = Some u /\ text_of quote v u.
  Proof.
    intros W. destruct (prints_all v W) as (u & T & P). exists u. split; [|exact T].
    destruct (P [] []) as (n & Hn & E). unfold print.
    replace (S (2 * vweight v)) with (n + (1 + (2 * vweight v - n)))%nat by lia.
    rewrite psteps_app, E. cbn [psteps pstep Nat.add]. rewrite psteps_printed. reflexivity.
  Qed.
End printing.

(** *** SCAN and MGET *)

Lemma text_eqb_spec a : forall b, text_eqb a b = true <-> a = b.
Proof.
  induction a as [|x a IH]; intros [|y b]; cbn [text_eqb]; split; intros H; try discriminate; try reflexivity.
  - apply andb_true_iff in H. destruct H as [H1 H2]. apply Z.eqb_eq in H1. apply IH in H2. congruence.
  - injection H as -> ->. rewrite Z.eqb_refl. apply IH. reflexivity.
Qed.

Section scanning.
  Variable server : nat -> list (list Z) -> option reply.
  Variable slot : dict -> list Z -> nat.

  Lemma ask_denotes n cmd r v : server n cmd = Some r -> denotes r v -> ask server n cmd = Some v.
  Proof. intros H D. unfold ask. rewrite H, (fetch_ok _ _ D). reflexivity. Qed.

  Lemma emplace_keys d k : NoDup (map fst d) ->
    NoDup (map fst (try_emplace slot d k)) /\ (forall x, In x (map fst (try_emplace slot d k)) <-> In x (map fst d) \/ x = k).
  Proof.
    intros N. unfold try_emplace. destruct (existsb _ d) eqn:E.
    - split; [exact N|]. intros x. split; [auto|]. intros [H| ->]; [exact H|].
      apply existsb_exists in E. destruct E as ((k' & s) & I & E). apply text_eqb_spec in E. cbn in E. subst k'.
      apply (in_map fst) in I. exact I.
    - assert (F : ~ In k (map fst d)).
      { intros C. apply in_map_iff in C. destruct C as ((k' & s) & E' & I). cbn in E'. subst k'.
        assert (existsb (fun x => text_eqb (fst x) k) d = true); [|congruence].
        apply existsb_exists. exists (k, s). split; [exact I|]. apply text_eqb_spec. reflexivity. }
      set (i := slot d k). rewrite !map_app. cbn [map fst].
      assert (Ed : map fst d = map fst (firstn i d) ++ map fst (skipn i d)) by (rewrite <- map_app, firstn_skipn; reflexivity).
      rewrite Ed in N, F. split.
      + apply (NoDup_Add (a := k) (l := map fst (firstn i d) ++ map fst (skipn i d))); [apply Add_app|]. split; assumption.
      + intros x. rewrite Ed, !in_app_iff. cbn [In]. intuition congruence.
  Qed.

  Lemma emplace_all keys : forall d, NoDup (map fst d) ->
    let d' := fold_left (fun d k => try_emplace slot d (open_string k)) (map Str keys) d in
    NoDup (map fst d') /\ (forall x, In x (map fst d') <-> In x (map fst d) \/ In x keys).
  Proof.
    induction keys as [|k keys IH]; intros d N; cbn [map fold_left]; cbv zeta.
    - split; [exact N|]. intros x. cbn [In]. tauto.
    - destruct (emplace_keys d k N) as [N1 I1]. destruct (IH _ N1) as [N2 I2]. cbn [open_string].
      split; [exact N2|]. intros x. rewrite I2, I1. cbn [In]. intuition congruence.
  Qed.

  Lemma denotes_strings keys : Forall2 denotes (map Reply_string keys) (map Str keys).
  Proof. induction keys; cbn [map]; constructor; [constructor|assumption]. Qed.

  Lemma scan_ok pattern rounds : forall fuel n cursor d, (length rounds <= fuel)%nat -> NoDup (map fst d) ->
    scanned server pattern n cursor rounds ->
    exists d', scan server slot fuel n pattern cursor d = Some ((n + length rounds)%nat, d')
      /\ NoDup (map fst d')
      /\ (forall x, In x (map fst d') <-> In x (map fst d) \/ exists r, In r rounds /\ In x (snd r)).
  Proof.
    induction rounds as [|[next keys] rounds IH]; intros fuel n cursor d F N H; [contradiction|].
    cbn [scanned] in H. destruct H as [H1 H2]. destruct fuel as [|fuel]; [cbn in F; lia|]. cbn [scan].
    rewrite (ask_denotes _ _ _ (Arr [Str next; Arr (map Str keys)]) H1); cycle 1.
    { constructor. constructor; [constructor|]. constructor; [|constructor]. constructor. apply denotes_strings. }
    cbn [open_array open_string]. destruct (emplace_all keys d N) as [N1 I1]. cbv zeta in *.
    set (d1 := fold_left (fun d k => try_emplace slot d (open_string k)) (map Str keys) d) in *.
    destruct (list_eq_dec Z.eq_dec next (txt "0")) as [E|E].
    - subst next rounds. replace (text_eqb (txt "0") (txt "0")) with true by reflexivity. exists d1.
      split; [f_equal; f_equal; cbn; lia|]. split; [exact N1|]. intros x. rewrite I1. split.
      + intros [A|A]; [left; exact A|]. right. eexists. split; [left; reflexivity|exact A].
      + intros [A|(r & [<-|[]] & A)]; [left; exact A|right; exact A].
    - replace (text_eqb next (txt "0")) with false; cycle 1.
      { symmetry. apply not_true_iff_false. intros C. apply text_eqb_spec in C. contradiction. }
      destruct (IH fuel (S n) next d1 ltac:(cbn in F; lia) N1 H2) as (d' & S' & N' & I').
      exists d'. split; [rewrite S'; f_equal; f_equal; cbn; lia|]. split; [exact N'|].
      intros x. rewrite I', I1. split.
      + intros [[A|A]|(r & R & A)]; [left; exact A| |].
        * right. exists (next, keys). split; [left; reflexivity|exact A].
        * right. exists r. split; [right; exact R|exact A].
      + intros [A|(r & [<-|R] & A)]; [left; left; exact A|left; right; exact A|right; exists r; auto].
  Qed.

  Lemma fill_ok (value_of : list Z -> value) d : forall k s, NoDup (map fst d) ->
    (In (k, s) (fill d (map value_of (map fst d))) <-> In k (map fst d) /\ value_of k = Str s).
  Proof.
    induction d as [|[k' x] d IH]; intros k s N; cbn [fill map fst].
    - cbn [In]. tauto.
    - cbn [map fst] in N. inversion N; subst. specialize (IH k s H2). cbn [In].
      destruct (value_of k') eqn:E.
      1,2,4: rewrite IH; split; [tauto|]; intros [[<-|A] B]; [congruence|tauto].
      cbn [In]. rewrite IH. split.
      + intros [A|A]; [injection A as <- <-; auto|tauto].
      + intros [[<-|A] B]; [left; congruence|right; tauto].
  Qed.

  Lemma fill_keys d : forall rs, NoDup (map fst d) -> NoDup (map fst (fill d rs)) /\ incl (map fst (fill d rs)) (map fst d).
  Proof.
    induction d as [|[k x] d IH]; intros [|r rs] N; cbn [fill]; try (split; [exact N|apply incl_refl]).
    cbn [map fst] in N. inversion N; subst. destruct (IH rs H2) as [N' I'].
    destruct r; cbn [map fst]; try (split; [exact N'|apply incl_tl; exact I']).
    split; [constructor; [intros C; apply H1, I', C|exact N']|].
    intros y [<-|A]; [left; reflexivity|right; apply I', A].
  Qed.
End scanning.
