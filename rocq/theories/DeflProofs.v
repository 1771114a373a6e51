(** Proofs about the wrappers of zlib. *)
From Coq Require Import ZArith List Lia Bool ZifyBool ZifyNat Arith.
From Verif Require Import Base BaseLemmas DeflModel DeflSpec.
Import ListNotations.
Open Scope Z_scope.

Lemma clamped_le n : (clamped n <= n)%nat.
Proof. unfold clamped, int_max. destruct (Z.leb_spec (Z.of_nat n) 2147483647); lia. Qed.
Lemma clamped_room n : (6 < n)%nat -> (6 < clamped n)%nat.
Proof. unfold clamped, int_max. destruct (Z.leb_spec (Z.of_nat n) 2147483647); lia. Qed.

Lemma window_nil input : window input = [] -> input = [].
Proof.
  unfold window. destruct input as [|a r]; [reflexivity|]. intros H. exfalso.
  assert (L : length (firstn (clamped (length (a :: r))) (a :: r)) = 0%nat) by now rewrite H.
  rewrite firstn_length_le in L by apply clamped_le.
  revert L. unfold clamped, int_max. destruct (Z.leb_spec (Z.of_nat (length (a :: r))) 2147483647);
    intros L; [discriminate|lia].
Qed.
Lemma window_firstn n input : (n <= length (window input))%nat -> firstn n (window input) = firstn n input.
Proof.
  unfold window. rewrite firstn_length_le by apply clamped_le. intros H.
  rewrite firstn_firstn. f_equal. lia.
Qed.
Lemma window_le input : (length (window input) <= length input)%nat.
Proof. unfold window. rewrite firstn_length. lia. Qed.
Lemma is_nil_true l : is_nil l = true -> l = [].
Proof. destruct l; [reflexivity|discriminate]. Qed.
Lemma skipn_nil_le (n : nat) (l : list Z) : skipn n l = [] -> (length l <= n)%nat.
Proof. intros H. pose proof (skipn_length n l) as E. rewrite H in E. cbn [length] in E. lia. Qed.
Lemma no_fin : No_flush <> Finish. Proof. discriminate. Qed.
Lemma sync_fin : Sync_flush <> Finish. Proof. discriminate. Qed.
Lemma bytes_nil' : bytes []. Proof. constructor. Qed.

Section Loops.
  Variable dst ist : Type.
  Variable deflate : dst -> mode -> nat -> list Z -> answer dst.
  Variable reset : dst -> dst.
  Variable inflate : ist -> nat -> list Z -> answer ist.
  Variable decode : list Z -> option (list Z).
  Variable flushed : list Z -> Prop.
  Variable dsane : dst -> Prop.
  Variable fed made : dst -> list Z.
  Variable dbound : nat -> nat.
  Variable isane : ist -> Prop.
  Variable eaten got : ist -> list Z.
  Variable ibound : nat -> nat.
  Hypothesis LG : language decode flushed.
  Hypothesis DC : deflate_contract dst deflate reset decode flushed dsane fed made dbound.
  Hypothesis IC : inflate_contract ist inflate decode isane eaten got ibound.

  (** ** The sender *)

  Lemma deflate_loop_safe xs : forall st buf input st' buf',
    dsane st -> input <> [] -> deflate_loop dst deflate st buf input xs = Done (st', buf') ->
    dsane st' /\ fed st' = fed st ++ input /\
    exists o, buf' = buf ++ o /\ made st' = made st ++ o /\ bytes o.
  Proof.
    induction xs as [|x xs IH]; intros st buf input st' buf' S N E; [discriminate|].
    cbn [deflate_loop] in E.
    destruct (deflate st No_flush (clamped (1024 + x)) (window input)) as [[[s1 n] out] err] eqn:C.
    assert (R : (6 < clamped (1024 + x))%nat) by (apply clamped_room; lia).
    assert (W : window input <> []) by (intros W; apply N, window_nil, W).
    destruct (d_progress _ _ _ _ _ _ _ _ _ DC _ _ _ _ _ _ _ _ S R (or_introl (conj eq_refl W)) C) as [P1 P2].
    destruct err; try discriminate.
    - destruct (d_account _ _ _ _ _ _ _ _ _ DC _ _ _ _ _ _ _ _ S R no_fin C (or_introl eq_refl)) as (S1 & Ln & Lo & B & F & M).
      rewrite window_firstn in F by exact Ln.
      destruct (is_nil (skipn n input)) eqn:EN; cbn [negb] in E.
      + injection E as <- <-. apply is_nil_true, skipn_nil_le in EN.
        split; [exact S1|]. split; [rewrite F, firstn_all2 by exact EN; reflexivity|].
        exists out. auto.
      + assert (skipn n input <> []) as N' by (intros Q; rewrite Q in EN; discriminate).
        destruct (IH _ _ _ _ _ S1 N' E) as (S2 & F2 & o & -> & M2 & B2).
        split; [exact S2|]. split; [rewrite F2, F, <- app_assoc, firstn_skipn; reflexivity|].
        exists (out ++ o). rewrite M2, M, !app_assoc. split; [reflexivity|]. split; [reflexivity|].
        apply Forall_app. split; assumption.
    - exfalso. destruct (P2 eq_refl) as [-> ->].
      pose proof (d_takes _ _ _ _ _ _ _ _ _ DC _ _ _ _ _ _ _ S R C (or_intror eq_refl)) as T.
      cbn [length] in T. destruct (window input); [congruence|]. discriminate (T ltac:(lia)).
  Qed.

  Lemma deflate_loop_ends xs : forall st buf input B,
    dsane st -> input <> [] -> (dbound (length (fed st) + length input) <= B)%nat ->
    (length input + (B - length (made st)) < length xs)%nat ->
    deflate_loop dst deflate st buf input xs <> Hungry.
  Proof.
    induction xs as [|x xs IH]; intros st buf input B S N HB L; [cbn [length] in L; lia|].
    cbn [deflate_loop]. cbn [length] in L.
    destruct (deflate st No_flush (clamped (1024 + x)) (window input)) as [[[s1 n] out] err] eqn:C.
    assert (R : (6 < clamped (1024 + x))%nat) by (apply clamped_room; lia).
    assert (W : window input <> []) by (intros W; apply N, window_nil, W).
    destruct (d_progress _ _ _ _ _ _ _ _ _ DC _ _ _ _ _ _ _ _ S R (or_introl (conj eq_refl W)) C) as [P1 _].
    destruct err; try discriminate.
    destruct (d_account _ _ _ _ _ _ _ _ _ DC _ _ _ _ _ _ _ _ S R no_fin C (or_introl eq_refl)) as (S1 & Ln & Lo & B1 & F & M).
    rewrite window_firstn in F by exact Ln. pose proof (window_le input) as WL.
    destruct (is_nil (skipn n input)) eqn:EN; cbn [negb]; [discriminate|].
    assert (skipn n input <> []) as N' by (intros Q; rewrite Q in EN; discriminate).
    assert (LF : length (fed s1) = (length (fed st) + n)%nat)
      by (rewrite F, app_length, firstn_length; lia).
    assert (LS : length (skipn n input) = (length input - n)%nat) by apply skipn_length.
    assert (LM : length (made s1) = (length (made st) + length out)%nat) by (rewrite M; apply app_length).
    pose proof (d_bound _ _ _ _ _ _ _ _ _ DC _ S1) as BM.
    pose proof (d_bound_mono _ _ _ _ _ _ _ _ _ DC (length (fed s1)) (length (fed st) + length input)%nat ltac:(lia)) as MO.
    apply (IH s1 _ _ B S1 N').
    - rewrite LF, LS. replace (length (fed st) + n + (length input - n))%nat with (length (fed st) + length input)%nat by lia. exact HB.
    - destruct (P1 eq_refl) as [Hn|Ho]; [lia|]. destruct out; [congruence|]. cbn [length] in *. lia.
  Qed.

  Lemma sync_loop_safe xs : forall st buf st' buf',
    dsane st -> sync_loop dst deflate st buf xs = Done (st', buf') ->
    dsane st' /\ fed st' = fed st /\ flushed (made st') /\ decode (made st') = Some (fed st') /\
    exists o, buf' = buf ++ o /\ made st' = made st ++ o /\ bytes o.
  Proof.
    induction xs as [|x xs IH]; intros st buf st' buf' S E; [discriminate|].
    cbn [sync_loop] in E.
    destruct (deflate st Sync_flush (clamped (16 + x)) []) as [[[s1 n] out] err] eqn:C.
    assert (R : (6 < clamped (16 + x))%nat) by (apply clamped_room; lia).
    destruct (d_progress _ _ _ _ _ _ _ _ _ DC _ _ _ _ _ _ _ _ S R (or_intror (or_introl eq_refl)) C) as [P1 P2].
    destruct err; try discriminate.
    - destruct (d_account _ _ _ _ _ _ _ _ _ DC _ _ _ _ _ _ _ _ S R sync_fin C (or_introl eq_refl)) as (S1 & Ln & Lo & B & F & M).
      rewrite firstn_nil, app_nil_r in F.
      destruct (IH _ _ _ _ S1 E) as (S2 & F2 & FL & D & o & -> & M2 & B2).
      split; [exact S2|]. split; [congruence|]. split; [exact FL|]. split; [exact D|].
      exists (out ++ o). rewrite M2, M, !app_assoc. split; [reflexivity|]. split; [reflexivity|].
      apply Forall_app. split; assumption.
    - destruct (P2 eq_refl) as [-> ->]. injection E as <- <-.
      destruct (d_account _ _ _ _ _ _ _ _ _ DC _ _ _ _ _ _ _ _ S R sync_fin C (or_intror eq_refl)) as (S1 & Ln & Lo & B & F & M).
      rewrite firstn_nil, app_nil_r in F.
      destruct (d_flushes _ _ _ _ _ _ _ _ _ DC _ _ _ _ _ _ _ S R (or_introl eq_refl) C (or_intror eq_refl)) as [FL D]; [cbn [length]; lia|].
      split; [exact S1|]. split; [exact F|]. split; [exact FL|]. split; [exact D|].
      exists []. auto using bytes_nil'.
  Qed.

  Lemma sync_loop_ends xs : forall st buf B,
    dsane st -> (dbound (length (fed st)) <= B)%nat -> (B - length (made st) < length xs)%nat ->
    sync_loop dst deflate st buf xs <> Hungry.
  Proof.
    induction xs as [|x xs IH]; intros st buf B S HB L; [cbn [length] in L; lia|].
    cbn [sync_loop]. cbn [length] in L.
    destruct (deflate st Sync_flush (clamped (16 + x)) []) as [[[s1 n] out] err] eqn:C.
    assert (R : (6 < clamped (16 + x))%nat) by (apply clamped_room; lia).
    destruct (d_progress _ _ _ _ _ _ _ _ _ DC _ _ _ _ _ _ _ _ S R (or_intror (or_introl eq_refl)) C) as [P1 _].
    destruct err; try discriminate.
    destruct (d_account _ _ _ _ _ _ _ _ _ DC _ _ _ _ _ _ _ _ S R sync_fin C (or_introl eq_refl)) as (S1 & Ln & Lo & B1 & F & M).
    rewrite firstn_nil, app_nil_r in F.
    assert (LM : length (made s1) = (length (made st) + length out)%nat) by (rewrite M; apply app_length).
    pose proof (d_bound _ _ _ _ _ _ _ _ _ DC _ S1) as BM. rewrite F in BM.
    apply (IH s1 _ B S1); [rewrite F; exact HB|].
    destruct (P1 eq_refl) as [Hn|Ho]; [cbn [length] in Ln; lia|]. destruct out; [congruence|]. cbn [length] in *. lia.
  Qed.

  Lemma strip_marker_app c : strip_marker (c ++ marker) = c.
  Proof.
    unfold strip_marker. rewrite app_length. change (length marker) with 4%nat.
    replace (length c + 4 - 4)%nat with (length c) by lia.
    rewrite skipn_app, skipn_all, Nat.sub_diag. cbn [skipn app].
    destruct (list_eq_dec Z.eq_dec marker marker); [|congruence].
    assert ((4 <=? length c + 4)%nat = true) as -> by (apply Nat.leb_le; lia). cbn [andb].
    rewrite firstn_app, firstn_all, Nat.sub_diag, firstn_O. apply app_nil_r.
  Qed.

  (** ** The receiver *)

  Lemma inflate_loop_safe mx xs : forall st buf input st' buf',
    isane st -> input <> [] -> inflate_loop ist inflate mx st buf input xs = Done (st', buf') ->
    isane st' /\ eaten st' = eaten st ++ input /\
    exists o, buf' = buf ++ o /\ got st' = got st ++ o.
  Proof.
    induction xs as [|x xs IH]; intros st buf input st' buf' S N E; [discriminate|].
    cbn [inflate_loop] in E.
    destruct (inflate st (clamped (1024 + x)) (window input)) as [[[s1 n] out] err] eqn:C.
    assert (R : (0 < clamped (1024 + x))%nat) by (pose proof (clamped_room (1024 + x)); lia).
    destruct (i_progress _ _ _ _ _ _ _ IC _ _ _ _ _ _ _ S R C) as [P1 P2].
    destruct err; try discriminate.
    - destruct (i_account _ _ _ _ _ _ _ IC _ _ _ _ _ _ _ S R C (or_introl eq_refl)) as (S1 & Ln & Lo & F & M).
      rewrite window_firstn in F by exact Ln.
      destruct (mx <? _); [discriminate|].
      destruct (is_nil (skipn n input)) eqn:EN; cbn [negb] in E.
      + injection E as <- <-. apply is_nil_true, skipn_nil_le in EN.
        split; [exact S1|]. split; [rewrite F, firstn_all2 by exact EN; reflexivity|].
        exists out. auto.
      + assert (skipn n input <> []) as N' by (intros Q; rewrite Q in EN; discriminate).
        destruct (IH _ _ _ _ _ S1 N' E) as (S2 & F2 & o & -> & M2).
        split; [exact S2|]. split; [rewrite F2, F, <- app_assoc, firstn_skipn; reflexivity|].
        exists (out ++ o). rewrite M2, M, !app_assoc. split; reflexivity.
    - exfalso. destruct (P2 eq_refl) as [-> ->].
      destruct (i_takes _ _ _ _ _ _ _ IC _ _ _ _ _ _ _ S R C (or_intror eq_refl)) as [T _]; [cbn [length]; lia|].
      apply N, window_nil. destruct (window input); [reflexivity|discriminate].
  Qed.

  Lemma drain_loop_safe xs : forall st buf input st' buf',
    isane st -> drain_loop ist inflate st buf input xs = Done (st', buf') ->
    isane st' /\ eaten st' = eaten st ++ input /\ decode (eaten st') = Some (got st') /\
    exists o, buf' = buf ++ o /\ got st' = got st ++ o.
  Proof.
    induction xs as [|x xs IH]; intros st buf input st' buf' S E; [discriminate|].
    cbn [drain_loop] in E.
    destruct (inflate st (clamped (16 + x)) (window input)) as [[[s1 n] out] err] eqn:C.
    assert (R : (0 < clamped (16 + x))%nat) by (pose proof (clamped_room (16 + x)); lia).
    destruct (i_progress _ _ _ _ _ _ _ IC _ _ _ _ _ _ _ S R C) as [P1 P2].
    destruct err; try discriminate.
    - destruct (i_account _ _ _ _ _ _ _ IC _ _ _ _ _ _ _ S R C (or_introl eq_refl)) as (S1 & Ln & Lo & F & M).
      rewrite window_firstn in F by exact Ln.
      destruct (IH _ _ _ _ _ S1 E) as (S2 & F2 & D & o & -> & M2).
      split; [exact S2|]. split; [rewrite F2, F, <- app_assoc, firstn_skipn; reflexivity|].
      split; [exact D|].
      exists (out ++ o). rewrite M2, M, !app_assoc. split; reflexivity.
    - destruct (P2 eq_refl) as [-> ->]. injection E as <- <-.
      destruct (i_account _ _ _ _ _ _ _ IC _ _ _ _ _ _ _ S R C (or_intror eq_refl)) as (S1 & Ln & Lo & F & M).
      destruct (i_takes _ _ _ _ _ _ _ IC _ _ _ _ _ _ _ S R C (or_intror eq_refl)) as [T D]; [cbn [length]; lia|].
      assert (input = []) as -> by (apply window_nil; destruct (window input); [reflexivity|discriminate]).
      rewrite firstn_nil in F. split; [exact S1|]. split; [exact F|]. split; [exact D|].
      exists []. auto.
  Qed.

  (** Never [Threw] on the beginning of a stream within the limit; never
      [Hungry] with enough sizes. *)
  Section Live.
    Hypothesis NF : inflate_never_fails ist inflate decode isane eaten.

    Lemma inflate_loop_ends mx G m more xs : forall st buf input B,
      isane st -> input <> [] -> decode (eaten st ++ input ++ more) = Some (G ++ m) -> got st = G ++ buf ->
      Z.of_nat (length m) <= mx -> (ibound (length (eaten st) + length input) <= B)%nat ->
      (length input + (B - length (got st)) < length xs)%nat ->
      exists r, inflate_loop ist inflate mx st buf input xs = Done r.
    Proof.
      induction xs as [|x xs IH]; intros st buf input B S N D G0 Hm HB L; [cbn [length] in L; lia|].
      cbn [inflate_loop]. cbn [length] in L.
      destruct (inflate st (clamped (1024 + x)) (window input)) as [[[s1 n] out] err] eqn:C.
      assert (R : (0 < clamped (1024 + x))%nat) by (pose proof (clamped_room (1024 + x)); lia).
      destruct (i_progress _ _ _ _ _ _ _ IC _ _ _ _ _ _ _ S R C) as [P1 P2].
      assert (FI : fine err).
      { apply (NF st (clamped (1024 + x)) (window input) s1 n out err (skipn (clamped (length input)) input ++ more) (G ++ m)); auto.
        unfold window. rewrite (app_assoc (firstn _ _)), firstn_skipn. exact D. }
      destruct (i_account _ _ _ _ _ _ _ IC _ _ _ _ _ _ _ S R C FI) as (S1 & Ln & Lo & F & M).
      rewrite window_firstn in F by exact Ln. pose proof (window_le input) as WL.
      assert (D1 : decode (eaten s1 ++ skipn n input ++ more) = Some (G ++ m)).
      { rewrite F, <- app_assoc, (app_assoc (firstn _ _)), firstn_skipn. exact D. }
      assert (G1 : got s1 = G ++ buf ++ out) by (rewrite M, G0; symmetry; apply app_assoc).
      assert (LB : mx <? Z.of_nat (length (buf ++ out)) = false).
      { destruct (i_right _ _ _ _ _ _ _ IC _ _ _ S1 D1) as [r Er]. rewrite G1, <- app_assoc in Er.
        apply app_inv_head in Er. subst m. rewrite app_length in Hm. lia. }
      destruct FI as [-> | ->].
      - rewrite LB. destruct (is_nil (skipn n input)) eqn:EN; cbn [negb]; [eexists; reflexivity|].
        assert (skipn n input <> []) as N' by (intros Q; rewrite Q in EN; discriminate).
        assert (LF : length (eaten s1) = (length (eaten st) + n)%nat)
          by (rewrite F, app_length, firstn_length; lia).
        assert (LS : length (skipn n input) = (length input - n)%nat) by apply skipn_length.
        assert (LM : length (got s1) = (length (got st) + length out)%nat) by (rewrite M; apply app_length).
        pose proof (i_bound _ _ _ _ _ _ _ IC _ S1) as BM.
        pose proof (i_bound_mono _ _ _ _ _ _ _ IC (length (eaten s1)) (length (eaten st) + length input)%nat ltac:(lia)) as MO.
        apply (IH s1 (buf ++ out) _ B S1 N' D1 G1 Hm).
        + rewrite LF, LS. replace (length (eaten st) + n + (length input - n))%nat with (length (eaten st) + length input)%nat by lia. exact HB.
        + destruct (P1 eq_refl) as [Hn|Ho]; [lia|]. destruct out; [congruence|]. cbn [length] in *. lia.
      - rewrite LB. eexists; reflexivity.
    Qed.

    Lemma drain_loop_ends more d xs : forall st buf input B,
      isane st -> decode (eaten st ++ input ++ more) = Some d ->
      (ibound (length (eaten st) + length input) <= B)%nat ->
      (length input + (B - length (got st)) < length xs)%nat ->
      exists r, drain_loop ist inflate st buf input xs = Done r.
    Proof.
      induction xs as [|x xs IH]; intros st buf input B S D HB L; [cbn [length] in L; lia|].
      cbn [drain_loop]. cbn [length] in L.
      destruct (inflate st (clamped (16 + x)) (window input)) as [[[s1 n] out] err] eqn:C.
      assert (R : (0 < clamped (16 + x))%nat) by (pose proof (clamped_room (16 + x)); lia).
      destruct (i_progress _ _ _ _ _ _ _ IC _ _ _ _ _ _ _ S R C) as [P1 P2].
      assert (FI : fine err).
      { apply (NF st (clamped (16 + x)) (window input) s1 n out err (skipn (clamped (length input)) input ++ more) d); auto.
        unfold window. rewrite (app_assoc (firstn _ _)), firstn_skipn. exact D. }
      destruct (i_account _ _ _ _ _ _ _ IC _ _ _ _ _ _ _ S R C FI) as (S1 & Ln & Lo & F & M).
      rewrite window_firstn in F by exact Ln. pose proof (window_le input) as WL.
      assert (D1 : decode (eaten s1 ++ skipn n input ++ more) = Some d).
      { rewrite F, <- app_assoc, (app_assoc (firstn _ _)), firstn_skipn. exact D. }
      destruct FI as [-> | ->]; [|eexists; reflexivity].
      assert (LF : length (eaten s1) = (length (eaten st) + n)%nat)
        by (rewrite F, app_length, firstn_length; lia).
      assert (LS : length (skipn n input) = (length input - n)%nat) by apply skipn_length.
      assert (LM : length (got s1) = (length (got st) + length out)%nat) by (rewrite M; apply app_length).
      pose proof (i_bound _ _ _ _ _ _ _ IC _ S1) as BM.
      pose proof (i_bound_mono _ _ _ _ _ _ _ IC (length (eaten s1)) (length (eaten st) + length input)%nat ltac:(lia)) as MO.
      apply (IH s1 (buf ++ out) _ B S1 D1).
      - rewrite LF, LS. replace (length (eaten st) + n + (length input - n))%nat with (length (eaten st) + length input)%nat by lia. exact HB.
      - destruct (P1 eq_refl) as [Hn|Ho]; [lia|]. destruct out; [congruence|]. cbn [length] in *. lia.
    Qed.
  End Live.

  (** ** Both *)

  (** The receiver has taken what the sender has made, after what was made before
      the last reset. *)
  Definition paired (s : dst) (r : ist) : Prop :=
    dsane s /\ isane r /\ flushed (made s) /\ decode (made s) = Some (fed s) /\
    exists base bx, flushed base /\ decode base = Some bx /\
      eaten r = base ++ made s /\ got r = bx ++ fed s.

  Lemma paired_reset s r s0 : paired s r -> paired (reset s0) r /\ fed (reset s0) = [].
  Proof.
    intros (S & R & F & D & base & bx & F0 & D0 & E & G).
    destruct (d_reset _ _ _ _ _ _ _ _ _ DC s0) as (S' & F' & M').
    split; [|exact F']. split; [exact S'|]. split; [exact R|]. rewrite M', F'.
    split; [apply (lang_nil _ _ LG)|]. split; [apply (lang_nil _ _ LG)|].
    exists (base ++ made s), (bx ++ fed s). rewrite !app_nil_r. repeat split; auto.
    - apply (lang_chain_flushed _ _ LG); assumption.
    - apply (lang_chain _ _ LG); assumption.
  Qed.

  Lemma send_data_spec nct s r op data xs ys s' octet payload :
    paired s r -> send_data dst deflate reset nct s op data xs ys = Done (s', (octet, payload)) ->
    (octet = Z.lor 128 op /\ payload = data /\ paired s' r /\ (length (fed s') <= length (fed s))%nat) \/
    (octet = Z.lor 192 op /\ bytes payload /\ exists s0, paired s0 r /\ (length (fed s0) <= length (fed s))%nat /\ dsane s' /\
       made s' = made s0 ++ payload ++ marker /\ fed s' = fed s0 ++ data /\
       flushed (made s') /\ decode (made s') = Some (fed s')).
  Proof.
    intros P E. unfold send_data in E. cbv zeta in E.
    destruct ((if nct then 1024 else 64) <=? Z.of_nat (length data)) eqn:T.
    2:{ injection E as <- <- <-. left. repeat split; auto; apply P. }
    assert (ND : data <> []) by (intros ->; destruct nct; discriminate T).
    set (s0 := if nct then reset s else s) in *.
    assert (P0 : paired s0 r) by (unfold s0; destruct nct; [apply (paired_reset s r s P)|exact P]).
    assert (L0 : (length (fed s0) <= length (fed s))%nat).
    { unfold s0. destruct nct; [|lia]. rewrite (proj2 (paired_reset s r s P)). cbn [length]. lia. }
    unfold deflate_message_stream in E.
    destruct (is_nil data) eqn:EN; [apply is_nil_true in EN; contradiction|].
    destruct (deflate_loop dst deflate s0 [] data xs) as [[s1 b1]| |] eqn:C1; [| |discriminate].
    2:{ injection E as <- <- <-. left.
        destruct (paired_reset s r s0 P) as [P' F']. rewrite F'. cbn [length].
        split; [reflexivity|]. split; [reflexivity|]. split; [exact P'|lia]. }
    destruct (deflate_loop_safe _ _ _ _ _ _ (proj1 P0) ND C1) as (S1 & F1 & o1 & -> & M1 & B1).
    unfold deflate_message_finish in E.
    destruct (sync_loop dst deflate s1 ([] ++ o1) ys) as [[s2 b2]| |] eqn:C2; [| |discriminate].
    2:{ injection E as <- <- <-. left.
        destruct (paired_reset s r s1 P) as [P' F']. rewrite F'. cbn [length].
        split; [reflexivity|]. split; [reflexivity|]. split; [exact P'|lia]. }
    injection E as <- <- <-. right.
    destruct (sync_loop_safe _ _ _ _ _ S1 C2) as (S2 & F2 & FL & D2 & o2 & -> & M2 & B2).
    cbn [app].
    assert (MM : made s2 = made s0 ++ o1 ++ o2) by (rewrite M2, M1, app_assoc; reflexivity).
    destruct P0 as (S0 & R0 & FL0 & D0 & REST).
    destruct (lang_marker _ _ LG (made s0) (o1 ++ o2)) as [c Ec]; [exact FL0|rewrite <- MM; exact FL| |].
    { intros Z. rewrite Z, app_nil_r in MM. rewrite MM, D0 in D2. rewrite F2, F1 in D2.
      injection D2 as D2. rewrite <- (app_nil_r (fed s0)) in D2 at 1. apply app_inv_head in D2. congruence. }
    fold marker in Ec. rewrite Ec, strip_marker_app.
    split; [reflexivity|].
    split. { assert (BB : bytes (o1 ++ o2)) by (apply Forall_app; split; assumption).
             rewrite Ec in BB. apply Forall_app in BB. apply BB. }
    exists s0. split; [split; [exact S0|]; split; [exact R0|]; auto|].
    split; [exact L0|]. split; [exact S2|]. split; [rewrite MM, Ec; reflexivity|].
    split; [rewrite F2, F1; reflexivity|]. split; [exact FL|exact D2].
  Qed.

  (** A compressed payload that has been made by [s'] from [s0] is restored. *)
  Lemma restore_spec mx r s0 s' payload data xs ys r' buf :
    paired s0 r -> dsane s' -> made s' = made s0 ++ payload ++ marker -> fed s' = fed s0 ++ data ->
    flushed (made s') -> decode (made s') = Some (fed s') ->
    restore ist inflate mx r true payload xs ys = Done (r', buf) ->
    buf = data /\ paired s' r' /\ eaten r' = eaten r ++ payload ++ marker.
  Proof.
    intros (S0 & R0 & FL0 & D0 & base & bx & F0 & DB & EA & GO) S' M F FL D E.
    unfold restore in E.
    destruct (inflate_message_stream ist inflate mx r [] payload xs) as [[r1 b1]| |] eqn:C1; try discriminate.
    assert (X : isane r1 /\ eaten r1 = eaten r ++ payload /\ got r1 = got r ++ b1).
    { unfold inflate_message_stream in C1. destruct (is_nil payload) eqn:EN.
      - apply is_nil_true in EN. subst payload. injection C1 as <- <-. rewrite !app_nil_r. auto.
      - assert (payload <> []) as N by (intros Q; rewrite Q in EN; discriminate).
        destruct (inflate_loop_safe _ _ _ _ _ _ _ R0 N C1) as (S1 & E1 & o & -> & G1). auto. }
    destruct X as (S1 & E1 & G1). unfold inflate_message_finish in E.
    destruct (drain_loop_safe _ _ _ _ _ _ S1 E) as (S2 & E2 & D2 & o & -> & G2).
    assert (EE : eaten r' = base ++ made s') by (rewrite E2, E1, EA, M, <- !app_assoc; reflexivity).
    assert (DD : decode (eaten r') = Some (bx ++ fed s')).
    { rewrite EE. apply (lang_chain _ _ LG); assumption. }
    rewrite DD in D2. injection D2 as D2.
    assert (b1 ++ o = data) as ->.
    { rewrite G2, G1, GO, F, <- !app_assoc in D2. apply app_inv_head, app_inv_head in D2. congruence. }
    split; [reflexivity|]. split.
    - split; [exact S'|]. split; [exact S2|]. split; [exact FL|]. split; [exact D|].
      exists base, bx. auto.
    - rewrite E2, E1, <- app_assoc. reflexivity.
  Qed.

  Definition data_message (m : Z * list Z) : Prop := fst m = 1 \/ fst m = 2.

  Lemma exchange_safe nct mx ms : forall zs s r l,
    Forall data_message ms -> paired s r ->
    exchange dst ist (send_data dst deflate reset nct) (restore ist inflate mx) s r ms zs = Done l -> l = ms.
  Proof.
    induction ms as [|[op data] ms IH]; intros zs s r l Hd P E; [injection E as <-; reflexivity|].
    inversion_clear Hd as [|? ? Hop Hd']. unfold data_message in Hop. cbn [fst] in Hop.
    destruct zs as [|[[[a b] c] d] zs]; [discriminate|]. cbn [exchange] in E.
    destruct (send_data dst deflate reset nct s op data a b) as [[s' [octet payload]]| |] eqn:C; try discriminate.
    destruct (send_data_spec _ _ _ _ _ _ _ _ _ _ P C) as [(-> & -> & P' & _)|(-> & _ & s0 & P0 & _ & S' & M & F & FL & D)].
    - assert (T : Z.testbit (Z.lor 128 op) 6 = false) by (destruct Hop as [-> | ->]; reflexivity).
      rewrite T in E. cbn [restore] in E.
      destruct (exchange _ _ _ _ s' r ms zs) as [l'| |] eqn:X; try discriminate.
      injection E as <-. rewrite (IH _ _ _ _ Hd' P' X). destruct Hop as [-> | ->]; reflexivity.
    - assert (T : Z.testbit (Z.lor 192 op) 6 = true) by (destruct Hop as [-> | ->]; reflexivity).
      rewrite T in E.
      destruct (restore ist inflate mx r true payload c d) as [[r' g]| |] eqn:R; try discriminate.
      destruct (restore_spec _ _ _ _ _ _ _ _ _ _ P0 S' M F FL D R) as (-> & P' & _).
      destruct (exchange _ _ _ _ s' r' ms zs) as [l'| |] eqn:X; try discriminate.
      injection E as <-. rewrite (IH _ _ _ _ Hd' P' X). destruct Hop as [-> | ->]; reflexivity.
  Qed.

  Lemma send_data_ends nct s op data xs ys r F :
    paired s r -> (length (fed s) <= F)%nat ->
    (length data + dbound (F + length data) < length xs)%nat ->
    (dbound (F + length data) < length ys)%nat ->
    exists s' octet payload, send_data dst deflate reset nct s op data xs ys = Done (s', (octet, payload)).
  Proof.
    intros P HF Lx Ly. unfold send_data. cbv zeta.
    destruct ((if nct then 1024 else 64) <=? Z.of_nat (length data)) eqn:T.
    2:{ do 3 eexists. reflexivity. }
    assert (ND : data <> []) by (intros ->; destruct nct; discriminate T).
    set (s0 := if nct then reset s else s) in *.
    assert (P0 : paired s0 r) by (unfold s0; destruct nct; [apply (paired_reset s r s P)|exact P]).
    assert (L0 : (length (fed s0) <= F)%nat).
    { unfold s0. destruct nct; [|lia]. rewrite (proj2 (paired_reset s r s P)). cbn [length]. lia. }
    unfold deflate_message_stream.
    destruct (is_nil data) eqn:EN; [apply is_nil_true in EN; contradiction|].
    destruct (deflate_loop dst deflate s0 [] data xs) as [[s1 b1]| |] eqn:C1.
    - destruct (deflate_loop_safe _ _ _ _ _ _ (proj1 P0) ND C1) as (S1 & F1 & _).
      unfold deflate_message_finish.
      destruct (sync_loop dst deflate s1 b1 ys) as [[s2 b2]| |] eqn:C2.
      + do 3 eexists. reflexivity.
      + do 3 eexists. reflexivity.
      + exfalso. revert C2. apply (sync_loop_ends ys s1 b1 (dbound (F + length data)) S1); [|lia].
        apply (d_bound_mono _ _ _ _ _ _ _ _ _ DC). rewrite F1, app_length. lia.
    - do 3 eexists. reflexivity.
    - exfalso. revert C1. apply (deflate_loop_ends xs s0 [] data (dbound (F + length data)) (proj1 P0) ND); [|lia].
      apply (d_bound_mono _ _ _ _ _ _ _ _ _ DC). lia.
  Qed.

  Lemma restore_ends mx r s0 s' payload data xs ys E :
    inflate_never_fails ist inflate decode isane eaten ->
    paired s0 r -> dsane s' -> made s' = made s0 ++ payload ++ marker -> fed s' = fed s0 ++ data ->
    flushed (made s') -> decode (made s') = Some (fed s') -> Z.of_nat (length data) <= mx ->
    (length (eaten r) + length payload + 4 <= E)%nat ->
    (length payload + ibound E < length xs)%nat -> (4 + ibound E < length ys)%nat ->
    exists r' buf, restore ist inflate mx r true payload xs ys = Done (r', buf).
  Proof.
    intros NF P S' M F FL D Hm HE Lx Ly.
    destruct P as (S0 & R0 & FL0 & D0 & base & bx & F0 & DB & EA & GO).
    assert (DD : decode (eaten r ++ payload ++ marker) = Some (got r ++ data)).
    { rewrite EA, GO, <- !app_assoc, <- M, <- F. apply (lang_chain _ _ LG); assumption. }
    unfold restore.
    assert (X : exists r1 b1, inflate_message_stream ist inflate mx r [] payload xs = Done (r1, b1) /\
                 isane r1 /\ eaten r1 = eaten r ++ payload).
    { unfold inflate_message_stream. destruct (is_nil payload) eqn:EN.
      - apply is_nil_true in EN. subst payload. do 2 eexists. split; [reflexivity|]. rewrite app_nil_r. auto.
      - assert (payload <> []) as N by (intros Q; rewrite Q in EN; discriminate).
        destruct (inflate_loop_ends NF mx (got r) data marker xs r [] payload (ibound E) R0 N DD) as [[r1 b1] C].
        + rewrite app_nil_r. reflexivity.
        + exact Hm.
        + apply (i_bound_mono _ _ _ _ _ _ _ IC). lia.
        + lia.
        + exists r1, b1. split; [exact C|].
          destruct (inflate_loop_safe _ _ _ _ _ _ _ R0 N C) as (S1 & E1 & _). auto. }
    destruct X as (r1 & b1 & -> & S1 & E1). unfold inflate_message_finish.
    destruct (drain_loop_ends NF [] (got r ++ data) ys r1 b1 marker (ibound E) S1) as [[r2 b2] C2].
    - rewrite E1, app_nil_r, <- app_assoc. exact DD.
    - apply (i_bound_mono _ _ _ _ _ _ _ IC). rewrite E1, app_length. change (length marker) with 4%nat. lia.
    - change (length marker) with 4%nat. lia.
    - do 2 eexists. exact C2.
  Qed.

  Lemma exchange_live nct mx : inflate_never_fails ist inflate decode isane eaten ->
    forall ms F E, exists N, forall s r, paired s r -> (length (fed s) <= F)%nat -> (length (eaten r) <= E)%nat ->
    Forall data_message ms -> Forall (fun m => Z.of_nat (length (snd m)) <= mx) ms ->
    forall zs, length zs = length ms -> Forall (long_enough N) zs ->
    exchange dst ist (send_data dst deflate reset nct) (restore ist inflate mx) s r ms zs = Done ms.
  Proof.
    intros NF. induction ms as [|[op data] ms IH]; intros F E.
    { exists 0%nat. reflexivity. }
    set (B := dbound (F + length data)).
    destruct (IH (F + length data)%nat (E + B)%nat) as [N HN].
    set (N0 := (length data + B + B + 4 + ibound (E + B) + 1)%nat).
    exists (Nat.max N N0).
    intros s r P HF HE Hd Hm zs Lz Hz.
    inversion_clear Hd as [|? ? Hop Hd']. inversion_clear Hm as [|? ? Hm1 Hm'].
    destruct zs as [|[[[a b] c] d] zs]; [discriminate|].
    inversion_clear Hz as [|? ? Hz1 Hz']. cbn [length] in Lz. injection Lz as Lz.
    assert (Hz2 : Forall (long_enough N) zs).
    { eapply Forall_impl; [|exact Hz']. intros [[[a' b'] c'] d']. unfold long_enough. lia. }
    unfold long_enough in Hz1. cbn [snd] in Hm1.
    cbn [exchange].
    destruct (send_data_ends nct s op data a b r F P HF) as (s' & octet & payload & C); [fold B; lia|fold B; lia|].
    rewrite C.
    assert (X : exists r' g, restore ist inflate mx r (Z.testbit octet 6) payload c d = Done (r', g) /\
       paired s' r' /\ (length (fed s') <= F + length data)%nat /\ (length (eaten r') <= E + B)%nat).
    { unfold data_message in Hop. cbn [fst] in Hop.
      destruct (send_data_spec _ _ _ _ _ _ _ _ _ _ P C) as [(-> & -> & P' & LF)|(-> & _ & s0 & P0 & LF & S' & M & FE & FL & D)].
      - assert (T : Z.testbit (Z.lor 128 op) 6 = false) by (destruct Hop as [-> | ->]; reflexivity).
        rewrite T. do 2 eexists. split; [reflexivity|]. split; [exact P'|]. lia.
      - assert (T : Z.testbit (Z.lor 192 op) 6 = true) by (destruct Hop as [-> | ->]; reflexivity).
        rewrite T.
        assert (LP : (length (made s') <= B)%nat).
        { pose proof (d_bound _ _ _ _ _ _ _ _ _ DC _ S') as Q.
          pose proof (d_bound_mono _ _ _ _ _ _ _ _ _ DC (length (fed s')) (F + length data)) as Q'.
          unfold B. rewrite FE, app_length in Q, Q'. lia. }
        assert (LP' : (length (made s0) + length payload + 4 <= B)%nat).
        { rewrite M, !app_length in LP. change (length marker) with 4%nat in LP. lia. }
        destruct (restore_ends mx r s0 s' payload data c d (E + B) NF P0 S' M FE FL D Hm1) as (r' & g & R);
          [lia|lia|lia|].
        exists r', g. split; [exact R|].
        destruct (restore_spec _ _ _ _ _ _ _ _ _ _ P0 S' M FE FL D R) as (-> & P' & EA).
        split; [exact P'|]. rewrite FE, EA, !app_length. change (length marker) with 4%nat. lia. }
    destruct X as (r' & g & R & P' & LF & LE). rewrite R.
    rewrite (HN s' r' P' LF LE Hd' Hm' zs Lz Hz2).
    assert (SAFE : exchange dst ist (send_data dst deflate reset nct) (restore ist inflate mx) s r [(op, data)] [(a, b, c, d)]
                   = Done [(Z.land octet 15, g)]).
    { cbn [exchange]. rewrite C, R. reflexivity. }
    apply exchange_safe in SAFE; [|constructor; [exact Hop|constructor]|exact P].
    injection SAFE as <- <-. reflexivity.
  Qed.
End Loops.
