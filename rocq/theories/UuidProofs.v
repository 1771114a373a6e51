(** Proofs about UUIDs. *)
From Coq Require Import ZArith List Lia Bool ZifyBool ZifyNat Arith Sorting.Sorted.
From Verif Require Import Base BaseLemmas UuidModel UuidSpec.
Import ListNotations.
Open Scope Z_scope.
Ltac Zify.zify_post_hook ::= Z.div_mod_to_equations.

Lemma land15 b : Z.land b 15 = b mod 16.
Proof. change 15 with (Z.ones 4). rewrite Z.land_ones by lia. reflexivity. Qed.

Lemma nibbles_gen s : bytes s -> forall n, n = length s ->
  map (fun b => Z.land b 15) (store_le n (load_le s / 16)) = map (fun b => b / 16) s.
Proof.
  induction 1 as [|b s Hb Hs IH]; intros n ->; [reflexivity|].
  cbn [length store_le map load_le]. f_equal.
  - rewrite land15. unfold byte in Hb. lia.
  - replace ((b + 256 * load_le s) / 16 / 256) with (load_le s / 16).
    + apply IH; reflexivity.
    + unfold byte in Hb. lia.
Qed.

Lemma high_nibbles_spec s : bytes s -> length s = 8%nat -> high_nibbles s = map (fun b => b / 16) s.
Proof.
  intros H L. unfold high_nibbles. rewrite Z.shiftr_div_pow2 by lia. change (2 ^ 4) with 16.
  apply nibbles_gen; auto.
Qed.

Lemma xdigit_spec v : 0 <= v < 16 -> xdigit v = nth (Z.to_nat v) hex_digits 0.
Proof.
  intros H. assert (S : forallb (fun v => xdigit v =? nth (Z.to_nat v) hex_digits 0) (zrange 16) = true) by reflexivity.
  assert (E := sweep 16 _ S v ltac:(lia)). now apply Z.eqb_eq in E.
Qed.

Lemma interleave_hex s : bytes s ->
  interleave (map xdigit (map (fun b => b / 16) s)) (map xdigit (map (fun b => Z.land b 15) s)) = hex s.
Proof.
  induction 1 as [|b s Hb Hs IH]; [reflexivity|]. cbn [map interleave hex flat_map].
  fold (hex s). rewrite IH. unfold hex_pair. cbn [app]. unfold byte in Hb.
  rewrite land15, !xdigit_spec by lia. reflexivity.
Qed.

Lemma hex_encode_spec u : is_uuid u -> hex_encode_16 u = hex u ++ [0].
Proof.
  intros [L Hb]. unfold hex_encode_16, low_nibbles. f_equal.
  rewrite !high_nibbles_spec.
  - rewrite <- !map_app, firstn_skipn. now apply interleave_hex.
  - now apply bytes_skipn.
  - rewrite skipn_length. lia.
  - now apply bytes_firstn.
  - rewrite firstn_length. lia.
Qed.

Ltac list16 u L :=
  do 16 (destruct u as [|? u]; [discriminate L|]); destruct u; [|discriminate L].

Lemma print_spec u buf : is_uuid u -> (37 <= length buf)%nat ->
  print_partial u buf = uuid_text u ++ [0] ++ skipn 37 buf.
Proof.
  intros Hu Lb. unfold print_partial. rewrite hex_encode_spec by auto.
  destruct Hu as [L Hb]. clear Hb. list16 u L.
  do 37 (destruct buf as [|? buf]; [cbn in Lb; lia|]).
  reflexivity.
Qed.

Lemma text_length u : length u = 16%nat -> length (uuid_text u) = 36%nat.
Proof. intros L. list16 u L. reflexivity. Qed.

Lemma to_string_spec u buf : is_uuid u -> (37 <= length buf)%nat -> to_string u buf = uuid_text u.
Proof.
  intros Hu Lb. unfold to_string. rewrite print_spec by auto.
  rewrite firstn_app, text_length by apply Hu. rewrite Nat.sub_diag, firstn_O, app_nil_r.
  apply firstn_all2. rewrite text_length by apply Hu. lia.
Qed.

(** ** Parsing *)

Lemma hex_val_range c v : hex_val c = Some v -> 0 <= v < 16.
Proof.
  unfold hex_val. intros H.
  destruct ((48 <=? c) && (c <=? 57)) eqn:E1; [injection H as H; lia|].
  destruct ((65 <=? c) && (c <=? 70)) eqn:E2; [injection H as H; lia|].
  destruct ((97 <=? c) && (c <=? 102)) eqn:E3; [injection H as H; lia|discriminate].
Qed.

Lemma hex_val_lower c v : hex_val c = Some v -> to_lower c = nth (Z.to_nat v) hex_digits 0.
Proof.
  unfold hex_val, to_lower. intros H.
  assert (R : 48 <= c <= 102).
  { destruct ((48 <=? c) && (c <=? 57)) eqn:E1; [lia|].
    destruct ((65 <=? c) && (c <=? 70)) eqn:E2; [lia|].
    destruct ((97 <=? c) && (c <=? 102)) eqn:E3; [lia|discriminate]. }
  assert (S : forallb (fun c => match hex_val c with
                                | Some v => to_lower c =? nth (Z.to_nat v) hex_digits 0
                                | None => true end) (zrange 256) = true) by (vm_compute; reflexivity).
  assert (E := sweep 256 _ S c ltac:(lia)). cbv beta in E. unfold hex_val in E. rewrite H in E.
  unfold to_lower in E. now apply Z.eqb_eq in E.
Qed.

Lemma lower_hex_val c v : 0 <= v < 16 -> to_lower c = nth (Z.to_nat v) hex_digits 0 ->
  hex_val c = Some v.
Proof.
  intros Hv H.
  assert (R : 48 <= c <= 102).
  { assert (Q : 48 <= nth (Z.to_nat v) hex_digits 0 <= 102).
    { assert (S : forallb (fun v => (48 <=? nth (Z.to_nat v) hex_digits 0)
               && (nth (Z.to_nat v) hex_digits 0 <=? 102)) (zrange 16) = true) by reflexivity.
      assert (E := sweep 16 _ S v ltac:(lia)). cbv beta in E. lia. }
    unfold to_lower in H. destruct (_ && _) eqn:E; lia. }
  assert (S : forallb (fun c => forallb (fun v => negb (to_lower c =? nth (Z.to_nat v) hex_digits 0) ||
       match hex_val c with Some w => w =? v | None => false end) (zrange 16)) (zrange 256) = true)
    by (vm_compute; reflexivity).
  assert (E := sweep 256 _ S c ltac:(lia)). cbv beta in E.
  assert (E2 := sweep 16 _ E v ltac:(lia)). cbv beta in E2.
  rewrite H, Z.eqb_refl in E2. cbn [negb orb] in E2.
  destruct (hex_val c); [|discriminate]. f_equal. lia.
Qed.

Lemma lower_dash c : to_lower c = 45 <-> c = 45.
Proof. unfold to_lower. destruct (_ && _) eqn:E; lia. Qed.

Lemma shift_digit h v : 0 <= h < 2 ^ 60 -> 0 <= v < 16 ->
  Z.lor (Z.shiftl h 4 mod two64) v = h * 16 + v.
Proof.
  intros Hh Hv. rewrite Z.shiftl_mul_pow2 by lia. change (2 ^ 4) with 16. change (2 ^ 60) with 1152921504606846976 in Hh.
  rewrite Z.mod_small by (unfold two64; lia).
  change 16 with (2 ^ 4) at 1. rewrite lor_shifted by (change (2 ^ 4) with 16; lia). reflexivity.
Qed.

(** Several digits in a row. *)
Fixpoint digits (acc : Z) (vs : list Z) : Z :=
  match vs with [] => acc | v :: r => digits (acc * 16 + v) r end.

Fixpoint hexvals (s : list Z) : option (list Z) :=
  match s with
  | [] => Some []
  | c :: r => match hex_val c, hexvals r with
              | Some v, Some vs => Some (v :: vs)
              | _, _ => None
              end
  end.

Lemma digits_bound vs : forall acc, Forall (fun v => 0 <= v < 16) vs -> 0 <= acc ->
  0 <= digits acc vs < (acc + 1) * 16 ^ Z.of_nat (length vs).
Proof.
  induction vs as [|v vs IH]; intros acc Hf Ha; cbn [digits length].
  - rewrite Z.pow_0_r. lia.
  - inversion_clear Hf. specialize (IH (acc * 16 + v) H0 ltac:(lia)).
    rewrite Nat2Z.inj_succ, Z.pow_succ_r by lia.
    assert (0 < 16 ^ Z.of_nat (length vs)) by (apply Z.pow_pos_nonneg; lia). nia.
Qed.

Lemma hexvals_range s vs : hexvals s = Some vs -> Forall (fun v => 0 <= v < 16) vs /\ length vs = length s.
Proof.
  revert vs. induction s as [|c s IH]; intros vs; cbn [hexvals].
  - intros [= <-]. split; [constructor|reflexivity].
  - destruct (hex_val c) eqn:E; [|discriminate]. destruct (hexvals s) eqn:E2; [|discriminate].
    intros [= <-]. destruct (IH _ eq_refl) as [I1 I2]. split; [constructor|cbn; congruence]; auto.
    eapply hex_val_range; eauto.
Qed.

Lemma mask_none k : 0 <= k < 36 -> negb (Z.land (Z.shiftl 1 k) dash_mask =? 0)
  = (k =? 8) || (k =? 13) || (k =? 18) || (k =? 23).
Proof.
  intros H.
  assert (S : forallb (fun k => Bool.eqb (negb (Z.land (Z.shiftl 1 k) dash_mask =? 0))
     ((k =? 8) || (k =? 13) || (k =? 18) || (k =? 23))) (zrange 36) = true) by (vm_compute; reflexivity).
  assert (E := sweep 36 _ S k ltac:(lia)). now apply eqb_prop in E.
Qed.

(** A run of hexadecimal digits inside the first half. *)
Lemma loop_high s : forall n k r high low,
  0 <= k -> k + Z.of_nat (length s) <= 19 ->
  (forall j, k <= j < k + Z.of_nat (length s) -> (j =? 8) || (j =? 13) || (j =? 18) || (j =? 23) = false) ->
  0 <= high -> (high + 1) * 16 ^ Z.of_nat (length s) <= 2 ^ 64 ->
  parse_loop (length s + n) k (s ++ r) high low
  = match hexvals s with
    | None => None
    | Some vs => parse_loop n (k + Z.of_nat (length s)) r (digits high vs) low
    end.
Proof.
  induction s as [|c s IH]; intros n k r high low Hk Hk2 Hd Hh Hb; cbn [length app plus hexvals].
  - cbn. now rewrite Z.add_0_r.
  - cbn [length] in *. cbn [parse_loop]. rewrite mask_none by lia. rewrite Hd by lia.
    destruct (hex_val c) as [v|] eqn:E; [|reflexivity].
    pose proof (hex_val_range _ _ E) as Hv.
    assert (k <? 19 = true) as -> by lia.
    rewrite Nat2Z.inj_succ, Z.pow_succ_r in Hb by lia.
    assert (Hpos : 0 < 16 ^ Z.of_nat (length s)) by (apply Z.pow_pos_nonneg; lia).
    change (2 ^ 64) with 18446744073709551616 in Hb.
    rewrite shift_digit by (change (2 ^ 60) with 1152921504606846976; nia).
    rewrite IH; try lia.
    + destruct (hexvals s) as [vs|]; [|reflexivity]. cbn [digits]. f_equal. lia.
    + intros j Hj. apply Hd. lia.
    + change (2 ^ 64) with 18446744073709551616. nia.
Qed.

Lemma loop_low s : forall n k r high low,
  19 <= k -> k + Z.of_nat (length s) <= 36 ->
  (forall j, k <= j < k + Z.of_nat (length s) -> (j =? 8) || (j =? 13) || (j =? 18) || (j =? 23) = false) ->
  0 <= low -> (low + 1) * 16 ^ Z.of_nat (length s) <= 2 ^ 64 ->
  parse_loop (length s + n) k (s ++ r) high low
  = match hexvals s with
    | None => None
    | Some vs => parse_loop n (k + Z.of_nat (length s)) r high (digits low vs)
    end.
Proof.
  induction s as [|c s IH]; intros n k r high low Hk Hk2 Hd Hh Hb; cbn [length app plus hexvals].
  - cbn. now rewrite Z.add_0_r.
  - cbn [length] in *. cbn [parse_loop]. rewrite mask_none by lia. rewrite Hd by lia.
    destruct (hex_val c) as [v|] eqn:E; [|reflexivity].
    pose proof (hex_val_range _ _ E) as Hv.
    assert (k <? 19 = false) as -> by lia.
    rewrite Nat2Z.inj_succ, Z.pow_succ_r in Hb by lia.
    assert (Hpos : 0 < 16 ^ Z.of_nat (length s)) by (apply Z.pow_pos_nonneg; lia).
    change (2 ^ 64) with 18446744073709551616 in Hb.
    rewrite shift_digit by (change (2 ^ 60) with 1152921504606846976; nia).
    rewrite IH; try lia.
    + destruct (hexvals s) as [vs|]; [|reflexivity]. cbn [digits]. f_equal. lia.
    + intros j Hj. apply Hd. lia.
    + change (2 ^ 64) with 18446744073709551616. nia.
Qed.

Lemma loop_dash n k c r high low : (k =? 8) || (k =? 13) || (k =? 18) || (k =? 23) = true ->
  parse_loop (S n) k (c :: r) high low
  = if c =? 45 then parse_loop n (k + 1) r high low else None.
Proof. intros H. cbn [parse_loop]. rewrite mask_none by lia. now rewrite H. Qed.

Fixpoint pairs (vs : list Z) : list Z :=
  match vs with a :: b :: r => (a * 16 + b) :: pairs r | _ => [] end.

Lemma digits_load n : forall vs acc, length vs = (2 * n)%nat -> 
  digits acc vs = fold_left (fun a b => a * 256 + b) (pairs vs) acc.
Proof.
  induction n as [|n IH]; intros vs acc L.
  - destruct vs; [reflexivity|discriminate L].
  - destruct vs as [|a [|b vs]]; try (cbn in L; lia). cbn [digits pairs fold_left].
    rewrite IH by (cbn in L; lia). f_equal. lia.
Qed.

Lemma pairs_bytes : forall n vs, (length vs <= n)%nat -> Forall (fun v => 0 <= v < 16) vs -> bytes (pairs vs).
Proof.
  induction n as [|n IH]; intros vs L H; destruct vs as [|a [|b vs]]; try constructor; try (cbn in L; lia).
  - inversion_clear H. inversion_clear H1. unfold byte. lia.
  - inversion_clear H. inversion_clear H1. apply IH; auto. cbn in L. lia.
Qed.

Lemma store_be_load s : bytes s -> store_be (length s) (load_be s) = s.
Proof.
  intros H. 
  assert (G : forall s acc, bytes s -> 0 <= acc ->
     store_be (length s) (fold_left (fun a b => a * 256 + b) s acc) = s).
  { clear. intros s. induction s as [|b s IH]; intros acc H Ha; [reflexivity|].
    inversion_clear H. cbn [length store_be fold_left]. rewrite IH by (auto; unfold byte in *; lia). f_equal.
    pose proof (load_be_bound_acc s H1 (acc * 256 + b) ltac:(unfold byte in *; lia)) as B.
    set (X := fold_left _ s _) in *. set (P := 2 ^ (8 * Z.of_nat (length s))) in *.
    assert (HP : 0 < P) by (apply Z.pow_pos_nonneg; lia).
    assert (X / P = acc * 256 + b).
    { symmetry. apply Z.div_unique with (X - P * (acc * 256 + b)); [left|]; lia. }
    rewrite H. unfold byte in *. lia. }
  apply G; auto. lia.
Qed.

Lemma hexvals_hex s : bytes s -> forall t, map to_lower t = hex s -> 
  exists vs, hexvals t = Some vs /\ pairs vs = s.
Proof.
  induction 1 as [|b s Hb Hs IH]; intros t E.
  - destruct t; [|discriminate]. exists []. auto.
  - destruct t as [|c1 [|c2 t]]; try discriminate. cbn [map hex flat_map hex_pair app] in E.
    fold (hex s) in E. injection E as E1 E2 E3. unfold byte in Hb.
    apply lower_hex_val in E1; [|lia]. apply lower_hex_val in E2; [|lia].
    destruct (IH t E3) as (vs & Hvs & Hp). cbn [hexvals]. rewrite E1, E2, Hvs.
    eexists. split; [reflexivity|]. cbn [pairs]. f_equal; [lia|exact Hp].
Qed.

Lemma hex_hexvals : forall n t vs, (length t <= n)%nat -> hexvals t = Some vs -> Nat.even (length t) = true ->
  map to_lower t = hex (pairs vs).
Proof.
  induction n as [|n IH]; intros t vs L H He.
  - destruct t; [|cbn in L; lia]. injection H as <-. reflexivity.
  - destruct t as [|c1 [|c2 t]].
    + injection H as <-. reflexivity.
    + discriminate He.
    + cbn [hexvals] in H. destruct (hex_val c1) as [v1|] eqn:E1; [|discriminate].
      destruct (hex_val c2) as [v2|] eqn:E2; [|discriminate].
      destruct (hexvals t) as [vs'|] eqn:E3; [|discriminate]. injection H as <-.
      cbn [map pairs hex flat_map]. fold (hex (pairs vs')).
      rewrite <- (IH t vs' ltac:(cbn in L; lia) E3 He).
      pose proof (hex_val_range _ _ E1). pose proof (hex_val_range _ _ E2).
      rewrite (hex_val_lower _ _ E1), (hex_val_lower _ _ E2). unfold hex_pair.
      replace ((v1 * 16 + v2) / 16) with v1 by lia. replace ((v1 * 16 + v2) mod 16) with v2 by lia.
      reflexivity.
Qed.

Ltac side := first [lia | intros; lia
  | change (16 ^ 4) with 65536; change (2 ^ 64) with 18446744073709551616; lia
  | change (16 ^ 12) with 281474976710656; change (2 ^ 64) with 18446744073709551616; lia
  | vm_compute; congruence].

(** The five runs of digits. *)
Lemma parse_partial_runs a b c d e x1 x2 x3 x4 r :
  length a = 8%nat -> length b = 4%nat -> length c = 4%nat -> length d = 4%nat -> length e = 12%nat ->
  parse_partial (a ++ [x1] ++ b ++ [x2] ++ c ++ [x3] ++ d ++ [x4] ++ e ++ r)
  = match hexvals a, hexvals b, hexvals c, hexvals d, hexvals e with
    | Some va, Some vb, Some vc, Some vd, Some ve =>
        if (x1 =? 45) && (x2 =? 45) && (x3 =? 45) && (x4 =? 45)
        then Some (pairs (va ++ vb ++ vc) ++ pairs (vd ++ ve)) else None
    | _, _, _, _, _ => None
    end.
Proof.
  intros La Lb Lc Ld Le. unfold parse_partial.
  assert (HA := fun n k hi lo => loop_high a n k ([x1] ++ b ++ [x2] ++ c ++ [x3] ++ d ++ [x4] ++ e ++ r) hi lo).
  assert (HB := fun n k hi lo => loop_high b n k ([x2] ++ c ++ [x3] ++ d ++ [x4] ++ e ++ r) hi lo).
  assert (HC := fun n k hi lo => loop_high c n k ([x3] ++ d ++ [x4] ++ e ++ r) hi lo).
  assert (HD := fun n k hi lo => loop_low d n k ([x4] ++ e ++ r) hi lo).
  assert (HE := fun n k hi lo => loop_low e n k r hi lo).
  rewrite La in HA. rewrite Lb in HB. rewrite Lc in HC. rewrite Ld in HD. rewrite Le in HE.
  change (Z.of_nat 8) with 8 in HA. change (Z.of_nat 4) with 4 in HB, HC, HD.
  change (Z.of_nat 12) with 12 in HE.
  change 36%nat with (8 + (1 + (4 + (1 + (4 + (1 + (4 + (1 + (12 + 0)))))))))%nat.
  rewrite HA by (try lia; try (intros; lia); vm_compute; congruence).
  destruct (hexvals a) as [va|] eqn:Ea; [|reflexivity].
  destruct (hexvals_range _ _ Ea) as [Ra Lva]. rewrite La in Lva.
  pose proof (digits_bound va 0 Ra ltac:(lia)) as Ba. rewrite Lva in Ba.
  change ((0 + 1) * 16 ^ Z.of_nat 8) with 4294967296 in Ba.
  cbn [app]. cbn [plus]. rewrite loop_dash by reflexivity.
  destruct (x1 =? 45) eqn:X1; cbn [andb].
  2:{ destruct (hexvals b), (hexvals c), (hexvals d), (hexvals e); reflexivity. }
  cbn [app plus] in *. 
  rewrite HB by side.
  destruct (hexvals b) as [vb|] eqn:Eb; [|reflexivity].
  destruct (hexvals_range _ _ Eb) as [Rb Lvb]. rewrite Lb in Lvb.
  pose proof (digits_bound vb _ Rb (proj1 Ba)) as Bb. rewrite Lvb in Bb.
  change (16 ^ Z.of_nat 4) with 65536 in Bb.
  cbn [plus]. rewrite loop_dash by reflexivity.
  destruct (x2 =? 45) eqn:X2; cbn [andb].
  2:{ destruct (hexvals c), (hexvals d), (hexvals e); reflexivity. }
  rewrite HC by side.
  destruct (hexvals c) as [vc|] eqn:Ec; [|reflexivity].
  destruct (hexvals_range _ _ Ec) as [Rc Lvc]. rewrite Lc in Lvc.
  cbn [plus]. rewrite loop_dash by reflexivity.
  destruct (x3 =? 45) eqn:X3; cbn [andb].
  2:{ destruct (hexvals d), (hexvals e); reflexivity. }
  rewrite HD by side.
  destruct (hexvals d) as [vd|] eqn:Ed; [|reflexivity].
  destruct (hexvals_range _ _ Ed) as [Rd Lvd]. rewrite Ld in Lvd.
  pose proof (digits_bound vd 0 Rd ltac:(lia)) as Bd. rewrite Lvd in Bd.
  change ((0 + 1) * 16 ^ Z.of_nat 4) with 65536 in Bd.
  cbn [plus]. rewrite loop_dash by reflexivity.
  destruct (x4 =? 45) eqn:X4.
  2:{ destruct (hexvals e); reflexivity. }
  rewrite HE by side.
  destruct (hexvals e) as [ve|] eqn:Ee; [|reflexivity].
  destruct (hexvals_range _ _ Ee) as [Re Lve]. rewrite Le in Lve.
  cbn [parse_loop]. f_equal.
  assert (DA : forall x y acc, digits (digits acc x) y = digits acc (x ++ y)).
  { clear. induction x; intros; [reflexivity|]. cbn [digits app]. apply IHx. }
  rewrite !DA, <- ?app_assoc.
  assert (F1 : Forall (fun v => 0 <= v < 16) (va ++ vb ++ vc)) by (rewrite !Forall_app; auto).
  assert (F2 : Forall (fun v => 0 <= v < 16) (vd ++ ve)) by (rewrite !Forall_app; auto).
  assert (L1 : length (va ++ vb ++ vc) = (2 * 8)%nat) by (rewrite !app_length; lia).
  assert (L2 : length (vd ++ ve) = (2 * 8)%nat) by (rewrite !app_length; lia).
  assert (LP : forall n vs, length vs = (2 * n)%nat -> length (pairs vs) = n).
  { clear. induction n; intros vs L; destruct vs as [|x [|y vs]]; cbn in *; try lia. rewrite IHn; lia. }
  rewrite (digits_load 8 _ 0 L1), (digits_load 8 _ 0 L2).
  f_equal.
  - pose proof (store_be_load _ (pairs_bytes _ _ (Nat.le_refl _) F1)) as E. rewrite (LP 8%nat _ L1) in E. exact E.
  - pose proof (store_be_load _ (pairs_bytes _ _ (Nat.le_refl _) F2)) as E. rewrite (LP 8%nat _ L2) in E. exact E.
Qed.

Lemma split_text (s : list Z) : (36 <= length s)%nat ->
  exists a b c d e x1 x2 x3 x4 r,
    s = a ++ [x1] ++ b ++ [x2] ++ c ++ [x3] ++ d ++ [x4] ++ e ++ r /\
    length a = 8%nat /\ length b = 4%nat /\ length c = 4%nat /\ length d = 4%nat /\ length e = 12%nat.
Proof.
  intros L. do 36 (destruct s as [|? s]; [cbn in L; lia|]). clear L.
  match goal with |- exists a b c d e x1 x2 x3 x4 r,
    ?a0 :: ?a1 :: ?a2 :: ?a3 :: ?a4 :: ?a5 :: ?a6 :: ?a7 :: ?y1 :: ?b0 :: ?b1 :: ?b2 :: ?b3 :: ?y2
    :: ?c0 :: ?c1 :: ?c2 :: ?c3 :: ?y3 :: ?d0 :: ?d1 :: ?d2 :: ?d3 :: ?y4 :: ?e0 :: ?e1 :: ?e2 :: ?e3
    :: ?e4 :: ?e5 :: ?e6 :: ?e7 :: ?e8 :: ?e9 :: ?e10 :: ?e11 :: ?r0 = _ /\ _ =>
    exists [a0;a1;a2;a3;a4;a5;a6;a7], [b0;b1;b2;b3], [c0;c1;c2;c3], [d0;d1;d2;d3],
           [e0;e1;e2;e3;e4;e5;e6;e7;e8;e9;e10;e11], y1, y2, y3, y4, r0
  end. repeat split.
Qed.

Lemma pairs_app : forall n x y, length x = (2 * n)%nat -> pairs (x ++ y) = pairs x ++ pairs y.
Proof.
  induction n as [|n IH]; intros x y L; destruct x as [|a [|b x]]; cbn in L; try lia; [reflexivity|].
  cbn [app pairs]. now rewrite IH by lia.
Qed.

Lemma pairs_length : forall n vs, length vs = (2 * n)%nat -> length (pairs vs) = n.
Proof.
  induction n; intros vs L; destruct vs as [|x [|y vs]]; cbn in *; try lia. rewrite IHn; lia.
Qed.

Lemma hex_length s : length (hex s) = (2 * length s)%nat.
Proof. induction s; [reflexivity|]. cbn [hex flat_map hex_pair app length]. fold (hex s). lia. Qed.

Lemma map_app_inv (f : Z -> Z) s a b : map f s = a ++ b ->
  exists s1 s2, s = s1 ++ s2 /\ map f s1 = a /\ map f s2 = b.
Proof.
  revert s. induction a as [|x a IH]; intros s H.
  - exists [], s. auto.
  - destruct s as [|y s]; [discriminate|]. cbn in H. injection H as H1 H2.
    destruct (IH s H2) as (s1 & s2 & -> & E1 & E2). exists (y :: s1), s2. cbn. subst. auto.
Qed.

Theorem parse_iff s u : parse s = Some u <->
  (36 <= length s)%nat /\ is_uuid u /\ map to_lower (firstn 36 s) = uuid_text u.
Proof.
  unfold parse. destruct (Nat.leb_spec 36 (length s)) as [L|L].
  2:{ split; [discriminate|]. intros (L' & _). lia. }
  destruct (split_text s L) as (a & b & c & d & e & x1 & x2 & x3 & x4 & r & -> & La & Lb & Lc & Ld & Le).
  rewrite parse_partial_runs by auto.
  assert (F : firstn 36 (a ++ [x1] ++ b ++ [x2] ++ c ++ [x3] ++ d ++ [x4] ++ e ++ r)
              = a ++ [x1] ++ b ++ [x2] ++ c ++ [x3] ++ d ++ [x4] ++ e).
  { replace (a ++ [x1] ++ b ++ [x2] ++ c ++ [x3] ++ d ++ [x4] ++ e ++ r)
      with ((a ++ [x1] ++ b ++ [x2] ++ c ++ [x3] ++ d ++ [x4] ++ e) ++ r) by (rewrite <- !app_assoc; reflexivity).
    set (A := a ++ [x1] ++ b ++ [x2] ++ c ++ [x3] ++ d ++ [x4] ++ e).
    assert (LA : length A = 36%nat) by (unfold A; rewrite !app_length; cbn [length]; lia).
    rewrite <- LA, firstn_app, firstn_all, Nat.sub_diag, firstn_O. apply app_nil_r. }
  rewrite F. clear F.
  split.
  - destruct (hexvals a) as [va|] eqn:Ea; [|discriminate].
    destruct (hexvals b) as [vb|] eqn:Eb; [|discriminate].
    destruct (hexvals c) as [vc|] eqn:Ec; [|discriminate].
    destruct (hexvals d) as [vd|] eqn:Ed; [|discriminate].
    destruct (hexvals e) as [ve|] eqn:Ee; [|discriminate].
    destruct (_ && _) eqn:X; [|discriminate]. intros [= <-].
    destruct (hexvals_range _ _ Ea) as [Ra Lva]. destruct (hexvals_range _ _ Eb) as [Rb Lvb].
    destruct (hexvals_range _ _ Ec) as [Rc Lvc]. destruct (hexvals_range _ _ Ed) as [Rd Lvd].
    destruct (hexvals_range _ _ Ee) as [Re Lve].
    rewrite La in Lva. rewrite Lb in Lvb. rewrite Lc in Lvc. rewrite Ld in Lvd. rewrite Le in Lve.
    rewrite (pairs_app 4 va), (pairs_app 2 vb), (pairs_app 2 vd) by lia.
    pose proof (pairs_length 4 va Lva) as Pa. pose proof (pairs_length 2 vb Lvb) as Pb.
    pose proof (pairs_length 2 vc Lvc) as Pc. pose proof (pairs_length 2 vd Lvd) as Pd.
    pose proof (pairs_length 6 ve Lve) as Pe.
    split; [rewrite !app_length in *; cbn [length] in *; lia|]. split.
    + split; [rewrite !app_length; lia|]. unfold bytes. rewrite !Forall_app.
      repeat split; eapply pairs_bytes; eauto.
    + rewrite !map_app.
      rewrite (hex_hexvals _ a va (Nat.le_refl _) Ea) by (rewrite La; reflexivity).
      rewrite (hex_hexvals _ b vb (Nat.le_refl _) Eb) by (rewrite Lb; reflexivity).
      rewrite (hex_hexvals _ c vc (Nat.le_refl _) Ec) by (rewrite Lc; reflexivity).
      rewrite (hex_hexvals _ d vd (Nat.le_refl _) Ed) by (rewrite Ld; reflexivity).
      rewrite (hex_hexvals _ e ve (Nat.le_refl _) Ee) by (rewrite Le; reflexivity).
      assert (map to_lower [x1] = [45] /\ map to_lower [x2] = [45] /\ map to_lower [x3] = [45]
              /\ map to_lower [x4] = [45]) as (-> & -> & -> & ->).
      { cbn [map]. assert (x1 = 45 /\ x2 = 45 /\ x3 = 45 /\ x4 = 45) as (-> & -> & -> & ->) by lia.
        repeat split. }
      set (A := pairs va) in *. set (B := pairs vb) in *. set (C := pairs vc) in *.
      set (D := pairs vd) in *. set (E := pairs ve) in *.
      clearbody A B C D E.
      do 4 (destruct A as [|? A]; [discriminate|]). destruct A; [|discriminate].
      do 2 (destruct B as [|? B]; [discriminate|]). destruct B; [|discriminate].
      do 2 (destruct C as [|? C]; [discriminate|]). destruct C; [|discriminate].
      do 2 (destruct D as [|? D]; [discriminate|]). destruct D; [|discriminate].
      reflexivity.
  - intros (_ & [Lu Hu] & E). unfold uuid_text in E. rewrite !map_app in E.
    assert (AP : forall (x y x' y' : list Z), length x = length x' -> x ++ y = x' ++ y' -> x = x' /\ y = y').
    { clear. induction x as [|h x IH]; intros y [|h' x'] y' L E; try discriminate; auto.
      cbn in *. injection E as -> E. injection L as L. destruct (IH _ _ _ L E). subst; auto. }
    apply AP in E; [|rewrite map_length, hex_length, firstn_length; lia]. destruct E as [E1 E].
    apply AP in E; [|reflexivity]. destruct E as [D1 E].
    apply AP in E; [|rewrite map_length, hex_length, firstn_length, skipn_length; lia]. destruct E as [E2 E].
    apply AP in E; [|reflexivity]. destruct E as [D2 E].
    apply AP in E; [|rewrite map_length, hex_length, firstn_length, skipn_length; lia]. destruct E as [E3 E].
    apply AP in E; [|reflexivity]. destruct E as [D3 E].
    apply AP in E; [|rewrite map_length, hex_length, firstn_length, skipn_length; lia]. destruct E as [E4 E].
    apply AP in E; [|reflexivity]. destruct E as [D4 E5].
    cbn [map] in D1, D2, D3, D4. injection D1 as D1. injection D2 as D2. injection D3 as D3. injection D4 as D4.
    apply (proj1 (lower_dash _)) in D1, D2, D3, D4. subst x1 x2 x3 x4.
    destruct (hexvals_hex _ (bytes_firstn 4 _ Hu) _ E1) as (va & Ea & Pa).
    destruct (hexvals_hex _ (bytes_firstn 2 _ (bytes_skipn 4 _ Hu)) _ E2) as (vb & Eb & Pb).
    destruct (hexvals_hex _ (bytes_firstn 2 _ (bytes_skipn 6 _ Hu)) _ E3) as (vc & Ec & Pc).
    destruct (hexvals_hex _ (bytes_firstn 2 _ (bytes_skipn 8 _ Hu)) _ E4) as (vd & Ed & Pd).
    destruct (hexvals_hex _ (bytes_skipn 10 _ Hu) _ E5) as (ve & Ee & Pe).
    rewrite Ea, Eb, Ec, Ed, Ee. cbn [Z.eqb Pos.eqb andb]. f_equal.
    destruct (hexvals_range _ _ Ea) as [_ Lva]. destruct (hexvals_range _ _ Eb) as [_ Lvb].
    destruct (hexvals_range _ _ Ed) as [_ Lvd].
    rewrite (pairs_app 4 va), (pairs_app 2 vb), (pairs_app 2 vd) by lia.
    rewrite Pa, Pb, Pc, Pd, Pe. clear - Lu. list16 u Lu. reflexivity.
Qed.

Theorem print_parse u buf r : is_uuid u -> (37 <= length buf)%nat ->
  parse (to_string u buf ++ r) = Some u.
Proof.
  intros Hu Lb. rewrite to_string_spec by auto. apply parse_iff.
  pose proof (text_length u (proj1 Hu)) as L. split; [rewrite app_length; lia|]. split; [exact Hu|].
  rewrite <- L, firstn_app, firstn_all, Nat.sub_diag, firstn_O, app_nil_r. clear L.
  assert (HX : forall s, bytes s -> map to_lower (hex s) = hex s).
  { clear. induction 1 as [|b s Hb Hs IH]; [reflexivity|].
    cbn [hex flat_map hex_pair app map]. fold (hex s). rewrite IH. f_equal.
    - unfold byte in Hb. 
      assert (S : forallb (fun v => to_lower (nth (Z.to_nat v) hex_digits 0) =? nth (Z.to_nat v) hex_digits 0) (zrange 16) = true) by reflexivity.
      apply Z.eqb_eq. apply (sweep 16 _ S (b / 16)). lia.
    - f_equal. unfold byte in Hb. 
      assert (S : forallb (fun v => to_lower (nth (Z.to_nat v) hex_digits 0) =? nth (Z.to_nat v) hex_digits 0) (zrange 16) = true) by reflexivity.
      apply Z.eqb_eq. apply (sweep 16 _ S (b mod 16)). lia. }
  destruct Hu as [_ Hu]. unfold uuid_text. rewrite !map_app.
  rewrite !HX by (repeat first [assumption | apply bytes_firstn | apply bytes_skipn]). reflexivity.
Qed.

Theorem construct_iff s u : construct s = Some u <->
  length s = 36%nat /\ is_uuid u /\ map to_lower s = uuid_text u.
Proof.
  unfold construct. destruct (parse s) as [u'|] eqn:E.
  - pose proof (proj1 (parse_iff s u') E) as (L & Hu & T).
    destruct (Nat.eqb_spec 36 (length s)) as [L'|L'].
    + rewrite L', firstn_all in T. split.
      * intros [= <-]. auto.
      * intros (_ & Hu2 & T2). f_equal.
        assert (E2 : parse s = Some u). { apply parse_iff. split; [lia|]. split; [auto|]. now rewrite L', firstn_all. }
        congruence.
    + split; [discriminate|]. intros (L2 & _). lia.
  - split; [discriminate|]. intros (L & Hu & T).
    assert (E2 : parse s = Some u). { apply parse_iff. split; [lia|]. split; [auto|]. now rewrite <- L, firstn_all. }
    congruence.
Qed.

(** ** Order *)

Lemma flip_sign x : byte x -> signed8 (Z.lxor x 128) = x - 128.
Proof.
  intros H. apply Z.eqb_eq. apply (sweep_byte (fun x => signed8 (Z.lxor x 128) =? x - 128)); [|exact H].
  vm_compute. reflexivity.
Qed.

Lemma gt_lane_spec x y : byte x -> byte y -> gt_lane x y = (y <? x).
Proof. intros Hx Hy. unfold gt_lane. rewrite !flip_sign by auto. lia. Qed.

Lemma movemask_app a b : movemask (a ++ b) = movemask a + 2 ^ Z.of_nat (length a) * movemask b.
Proof.
  induction a as [|x a IH]; cbn [app movemask length].
  - rewrite Z.pow_0_r. lia.
  - rewrite IH, Nat2Z.inj_succ, Z.pow_succ_r by lia. ring.
Qed.

Lemma combine_rev (a b : list Z) : length a = length b -> combine (rev a) (rev b) = rev (combine a b).
Proof.
  revert b. induction a as [|x a IH]; intros [|y b] L; try discriminate; [reflexivity|].
  cbn [rev combine]. injection L as L. rewrite <- IH by auto.
  assert (CA : forall (p q r s : list Z), length p = length q -> combine (p ++ r) (q ++ s) = combine p q ++ combine r s).
  { clear. induction p as [|h p IH]; intros [|h' q] r s L; try discriminate; [reflexivity|].
    cbn. f_equal. apply IH. now injection L. }
  rewrite CA by (now rewrite !rev_length). reflexivity.
Qed.

Lemma compare_cons x y a b : length a = length b ->
  compare (x :: a) (y :: b)
  = 2 ^ Z.of_nat (length a) * (b2z (gt_lane x y) - b2z (gt_lane y x)) + compare a b.
Proof.
  intros L. unfold compare. rewrite !combine_rev by (cbn; congruence).
  cbn [combine rev map]. rewrite !map_app, !movemask_app. cbn [map movemask fst snd].
  rewrite !map_length, !rev_length, !combine_length, L, Nat.min_id. ring.
Qed.

Lemma compare_bound a : forall b, length a = length b ->
  - 2 ^ Z.of_nat (length a) < compare a b < 2 ^ Z.of_nat (length a).
Proof.
  induction a as [|x a IH]; intros [|y b] L; try discriminate.
  - cbn. lia.
  - injection L as L. rewrite compare_cons by auto. specialize (IH b L). cbn [length].
    rewrite Nat2Z.inj_succ, Z.pow_succ_r by lia.
    destruct (gt_lane x y), (gt_lane y x); cbn [b2z]; lia.
Qed.

Lemma compare_sgn a : forall b, length a = length b -> bytes a -> bytes b ->
  Z.sgn (compare a b) = lex a b.
Proof.
  induction a as [|x a IH]; intros [|y b] L Ha Hb; try discriminate; [reflexivity|].
  injection L as L. inversion_clear Ha. inversion_clear Hb.
  rewrite compare_cons by auto. pose proof (compare_bound a b L) as B.
  rewrite !gt_lane_spec by auto. cbn [lex]. specialize (IH b L H0 H2).
  destruct (x <? y) eqn:E1.
  - assert (y <? x = false) as -> by lia. cbn [b2z]. lia.
  - destruct (y <? x) eqn:E2; cbn [b2z]; [lia|]. rewrite <- IH. f_equal. lia.
Qed.

Lemma equals_iff a : forall b, length a = length b -> (equals a b = true <-> a = b).
Proof.
  unfold equals. induction a as [|x a IH]; intros [|y b] L; try discriminate; [cbn; tauto|].
  injection L as L. cbn [combine forallb fst snd]. rewrite andb_true_iff, (IH b L), Z.eqb_eq.
  split; [intros [-> ->]; auto|intros [= -> ->]; auto].
Qed.

(** ** Laws of [lex]. *)
Lemma lex_refl a : lex a a = 0.
Proof. induction a; [reflexivity|]. cbn. rewrite Z.ltb_irrefl. auto. Qed.

Lemma lex_eq a : forall b, lex a b = 0 -> a = b.
Proof.
  induction a as [|x a IH]; intros [|y b] H; try discriminate; auto. cbn in H.
  destruct (x <? y) eqn:E; [discriminate|]. destruct (y <? x) eqn:E2; [discriminate|].
  f_equal; [lia|auto].
Qed.

Lemma lex_antisym a : forall b, lex b a = - lex a b.
Proof.
  induction a as [|x a IH]; intros [|y b]; cbn; auto.
  destruct (x <? y) eqn:E, (y <? x) eqn:E2; auto. lia.
Qed.

Lemma lex_trans a : forall b c, lex a b <= 0 -> lex b c <= 0 -> lex a c <= 0.
Proof.
  induction a as [|x a IH]; intros [|y b] [|z c] H1 H2; cbn in *; try lia.
  destruct (x <? y) eqn:E1, (y <? x) eqn:E2, (y <? z) eqn:E3, (z <? y) eqn:E4, (x <? z) eqn:E5, (z <? x) eqn:E6;
    try lia. eapply IH; eauto.
Qed.

Lemma lex_lt_trans a : forall b c, lex a b < 0 -> lex b c < 0 -> lex a c < 0.
Proof.
  induction a as [|x a IH]; intros [|y b] [|z c] H1 H2; cbn in *; try lia.
  destruct (x <? y) eqn:E1, (y <? x) eqn:E2, (y <? z) eqn:E3, (z <? y) eqn:E4, (x <? z) eqn:E5, (z <? x) eqn:E6;
    try lia. eapply IH; eauto.
Qed.

Lemma lex_app a : forall a' b b', length a = length a' ->
  lex (a ++ b) (a' ++ b') = if lex a a' =? 0 then lex b b' else lex a a'.
Proof.
  induction a as [|x a IH]; intros [|y a'] b b' L; try discriminate; [reflexivity|].
  cbn. destruct (x <? y); [reflexivity|]. destruct (y <? x); [reflexivity|]. apply IH. now injection L.
Qed.

Lemma lex_hex a : forall b, length a = length b -> bytes a -> bytes b -> lex (hex a) (hex b) = lex a b.
Proof.
  induction a as [|x a IH]; intros [|y b] L Ha Hb; try discriminate; [reflexivity|].
  injection L as L. inversion_clear Ha. inversion_clear Hb. cbn [hex flat_map]. fold (hex a) (hex b).
  rewrite lex_app by reflexivity. rewrite IH by auto. cbn [lex].
  assert (D : forall v w, 0 <= v < 16 -> 0 <= w < 16 ->
    (nth (Z.to_nat v) hex_digits 0 <? nth (Z.to_nat w) hex_digits 0) = (v <? w)).
  { intros v w Hv Hw.
    assert (S : forallb (fun v => forallb (fun w => Bool.eqb (nth (Z.to_nat v) hex_digits 0 <? nth (Z.to_nat w) hex_digits 0) (v <? w))
        (zrange 16)) (zrange 16) = true) by (vm_compute; reflexivity).
    assert (E := sweep 16 _ S v ltac:(lia)). cbv beta in E. apply eqb_prop. exact (sweep 16 _ E w ltac:(lia)). }
  assert (E : lex (hex_pair x) (hex_pair y) = if x <? y then -1 else if y <? x then 1 else 0).
  { unfold byte in *. unfold hex_pair. cbn [lex]. rewrite !D by lia.
    destruct (x / 16 <? y / 16) eqn:E1; [assert (x <? y = true) as -> by lia; reflexivity|].
    destruct (y / 16 <? x / 16) eqn:E2.
    { assert (x <? y = false) as -> by lia. assert (y <? x = true) as -> by lia. reflexivity. }
    replace (x mod 16 <? y mod 16) with (x <? y) by lia. replace (y mod 16 <? x mod 16) with (y <? x) by lia. reflexivity. }
  rewrite E.
  destruct (x <? y); [reflexivity|]. destruct (y <? x); reflexivity.
Qed.

Lemma lex_text a b : is_uuid a -> is_uuid b -> lex (uuid_text a) (uuid_text b) = lex a b.
Proof.
  intros [La Ha] [Lb Hb]. unfold uuid_text.
  assert (HL : forall n m, length (firstn n (skipn m a)) = length (firstn n (skipn m b))).
  { intros. rewrite !firstn_length, !skipn_length. lia. }
  assert (HL0 : forall n, length (firstn n a) = length (firstn n b)).
  { intros. rewrite !firstn_length. lia. }
  assert (HL2 : forall n, length (skipn n a) = length (skipn n b)).
  { intros. rewrite !skipn_length. lia. }
  assert (Q : forall n m p, length (p : list Z) = n -> length (m : list Z) = n -> length (hex m) = length (hex p)).
  { intros. rewrite !hex_length. lia. }
  repeat (rewrite lex_app by (rewrite ?hex_length, ?HL, ?HL0, ?HL2; reflexivity)).
  repeat (rewrite lex_hex; [|first [apply HL0|apply HL|apply HL2]|
    repeat first [assumption|apply bytes_firstn|apply bytes_skipn]|
    repeat first [assumption|apply bytes_firstn|apply bytes_skipn]]).
  rewrite !lex_refl. cbn [Z.eqb].
  assert (P : forall n (s : list Z), s = firstn n s ++ skipn n s) by (intros; now rewrite firstn_skipn).
  assert (SK : forall n m (s : list Z), skipn n (skipn m s) = skipn (m + n) s).
  { clear. intros n m. induction m; intros [|x s]; cbn; auto; now rewrite skipn_nil. }
  transitivity (lex (firstn 4 a ++ firstn 2 (skipn 4 a) ++ firstn 2 (skipn 6 a) ++ firstn 2 (skipn 8 a) ++ skipn 10 a)
                    (firstn 4 b ++ firstn 2 (skipn 4 b) ++ firstn 2 (skipn 6 b) ++ firstn 2 (skipn 8 b) ++ skipn 10 b)).
  - repeat (rewrite lex_app by (auto; apply HL)).
    reflexivity.
  - f_equal; [clear - La; list16 a La; reflexivity|clear - Lb; list16 b Lb; reflexivity].
Qed.


(** ** Generated UUIDs *)

Lemma octet_land a b n : 0 <= n -> Z.land a b / 2 ^ n mod 256 = Z.land (a / 2 ^ n mod 256) (b / 2 ^ n mod 256).
Proof.
  intros Hn. change 256 with (2 ^ 8). rewrite <- !Z.shiftr_div_pow2, <- !Z.land_ones by lia.
  rewrite Z.shiftr_land. apply Z.bits_inj'. intros k Hk. rewrite !Z.land_spec.
  destruct (Z.testbit (Z.shiftr a n) k), (Z.testbit (Z.shiftr b n) k), (Z.testbit (Z.ones 8) k); reflexivity.
Qed.

Lemma octet_lor a b n : 0 <= n -> Z.lor a b / 2 ^ n mod 256 = Z.lor (a / 2 ^ n mod 256) (b / 2 ^ n mod 256).
Proof.
  intros Hn. change 256 with (2 ^ 8). rewrite <- !Z.shiftr_div_pow2, <- !Z.land_ones by lia.
  rewrite Z.shiftr_lor. apply Z.bits_inj'. intros k Hk. rewrite ?Z.land_spec, ?Z.lor_spec, ?Z.land_spec.
  destruct (Z.testbit (Z.shiftr a n) k), (Z.testbit (Z.shiftr b n) k), (Z.testbit (Z.ones 8) k); reflexivity.
Qed.

Lemma land_255 x : 0 <= x < 256 -> Z.land x 255 = x.
Proof. intros H. change 255 with (Z.ones 8). rewrite Z.land_ones by lia. apply Z.mod_small. exact H. Qed.

Lemma v4_octet6 x : 0 <= x < 256 -> Z.lor (Z.land x 15) 64 = 64 + x mod 16.
Proof.
  intros H. apply Z.eqb_eq. 
  apply (sweep_byte (fun x => Z.lor (Z.land x 15) 64 =? 64 + x mod 16)); [vm_compute; reflexivity|exact H].
Qed.
Lemma v4_octet8 x : 0 <= x < 256 -> Z.lor (Z.land x 63) 128 = 128 + x mod 64.
Proof.
  intros H. apply Z.eqb_eq. 
  apply (sweep_byte (fun x => Z.lor (Z.land x 63) 128 =? 128 + x mod 64)); [vm_compute; reflexivity|exact H].
Qed.

Lemma random_v4_spec z0 z1 z2 z3 :
  random_v4 z0 z1 z2 z3 = stamp_v4 (store_be 4 z0 ++ store_be 4 z1 ++ store_be 4 z2 ++ store_be 4 z3).
Proof.
  unfold random_v4, stamp_v4. cbn [store_be app firstn skipn nth].
  repeat match goal with |- context [8 * Z.of_nat ?n] =>
    let v := eval vm_compute in (8 * Z.of_nat n) in change (8 * Z.of_nat n) with v end.
  rewrite !octet_lor, !octet_land by lia.
  change (4294905855 / 2 ^ 24 mod 256) with 255. change (4294905855 / 2 ^ 16 mod 256) with 255.
  change (4294905855 / 2 ^ 8 mod 256) with 15. change (4294905855 / 2 ^ 0 mod 256) with 255.
  change (16384 / 2 ^ 24 mod 256) with 0. change (16384 / 2 ^ 16 mod 256) with 0.
  change (16384 / 2 ^ 8 mod 256) with 64. change (16384 / 2 ^ 0 mod 256) with 0.
  change (1073741823 / 2 ^ 24 mod 256) with 63. change (1073741823 / 2 ^ 16 mod 256) with 255.
  change (1073741823 / 2 ^ 8 mod 256) with 255. change (1073741823 / 2 ^ 0 mod 256) with 255.
  change (2147483648 / 2 ^ 24 mod 256) with 128. change (2147483648 / 2 ^ 16 mod 256) with 0.
  change (2147483648 / 2 ^ 8 mod 256) with 0. change (2147483648 / 2 ^ 0 mod 256) with 0.
  rewrite !Z.lor_0_r.
  rewrite v4_octet6, v4_octet8 by (apply Z.mod_pos_bound; lia).
  rewrite !land_255 by (apply Z.mod_pos_bound; lia). reflexivity.
Qed.

(** ** Version 7 *)
Lemma draw_time_ms d : clock_ok d -> draw_time d = ms d.
Proof.
  intros (H1 & H2 & H3). unfold draw_time, ms in *. change (2 ^ 48) with 281474976710656 in H3.
  rewrite (Z.mod_small (d_sec d)) by (unfold two64; lia).
  rewrite (Z.mod_small (d_nsec d)) by (unfold two32; lia).
  apply Z.mod_small. unfold two64; lia.
Qed.

Definition next_serial (g : gen) (t : Z) : Z :=
  if g_time g =? t then (g_serial g + 1) mod 4096 else 0.

Lemma x0_value t s : 0 <= t < 2 ^ 48 -> 0 <= s < 4096 ->
  Z.lor (Z.lor (Z.shiftl t 16 mod two64) 28672) s = t * 65536 + 28672 + s.
Proof.
  intros Ht Hs. change (2 ^ 48) with 281474976710656 in Ht.
  rewrite Z.shiftl_mul_pow2 by lia. change (2 ^ 16) with 65536.
  rewrite Z.mod_small by (unfold two64; lia).
  change 65536 with (2 ^ 16) at 1. rewrite lor_shifted by (change (2 ^ 16) with 65536; lia).
  change (2 ^ 16) with 65536. replace (t * 65536 + 28672) with ((t * 16 + 7) * 2 ^ 12) by (change (2 ^ 12) with 4096; lia).
  rewrite lor_shifted by (change (2 ^ 12) with 4096; lia). change (2 ^ 12) with 4096. lia.
Qed.

Lemma z2_value pid z : 0 <= pid < two32 ->
  Z.lor (Z.lor 2147483648 (Z.shiftl (Z.land (pid mod two32) 16383) 16)) (Z.land z 65535)
  = 2147483648 + (pid mod 16384) * 65536 + z mod 65536.
Proof.
  intros Hp. rewrite (Z.mod_small pid) by lia.
  change 16383 with (Z.ones 14). change 65535 with (Z.ones 16). rewrite !Z.land_ones by lia.
  rewrite Z.shiftl_mul_pow2 by lia. change (2 ^ 14) with 16384. change (2 ^ 16) with 65536.
  change 2147483648 with (1 * 2 ^ 31) at 1.
  rewrite lor_shifted by (change (2 ^ 31) with 2147483648; lia).
  change (2 ^ 31) with 2147483648.
  replace (1 * 2147483648 + pid mod 16384 * 65536) with ((32768 + pid mod 16384) * 2 ^ 16) by (change (2 ^ 16) with 65536; lia).
  rewrite lor_shifted by (change (2 ^ 16) with 65536; lia). change (2 ^ 16) with 65536. lia.
Qed.

Lemma random_v7_value pid g d : 0 <= pid < two32 -> clock_ok d -> 0 <= g_serial g < 4096 ->
  random_v7 pid g d =
  (mkGen (ms d) (next_serial g (ms d)),
   store_be 8 (ms d * 65536 + 28672 + next_serial g (ms d))
   ++ store_be 4 (2147483648 + (pid mod 16384) * 65536 + d_z2 d mod 65536) ++ store_be 4 (d_z3 d)).
Proof.
  intros Hp Hd Hg. unfold random_v7. rewrite draw_time_ms by auto. cbv zeta.
  assert (E : (if g_time g =? ms d then Z.land (g_serial g + 1) 4095 else 0) = next_serial g (ms d)).
  { unfold next_serial. destruct (_ =? _); [|reflexivity]. change 4095 with (Z.ones 12).
    rewrite Z.land_ones by lia. reflexivity. }
  rewrite E. destruct Hd as (H1 & H2 & H3). 
  assert (0 <= next_serial g (ms d) < 4096) by (unfold next_serial; destruct (_ =? _); lia).
  rewrite x0_value, z2_value; auto. unfold ms in *. lia.
Qed.

(** The fields, octet by octet. *)
Lemma store_be_split n m x y : 0 <= y < 2 ^ (8 * Z.of_nat m) ->
  store_be (n + m) (x * 2 ^ (8 * Z.of_nat m) + y) = store_be n x ++ store_be m y.
Proof.
  intros Hy. assert (HP : 0 < 2 ^ (8 * Z.of_nat m)) by (apply Z.pow_pos_nonneg; lia).
  induction n as [|n IH]; cbn [plus store_be app].
  - clear HP. revert x y Hy. induction m as [|m IHm]; intros x y Hy; [reflexivity|].
    cbn [store_be]. replace (8 * Z.of_nat (S m)) with (8 * Z.of_nat m + 8) in * by lia.
    rewrite Z.pow_add_r in * by lia. change (2 ^ 8) with 256 in *.
    assert (HP : 0 < 2 ^ (8 * Z.of_nat m)) by (apply Z.pow_pos_nonneg; lia).
    set (P := 2 ^ (8 * Z.of_nat m)) in *. f_equal.
    + replace (x * (P * 256) + y) with (y + (x * 256) * P) by ring. rewrite Z.div_add by lia.
      rewrite Z.mod_add by lia. reflexivity.
    + assert (M : forall k a b, a mod 2 ^ (8 * Z.of_nat k) = b mod 2 ^ (8 * Z.of_nat k) -> store_be k a = store_be k b).
      { clear. induction k as [|k IHk]; intros a b E; [reflexivity|]. cbn [store_be].
        replace (8 * Z.of_nat (S k)) with (8 * Z.of_nat k + 8) in * by lia.
        rewrite Z.pow_add_r in * by lia. change (2 ^ 8) with 256 in *.
        assert (HP : 0 < 2 ^ (8 * Z.of_nat k)) by (apply Z.pow_pos_nonneg; lia).
        set (P := 2 ^ (8 * Z.of_nat k)) in *.
        rewrite !(Z.rem_mul_r _ P 256) in E by lia.
        pose proof (Z.mod_pos_bound a P HP). pose proof (Z.mod_pos_bound b P HP).
        assert (a / P mod 256 = b / P mod 256 /\ a mod P = b mod P) as [E1 E2].
        { apply (Z.div_mod_unique P); [left; assumption|left; assumption|lia]. }
        f_equal; auto. }
      apply M. fold P. replace (x * (P * 256) + y) with (y + (x * 256) * P) by ring.
      now rewrite Z.mod_add by lia.
  - f_equal; [|exact IH]. replace (8 * Z.of_nat (n + m)) with (8 * Z.of_nat m + 8 * Z.of_nat n) by lia.
    rewrite Z.pow_add_r, <- Z.div_div by lia. f_equal. f_equal.
    rewrite Z.div_add_l by lia. rewrite (Z.div_small y) by lia. lia.
Qed.

Lemma random_v7_fields pid g d : 0 <= pid < two32 -> clock_ok d -> 0 <= g_serial g < 4096 ->
  let s := next_serial g (ms d) in
  snd (random_v7 pid g d) =
  store_be 6 (ms d) ++ [7 * 16 + s / 256; s mod 256]
  ++ [128 + pid mod 16384 / 256; pid mod 256] ++ store_be 2 (d_z2 d mod 65536) ++ store_be 4 (d_z3 d).
Proof.
  intros Hp Hd Hg s. rewrite random_v7_value by auto. cbn [snd]. fold s.
  assert (Hs : 0 <= s < 4096) by (unfold s, next_serial; destruct (_ =? _); lia). clearbody s.
  assert (E1 : store_be 8 (ms d * 65536 + 28672 + s) = store_be 6 (ms d) ++ [7 * 16 + s / 256; s mod 256]).
  { pose proof (store_be_split 6 2 (ms d) (28672 + s)) as E. cbn [plus] in E.
    change (2 ^ (8 * Z.of_nat 2)) with 65536 in E. rewrite <- Z.add_assoc, E by lia. f_equal.
    cbn [store_be]. change (2 ^ (8 * Z.of_nat 1)) with 256. change (2 ^ (8 * Z.of_nat 0)) with 1.
    f_equal; [lia|]. f_equal. lia. }
  assert (E2 : store_be 4 (2147483648 + pid mod 16384 * 65536 + d_z2 d mod 65536)
               = [128 + pid mod 16384 / 256; pid mod 256] ++ store_be 2 (d_z2 d mod 65536)).
  { pose proof (store_be_split 2 2 (32768 + pid mod 16384) (d_z2 d mod 65536)) as E. cbn [plus] in E.
    change (2 ^ (8 * Z.of_nat 2)) with 65536 in E.
    replace (2147483648 + pid mod 16384 * 65536 + d_z2 d mod 65536)
      with ((32768 + pid mod 16384) * 65536 + d_z2 d mod 65536) by lia.
    rewrite E by lia. f_equal. cbn [store_be]. change (2 ^ (8 * Z.of_nat 1)) with 256. change (2 ^ (8 * Z.of_nat 0)) with 1.
    f_equal; [lia|]. f_equal. lia. }
  rewrite E1, E2, <- !app_assoc. reflexivity.
Qed.

Lemma lex_load_acc a : forall b x y, length a = length b -> bytes a -> bytes b -> x < y -> 
  fold_left (fun a b => a * 256 + b) a x < fold_left (fun a b => a * 256 + b) b y.
Proof.
  induction a as [|p a IH]; intros [|q b] x y L Ha Hb Hxy; try discriminate; [exact Hxy|].
  cbn [fold_left]. inversion_clear Ha. inversion_clear Hb. apply IH; auto. unfold byte in *. lia.
Qed.

Lemma lex_load a : forall b x, length a = length b -> bytes a -> bytes b ->
  lex a b = Z.sgn (fold_left (fun a b => a * 256 + b) a x - fold_left (fun a b => a * 256 + b) b x).
Proof.
  induction a as [|p a IH]; intros [|q b] x L Ha Hb; try discriminate; [cbn; now rewrite Z.sub_diag|].
  injection L as L. inversion_clear Ha. inversion_clear Hb. cbn [fold_left lex].
  destruct (p <? q) eqn:E1; [|destruct (q <? p) eqn:E2].
  - pose proof (lex_load_acc a b (x * 256 + p) (x * 256 + q) L H0 H2 ltac:(lia)). lia.
  - pose proof (lex_load_acc b a (x * 256 + q) (x * 256 + p) ltac:(lia) H2 H0 ltac:(lia)). lia.
  - assert (p = q) as -> by lia. apply IH; auto.
Qed.

Lemma lex_store n x y : 0 <= x < y -> y < 2 ^ (8 * Z.of_nat n) -> lex (store_be n x) (store_be n y) = -1.
Proof.
  intros Hx Hy. rewrite (lex_load _ _ 0); [|now rewrite !store_be_length|apply store_be_bytes|apply store_be_bytes].
  pose proof (load_be_store n x ltac:(lia)) as E1. pose proof (load_be_store n y ltac:(lia)) as E2.
  unfold load_be in E1, E2. rewrite E1, E2. lia.
Qed.

Definition key (t s : Z) : Z := t * 65536 + 28672 + s.

Definition below (k : Z) (u : list Z) : Prop :=
  exists k' r, k < k' < 2 ^ 64 /\ u = store_be 8 k' ++ r /\ length r = 8%nat /\ bytes r.

Lemma v7_run pid ds : 0 <= pid < two32 -> forall g,
  Forall clock_ok ds -> 0 <= g_serial g < 4096 -> 0 <= g_time g ->
  Sorted Z.le (g_time g :: map ms ds) ->
  Z.of_nat (count_occ Z.eq_dec (map ms ds) (g_time g)) + g_serial g < 4096 ->
  (forall t, Z.of_nat (count_occ Z.eq_dec (map ms ds) t) <= 4096) ->
  Forall (below (key (g_time g) (g_serial g))) (run_v7 pid g ds)
  /\ StronglySorted (fun a b => compare a b < 0) (run_v7 pid g ds).
Proof.
  intros Hp. induction ds as [|d ds IH]; intros g Hc Hs Ht Hsort Hcnt Hall.
  - split; constructor.
  - inversion_clear Hc. cbn [run_v7]. rewrite random_v7_value by auto.
    cbn [map] in *. apply Sorted_inv in Hsort. destruct Hsort as [Hsort Hle]. apply HdRel_inv in Hle.
    set (s := next_serial g (ms d)). 
    assert (Hms : 0 <= ms d < 2 ^ 48) by (split; [|apply H]; unfold clock_ok, ms in *; lia).
    change (2 ^ 48) with 281474976710656 in Hms.
    assert (Hs' : 0 <= s < 4096 /\ Z.of_nat (count_occ Z.eq_dec (map ms ds) (ms d)) + s < 4096
       /\ key (g_time g) (g_serial g) < key (ms d) s).
    { unfold s, next_serial, key. cbn [count_occ] in Hcnt. specialize (Hall (ms d)). cbn [count_occ] in Hall.
      destruct (Z.eq_dec (ms d) (ms d)) as [_|C]; [|congruence].
      destruct (Z.eq_dec (ms d) (g_time g)) as [E|E].
      - rewrite E, Z.eqb_refl. rewrite Z.mod_small by lia. lia.
      - assert (g_time g =? ms d = false) as -> by lia. lia. }
    destruct Hs' as (Hs1 & Hs2 & Hk).
    destruct (IH (mkGen (ms d) s)) as [I1 I2]; cbn [g_time g_serial]; auto; try lia.
    { intros t. specialize (Hall t). cbn [count_occ] in Hall. destruct (Z.eq_dec (ms d) t); lia. }
    cbn [g_time g_serial] in I1.
    fold (key (ms d) s). set (R := store_be 4 _ ++ store_be 4 _).
    assert (LR : length R = 8%nat) by (unfold R; rewrite app_length, !store_be_length; reflexivity).
    assert (BR : bytes R) by (apply bytes_app; split; apply store_be_bytes).
    clearbody R.
    assert (Hkey : 0 <= key (ms d) s < 2 ^ 64).
    { unfold key. change (2 ^ 64) with 18446744073709551616. lia. }
    split.
    + constructor.
      * exists (key (ms d) s), R. split; [lia|]. auto.
      * eapply Forall_impl; [|exact I1]. intros u (k' & r & Hk' & Hu). exists k', r. split; [lia|exact Hu].
    + constructor; [exact I2|]. eapply Forall_impl; [|exact I1].
      intros u (k' & r & Hk' & -> & Lr & Br).
      assert (L : length (store_be 8 (key (ms d) s) ++ R) = length (store_be 8 k' ++ r)).
      { rewrite !app_length, !store_be_length. lia. }
      pose proof (compare_sgn _ _ L) as C.
      rewrite lex_app in C by (now rewrite !store_be_length).
      rewrite lex_store in C; [|lia|change (2 ^ (8 * Z.of_nat 8)) with (2 ^ 64); lia].
      cbn [Z.eqb] in C. specialize (C ltac:(apply bytes_app; split; [apply store_be_bytes|auto])
                                      ltac:(apply bytes_app; split; [apply store_be_bytes|auto])).
      lia.
Qed.

Lemma fields_text xh xl y zh zl :
  of_fields xh xl y zh zl = store_be 4 xh ++ store_be 2 xl ++ store_be 2 y ++ store_be 2 zh ++ store_be 6 zl.
Proof.
  unfold of_fields. rewrite !Z.shiftr_div_pow2 by lia. cbn [store_be app].
  repeat match goal with |- context [8 * Z.of_nat ?n] =>
    let v := eval vm_compute in (8 * Z.of_nat n) in change (8 * Z.of_nat n) with v end.
  rewrite !Z.pow_0_r, !Z.div_1_r. reflexivity.
Qed.

Lemma v7_sorted pid ds : 0 <= pid < two32 -> Forall clock_ok ds -> Forall (fun d => 0 < ms d) ds ->
  Sorted Z.le (map ms ds) ->
  (forall t, (count_occ Z.eq_dec (map ms ds) t <= Z.to_nat 4096)%nat) ->
  StronglySorted (fun a b => compare a b < 0) (run_v7 pid gen_init ds).
Proof.
  intros Hp Hc Hpos Hs Hn. apply v7_run; auto; cbn [gen_init g_time g_serial]; try lia.
  - constructor; auto. destruct ds; constructor. inversion_clear Hpos. lia.
  - assert (E : count_occ Z.eq_dec (map ms ds) 0 = 0%nat).
    { apply count_occ_not_In. intros Hin. apply in_map_iff in Hin. destruct Hin as (d & E & Hin).
      rewrite Forall_forall in Hpos. specialize (Hpos d Hin). lia. }
    rewrite E. lia.
  - intros t. specialize (Hn t). lia.
Qed.

Lemma v7_distinct_processes p1 p2 g1 g2 d1 d2 :
  0 <= p1 < two32 -> 0 <= p2 < two32 -> p1 mod 16384 <> p2 mod 16384 ->
  clock_ok d1 -> clock_ok d2 -> 0 <= g_serial g1 < 4096 -> 0 <= g_serial g2 < 4096 ->
  snd (random_v7 p1 g1 d1) <> snd (random_v7 p2 g2 d2).
Proof.
  intros H1 H2 Hne C1 C2 S1 S2 E. rewrite !random_v7_fields in E by auto. cbn [store_be app] in E.
  assert (E8 := f_equal (fun l => nth 8 l 0) E). assert (E9 := f_equal (fun l => nth 9 l 0) E).
  cbn [nth] in E8, E9. clear - Hne E8 E9. lia.
Qed.

Lemma run_serial pid ds : 0 <= pid < two32 -> Forall clock_ok ds -> forall g, 0 <= g_serial g < 4096 ->
  Forall (fun u => is_uuid u /\ nth 6 u 0 / 16 = 7 /\ nth 8 u 0 / 64 = 2) (run_v7 pid g ds).
Proof.
  intros Hp. induction 1 as [|d ds Hd Hds IH]; intros g Hg; cbn [run_v7]; [constructor|].
  pose proof (random_v7_fields pid g d Hp Hd Hg) as F. cbv zeta in F.
  rewrite random_v7_value in * by auto. cbn [snd] in F. rewrite F.
  assert (Hs : 0 <= next_serial g (ms d) < 4096) by (unfold next_serial; destruct (_ =? _); lia).
  constructor; [|apply IH; exact Hs].
  set (n := next_serial g (ms d)) in *. clearbody n. split; [split|].
  - rewrite !app_length, !store_be_length. reflexivity.
  - repeat (apply bytes_app; split); try apply store_be_bytes.
    + repeat constructor; unfold byte; lia.
    + repeat constructor; unfold byte; lia.
  - cbn [store_be app nth]. lia.
Qed.
