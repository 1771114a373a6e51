(** Lemmas about [Base]. *)
From Coq Require Import ZArith List Lia Bool ZifyBool ZifyNat.
From Verif Require Import Base.
Import ListNotations.
Open Scope Z_scope.
Ltac Zify.zify_post_hook ::= Z.div_mod_to_equations.

Lemma in_zrange n x : 0 <= x < Z.of_nat n -> In x (zrange n).
Proof.
  intros H. unfold zrange. apply in_map_iff. exists (Z.to_nat x).
  split; [lia|]. apply in_seq. lia.
Qed.

Lemma sweep (n : nat) (P : Z -> bool) :
  forallb P (zrange n) = true -> forall x, 0 <= x < Z.of_nat n -> P x = true.
Proof.
  intros H x Hx. rewrite forallb_forall in H. apply H, in_zrange, Hx.
Qed.

Lemma sweep_byte (P : Z -> bool) :
  forallb P (zrange 256) = true -> forall x, byte x -> P x = true.
Proof. intros H x Hx. apply (sweep 256 P H). unfold byte in Hx. lia. Qed.

Lemma sweep_byte2 (P : Z -> Z -> bool) :
  forallb (fun x => forallb (P x) (zrange 256)) (zrange 256) = true ->
  forall x y, byte x -> byte y -> P x y = true.
Proof.
  intros H x y Hx Hy.
  assert (H1 := sweep_byte _ H x Hx). exact (sweep_byte _ H1 y Hy).
Qed.

Lemma store_be_length n x : length (store_be n x) = n.
Proof. induction n; simpl; congruence. Qed.

Lemma store_be_bytes n x : bytes (store_be n x).
Proof.
  induction n; constructor; auto. unfold byte.
  apply Z.mod_pos_bound. lia.
Qed.

Lemma store_le_length n : forall x, length (store_le n x) = n.
Proof. induction n; intros; simpl; auto. Qed.

Lemma store_le_bytes n : forall x, bytes (store_le n x).
Proof.
  induction n; intros; constructor; auto. unfold byte.
  apply Z.mod_pos_bound. lia. apply IHn.
Qed.

Lemma load_be_app s t acc :
  fold_left (fun a b => a * 256 + b) (s ++ t) acc
  = fold_left (fun a b => a * 256 + b) t (fold_left (fun a b => a * 256 + b) s acc).
Proof. apply fold_left_app. Qed.

Lemma load_be_store_acc n : forall x acc, 0 <= x ->
  fold_left (fun a b => a * 256 + b) (store_be n x) acc
  = acc * 2 ^ (8 * Z.of_nat n) + x mod 2 ^ (8 * Z.of_nat n).
Proof.
  induction n; intros x acc Hx.
  - simpl. rewrite Z.mod_1_r. lia.
  - cbn [store_be fold_left]. rewrite IHn by lia.
    replace (8 * Z.of_nat (S n)) with (8 * Z.of_nat n + 8) by lia.
    rewrite Z.pow_add_r by lia. change (2 ^ 8) with 256.
    assert (Hp : 0 < 2 ^ (8 * Z.of_nat n)) by (apply Z.pow_pos_nonneg; lia).
    set (p := 2 ^ (8 * Z.of_nat n)) in *.
    rewrite (Z.rem_mul_r x p 256) by lia. ring.
Qed.

Lemma load_be_store n x : 0 <= x < 2 ^ (8 * Z.of_nat n) -> load_be (store_be n x) = x.
Proof.
  intros H. unfold load_be. rewrite load_be_store_acc by lia.
  rewrite Z.mod_small by lia. lia.
Qed.

Lemma load_be_bound_acc s : bytes s -> forall acc, 0 <= acc ->
  acc * 2 ^ (8 * Z.of_nat (length s)) <= fold_left (fun a b => a * 256 + b) s acc
  < (acc + 1) * 2 ^ (8 * Z.of_nat (length s)).
Proof.
  induction 1 as [|b s Hb Hs IH]; intros acc Ha; cbn [fold_left length].
  - simpl. lia.
  - unfold byte in Hb. specialize (IH (acc * 256 + b) ltac:(lia)).
    replace (8 * Z.of_nat (S (length s))) with (8 * Z.of_nat (length s) + 8) by lia.
    rewrite Z.pow_add_r by lia. change (2 ^ 8) with 256.
    assert (Hp : 0 < 2 ^ (8 * Z.of_nat (length s))) by (apply Z.pow_pos_nonneg; lia).
    set (p := 2 ^ (8 * Z.of_nat (length s))) in *. nia.
Qed.

Lemma load_be_bound s : bytes s -> 0 <= load_be s < 2 ^ (8 * Z.of_nat (length s)).
Proof.
  intros H. pose proof (load_be_bound_acc s H 0 ltac:(lia)). unfold load_be. lia.
Qed.

Lemma load_le_store n : forall x, 0 <= x -> load_le (store_le n x) = x mod 2 ^ (8 * Z.of_nat n).
Proof.
  induction n; intros x Hx.
  - simpl. rewrite Z.mod_1_r. lia.
  - cbn [store_le load_le]. rewrite IHn by (apply Z.div_pos; lia).
    replace (8 * Z.of_nat (S n)) with (8 + 8 * Z.of_nat n) by lia.
    rewrite Z.pow_add_r by lia. change (2 ^ 8) with 256.
    assert (Hp : 0 < 2 ^ (8 * Z.of_nat n)) by (apply Z.pow_pos_nonneg; lia).
    rewrite Z.rem_mul_r by lia. ring.
Qed.

Lemma store_le_load s : bytes s -> store_le (length s) (load_le s) = s.
Proof.
  induction 1 as [|b s Hb Hs IH]; [reflexivity|]. unfold byte in Hb.
  cbn [store_le load_le length]. f_equal.
  - rewrite Z.mul_comm, Z.mod_add by lia. apply Z.mod_small; lia.
  - rewrite Z.mul_comm, Z.div_add by lia. rewrite (Z.div_small b) by lia. exact IH.
Qed.

Lemma load_le_bound s : bytes s -> 0 <= load_le s.
Proof.
  induction 1 as [|b s Hb Hs IH]; cbn [load_le]; unfold byte in *; lia.
Qed.

(** Bitwise operations act independently on the low octet and the rest. *)
Lemma lxor_split a b c d : byte a -> byte c -> 0 <= b -> 0 <= d ->
  Z.lxor (a + 256 * b) (c + 256 * d) = Z.lxor a c + 256 * Z.lxor b d.
Proof.
  unfold byte. intros Ha Hc Hb Hd.
  assert (Hx : 0 <= Z.lxor a c < 256).
  { split. apply Z.lxor_nonneg; lia.
    destruct (Z.eq_dec (Z.lxor a c) 0) as [->|Hn]; [lia|].
    apply Z.log2_lt_pow2 with (b := 8); [|].
    - assert (0 <= Z.lxor a c) by (apply Z.lxor_nonneg; lia). lia.
    - eapply Z.le_lt_trans. apply Z.log2_lxor; lia.
      apply Z.max_lub_lt.
      + destruct (Z.eq_dec a 0) as [->|]; [simpl; lia|]. apply Z.log2_lt_pow2; lia.
      + destruct (Z.eq_dec c 0) as [->|]; [simpl; lia|]. apply Z.log2_lt_pow2; lia. }
  assert (Hlow : forall p q n, 0 <= p < 256 -> 0 <= q -> 0 <= n ->
            Z.testbit (p + 256 * q) n = if n <? 8 then Z.testbit p n else Z.testbit q (n - 8)).
  { intros p q n Hp Hq Hn.
    destruct (Z.ltb_spec n 8).
    - rewrite <- (Z.mod_pow2_bits_low (p + 256 * q) 8 n) by lia.
      change (2 ^ 8) with 256. rewrite Z.mul_comm, Z.mod_add by lia.
      rewrite Z.mod_small by lia. reflexivity.
    - replace n with ((n - 8) + 8) at 1 by lia.
      rewrite <- Z.div_pow2_bits by lia. change (2 ^ 8) with 256.
      rewrite Z.mul_comm, Z.div_add by lia. rewrite Z.div_small by lia. reflexivity. }
  apply Z.bits_inj'. intros n Hn.
  rewrite Z.lxor_spec, !Hlow by (try lia; apply Z.lxor_nonneg; lia).
  destruct (Z.ltb_spec n 8); now rewrite Z.lxor_spec.
Qed.

Lemma lxor_byte a b : byte a -> byte b -> byte (Z.lxor a b).
Proof.
  intros Ha Hb.
  assert (H := sweep_byte2 (fun x y => (0 <=? Z.lxor x y) && (Z.lxor x y <? 256))
                 ltac:(vm_compute; reflexivity) a b Ha Hb).
  unfold byte. lia.
Qed.

Lemma bytes_app s t : bytes (s ++ t) <-> bytes s /\ bytes t.
Proof. apply Forall_app. Qed.

Lemma bytes_firstn n s : bytes s -> bytes (firstn n s).
Proof. intros H. rewrite <- (firstn_skipn n s) in H. apply bytes_app in H. tauto. Qed.

Lemma bytes_skipn n s : bytes s -> bytes (skipn n s).
Proof. intros H. rewrite <- (firstn_skipn n s) in H. apply bytes_app in H. tauto. Qed.

Lemma land_shifted h v n : 0 <= n -> 0 <= v < 2 ^ n -> Z.land (h * 2 ^ n) v = 0.
Proof.
  intros Hn Hv. apply Z.bits_inj'. intros k Hk. rewrite Z.land_spec, Z.bits_0.
  destruct (Z.lt_ge_cases k n).
  - rewrite Z.mul_pow2_bits_low by lia. reflexivity.
  - replace (Z.testbit v k) with false; [apply andb_false_r|]. symmetry.
    destruct (Z.eq_dec v 0); [subst; apply Z.bits_0|].
    apply Z.bits_above_log2; [lia|]. apply Z.log2_lt_pow2; [lia|].
    apply Z.lt_le_trans with (2 ^ n); [lia|]. apply Z.pow_le_mono_r; lia.
Qed.

Lemma lor_shifted h v n : 0 <= n -> 0 <= v < 2 ^ n -> Z.lor (h * 2 ^ n) v = h * 2 ^ n + v.
Proof.
  intros Hn Hv. pose proof (land_shifted h v n Hn Hv) as E.
  rewrite <- Z.lxor_lor by exact E. symmetry. now apply Z.add_nocarry_lxor.
Qed.
