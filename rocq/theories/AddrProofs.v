(** Proofs about socket addresses. *)
From Coq Require Import ZArith List Lia Bool ZifyBool ZifyNat Arith.
From Verif Require Import Base BaseLemmas AddrModel AddrSpec.
Import ListNotations.
Open Scope Z_scope.
Ltac Zify.zify_post_hook ::= Z.div_mod_to_equations.

Definition fold_be (s : list Z) (x : Z) : Z := fold_left (fun a b => a * 256 + b) s x.

Lemma fold_be_value s : forall x, fold_be s x = x * 2 ^ (8 * Z.of_nat (length s)) + load_be s.
Proof.
  unfold load_be. fold (fold_be s 0). induction s as [|b s IH]; intros x; cbn [fold_be fold_left length].
  - rewrite Z.mul_1_r. cbn. lia.
  - fold (fold_be s (x * 256 + b)) (fold_be s (0 * 256 + b)). rewrite (IH (x * 256 + b)), (IH (0 * 256 + b)).
    replace (8 * Z.of_nat (S (length s))) with (8 * Z.of_nat (length s) + 8) by lia.
    rewrite Z.pow_add_r by lia. change (2 ^ 8) with 256. ring.
Qed.

Lemma load_be_app s t : load_be (s ++ t) = load_be s * 2 ^ (8 * Z.of_nat (length t)) + load_be t.
Proof.
  unfold load_be at 1. rewrite fold_left_app. fold (fold_be s 0) (fold_be t (fold_be s 0)).
  rewrite fold_be_value. reflexivity.
Qed.

Lemma load_be_inj a b : length a = length b -> bytes a -> bytes b -> load_be a = load_be b -> a = b.
Proof.
  revert b. induction a as [|x a IH]; intros [|y b] L Ha Hb E; try discriminate; auto.
  injection L as L. inversion_clear Ha. inversion_clear Hb.
  change (x :: a) with ([x] ++ a) in E. change (y :: b) with ([y] ++ b) in E.
  rewrite !load_be_app, L in E. pose proof (load_be_bound a H0) as B1. pose proof (load_be_bound b H2) as B2.
  rewrite L in B1. set (P := 2 ^ (8 * Z.of_nat (length b))) in *.
  change (load_be [x]) with x in E. change (load_be [y]) with y in E.
  assert (x = y /\ load_be a = load_be b) as [-> E2].
  { apply (Z.div_mod_unique P); [left; exact B1|left; exact B2|lia]. }
  f_equal; auto.
Qed.

Lemma memcmp_zero a : forall b, length a = length b -> (memcmp a b = 0 <-> a = b).
Proof.
  induction a as [|x a IH]; intros [|y b] L; try discriminate; [cbn; tauto|].
  injection L as L. cbn [memcmp]. destruct (x <? y) eqn:E1; [|destruct (y <? x) eqn:E2].
  - split; [discriminate|intros [= -> ->]; lia].
  - split; [discriminate|intros [= -> ->]; lia].
  - rewrite (IH b L). split; [intros ->; f_equal; lia|intros [= -> ->]; auto].
Qed.

Lemma memcmp_sgn a : forall b, length a = length b -> bytes a -> bytes b ->
  memcmp a b = Z.sgn (load_be a - load_be b).
Proof.
  induction a as [|x a IH]; intros [|y b] L Ha Hb; try discriminate; [reflexivity|].
  injection L as L. inversion_clear Ha. inversion_clear Hb. cbn [memcmp]. rewrite (IH b L H0 H2).
  change (x :: a) with ([x] ++ a). change (y :: b) with ([y] ++ b). rewrite !load_be_app, L.
  pose proof (load_be_bound a H0) as B1. pose proof (load_be_bound b H2) as B2. rewrite L in B1.
  set (P := 2 ^ (8 * Z.of_nat (length b))) in *.
  change (load_be [x]) with x. change (load_be [y]) with y.
  destruct (x <? y) eqn:E1; [|destruct (y <? x) eqn:E2].
  - symmetry. apply Z.sgn_neg. nia.
  - symmetry. apply Z.sgn_pos. nia.
  - assert (x = y) as -> by lia. f_equal. lia.
Qed.

(** ** Prefix matching *)

Lemma lxor_eq_0 a b : Z.lxor a b = 0 <-> a = b.
Proof. split; [apply Z.lxor_eq|intros ->; apply Z.lxor_nilpotent]. Qed.

Lemma schar_low x : byte x -> Z.land 255 (schar x) = x.
Proof.
  intros H. rewrite Z.land_comm. change 255 with (Z.ones 8). rewrite Z.land_ones by lia. change (2 ^ 8) with 256.
  unfold byte in H. unfold schar. destruct (x <? 128) eqn:E; lia.
Qed.

Lemma land_lxor_distr m a b : Z.land m (Z.lxor a b) = Z.lxor (Z.land m a) (Z.land m b).
Proof.
  apply Z.bits_inj'. intros k Hk. rewrite !Z.lxor_spec, !Z.land_spec, Z.lxor_spec.
  destruct (Z.testbit m k), (Z.testbit a k), (Z.testbit b k); reflexivity.
Qed.

Lemma partial_octet r x y : 0 <= r < 8 -> byte x -> byte y ->
  (Z.land (Z.land 255 (Z.shiftr 65280 r)) (Z.lxor (schar x) (schar y)) =? 0)
  = (x / 2 ^ (8 - r) =? y / 2 ^ (8 - r)).
Proof.
  intros Hr Hx Hy.
  assert (E1 : Z.land (Z.land 255 (Z.shiftr 65280 r)) (Z.lxor (schar x) (schar y))
               = Z.land (Z.shiftr 65280 r) (Z.lxor x y)).
  { rewrite (Z.land_comm 255), <- Z.land_assoc, (land_lxor_distr 255), !schar_low by auto. reflexivity. }
  rewrite E1.
  assert (S : forallb (fun r => forallb (fun z => Bool.eqb
     (Z.land (Z.shiftr 65280 r) z =? 0) (Z.shiftr z (8 - r) =? 0)) (zrange 256)) (zrange 8) = true)
    by (vm_compute; reflexivity).
  assert (E := sweep 8 _ S r ltac:(lia)). cbv beta in E.
  assert (Hz : byte (Z.lxor x y)) by (apply lxor_byte; auto).
  apply (sweep_byte _ E) in Hz. cbv beta in Hz. apply eqb_prop in Hz. rewrite Hz.
  rewrite Z.shiftr_lxor. rewrite !Z.shiftr_div_pow2 by lia.
  apply eq_true_iff_eq. rewrite !Z.eqb_eq. apply lxor_eq_0.
Qed.

Lemma nth_byte n s d : bytes s -> byte d -> byte (nth n s d).
Proof.
  intros H Hd. revert n. induction H; intros [|n]; cbn [nth]; auto.
Qed.

(** The subnet test in arithmetic: whole octets, then the leading bits of the next. *)
Lemma match_subnet_parts e addr mask n : bytes addr -> bytes mask -> byte e ->
  (n / 8 <= length addr)%nat -> (n / 8 <= length mask)%nat ->
  match_subnet e addr mask n = true <->
  firstn (n / 8) addr = firstn (n / 8) mask /\
  nth (n / 8) addr e / 2 ^ (8 - Z.of_nat (n mod 8)) = nth (n / 8) mask 0 / 2 ^ (8 - Z.of_nat (n mod 8)).
Proof.
  intros Ha Hm He La Lm. unfold match_subnet. cbv zeta.
  pose proof (Nat.mod_upper_bound n 8 ltac:(lia)) as Hr.
  rewrite partial_octet; [|lia|apply nth_byte; auto|apply nth_byte; auto; unfold byte; lia].
  rewrite andb_true_iff, !Z.eqb_eq.
  rewrite memcmp_zero by (rewrite !firstn_length; lia). tauto.
Qed.

(** ... and as a comparison of the leading [n] bits. *)
Definition lead (s : list Z) (n : nat) : Z := load_be s / 2 ^ (8 * Z.of_nat (length s) - Z.of_nat n).

Lemma div_mul_add a b P : 0 < P -> 0 <= b < P -> (a * P + b) / P = a.
Proof. intros HP Hb. rewrite Z.div_add_l by lia. rewrite Z.div_small by lia. lia. Qed.

Lemma lead_split s n : bytes s -> (n <= 8 * length s)%nat ->
  lead s n = load_be (firstn (n / 8) s) * 2 ^ Z.of_nat (n mod 8)
             + nth (n / 8) s 0 / 2 ^ (8 - Z.of_nat (n mod 8)).
Proof.
  intros Hs Hn. unfold lead.
  assert (Hd : n = (8 * (n / 8) + n mod 8)%nat) by (apply Nat.div_mod; lia).
  pose proof (Nat.mod_upper_bound n 8 ltac:(lia)) as Hr.
  set (q := (n / 8)%nat) in *. set (r := (n mod 8)%nat) in *. clearbody q r. subst n.
  rewrite <- (firstn_skipn q s) at 1. rewrite load_be_app.
  assert (Lq : (q <= length s)%nat) by lia.
  rewrite skipn_length.
  replace (8 * Z.of_nat (length s) - Z.of_nat (8 * q + r)) with (8 * Z.of_nat (length s - q) - Z.of_nat r) by lia.
  destruct (Nat.eq_dec q (length s)) as [->|Hne].
  - assert (r = 0%nat) as -> by lia. rewrite skipn_all, Nat.sub_diag.
    rewrite nth_overflow by lia. cbn. rewrite !Z.mul_1_r, Z.div_1_r. change (load_be []) with 0. lia.
  - assert (E : skipn q s = nth q s 0 :: skipn (S q) s).
    { assert (Hlt : (q < length s)%nat) by lia. clear - Hlt. revert q Hlt.
      induction s as [|x s IH]; intros [|q] H; cbn in H; try lia; [reflexivity|]. cbn [skipn nth]. apply IH. lia. }
    rewrite E. change (nth q s 0 :: skipn (S q) s) with ([nth q s 0] ++ skipn (S q) s).
    rewrite load_be_app. change (load_be [nth q s 0]) with (nth q s 0).
    pose proof (load_be_bound (skipn (S q) s) (bytes_skipn _ _ Hs)) as B. rewrite skipn_length in *.
    set (m := (length s - S q)%nat) in *. replace (length s - q)%nat with (S m) by lia.
    set (T := load_be (skipn (S q) s)) in *. set (F := load_be (firstn q s)).
    set (o := nth q s 0) in *. assert (Ho : byte o) by (apply nth_byte; auto; unfold byte; lia). unfold byte in Ho.
    clearbody T F o. clear E Hs.
    replace (8 * Z.of_nat (S m)) with (8 * Z.of_nat m + (8 - Z.of_nat r) + Z.of_nat r) by lia.
    replace (8 * Z.of_nat m + (8 - Z.of_nat r) + Z.of_nat r - Z.of_nat r) with (8 * Z.of_nat m + (8 - Z.of_nat r)) by lia.
    rewrite !Z.pow_add_r by lia.
    assert (HP : 0 < 2 ^ (8 * Z.of_nat m)) by (apply Z.pow_pos_nonneg; lia).
    assert (HQ : 0 < 2 ^ (8 - Z.of_nat r)) by (apply Z.pow_pos_nonneg; lia).
    set (P := 2 ^ (8 * Z.of_nat m)) in *. set (Q := 2 ^ (8 - Z.of_nat r)) in *. set (R := 2 ^ Z.of_nat r).
    rewrite <- Z.div_div by lia.
    replace (F * (P * Q * R) + (o * P + T)) with ((F * Q * R + o) * P + T) by ring.
    rewrite div_mul_add by lia.
    replace (F * Q * R + o) with (F * R * Q + o) by ring. rewrite Z.div_add_l by lia. reflexivity.
Qed.

Lemma lead_eq a b n : bytes a -> bytes b -> (n <= 8 * length a)%nat -> (n <= 8 * length b)%nat ->
  lead a n = lead b n <->
  firstn (n / 8) a = firstn (n / 8) b /\
  nth (n / 8) a 0 / 2 ^ (8 - Z.of_nat (n mod 8)) = nth (n / 8) b 0 / 2 ^ (8 - Z.of_nat (n mod 8)).
Proof.
  intros Ha Hb La Lb. rewrite !lead_split by auto.
  pose proof (Nat.mod_upper_bound n 8 ltac:(lia)) as Hr.
  assert (Hq : (n / 8 <= length a)%nat /\ (n / 8 <= length b)%nat) by (split; apply Nat.div_le_upper_bound; lia).
  assert (B : forall s, bytes s -> 0 <= nth (n / 8) s 0 / 2 ^ (8 - Z.of_nat (n mod 8)) < 2 ^ Z.of_nat (n mod 8)).
  { intros s Hs. assert (Ho : byte (nth (n / 8) s 0)) by (apply nth_byte; auto; unfold byte; lia). unfold byte in Ho.
    assert (HQ : 0 < 2 ^ (8 - Z.of_nat (n mod 8))) by (apply Z.pow_pos_nonneg; lia).
    split; [apply Z.div_pos; lia|]. apply Z.div_lt_upper_bound; [lia|].
    rewrite <- Z.pow_add_r by lia. replace (8 - Z.of_nat (n mod 8) + Z.of_nat (n mod 8)) with 8 by lia.
    change (2 ^ 8) with 256. lia. }
  pose proof (B a Ha) as B1. pose proof (B b Hb) as B2.
  set (Q := 2 ^ (8 - Z.of_nat (n mod 8))) in *. set (R := 2 ^ Z.of_nat (n mod 8)) in *.
  split.
  - intros E. rewrite !(Z.mul_comm _ R) in E.
    apply (Z.div_mod_unique R) in E; [|left; exact B1|left; exact B2]. destruct E as [E1 E2].
    split; [|exact E2]. apply load_be_inj; auto; try (apply bytes_firstn; auto).
    rewrite !firstn_length. lia.
  - intros [-> ->]. reflexivity.
Qed.

Lemma match_subnet_lead e addr mask n : bytes addr -> bytes mask -> byte e ->
  (n <= 8 * length addr)%nat -> (n <= 8 * length mask)%nat ->
  match_subnet e addr mask n = true <-> lead addr n = lead mask n.
Proof.
  intros Ha Hm He La Lm.
  assert (Hq : (n / 8 <= length addr)%nat /\ (n / 8 <= length mask)%nat) by (split; apply Nat.div_le_upper_bound; lia).
  rewrite match_subnet_parts by tauto. rewrite lead_eq by auto.
  destruct (Nat.eq_dec (n / 8) (length addr)) as [E|E].
  - assert (Hr : (n mod 8 = 0)%nat).
    { pose proof (Nat.div_mod n 8 ltac:(lia)). lia. }
    rewrite Hr. change (2 ^ (8 - Z.of_nat 0)) with 256.
    assert (Z0 : forall x, byte x -> x / 256 = 0) by (intros x Hx; apply Z.div_small; exact Hx).
    rewrite !Z0; [tauto|..]; apply nth_byte; auto; unfold byte; lia.
  - rewrite (nth_indep addr e 0) by lia. tauto.
Qed.

(** A mask of exactly the octets needed, against a whole address. *)
Lemma match_subnet_block e addr mask n w base : bytes addr -> bytes mask -> byte e ->
  w = (8 * length addr)%nat -> (n <= w)%nat -> (n <= 8 * length mask)%nat ->
  base = lead mask n * 2 ^ (Z.of_nat w - Z.of_nat n) ->
  match_subnet e addr mask n = in_block (Z.of_nat w) base (Z.of_nat n) (load_be addr).
Proof.
  intros Ha Hm He -> Lw Lm ->. apply eq_true_iff_eq. rewrite match_subnet_lead by auto.
  unfold lead at 1. replace (8 * Z.of_nat (length addr)) with (Z.of_nat (8 * length addr)) by lia.
  unfold in_block. assert (HP : 0 < 2 ^ (Z.of_nat (8 * length addr) - Z.of_nat n)) by (apply Z.pow_pos_nonneg; lia).
  set (P := 2 ^ (Z.of_nat (8 * length addr) - Z.of_nat n)) in *. set (M := lead mask n).
  rewrite andb_true_iff, Z.leb_le, Z.ltb_lt. split.
  - intros <-. pose proof (Z.div_mod (load_be addr) P ltac:(lia)). pose proof (Z.mod_pos_bound (load_be addr) P HP). nia.
  - intros [H1 H2]. symmetry. apply Z.div_unique with (load_be addr - M * P); [left|]; nia.
Qed.

Lemma match_prefix e addr mask n : (n / 8 < length addr)%nat \/ (n mod 8 = 0)%nat ->
  forall more, bytes addr -> bytes mask -> byte e -> bytes more ->
  (n <= 8 * length addr)%nat -> (n <= 8 * length mask)%nat ->
  match_subnet e (addr ++ more) mask n = match_subnet e addr mask n.
Proof.
  intros _ more Ha Hm He Hmore La Lm. apply eq_true_iff_eq.
  rewrite !match_subnet_lead; auto; try (apply bytes_app; auto); [|rewrite app_length; lia].
  assert (E : lead (addr ++ more) n = lead addr n).
  { unfold lead. rewrite load_be_app, app_length.
    pose proof (load_be_bound more Hmore) as B.
    replace (8 * Z.of_nat (length addr + length more) - Z.of_nat n)
      with (8 * Z.of_nat (length more) + (8 * Z.of_nat (length addr) - Z.of_nat n)) by lia.
    rewrite Z.pow_add_r by lia.
    assert (HP : 0 < 2 ^ (8 * Z.of_nat (length more))) by (apply Z.pow_pos_nonneg; lia).
    assert (HQ : 0 < 2 ^ (8 * Z.of_nat (length addr) - Z.of_nat n)) by (apply Z.pow_pos_nonneg; lia).
    rewrite <- Z.div_div by lia. rewrite div_mul_add by lia. reflexivity. }
  rewrite E. tauto.
Qed.

Ltac small_bytes := repeat constructor; unfold byte; lia.

Lemma classify_ipv4_spec e a : bytes a -> byte e -> (4 <= length a)%nat ->
  classify_ipv4 e a = class4 (load_be (firstn 4 a)).
Proof.
  intros Ha He L. rewrite <- (firstn_skipn 4 a) at 1.
  assert (L4 : length (firstn 4 a) = 4%nat) by (rewrite firstn_length; lia).
  assert (B4 : bytes (firstn 4 a)) by (now apply bytes_firstn).
  assert (BS : bytes (skipn 4 a)) by (now apply bytes_skipn).
  set (b := firstn 4 a) in *. set (c := skipn 4 a) in *. clearbody b c.
  assert (M : forall mask n base, bytes mask -> (n <= 32)%nat -> (n <= 8 * length mask)%nat ->
     base = lead mask n * 2 ^ (Z.of_nat 32 - Z.of_nat n) ->
     match_subnet e (b ++ c) mask n = in_block 32 base (Z.of_nat n) (load_be b)).
  { intros mask n base Hm Hn Hl Hb. rewrite match_prefix; auto; try lia.
    rewrite (match_subnet_block e b mask n 32 base); auto; lia. }
  unfold classify_ipv4, class4. cbv zeta.
  rewrite (M [0;0;0;0] 32%nat (ip4 0 0 0 0)); [|small_bytes|lia|cbn;lia|reflexivity].
  rewrite (M [255;255;255;255] 32%nat (ip4 255 255 255 255)); [|small_bytes|lia|cbn;lia|reflexivity].
  rewrite (M [0] 8%nat (ip4 0 0 0 0)); [|small_bytes|lia|cbn;lia|reflexivity].
  rewrite (M [10] 8%nat (ip4 10 0 0 0)); [|small_bytes|lia|cbn;lia|reflexivity].
  rewrite (M [127] 8%nat (ip4 127 0 0 0)); [|small_bytes|lia|cbn;lia|reflexivity].
  rewrite (M [172;16] 12%nat (ip4 172 16 0 0)); [|small_bytes|lia|cbn;lia|reflexivity].
  rewrite (M [169;254] 16%nat (ip4 169 254 0 0)); [|small_bytes|lia|cbn;lia|reflexivity].
  rewrite (M [192;168] 16%nat (ip4 192 168 0 0)); [|small_bytes|lia|cbn;lia|reflexivity].
  rewrite (M [224] 4%nat (ip4 224 0 0 0)); [|small_bytes|lia|cbn;lia|reflexivity].
  rewrite (M [240] 4%nat (ip4 240 0 0 0)); [|small_bytes|lia|cbn;lia|reflexivity].
  reflexivity.
Qed.

Lemma skipn_number a : bytes a -> length a = 16%nat -> load_be (skipn 12 a) = load_be a mod 2 ^ 32.
Proof.
  intros Ha L. rewrite <- (firstn_skipn 12 a) at 2. rewrite load_be_app, skipn_length, L.
  pose proof (load_be_bound (skipn 12 a) (bytes_skipn _ _ Ha)) as B. rewrite skipn_length, L in B.
  change (8 * Z.of_nat (16 - 12)) with 32 in *. rewrite Z.add_comm, Z.mod_add by lia. symmetry. now apply Z.mod_small.
Qed.

Lemma middle_number a : bytes a -> length a = 16%nat ->
  load_be (firstn 4 (skipn 2 a)) = load_be a / 2 ^ 80 mod 2 ^ 32.
Proof.
  intros Ha L. rewrite <- (firstn_skipn 2 a) at 2. rewrite <- (firstn_skipn 4 (skipn 2 a)) at 2.
  rewrite !load_be_app, !app_length, !firstn_length, !skipn_length, L.
  pose proof (load_be_bound (firstn 4 (skipn 2 a)) (bytes_firstn _ _ (bytes_skipn _ _ Ha))) as B1.
  pose proof (load_be_bound (skipn 4 (skipn 2 a)) (bytes_skipn _ _ (bytes_skipn _ _ Ha))) as B2.
  rewrite !firstn_length, !skipn_length, L in *.
  change (8 * Z.of_nat (Nat.min 4 (16 - 2))) with 32 in *.
  change (8 * Z.of_nat (16 - 2 - 4)) with 80 in *.
  change (8 * Z.of_nat (Nat.min 4 (16 - 2) + (16 - 2 - 4))) with (32 + 80). rewrite Z.pow_add_r by lia.
  set (A := load_be (firstn 2 a)). set (B := load_be (firstn 4 (skipn 2 a))) in *. set (C := load_be (skipn 4 (skipn 2 a))) in *.
  replace (A * (2 ^ 32 * 2 ^ 80) + (B * 2 ^ 80 + C)) with ((A * 2 ^ 32 + B) * 2 ^ 80 + C) by ring.
  rewrite div_mul_add by lia. rewrite Z.add_comm, Z.mod_add by lia. symmetry. now apply Z.mod_small.
Qed.

Lemma classify_ipv6_spec e a : bytes a -> byte e -> length a = 16%nat ->
  classify_ipv6 e a = class6 (load_be a).
Proof.
  intros Ha He L.
  assert (M : forall mask n base, bytes mask -> (n <= 128)%nat -> (n <= 8 * length mask)%nat ->
     base = lead mask n * 2 ^ (Z.of_nat 128 - Z.of_nat n) ->
     match_subnet e a mask n = in_block 128 base (Z.of_nat n) (load_be a)).
  { intros mask n base Hm Hn Hl Hb. rewrite (match_subnet_block e a mask n 128 base); auto; lia. }
  unfold classify_ipv6, class6. cbv zeta.
  rewrite (M [0;0;0;0;0;0;0;0;0;0;255;255] 96%nat (ip6 0 0 0 0 0 65535 0 0)); [|small_bytes|lia|cbn;lia|reflexivity].
  rewrite (M [0;0;0;0;0;0;0;0;0;0;0;0;0;0;0;0] 128%nat 0); [|small_bytes|lia|cbn;lia|reflexivity].
  rewrite (M [0;0;0;0;0;0;0;0;0;0;0;0;0;0;0;1] 128%nat 1); [|small_bytes|lia|cbn;lia|reflexivity].
  rewrite (M [0;100;255;155;0;0;0;0;0;0;0;0] 96%nat (ip6 100 65435 0 0 0 0 0 0)); [|small_bytes|lia|cbn;lia|reflexivity].
  rewrite (M [0;100;255;155;0;1] 48%nat (ip6 100 65435 1 0 0 0 0 0)); [|small_bytes|lia|cbn;lia|reflexivity].
  rewrite (M [1;0;0;0;0;0;0;0] 64%nat (ip6 256 0 0 0 0 0 0 0)); [|small_bytes|lia|cbn;lia|reflexivity].
  rewrite (M [32;1;13;184] 32%nat (ip6 8193 3512 0 0 0 0 0 0)); [|small_bytes|lia|cbn;lia|reflexivity].
  rewrite (M [32;2] 16%nat (ip6 8194 0 0 0 0 0 0 0)); [|small_bytes|lia|cbn;lia|reflexivity].
  rewrite (M [252;0] 7%nat (ip6 64512 0 0 0 0 0 0 0)); [|small_bytes|lia|cbn;lia|reflexivity].
  rewrite (M [254;128] 10%nat (ip6 65152 0 0 0 0 0 0 0)); [|small_bytes|lia|cbn;lia|reflexivity].
  rewrite (M [255;0] 8%nat (ip6 65280 0 0 0 0 0 0 0)); [|small_bytes|lia|cbn;lia|reflexivity].
  rewrite !(classify_ipv4_spec e) by (try assumption; try apply bytes_skipn; try assumption; rewrite skipn_length; lia).
  rewrite (firstn_all2 (n:=4) (skipn 12 a)) by (rewrite skipn_length; lia).
  rewrite skipn_number, middle_number by auto.
  assert (E0 : in_block 128 0 (Z.of_nat 128) (load_be a) = (load_be a =? 0)).
  { unfold in_block. change (2 ^ (128 - Z.of_nat 128)) with 1. lia. }
  assert (E1 : in_block 128 1 (Z.of_nat 128) (load_be a) = (load_be a =? 1)).
  { unfold in_block. change (2 ^ (128 - Z.of_nat 128)) with 1. lia. }
  rewrite E0, E1. reflexivity.
Qed.

(** ** Equality and order *)

Lemma eq16_bound a : forall b, 0 <= eq16_mask a b < 2 ^ Z.of_nat (length a).
Proof.
  assert (G : forall n a b, (length a <= n)%nat -> 0 <= eq16_mask a b < 2 ^ Z.of_nat (length a)).
  { clear. induction n as [|n IH]; intros a b L.
    - destruct a; [cbn; lia|cbn in L; lia].
    - destruct a as [|x0 [|x1 a]].
      + cbn. lia.
      + cbn. lia.
      + assert (HP : 0 < 2 ^ Z.of_nat (length a)) by (apply Z.pow_pos_nonneg; lia).
        assert (E : 2 ^ Z.of_nat (length (x0 :: x1 :: a)) = 4 * 2 ^ Z.of_nat (length a)).
        { cbn [length]. rewrite !Nat2Z.inj_succ, !Z.pow_succ_r by lia. lia. }
        rewrite E. destruct b as [|y0 [|y1 b]]; cbn [eq16_mask]; [lia|lia|].
        specialize (IH a b ltac:(cbn in L; lia)). destruct (_ && _); lia. }
  intros b. apply (G (length a)). lia.
Qed.

Lemma eq16_full : forall n a b, length a = (2 * n)%nat -> length b = (2 * n)%nat ->
  (eq16_mask a b = 4 ^ Z.of_nat n - 1 <-> a = b).
Proof.
  induction n as [|n IH]; intros a b La Lb.
  - destruct a, b; try discriminate. cbn. tauto.
  - destruct a as [|x0 [|x1 a]]; cbn in La; try lia. destruct b as [|y0 [|y1 b]]; cbn in Lb; try lia.
    cbn [eq16_mask]. rewrite Nat2Z.inj_succ, Z.pow_succ_r by lia.
    pose proof (eq16_bound a b) as B. specialize (IH a b ltac:(lia) ltac:(lia)).
    replace (2 ^ Z.of_nat (length a)) with (4 ^ Z.of_nat n) in B.
    2:{ change 4 with (2 ^ 2). rewrite <- Z.pow_mul_r by lia. f_equal. lia. }
    destruct ((x0 =? y0) && (x1 =? y1)) eqn:E.
    + assert (x0 = y0 /\ x1 = y1) as [-> ->] by lia. split.
      * intros H. f_equal. f_equal. apply IH. lia.
      * intros [= ->]. assert (eq16_mask b b = 4 ^ Z.of_nat n - 1) by tauto. lia.
    + split; [lia|]. intros [= -> -> ->]. rewrite !Z.eqb_refl in E. discriminate.
Qed.

Lemma equals_spec a b : is_address a -> is_address b -> (equals a b = true <-> a = b).
Proof.
  intros (La & Ha & Pa) (Lb & Hb & Pb). unfold equals. rewrite Z.eqb_eq, Z.lor_eq_0_iff, !lxor_eq_0.
  pose proof (eq16_full 8 (a_addr a) (a_addr b) La Lb) as E. change (4 ^ Z.of_nat 8 - 1) with 65535 in E.
  rewrite E. destruct a, b; cbn. split; [intros [-> ->]; auto|intros [= -> ->]; auto].
Qed.

Lemma lane_bound (c : bool) : 0 <= (if c then 3 else 0) < 4.
Proof. destruct c; lia. Qed.

Lemma v4mapped_spec a : is_address a ->
  is_v4mapped a = in_block 128 (ip6 0 0 0 0 0 65535 0 0) 96 (number a).
Proof.
  intros (L & Ha & _). unfold number. destruct a as [s p]. cbn [a_addr] in *. unfold is_v4mapped. cbn [a_addr].
  rewrite <- (match_subnet_block 0 s [0;0;0;0;0;0;0;0;0;0;255;255] 96 128);
    [|auto|small_bytes|unfold byte; lia|lia|lia|cbn;lia|reflexivity].
  apply eq_true_iff_eq. rewrite match_subnet_lead; [|auto|small_bytes|unfold byte; lia|lia|cbn; lia].
  rewrite lead_eq; [|auto|small_bytes|lia|cbn;lia]. change (96 / 8)%nat with 12%nat. change (96 mod 8)%nat with 0%nat.
  change (2 ^ (8 - Z.of_nat 0)) with 256.
  do 16 (destruct s as [|? s]; [discriminate L|]). destruct s; [|discriminate L].
  cbn [eq16_mask firstn nth]. 
  assert (Z0 : z11 / 256 = 0).
  { apply Z.div_small. clear - Ha. do 12 (inversion_clear Ha as [|? ? ? H]; rename H into Ha). now inversion_clear Ha. }
  rewrite Z0. clear Z0 Ha L. change (0 / 256) with 0.
  set (m7 := if (z13 =? 0) && (z14 =? 0) then 3 else 0). set (m6 := if (z11 =? 0) && (z12 =? 0) then 3 else 0).
  assert (H6 : 0 <= m6 < 4) by (apply lane_bound).
  assert (H7 : 0 <= m7 < 4) by (apply lane_bound).
  rewrite Z.eqb_eq.
  transitivity ((z =? 0) && (z0 =? 0) && ((z1 =? 0) && (z2 =? 0)) && ((z3 =? 0) && (z4 =? 0))
     && ((z5 =? 0) && (z6 =? 0)) && ((z7 =? 0) && (z8 =? 0)) && ((z9 =? 255) && (z10 =? 255)) = true).
  - set (b0 := (z =? 0) && (z0 =? 0)). set (b1 := (z1 =? 0) && (z2 =? 0)). set (b2 := (z3 =? 0) && (z4 =? 0)).
    set (b3 := (z5 =? 0) && (z6 =? 0)). set (b4 := (z7 =? 0) && (z8 =? 0)). set (b5 := (z9 =? 255) && (z10 =? 255)).
    clearbody b0 b1 b2 b3 b4 b5 m6 m7.
    assert (m6 = 0 \/ m6 = 1 \/ m6 = 2 \/ m6 = 3) as [->|[->|[->| ->]]] by lia;
    assert (m7 = 0 \/ m7 = 1 \/ m7 = 2 \/ m7 = 3) as [->|[->|[->| ->]]] by lia;
    destruct b0, b1, b2, b3, b4, b5; vm_compute; split; congruence.
  - rewrite !andb_true_iff, !Z.eqb_eq. split.
    + intros H. decompose [and] H. subst. auto.
    + intros [[= -> -> -> -> -> -> -> -> -> -> -> ->] _]. tauto.
Qed.

Lemma compare_spec a b : is_address a -> is_address b ->
  compare a b = Z.sgn ((number a * 65536 + a_port a) - (number b * 65536 + a_port b)).
Proof.
  intros (La & Ha & Pa) (Lb & Hb & Pb). unfold compare.
  rewrite memcmp_sgn.
  - rewrite !load_be_app, !store_be_length. change (2 ^ (8 * Z.of_nat 2)) with 65536.
    rewrite !load_be_store by (change (2 ^ (8 * Z.of_nat 2)) with 65536; lia). reflexivity.
  - rewrite !app_length, !store_be_length. lia.
  - apply bytes_app. split; [auto|apply store_be_bytes].
  - apply bytes_app. split; [auto|apply store_be_bytes].
Qed.
