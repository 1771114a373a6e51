(** C11, C12, C13: socket address classification, subnets, order. *)
From Coq Require Import ZArith List Lia Bool.
From Verif Require Import Base BaseLemmas AddrModel AddrSpec AddrProofs.
Import ListNotations.
Open Scope Z_scope.

(** C11: every address has the class of the CIDR blocks it lies in. *)
Theorem address_class a : is_address a -> classify a = class6 (number a).
Proof.
  intros (L & Ha & Hp). apply (classify_ipv6_spec (a_port a mod 256) (a_addr a) Ha); [|exact L].
  unfold byte. apply Z.mod_pos_bound. lia.
Qed.
Print Assumptions address_class.

(** C11: an IPv4-mapped address is recognized as such and has the class of its
    IPv4 part. *)
Theorem address_v4mapped a : is_address a ->
  is_v4mapped a = in_block 128 (ip6 0 0 0 0 0 65535 0 0) 96 (number a)
  /\ (is_v4mapped a = true -> classify a = class4 (number a mod 2 ^ 32)).
Proof.
  intros Ha. pose proof (v4mapped_spec a Ha) as E. split; [exact E|]. intros H.
  rewrite address_class by exact Ha. unfold class6. rewrite <- E, H. reflexivity.
Qed.
Print Assumptions address_v4mapped.

Example address_classes :
  map classify [ipv6_unspecified; ipv6_loopback; ipv6_invalid; ipv4_unspecified; ipv4_loopback; ipv4_broadcast;
                mkAddr [32;2;192;168;0;1;0;0;0;0;0;0;0;0;0;0] 80;
                mkAddr [0;0;0;0;0;0;0;0;0;0;255;255;8;8;8;8] 53]
  = [ip_unspecified; ip_loopback; ip_reserved; ip_unspecified; ip_loopback; ip_broadcast; ip_private; ip_public]
  /\ is_address ipv6_invalid.
Proof.
  split; [vm_compute; reflexivity|]. split; [reflexivity|]. split; [|cbn; lia].
  repeat constructor; unfold byte; lia.
Qed.

(** C12: the subnet test compares exactly the leading [n] bits, also for [n] at
    an octet boundary, where one octet past the prefix is read but ignored. *)
Theorem subnet_match beyond addr mask n : bytes addr -> bytes mask -> byte beyond ->
  (n <= 8 * length addr)%nat -> (n <= 8 * length mask)%nat ->
  match_subnet beyond addr mask n = true <->
  load_be addr / 2 ^ (8 * Z.of_nat (length addr) - Z.of_nat n)
  = load_be mask / 2 ^ (8 * Z.of_nat (length mask) - Z.of_nat n).
Proof. exact (match_subnet_lead beyond addr mask n). Qed.
Print Assumptions subnet_match.

(** C12: bit by bit, for addresses of the same size. *)
Theorem subnet_match_bits beyond addr mask n : bytes addr -> bytes mask -> byte beyond ->
  length addr = length mask -> (n <= 8 * length addr)%nat ->
  match_subnet beyond addr mask n = true <->
  forall i, (i < n)%nat ->
    Z.testbit (load_be addr) (8 * Z.of_nat (length addr) - 1 - Z.of_nat i)
    = Z.testbit (load_be mask) (8 * Z.of_nat (length addr) - 1 - Z.of_nat i).
Proof.
  intros Ha Hm He L Hn. rewrite subnet_match by (auto; lia). rewrite <- L.
  set (w := 8 * Z.of_nat (length addr)). set (p := w - Z.of_nat n).
  assert (Hp : 0 <= p) by (unfold p, w; lia).
  pose proof (load_be_bound addr Ha) as B1. pose proof (load_be_bound mask Hm) as B2.
  rewrite <- L in B2. fold w in B1, B2.
  rewrite <- !Z.shiftr_div_pow2 by exact Hp. split.
  - intros E i Hi. replace (w - 1 - Z.of_nat i) with (w - 1 - Z.of_nat i - p + p) by lia.
    rewrite <- !Z.shiftr_spec by (unfold p; lia). now rewrite E.
  - intros H. apply Z.bits_inj'. intros k Hk. rewrite !Z.shiftr_spec by exact Hk.
    destruct (Z.lt_ge_cases (k + p) w) as [C|C].
    + specialize (H (Z.to_nat (w - 1 - (k + p))) ltac:(unfold p in *; lia)).
      replace (w - 1 - Z.of_nat (Z.to_nat (w - 1 - (k + p)))) with (k + p) in H by lia. exact H.
    + assert (HB : forall x, 0 <= x < 2 ^ w -> Z.testbit x (k + p) = false).
      { intros x Hx. destruct (Z.eq_dec x 0) as [->|]; [apply Z.bits_0|].
        apply Z.bits_above_log2; [lia|]. apply Z.log2_lt_pow2; [lia|].
        apply Z.lt_le_trans with (2 ^ w); [lia|]. apply Z.pow_le_mono_r; lia. }
      rewrite !HB; auto.
Qed.
Print Assumptions subnet_match_bits.

Example subnet_sample :
  match_subnet 7 [172;31;255;1] [172;16;0;0] 12 = true /\ match_subnet 7 [172;32;0;0] [172;16;0;0] 12 = false
  /\ match_subnet 7 [1;2;3;4] [1;2;3;4] 32 = true /\ match_subnet 7 [1;2;3;4] [9;9;9;9] 0 = true.
Proof. vm_compute. auto. Qed.

(** C13: comparison is by address, then by port; zero and [equals] mean equal. *)
Theorem address_compare a b : is_address a -> is_address b ->
  (compare a b < 0 <-> before a b) /\ (compare a b > 0 <-> before b a)
  /\ (compare a b = 0 <-> a = b) /\ (equals a b = true <-> a = b).
Proof.
  intros Ha Hb. pose proof (compare_spec a b Ha Hb) as C. pose proof (equals_spec a b Ha Hb) as E.
  destruct Ha as (La & Ba & Pa). destruct Hb as (Lb & Bb & Pb). unfold before.
  split; [lia|]. split; [lia|]. split; [|exact E]. split.
  - intros Z0. assert (number a = number b /\ a_port a = a_port b) as [E1 E2] by lia.
    apply load_be_inj in E1; [|congruence|assumption|assumption].
    destruct a, b. cbn in *. congruence.
  - intros ->. lia.
Qed.
Print Assumptions address_compare.

(** C13: the order is total, strict and transitive. *)
Theorem address_total_order a b c : is_address a -> is_address b -> is_address c ->
  (before a b \/ a = b \/ before b a) /\ ~ before a a
  /\ (before a b -> before b c -> before a c) /\ (before a b -> ~ before b a).
Proof.
  intros Ha Hb Hc. pose proof (address_compare a b Ha Hb) as (C1 & C2 & C3 & _).
  split; [|unfold before in *; lia]. destruct (Z.lt_trichotomy (compare a b) 0) as [H|[H|H]].
  - left. tauto.
  - right. left. tauto.
  - right. right. apply C2. lia.
Qed.
Print Assumptions address_total_order.

Example address_order_sample : compare (mkAddr (a_addr ipv4_loopback) 80) (mkAddr (a_addr ipv4_loopback) 443) < 0
  /\ before ipv6_unspecified ipv6_loopback.
Proof. split; [vm_compute; reflexivity|left; vm_compute; reflexivity]. Qed.

(** The named addresses; all of them are without a port. *)
Theorem address_constants :
  map (fun a => (number a, a_port a)) [ipv6_unspecified; ipv6_loopback; ipv4_unspecified; ipv4_loopback; ipv4_broadcast; ipv6_invalid]
  = [(0, 0); (1, 0); (65535 * 2 ^ 32 + ip4 0 0 0 0, 0); (65535 * 2 ^ 32 + ip4 127 0 0 1, 0); (65535 * 2 ^ 32 + ip4 255 255 255 255, 0);
     (ip6 8193 3512 62359 54807 19106 33504 11359 60889, 0)].
Proof. vm_compute. reflexivity. Qed.
Print Assumptions address_constants.
