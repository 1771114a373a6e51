(** C09: nil UUIDs, the least and the greatest UUID, and hashes. *)
From Coq Require Import ZArith List Lia Bool.
From Verif Require Import Base BaseLemmas UuidModel UuidSpec UuidProofs UuidProps UuidHashModel.
Import ListNotations.
Open Scope Z_scope.

(** The [i]-th group of four octets. *)
Local Definition group (i : nat) (u : list Z) : list Z := firstn 4 (skipn (4 * i) u).

Local Lemma le_bound s : bytes s -> 0 <= load_le s < 2 ^ (8 * Z.of_nat (length s)).
Proof.
  induction s as [|b s IH]; intros B; [cbn [load_le length]; lia|].
  inversion B as [|? ? B1 B2]; subst. specialize (IH B2). unfold byte in B1. cbn [load_le length].
  replace (8 * Z.of_nat (S (length s))) with (8 + 8 * Z.of_nat (length s)) by lia.
  rewrite Z.pow_add_r by lia. change (2 ^ 8) with 256. lia.
Qed.
Local Lemma le_inj s : forall t, bytes s -> bytes t -> length s = length t -> load_le s = load_le t -> s = t.
Proof.
  induction s as [|b s IH]; intros [|c t] Bs Bt L E; try discriminate; [reflexivity|].
  inversion Bs as [|? ? B1 B2]; inversion Bt as [|? ? C1 C2]; subst. unfold byte in *. cbn [load_le length] in *.
  injection L as L. assert (b = c) by (assert (load_le s < load_le t \/ load_le s = load_le t \/ load_le t < load_le s) by lia; lia).
  subst c. f_equal. apply IH; try assumption. lia.
Qed.
Local Lemma bytes_group i u : bytes u -> bytes (group i u).
Proof.
  intros B. unfold group, bytes in *. apply Forall_forall. intros x H. rewrite Forall_forall in B. apply B.
  assert (A : forall n (l : list Z), In x (firstn n l) -> In x l)
    by (intros n l; rewrite <- (firstn_skipn n l) at 2; intro; apply in_or_app; left; assumption).
  apply A in H. rewrite <- (firstn_skipn (4 * i) u). apply in_or_app. right. exact H.
Qed.
Local Lemma length_group i u : length u = 16%nat -> (i < 4)%nat -> length (group i u) = 4%nat.
Proof. intros L H. unfold group. rewrite firstn_length, skipn_length. lia. Qed.

Local Lemma mask_bound l : 0 <= movemask l < 2 ^ Z.of_nat (length l).
Proof.
  induction l as [|b l IH]; cbn [movemask length]; [lia|]. rewrite Nat2Z.inj_succ, Z.pow_succ_r by lia.
  unfold b2z. destruct b; lia.
Qed.
Local Lemma mask_full u : movemask (map (fun x => x =? 0) u) = 2 ^ Z.of_nat (length u) - 1 <-> u = repeat 0 (length u).
Proof.
  induction u as [|x u IH]; cbn [map movemask length repeat]; [split; reflexivity|].
  pose proof (mask_bound (map (fun x => x =? 0) u)) as B. rewrite map_length in B.
  rewrite Nat2Z.inj_succ, Z.pow_succ_r by lia. unfold b2z. destruct (Z.eqb_spec x 0) as [->|N]; split; intros E.
  - f_equal. apply IH. lia.
  - injection E as E. apply IH in E. lia.
  - lia.
  - injection E as E _. contradiction.
Qed.
(** A UUID is nil exactly when all of its octets are zero. *)
Theorem uuid_nil u : is_uuid u -> (is_nil u = true <-> u = repeat 0 16).
Proof. intros [L _]. unfold is_nil. rewrite Z.eqb_eq, <- L, <- mask_full, L. reflexivity. Qed.
Print Assumptions uuid_nil.

Local Lemma lex_least n : forall u, length u = n -> bytes u -> lex (repeat 0 n) u <= 0.
Proof.
  induction n as [|n IH]; intros [|x u] L B; try discriminate; cbn [repeat lex].
  inversion B as [|? ? B1 B2]; subst. unfold byte in B1. injection L as L. specialize (IH u L B2).
  destruct (Z.ltb_spec 0 x); [lia|]. destruct (Z.ltb_spec x 0); lia.
Qed.
Local Lemma lex_greatest n : forall u, length u = n -> bytes u -> lex u (repeat 255 n) <= 0.
Proof.
  induction n as [|n IH]; intros [|x u] L B; try discriminate; cbn [repeat lex].
  inversion B as [|? ? B1 B2]; subst. unfold byte in B1. injection L as L. specialize (IH u L B2).
  destruct (Z.ltb_spec x 255); [lia|]. destruct (Z.ltb_spec 255 x); lia.
Qed.
Local Lemma uuid_rep x : 0 <= x < 256 -> is_uuid (repeat x 16).
Proof. intros H. split; [reflexivity|]. unfold bytes. apply Forall_forall. intros y I. apply repeat_spec in I. subst. exact H. Qed.

(** [min] is nil, and no UUID is less than it; no UUID is greater than [max]. *)
Theorem uuid_extremes u : is_uuid u ->
  is_nil min = true /\ compare min u <= 0 /\ compare u max <= 0.
Proof.
  intros Hu. change min with (repeat 0 16). change max with (repeat 255 16).
  pose proof (uuid_rep 0 ltac:(lia)) as H0. pose proof (uuid_rep 255 ltac:(lia)) as H1.
  pose proof (uuid_compare _ u H0 Hu) as (A & _). pose proof (uuid_compare u _ Hu H1) as (B & _).
  destruct Hu as [L Bu]. pose proof (lex_least 16 u L Bu). pose proof (lex_greatest 16 u L Bu).
  split; [reflexivity|]. lia.
Qed.
Print Assumptions uuid_extremes.

(** The hash is a number of 64 bits: below, the sum of the four groups of octets, read as little-endian numbers,
    and above, the sum of the last two. *)
Theorem uuid_hash u : is_uuid u ->
  let w i := load_le (group i u) in
  hash u = (w 0%nat + w 1%nat + w 2%nat + w 3%nat) mod 2 ^ 32 + 2 ^ 32 * ((w 2%nat + w 3%nat) mod 2 ^ 32)
  /\ 0 <= hash u < 2 ^ 64.
Proof.
  intros _ w. assert (E : hash u = (w 0%nat + w 1%nat + w 2%nat + w 3%nat) mod 2 ^ 32 + 2 ^ 32 * ((w 2%nat + w 3%nat) mod 2 ^ 32)).
  { unfold hash, lanes, hadd, upper_half, low64, w, group, sub. cbn [nth Nat.mul Nat.add].
    change two32 with (2 ^ 32). change ((0 + 0) mod 2 ^ 32) with 0. rewrite Z.add_0_r, Z.mod_mod, <- Zplus_mod by (apply Z.pow_nonzero; lia).
    rewrite Z.add_assoc. reflexivity. }
  split; [exact E|]. rewrite E. change (2 ^ 64) with (2 ^ 32 * 2 ^ 32).
  pose proof (Z.mod_pos_bound (w 0%nat + w 1%nat + w 2%nat + w 3%nat) (2 ^ 32)).
  pose proof (Z.mod_pos_bound (w 2%nat + w 3%nat) (2 ^ 32)). change (2 ^ 32) with 4294967296 in *. lia.
Qed.
Print Assumptions uuid_hash.

(** Two UUIDs of which all but one of the four groups of octets are equal have different hashes. *)
Theorem uuid_hash_group a b i : is_uuid a -> is_uuid b -> (i < 4)%nat ->
  (forall j, (j < 4)%nat -> j <> i -> group j a = group j b) -> group i a <> group i b -> hash a <> hash b.
Proof.
  intros Ha Hb Hi Hj Hd E.
  destruct (uuid_hash a Ha) as [Ea _]. destruct (uuid_hash b Hb) as [Eb _].
  destruct Ha as [La Ba]. destruct Hb as [Lb Bb].
  assert (Bd : forall j, (j < 4)%nat -> 0 <= load_le (group j a) < 2 ^ 32 /\ 0 <= load_le (group j b) < 2 ^ 32).
  { intros j H. pose proof (le_bound _ (bytes_group j a Ba)) as P. pose proof (le_bound _ (bytes_group j b Bb)) as Q.
    rewrite length_group in P, Q by assumption. split; assumption. }
  assert (N : load_le (group i a) <> load_le (group i b)).
  { intros F. apply Hd. apply le_inj; [apply bytes_group; assumption| apply bytes_group; assumption| |exact F].
    rewrite !length_group by assumption. reflexivity. }
  rewrite Ea, Eb in E. clear Ea Eb Hd. pose proof (Bd i Hi) as Bi.
  assert (Q : forall j, (j < 4)%nat -> j <> i -> load_le (group j a) = load_le (group j b))
    by (intros j H1 H2; rewrite (Hj j H1 H2); reflexivity).
  set (wa := fun j => load_le (group j a)) in *. set (wb := fun j => load_le (group j b)) in *.
  change (wa i <> wb i) in N. change (0 <= wa i < 2 ^ 32 /\ 0 <= wb i < 2 ^ 32) in Bi.
  change (forall j, (j < 4)%nat -> j <> i -> wa j = wb j) in Q.
  change ((wa 0%nat + wa 1%nat + wa 2%nat + wa 3%nat) mod 2 ^ 32 + 2 ^ 32 * ((wa 2%nat + wa 3%nat) mod 2 ^ 32)
        = (wb 0%nat + wb 1%nat + wb 2%nat + wb 3%nat) mod 2 ^ 32 + 2 ^ 32 * ((wb 2%nat + wb 3%nat) mod 2 ^ 32)) in E.
  clearbody wa wb. clear Hj Bd.
  set (sa := wa 0%nat + wa 1%nat + wa 2%nat + wa 3%nat) in *. set (sb := wb 0%nat + wb 1%nat + wb 2%nat + wb 3%nat) in *.
  assert (S : sa - sb = wa i - wb i).
  { unfold sa, sb. destruct i as [|[|[|[|i]]]]; [| | | |lia].
    all: try rewrite (Q 0%nat) by lia; try rewrite (Q 1%nat) by lia; try rewrite (Q 2%nat) by lia; try rewrite (Q 3%nat) by lia; lia. }
  clearbody sa sb. change (2 ^ 32) with 4294967296 in *.
  pose proof (Z.mod_pos_bound sa 4294967296 ltac:(lia)). pose proof (Z.mod_pos_bound sb 4294967296 ltac:(lia)).
  assert (M : sa mod 4294967296 = sb mod 4294967296) by lia.
  pose proof (Z_div_mod_eq_full sa 4294967296). pose proof (Z_div_mod_eq_full sb 4294967296). nia.
Qed.
Print Assumptions uuid_hash_group.

Local Definition other : list Z := firstn 15 sample ++ [85].
Example hash_sample : is_uuid sample /\ is_uuid other /\ group 3 sample <> group 3 other
  /\ (forall j, (j < 4)%nat -> j <> 3%nat -> group j sample = group j other)
  /\ hash sample = 3563642781624208102 /\ hash other <> hash sample /\ is_nil sample = false.
Proof.
  split; [split; [reflexivity|repeat (constructor; [unfold byte; lia|]); constructor]|].
  split; [split; [reflexivity|repeat (constructor; [unfold byte; lia|]); constructor]|].
  split; [discriminate|]. split; [|split; [reflexivity|]; split; [vm_compute; discriminate|reflexivity]].
  intros j H N. destruct j as [|[|[|[|j]]]]; [reflexivity|reflexivity|reflexivity|lia|lia].
Qed.
