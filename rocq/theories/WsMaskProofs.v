(** Proofs about [encode] and [mask_payload]. *)
From Coq Require Import ZArith List Lia Bool ZifyBool ZifyNat Arith.
From Verif Require Import Base BaseLemmas WsModel WsSpec.
Import ListNotations.
Open Scope Z_scope.
Ltac Zify.zify_post_hook ::= Z.div_mod_to_equations.

(** ** Key rotation as octet rotation *)

Definition koct (k : Z) : list Z :=
  [k / 16777216 mod 256; k / 65536 mod 256; k / 256 mod 256; k mod 256].

Definition of_oct (a b c d : Z) : Z := ((a * 256 + b) * 256 + c) * 256 + d.

Lemma of_oct_koct k : 0 <= k < two32 ->
  exists a b c d, byte a /\ byte b /\ byte c /\ byte d /\ k = of_oct a b c d
                  /\ koct k = [a; b; c; d].
Proof.
  intros H. exists (k / 16777216 mod 256), (k / 65536 mod 256), (k / 256 mod 256), (k mod 256).
  unfold byte, of_oct, koct, two32 in *. repeat split; try lia.
Qed.

Lemma koct_of_oct a b c d : byte a -> byte b -> byte c -> byte d ->
  koct (of_oct a b c d) = [a; b; c; d].
Proof.
  unfold byte, of_oct, koct. intros. repeat f_equal; lia.
Qed.

Lemma of_oct_range a b c d : byte a -> byte b -> byte c -> byte d ->
  0 <= of_oct a b c d < two32.
Proof. unfold byte, of_oct, two32. lia. Qed.

Lemma lor_add_disjoint x a : 0 <= x -> byte a -> Z.lor (x * 256) a = x * 256 + a.
Proof.
  intros Hx Ha. unfold byte in Ha.
  symmetry. rewrite <- Z.lxor_lor.
  - apply Z.add_nocarry_lxor. apply Z.bits_inj'. intros n Hn.
    rewrite Z.land_spec, Z.bits_0.
    destruct (Z.ltb_spec n 8).
    + change 256 with (2 ^ 8). rewrite Z.mul_pow2_bits_low by lia. reflexivity.
    + destruct (Z.eq_dec a 0) as [->|]. now rewrite Z.bits_0, andb_false_r.
      rewrite (Z.bits_above_log2 a n), andb_false_r; try lia.
      assert (Z.log2 a < 8) by (apply Z.log2_lt_pow2; lia). lia.
  - apply Z.bits_inj'. intros n Hn.
    rewrite Z.land_spec, Z.bits_0.
    destruct (Z.ltb_spec n 8).
    + change 256 with (2 ^ 8). rewrite Z.mul_pow2_bits_low by lia. reflexivity.
    + destruct (Z.eq_dec a 0) as [->|]. now rewrite Z.bits_0, andb_false_r.
      rewrite (Z.bits_above_log2 a n), andb_false_r; try lia.
      assert (Z.log2 a < 8) by (apply Z.log2_lt_pow2; lia). lia.
Qed.

Lemma rotl8_oct a b c d : byte a -> byte b -> byte c -> byte d ->
  rotl8 (of_oct a b c d) = of_oct b c d a.
Proof.
  intros Ha Hb Hc Hd. unfold rotl8.
  rewrite Z.shiftl_mul_pow2, Z.shiftr_div_pow2 by lia.
  change (2 ^ 8) with 256. change (2 ^ 24) with 16777216.
  assert (Hq : of_oct a b c d / 16777216 = a).
  { unfold of_oct, byte in *. lia. }
  assert (Hm : (of_oct a b c d * 256) mod two32 = ((b * 256 + c) * 256 + d) * 256).
  { unfold of_oct, byte, two32 in *. lia. }
  rewrite Hq, Hm. rewrite lor_add_disjoint; auto. unfold byte in *. lia.
Qed.

(** ** The byte-wise specification as a function *)

Fixpoint mask_spec (a b c d : Z) (data : list Z) : list Z :=
  match data with
  | [] => []
  | x :: r => Z.lxor x a :: mask_spec b c d a r
  end.

Fixpoint rot4 (n : nat) (k : Z * Z * Z * Z) : Z * Z * Z * Z :=
  match n with
  | O => k
  | S n' => let '(a, b, c, d) := k in rot4 n' (b, c, d, a)
  end.

Definition ofk (k : Z * Z * Z * Z) : Z := let '(a, b, c, d) := k in of_oct a b c d.

Lemma rot4_add n m k : rot4 (n + m) k = rot4 m (rot4 n k).
Proof. revert k; induction n; intros [[[a b] c] d]; simpl; auto. Qed.

Lemma rot4_4 k : rot4 4 k = k.
Proof. destruct k as [[[a b] c] d]. reflexivity. Qed.

Lemma mask_spec_app a b c d s t :
  mask_spec a b c d (s ++ t)
  = mask_spec a b c d s
    ++ (let '(a', b', c', d') := rot4 (length s) (a, b, c, d) in mask_spec a' b' c' d' t).
Proof.
  revert a b c d; induction s; intros; simpl; auto. f_equal. apply IHs.
Qed.

Lemma mask_spec_length s : forall a b c d, length (mask_spec a b c d s) = length s.
Proof. induction s; simpl; auto. Qed.

Lemma mask_spec_nth s : forall a b c d i, (i < length s)%nat ->
  nth i (mask_spec a b c d s) 0 = Z.lxor (nth i s 0) (nth (i mod 4) [a; b; c; d] 0).
Proof.
  induction s as [|x s IH]; intros a b c d i Hi; simpl in Hi; [lia|].
  cbn [mask_spec]. destruct i as [|i].
  - reflexivity.
  - cbn [nth]. rewrite IH by lia. f_equal.
    assert (Hm : (i mod 4 < 4)%nat) by (apply Nat.mod_upper_bound; lia).
    assert (He : (S i mod 4 = if i mod 4 =? 3 then 0 else S (i mod 4))%nat).
    { rewrite (Nat.div_mod_eq i 4) at 1.
      replace (S (4 * (i / 4) + i mod 4)) with (S (i mod 4) + (i / 4) * 4)%nat by lia.
      rewrite Nat.mod_add by lia.
      destruct (Nat.eqb_spec (i mod 4) 3) as [->|]; [reflexivity|].
      apply Nat.mod_small. lia. }
    rewrite He.
    destruct (i mod 4)%nat as [|[|[|[|]]]]; try reflexivity. lia.
Qed.

(** ** The three loops *)

Lemma mask_tail_spec s : forall a b c d, byte a -> byte b -> byte c -> byte d ->
  mask_tail (of_oct a b c d) s
  = (mask_spec a b c d s, ofk (rot4 (length s) (a, b, c, d))).
Proof.
  induction s as [|x s IH]; intros a b c d Ha Hb Hc Hd; [reflexivity|].
  cbn [mask_tail]. rewrite rotl8_oct by auto. rewrite IH by auto.
  cbn [mask_spec length rot4]. f_equal. f_equal. f_equal.
  unfold of_oct, byte in *. lia.
Qed.

Lemma mask_align_spec s : forall addr a b c d, byte a -> byte b -> byte c -> byte d ->
  exists s1 s2, s = s1 ++ s2 /\
  mask_align addr (of_oct a b c d) s
  = (mask_spec a b c d s1, ofk (rot4 (length s1) (a, b, c, d)), s2).
Proof.
  induction s as [|x s IH]; intros addr a b c d Ha Hb Hc Hd.
  - exists [], []. split; reflexivity.
  - cbn [mask_align]. destruct (addr mod 4 =? 0).
    + exists [], (x :: s). split; reflexivity.
    + rewrite rotl8_oct by auto.
      destruct (IH (addr + 1) b c d a) as (s1 & s2 & -> & He); auto.
      exists (x :: s1), s2. split; [reflexivity|]. rewrite He.
      cbn [mask_spec length rot4]. f_equal. f_equal. f_equal. f_equal.
      unfold of_oct, byte in *. lia.
Qed.

Lemma bswap32_oct a b c d : byte a -> byte b -> byte c -> byte d ->
  bswap32 (of_oct a b c d) = a + 256 * (b + 256 * (c + 256 * d)).
Proof.
  intros Ha Hb Hc Hd. unfold bswap32, load_be, store_le, fold_left.
  unfold of_oct, byte in *.
  assert (H0 : (((a * 256 + b) * 256 + c) * 256 + d) mod 256 = d) by lia.
  assert (H1 : (((a * 256 + b) * 256 + c) * 256 + d) / 256 = (a * 256 + b) * 256 + c) by lia.
  assert (H2 : ((a * 256 + b) * 256 + c) mod 256 = c) by lia.
  assert (H3 : ((a * 256 + b) * 256 + c) / 256 = a * 256 + b) by lia.
  assert (H4 : (a * 256 + b) mod 256 = b) by lia.
  assert (H5 : (a * 256 + b) / 256 = a) by lia.
  rewrite H0, H1, H2, H3, H4, H5. rewrite (Z.mod_small a) by lia. ring.
Qed.

Lemma xor_word_spec a b c d w x y z :
  byte a -> byte b -> byte c -> byte d -> byte w -> byte x -> byte y -> byte z ->
  xor_word (a + 256 * (b + 256 * (c + 256 * d))) [w; x; y; z]
  = mask_spec a b c d [w; x; y; z].
Proof.
  intros Ha Hb Hc Hd Hw Hx Hy Hz. unfold xor_word. cbn [load_le mask_spec].
  unfold byte in *.
  rewrite !lxor_split by (unfold byte; lia).
  replace (z + 256 * 0) with z by lia.
  change [Z.lxor w a; Z.lxor x b; Z.lxor y c; Z.lxor z d] with
    (let s := [Z.lxor w a; Z.lxor x b; Z.lxor y c; Z.lxor z d] in s).
  cbv zeta. rewrite <- (store_le_load [Z.lxor w a; Z.lxor x b; Z.lxor y c; Z.lxor z d]).
  - cbn [length load_le]. f_equal. lia.
  - repeat constructor; apply lxor_byte; unfold byte; lia.
Qed.

Lemma four_bytes (s : list Z) : bytes s -> length s = 4%nat ->
  exists w x y z, s = [w; x; y; z] /\ byte w /\ byte x /\ byte y /\ byte z.
Proof.
  intros H L. destruct s as [|w [|x [|y [|z [|]]]]]; try discriminate L.
  exists w, x, y, z. inversion_clear H as [|? ? H1 H2]. inversion_clear H2 as [|? ? H3 H4].
  inversion_clear H4 as [|? ? H5 H6]. inversion_clear H6. auto.
Qed.

Lemma xor_word4 a b c d s :
  byte a -> byte b -> byte c -> byte d -> bytes s -> length s = 4%nat ->
  xor_word (a + 256 * (b + 256 * (c + 256 * d))) s = mask_spec a b c d s.
Proof.
  intros Ha Hb Hc Hd Hs L. destruct (four_bytes s Hs L) as (w & x & y & z & -> & ? & ? & ? & ?).
  apply xor_word_spec; auto.
Qed.

Lemma rot4_mul4 n k : rot4 (4 * n) k = k.
Proof.
  induction n; [reflexivity|].
  replace (4 * S n)%nat with (4 + 4 * n)%nat by lia. now rewrite rot4_add, rot4_4.
Qed.

Lemma xor_lanes_spec n : forall a b c d s,
  byte a -> byte b -> byte c -> byte d -> bytes s -> length s = (4 * n)%nat ->
  xor_lanes n (a + 256 * (b + 256 * (c + 256 * d))) s = mask_spec a b c d s.
Proof.
  induction n; intros a b c d s Ha Hb Hc Hd Hs L.
  - destruct s; [reflexivity|simpl in L; lia].
  - cbn [xor_lanes].
    assert (L4 : length (firstn 4 s) = 4%nat) by (rewrite firstn_length; lia).
    rewrite xor_word4 by (auto using bytes_firstn).
    rewrite IHn by (auto using bytes_skipn; rewrite skipn_length; lia).
    rewrite <- (firstn_skipn 4 s) at 3. rewrite mask_spec_app, L4, rot4_4. reflexivity.
Qed.

Lemma mask_words_spec fuel : forall a b c d s,
  byte a -> byte b -> byte c -> byte d -> bytes s -> (length s <= fuel)%nat ->
  exists s1 s2 n, s = s1 ++ s2 /\ length s1 = (4 * n)%nat /\ (length s2 < 4)%nat /\
  mask_words fuel (a + 256 * (b + 256 * (c + 256 * d))) s = (mask_spec a b c d s1, s2).
Proof.
  induction fuel; intros a b c d s Ha Hb Hc Hd Hs L.
  - exists [], s, 0%nat. destruct s; [|simpl in L; lia]. repeat split. simpl; lia.
  - cbn [mask_words].
    destruct (Nat.leb_spec 32 (length s)).
    + destruct (IHfuel a b c d (skipn 32 s)) as (s1 & s2 & n & E & L1 & L2 & He);
        auto using bytes_skipn. { rewrite skipn_length; lia. }
      rewrite He. exists (firstn 32 s ++ s1), s2, (8 + n)%nat.
      assert (L32 : length (firstn 32 s) = 32%nat) by (rewrite firstn_length; lia).
      repeat split; auto.
      * rewrite <- app_assoc, <- E. symmetry; apply firstn_skipn.
      * rewrite app_length; lia.
      * rewrite xor_lanes_spec by (auto using bytes_firstn; lia).
        rewrite mask_spec_app, L32. change 32%nat with (4 * 8)%nat. now rewrite rot4_mul4.
    + destruct (Nat.leb_spec 4 (length s)).
      * destruct (IHfuel a b c d (skipn 4 s)) as (s1 & s2 & n & E & L1 & L2 & He);
          auto using bytes_skipn. { rewrite skipn_length; lia. }
        rewrite He. exists (firstn 4 s ++ s1), s2, (1 + n)%nat.
        assert (L4 : length (firstn 4 s) = 4%nat) by (rewrite firstn_length; lia).
        repeat split; auto.
        -- rewrite <- app_assoc, <- E. symmetry; apply firstn_skipn.
        -- rewrite app_length; lia.
        -- rewrite xor_word4 by (auto using bytes_firstn).
           rewrite mask_spec_app, L4, rot4_4. reflexivity.
      * exists [], s, 0%nat. repeat split; auto.
Qed.

Lemma rot4_bytes n : forall a b c d a' b' c' d',
  byte a -> byte b -> byte c -> byte d -> rot4 n (a, b, c, d) = (a', b', c', d') ->
  byte a' /\ byte b' /\ byte c' /\ byte d'.
Proof.
  induction n; intros a b c d a' b' c' d' Ha Hb Hc Hd E; simpl in E.
  - injection E as <- <- <- <-. auto.
  - eapply IHn in E; eauto.
Qed.

Lemma mask_spec_zero s : bytes s -> mask_spec 0 0 0 0 s = s.
Proof.
  induction 1 as [|b s Hb Hs IH]; [reflexivity|]. cbn [mask_spec]. rewrite Z.lxor_0_r, IH. reflexivity.
Qed.

Lemma rot4_zero n : rot4 n (0, 0, 0, 0) = (0, 0, 0, 0).
Proof. induction n; simpl; auto. Qed.

Theorem mask_payload_spec addr h s a b c d :
  bytes s -> h_masked h = true -> byte a -> byte b -> byte c -> byte d ->
  h_key h = of_oct a b c d ->
  mask_payload addr h s
  = (mask_spec a b c d s, set_key h (ofk (rot4 (length s) (a, b, c, d)))).
Proof.
  intros Hs Hm Ha Hb Hc Hd Hk. unfold mask_payload. rewrite Hm. cbn [negb orb].
  destruct (Z.eqb_spec (h_key h) 0) as [Hz|Hz].
  - assert (a = 0 /\ b = 0 /\ c = 0 /\ d = 0) as (-> & -> & -> & ->).
    { rewrite Hk in Hz. unfold of_oct, byte in *. lia. }
    rewrite mask_spec_zero by auto. rewrite rot4_zero. f_equal.
    cbn [ofk]. replace (of_oct 0 0 0 0) with (h_key h) by (rewrite Hz; reflexivity).
    destruct h; reflexivity.
  - rewrite Hk. destruct (mask_align_spec s addr a b c d) as (s1 & s2 & -> & He); auto.
    rewrite He.
    destruct (rot4 (length s1) (a, b, c, d)) as [[[a1 b1] c1] d1] eqn:Er.
    destruct (rot4_bytes _ _ _ _ _ _ _ _ _ Ha Hb Hc Hd Er) as (Ha1 & Hb1 & Hc1 & Hd1).
    cbn [ofk]. rewrite bswap32_oct by auto.
    apply bytes_app in Hs. destruct Hs as [Hs1 Hs2].
    destruct (mask_words_spec (length s2) a1 b1 c1 d1 s2) as (s3 & s4 & n & -> & L3 & L4 & Hw); auto.
    rewrite Hw. rewrite mask_tail_spec by auto.
    f_equal.
    + rewrite mask_spec_app, Er. rewrite mask_spec_app, L3, rot4_mul4. reflexivity.
    + f_equal. f_equal. rewrite !app_length, rot4_add, Er, L3, rot4_add, rot4_mul4. reflexivity.
Qed.

Lemma key_octet_nth a b c d i : byte a -> byte b -> byte c -> byte d ->
  rfc_key_octet (of_oct a b c d) i = nth (i mod 4) [a; b; c; d] 0.
Proof.
  intros. unfold rfc_key_octet. fold (koct (of_oct a b c d)). now rewrite koct_of_oct.
Qed.

Theorem mask_payload_rfc addr h s out h' :
  bytes s -> u32 (h_key h) -> h_masked h = true ->
  mask_payload addr h s = (out, h') ->
  rfc_masked (h_key h) s out.
Proof.
  intros Hs Hk Hm E.
  destruct (of_oct_koct (h_key h) Hk) as (a & b & c & d & Ha & Hb & Hc & Hd & Hk' & _).
  rewrite (mask_payload_spec addr h s a b c d) in E by auto.
  injection E as <- _. split. apply mask_spec_length.
  intros i Hi. rewrite mask_spec_nth by auto. rewrite Hk', key_octet_nth by auto. reflexivity.
Qed.

(** Masking piece by piece, with the header carried over and any buffer
    addresses, is masking at once. *)
Theorem mask_payload_split addr1 addr2 addr3 h s t :
  bytes s -> bytes t -> u32 (h_key h) ->
  mask_payload addr1 h (s ++ t)
  = (let '(o1, h1) := mask_payload addr2 h s in
     let '(o2, h2) := mask_payload addr3 h1 t in (o1 ++ o2, h2)).
Proof.
  intros Hs Ht Hk. destruct (h_masked h) eqn:Hm.
  - destruct (of_oct_koct (h_key h) Hk) as (a & b & c & d & Ha & Hb & Hc & Hd & Hk' & _).
    rewrite (mask_payload_spec addr1 h _ a b c d) by (auto; apply bytes_app; auto).
    rewrite (mask_payload_spec addr2 h s a b c d) by auto.
    destruct (rot4 (length s) (a, b, c, d)) as [[[a1 b1] c1] d1] eqn:Er.
    destruct (rot4_bytes _ _ _ _ _ _ _ _ _ Ha Hb Hc Hd Er) as (Ha1 & Hb1 & Hc1 & Hd1).
    rewrite (mask_payload_spec addr3 _ t a1 b1 c1 d1) by auto.
    rewrite mask_spec_app, app_length, rot4_add, Er. destruct h; reflexivity.
  - unfold mask_payload. rewrite Hm. cbn [negb orb]. rewrite Hm. reflexivity.
Qed.

Lemma mask_spec_bytes s : forall a b c d, bytes s -> byte a -> byte b -> byte c -> byte d ->
  bytes (mask_spec a b c d s).
Proof.
  induction s; intros; constructor; inversion_clear H; auto using lxor_byte. apply IHs; auto.
Qed.

Lemma mask_spec_invol s : forall a b c d, mask_spec a b c d (mask_spec a b c d s) = s.
Proof.
  induction s as [|x s IH]; intros; [reflexivity|]. cbn [mask_spec]. rewrite IH.
  now rewrite Z.lxor_assoc, Z.lxor_nilpotent, Z.lxor_0_r.
Qed.

Theorem mask_payload_involutive addr1 addr2 h s :
  bytes s -> u32 (h_key h) ->
  fst (mask_payload addr2 h (fst (mask_payload addr1 h s))) = s.
Proof.
  intros Hs Hk. destruct (h_masked h) eqn:Hm.
  - destruct (of_oct_koct (h_key h) Hk) as (a & b & c & d & Ha & Hb & Hc & Hd & Hk' & _).
    rewrite (mask_payload_spec addr1 h s a b c d) by auto. cbn [fst].
    rewrite (mask_payload_spec addr2 h _ a b c d) by (auto using mask_spec_bytes).
    apply mask_spec_invol.
  - unfold mask_payload. rewrite Hm. reflexivity.
Qed.
