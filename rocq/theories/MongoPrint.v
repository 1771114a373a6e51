(** Proofs about the text of MongoDB values. *)
From Coq Require Import List ZArith Bool Lia Arith ZifyBool ZifyNat.
From Coq Require Import String.
From Verif Require Import Base BaseLemmas Text NetrefSpec JsonModel JsonSpec RedisSpec.
From Verif Require RedisModel RedisProofs.
From Verif Require Import MongoModel MongoSpec MongoProofs.
Import ListNotations.
Open Scope list_scope.
Open Scope Z_scope.
Notation length := List.length.
Ltac Zify.zify_post_hook ::= Z.div_mod_to_equations.

(** *** Base64 *)

Lemma base64_value_char v : 0 <= v < 64 -> base64_value (base64_char v) = Some v /\ base64_char v <> 61.
Proof.
  intros H. unfold base64_value, base64_char.
  destruct (v <? 26) eqn:E1; [replace (_ && _) with true by lia; split; [f_equal|]; lia|].
  destruct (v <? 52) eqn:E2.
  { replace ((65 <=? 71 + v) && (71 + v <=? 90)) with false by lia. replace (_ && _) with true by lia. split; [f_equal|]; lia. }
  destruct (v <? 62) eqn:E3.
  { replace ((65 <=? v - 4) && (v - 4 <=? 90)) with false by lia. replace ((97 <=? v - 4) && (v - 4 <=? 122)) with false by lia.
    replace (_ && _) with true by lia. split; [f_equal|]; lia. }
  destruct (v =? 62) eqn:E4; cbn; split; [f_equal; lia|lia|f_equal; lia|lia].
Qed.

Lemma triples (P : list Z -> Prop) : P [] -> (forall a, P [a]) -> (forall a b, P [a; b]) ->
  (forall a b c s, P s -> P (a :: b :: c :: s)) -> forall s, P s.
Proof.
  intros H0 H1 H2 H3. fix F 1. intros [|a [|b [|c s]]]; [exact H0|apply H1|apply H2|apply H3, F].
Qed.

Lemma decode_char a b c d s x y z w : base64_value a = Some x -> base64_value b = Some y -> base64_value c = Some z ->
  base64_value d = Some w -> c <> 61 -> d <> 61 ->
  base64_decode (a :: b :: c :: d :: s) =
  match base64_decode s with
  | Some r => Some (x * 4 + y / 16 :: y mod 16 * 16 + z / 4 :: z mod 4 * 64 + w :: r)
  | None => None
  end.
Proof.
  intros Ha Hb Hc Hd Nc Nd. cbn [base64_decode]. rewrite Ha, Hb, Hc, Hd.
  replace (c =? 61) with false by lia. replace (d =? 61) with false by lia. reflexivity.
Qed.

Lemma decode_encode s : Forall byte s -> base64_decode (encode_block s) = Some s.
Proof.
  induction s as [|a|a b|a b c s IH] using triples; intros B; unfold byte in B.
  - reflexivity.
  - inversion B; subst. cbn [encode_block base64_decode].
    rewrite (proj1 (base64_value_char (a / 4) ltac:(lia))), (proj1 (base64_value_char (a mod 4 * 16) ltac:(lia))).
    change (61 =? 61) with true. cbn [andb]. replace (a mod 4 * 16 mod 16 =? 0) with true by lia. f_equal. f_equal. lia.
  - inversion B as [|? ? Ba B']; inversion B' as [|? ? Bb _]; subst. cbn [encode_block base64_decode].
    rewrite (proj1 (base64_value_char (a / 4) ltac:(lia))), (proj1 (base64_value_char (a mod 4 * 16 + b / 16) ltac:(lia))).
    destruct (base64_value_char (b mod 16 * 4) ltac:(lia)) as [V N]. rewrite V.
    replace (base64_char (b mod 16 * 4) =? 61) with false by lia. cbn [andb]. change (61 =? 61) with true. cbv iota.
    replace (b mod 16 * 4 mod 4 =? 0) with true by lia. f_equal. apply f_equal2; [lia|]. apply f_equal2; [lia|reflexivity].
  - inversion B as [|? ? Ba B']; inversion B' as [|? ? Bb B'']; inversion B'' as [|? ? Bc Bs]; subst. cbn [encode_block].
    destruct (base64_value_char (a / 4) ltac:(lia)) as [V1 _].
    destruct (base64_value_char (a mod 4 * 16 + b / 16) ltac:(lia)) as [V2 _].
    destruct (base64_value_char (b mod 16 * 4 + c / 64) ltac:(lia)) as [V3 N3].
    destruct (base64_value_char (c mod 64) ltac:(lia)) as [V4 N4].
    rewrite (decode_char _ _ _ _ _ _ _ _ _ V1 V2 V3 V4 N3 N4), (IH Bs). f_equal.
    apply f_equal2; [lia|]. apply f_equal2; [lia|]. apply f_equal2; [lia|reflexivity].
Qed.

Lemma encode_block_length s : length (encode_block s) = ((length s + 2) / 3 * 4)%nat.
Proof.
  induction s as [|a|a b|a b c s IH] using triples; try reflexivity.
  cbn [encode_block List.length]. rewrite IH. replace (S (S (S (length s))) + 2)%nat with (length s + 2 + 1 * 3)%nat by lia.
  rewrite Nat.div_add by lia. lia.
Qed.

Lemma encode_block_app s : forall t n, length s = (3 * n)%nat -> encode_block (s ++ t) = encode_block s ++ encode_block t.
Proof.
  induction s as [|a|a b|a b c s IH] using triples; intros t n L; cbn [List.length] in L; try lia; [reflexivity|].
  change ((a :: b :: c :: s) ++ t) with (a :: b :: c :: (s ++ t)). cbn [encode_block app].
  rewrite (IH t (n - 1)%nat) by lia. reflexivity.
Qed.

Lemma encode_blocks_all fuel : forall s, (length s <= fuel)%nat -> encode_blocks fuel s = encode_block s.
Proof.
  induction fuel as [|fuel IH]; intros s L; [destruct s; [reflexivity|cbn in L; lia]|].
  destruct s as [|a s]; [reflexivity|]. cbn [encode_blocks]. cbv zeta. set (t := a :: s) in *.
  rewrite <- encode_block_length, firstn_all. rewrite IH by (rewrite skipn_length; cbn [List.length t] in *; unfold t; cbn [List.length]; unfold t in L; cbn [List.length] in L; lia).
  destruct (Nat.le_gt_cases 48 (length t)) as [Lt|Lt].
  - rewrite <- (encode_block_app (firstn 48 t) (skipn 48 t) 16) by (rewrite firstn_length, Nat.min_l by lia; reflexivity).
    rewrite firstn_skipn. reflexivity.
  - rewrite firstn_all2, skipn_all2 by lia. apply app_nil_r.
Qed.

(** *** Milliseconds *)

Lemma round53_close x : 0 <= x -> - x <= (round53 x - x) * 2 ^ 53 <= x.
Proof.
  intros Hx. unfold round53. cbv zeta. destruct (Z.leb_spec (Z.log2 x - 52) 0) as [K|K].
  { rewrite Z.sub_diag. lia. }
  assert (Hp : 0 < x) by (destruct (Z.eq_dec x 0) as [->|]; [cbn in K; lia|lia]).
  destruct (Z.log2_spec x Hp) as [L _]. set (k := Z.log2 x - 52) in *.
  assert (E : 2 ^ Z.log2 x = 2 ^ 52 * 2 ^ k) by (rewrite <- Z.pow_add_r by lia; f_equal; unfold k; lia).
  assert (U : 0 < 2 ^ k) by (apply Z.pow_pos_nonneg; lia). set (u := 2 ^ k) in *. clearbody u. rewrite E in L.
  pose proof (Z.div_mod x u ltac:(lia)) as D. pose proof (Z.mod_pos_bound x u U) as M.
  change (2 ^ 53) with (2 * 2 ^ 52). change (2 ^ 52) with 4503599627370496 in *.
  set (q := x / u) in *. set (r := x mod u) in *. clearbody q r.
  Ltac Zify.zify_post_hook ::= idtac.
  destruct ((2 * r <? u) || ((2 * r =? u) && Z.even q)) eqn:C.
  - replace (q * u - x) with (- r) by lia. lia.
  - replace ((q + 1) * u - x) with (u - r) by lia. lia.
  Ltac Zify.zify_post_hook ::= Z.div_mod_to_equations.
Qed.

Lemma print_ms_close ns : - 2 ^ 63 <= ns <= 2 ^ 63 ->
  - 1010000 < ns - print_ms ns * 1000000 < 1010000 /\ - 2 ^ 62 < print_ms ns < 2 ^ 62.
Proof.
  assert (P : forall n, 0 <= n <= 2 ^ 63 ->
    - 10000 < n - round53 (round53 n * micro) / 2 ^ 72 * 1000000 < 1010000
    /\ - 2 ^ 62 < round53 (round53 n * micro) / 2 ^ 72 < 2 ^ 62).
  { intros n Hn. pose proof (round53_close n ltac:(lia)) as A. set (r := round53 n) in *.
    assert (Hr : 0 <= r) by (change (2 ^ 53) with 9007199254740992 in A; lia).
    pose proof (round53_close (r * micro) ltac:(unfold micro; lia)) as B. set (p := round53 (r * micro)) in *. clearbody r p.
    unfold micro in B. change (2 ^ 53) with 9007199254740992 in *. change (2 ^ 63) with 9223372036854775808 in *.
    change (2 ^ 72) with 4722366482869645213696. change (2 ^ 62) with 4611686018427387904. lia. }
  intros H. unfold print_ms. cbv zeta. destruct (Z.ltb_spec ns 0).
  - destruct (P (- ns) ltac:(lia)) as [P1 P2]. set (q := _ / _) in *. clearbody q.
    change (2 ^ 62) with 4611686018427387904 in *. split; lia.
  - destruct (P ns ltac:(lia)) as [P1 P2]. set (q := _ / _) in *. clearbody q.
    change (2 ^ 62) with 4611686018427387904 in *. split; lia.
Qed.

(** *** Object identifiers *)

Lemma hex_lower_value v : 0 <= v < 16 -> hex_value (hex_lower v) = Some v.
Proof.
  intros H. unfold hex_value, hex_lower. destruct (v <? 10) eqn:E.
  - replace (_ && _) with true by lia. f_equal. lia.
  - replace ((48 <=? 87 + v) && (87 + v <=? 57)) with false by lia.
    replace ((65 <=? 87 + v) && (87 + v <=? 70)) with false by lia.
    replace ((97 <=? 87 + v) && (87 + v <=? 102)) with true by lia. f_equal. lia.
Qed.

Lemma oid_hex s : Forall byte s -> hex_text s (oid_text s).
Proof.
  unfold oid_text, byte. induction 1 as [|b s H _ IH]; cbn [map List.concat app]; [constructor|].
  constructor; [apply hex_lower_value; lia|apply hex_lower_value; lia|exact IH].
Qed.

(** *** The whole text *)

Section printing.
  Variable put_xu8 : Z -> list Z.
  Variable junk : Z.
  Variable double_text : Z -> list Z.
  Notation quote := (quote_json_string put_xu8 junk).
  Notation psteps := (psteps put_xu8 junk double_text).

  Lemma psteps_app n : forall m s, psteps (n + m) s = psteps m (psteps n s).
  Proof. induction n as [|n IH]; intros m s; cbn [MongoModel.psteps Nat.add]; [reflexivity|apply IH]. Qed.

  Lemma psteps_printed n t stk : psteps n (t, Printed, stk) = (t, Printed, stk).
  Proof. induction n as [|n IH]; [reflexivity|]. cbn [MongoModel.psteps pstep]. exact IH. Qed.

  Definition prints (v : value) (u : list Z) : Prop := forall t stack,
    exists n, (n <= 2 * weight v - 1)%nat /\ psteps n (t, Print v, stack) = (t ++ u, Next, stack).

  Lemma prints_elements l0 : forall vs us, Forall2 prints vs us -> forall v u pre t stack, prints v u ->
    l0 = pre ++ v :: vs ->
    exists n, (n <= 2 * (weight v + fold_right (fun r n => (weight r + n)%nat) O vs) + 1)%nat
      /\ psteps n (t, Print v, At_array l0 (length pre) :: stack)
         = (t ++ comma_separated (u :: us) ++ [93], Next, stack).
  Proof.
    induction vs as [|v' vs IH]; intros us H2 v u pre t stack Hv ->; inversion H2 as [|? y ? ys Hy Hys]; subst; clear H2.
    - destruct (Hv t (At_array (pre ++ [v]) (length pre) :: stack)) as (n & Hn & E). exists (n + 1)%nat.
      cbn [fold_right] in *. pose proof (weight_pos v). split; [lia|]. rewrite psteps_app, E. cbn [MongoModel.psteps pstep].
      destruct (nth_error (pre ++ [v]) (S (length pre))) eqn:C.
      { assert (nth_error (pre ++ [v]) (S (length pre)) <> None) as D by congruence. apply nth_error_Some in D.
        rewrite app_length in D. cbn [List.length] in D. lia. }
      cbn [comma_separated]. rewrite <- app_assoc. reflexivity.
    - destruct (Hv t (At_array (pre ++ v :: v' :: vs) (length pre) :: stack)) as (n & Hn & E).
      destruct (IH _ Hys v' y (pre ++ [v]) ((t ++ u) ++ [44]) stack Hy) as (m & Hm & E').
      { rewrite <- app_assoc. reflexivity. }
      exists (n + (1 + m))%nat. cbn [fold_right] in *. pose proof (weight_pos v). split; [lia|]. rewrite psteps_app, E.
      cbn [MongoModel.psteps pstep Nat.add]. rewrite nth_error_app2 by lia.
      replace (S (length pre) - length pre)%nat with 1%nat by lia. cbn [nth_error].
      rewrite app_length in E'. cbn [List.length] in E'. rewrite Nat.add_1_r in E'. rewrite E'.
      change (comma_separated (u :: y :: ys)) with (u ++ [44] ++ comma_separated (y :: ys)).
      rewrite <- !app_assoc. reflexivity.
  Qed.

  Definition named (k u : list Z) : list Z := quote k ++ [58] ++ u.

  Lemma prints_members l0 : forall kvs us, Forall2 (fun kv u => prints (snd kv) u) kvs us ->
    forall k v u pre t stack, prints v u -> l0 = pre ++ (k, v) :: kvs ->
    exists n, (n <= 2 * (weight v + fold_right (fun r n => (weight (snd r) + n)%nat) O kvs) + 1)%nat
      /\ psteps n (t ++ quote k ++ [58], Print v, At_document l0 (length pre) :: stack)
         = (t ++ comma_separated (named k u :: map (fun x => named (fst (fst x)) (snd x)) (combine kvs us)) ++ [125], Next, stack).
  Proof.
    induction kvs as [|[k' v'] kvs IH]; intros us H2 k v u pre t stack Hv ->; inversion H2 as [|? y ? ys Hy Hys]; subst; clear H2.
    - destruct (Hv (t ++ quote k ++ [58]) (At_document (pre ++ [(k, v)]) (length pre) :: stack)) as (n & Hn & E). exists (n + 1)%nat.
      cbn [fold_right] in *. pose proof (weight_pos v). split; [lia|]. rewrite psteps_app, E. cbn [MongoModel.psteps pstep].
      destruct (nth_error (pre ++ [(k, v)]) (S (length pre))) eqn:C.
      { assert (nth_error (pre ++ [(k, v)]) (S (length pre)) <> None) as D by congruence. apply nth_error_Some in D.
        rewrite app_length in D. cbn [List.length] in D. lia. }
      cbn [combine map comma_separated]. unfold named. rewrite <- !app_assoc. reflexivity.
    - destruct (Hv (t ++ quote k ++ [58]) (At_document (pre ++ (k, v) :: (k', v') :: kvs) (length pre) :: stack)) as (n & Hn & E).
      cbn [snd] in Hy. destruct (IH _ Hys k' v' y (pre ++ [(k, v)]) ((t ++ named k u) ++ [44]) stack Hy) as (m & Hm & E').
      { rewrite <- app_assoc. reflexivity. }
      exists (n + (1 + m))%nat. cbn [fold_right snd] in *. pose proof (weight_pos v). split; [lia|]. rewrite psteps_app, E.
      cbn [MongoModel.psteps pstep Nat.add]. rewrite nth_error_app2 by lia.
      replace (S (length pre) - length pre)%nat with 1%nat by lia. cbn [nth_error].
      rewrite app_length in E'. cbn [List.length] in E'. rewrite Nat.add_1_r in E'.
      cbn [combine map fst snd].
      set (rest := map _ _) in *. change (comma_separated (named k u :: named k' y :: rest))
        with (named k u ++ [44] ++ comma_separated (named k' y :: rest)).
      unfold named at 1 in E'. rewrite <- !app_assoc in *. cbn [app] in *. exact E'.
  Qed.

  Lemma scalar_prints v : match v with Arr (_ :: _) | Doc (_ :: _) => False | _ => True end ->
    prints v (scalar_text put_xu8 junk double_text v).
  Proof.
    intros H t stack. exists 1%nat. split; [destruct v; cbn [weight]; lia|].
    destruct v as [| | | | | |[|]|[|]| |]; try contradiction; reflexivity.
  Qed.

  Lemma prints_all v : proper v -> exists u, text_of quote double_text v u /\ prints v u.
  Proof.
    induction v as [|b|n|x|s|s|l IH|l IH|s|n] using value_induct; intros W; inversion W; subst; clear W; try contradiction;
      try (eexists; split; [|apply scalar_prints; exact I]; cbn [scalar_text]).
    - constructor.
    - destruct b; constructor.
    - constructor. apply RedisProofs.put_int_text. assumption.
    - constructor.
    - constructor.
    - constructor. rewrite encode_blocks_all by lia. apply decode_encode. assumption.
    - assert (C : exists us, Forall2 (text_of quote double_text) l us /\ Forall2 prints l us).
      { clear - IH H0. induction l as [|v l IHl]; [exists []; split; constructor|].
        inversion IH as [|? ? A1 A2]; inversion H0 as [|? ? B1 B2]; subst.
        destruct (A1 B1) as (u & T & P). destruct (IHl A2 B2) as (us & Ts & Ps).
        exists (u :: us). split; constructor; assumption. }
      destruct C as (us & T & P). exists ([91] ++ comma_separated us ++ [93]). split; [constructor; exact T|].
      destruct l as [|v l]; inversion P as [|? y ? ys Hy Hys]; subst.
      + apply (scalar_prints (Arr [])). exact I.
      + intros t stack. destruct (prints_elements (v :: l) l ys Hys v y [] (t ++ [91]) stack Hy eq_refl) as (n & Hn & E).
        exists (1 + n)%nat. cbn [weight fold_right]. split; [lia|]. cbn [MongoModel.psteps pstep Nat.add].
        change O with (length (@nil value)). rewrite E. rewrite <- app_assoc. reflexivity.
    - assert (C : exists us, Forall2 (fun kv u => text_of quote double_text (snd kv) u) l us
        /\ Forall2 (fun kv u => prints (snd kv) u) l us).
      { clear - IH H0. induction l as [|v l IHl]; [exists []; split; constructor|].
        inversion IH as [|? ? A1 A2]; inversion H0 as [|? ? B1 B2]; subst.
        destruct (A1 B1) as (u & T & P). destruct (IHl A2 B2) as (us & Ts & Ps).
        exists (u :: us). split; constructor; assumption. }
      destruct C as (us & T & P).
      exists ([123] ++ comma_separated (map (fun x => named (fst (fst x)) (snd x)) (combine l us)) ++ [125]). split.
      + constructor. clear - T. induction T as [|kv u l us H _ IH]; cbn [combine map]; constructor; [|exact IH].
        exists u. split; [reflexivity|exact H].
      + destruct l as [|[k v] l]; inversion P as [|? y ? ys Hy Hys]; subst.
        * apply (scalar_prints (Doc [])). exact I.
        * intros t stack. cbn [snd] in Hy.
          destruct (prints_members ((k, v) :: l) l ys Hys k v y [] (t ++ [123]) stack Hy eq_refl) as (n & Hn & E).
          exists (1 + n)%nat. cbn [weight fold_right snd]. split; [lia|]. cbn [MongoModel.psteps pstep Nat.add].
          cbn [List.length] in E. rewrite <- !app_assoc in *. rewrite E. reflexivity.
    - constructor. apply oid_hex. assumption.
    - destruct (print_ms_close n ltac:(lia)) as [P1 P2]. econstructor; [exact P1|]. apply RedisProofs.put_int_text. lia.
  Qed.

  Lemma print_ok v : proper v -> exists u, print put_xu8 junk double_text v = Some u /\ text_of quote double_text v u.
  Proof.
    intros W. destruct (prints_all v W) as (u & T & P). exists u. split; [|exact T].
    destruct (P [] []) as (n & Hn & E). unfold print.
    replace (S (2 * weight v)) with (n + (1 + (2 * weight v - n)))%nat by lia.
    rewrite psteps_app, E. cbn [MongoModel.psteps pstep Nat.add]. rewrite psteps_printed. reflexivity.
  Qed.
End printing.
