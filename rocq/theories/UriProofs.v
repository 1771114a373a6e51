(** Proofs about URI query strings and paths. *)
From Coq Require Import ZArith List Lia Bool ZifyBool ZifyNat Arith.
From Verif Require Import Base BaseLemmas UriModel UriSpec.
Import ListNotations.
Open Scope Z_scope.
Ltac Zify.zify_post_hook ::= Z.div_mod_to_equations.

Lemma hexv_digit c : hexv c = digit_value c.
Proof.
  unfold hexv, digit_value. destruct (_ && _); [reflexivity|].
  destruct ((65 <=? c) && _); [f_equal; lia|]. destruct (_ && _); [f_equal; lia|reflexivity].
Qed.

Lemma digit_range c v : digit_value c = Some v -> 0 <= v < 16.
Proof.
  unfold digit_value. intros H.
  destruct ((48 <=? c) && (c <=? 57)) eqn:E1; [injection H as H; lia|].
  destruct ((65 <=? c) && (c <=? 70)) eqn:E2; [injection H as H; lia|].
  destruct ((97 <=? c) && (c <=? 102)) eqn:E3; [injection H as H; lia|discriminate].
Qed.

(** A digit is none of the special characters and is legal. *)
Lemma digit_plain c v : digit_value c = Some v ->
  query_char c = true /\ c <> 38 /\ c <> 37 /\ c <> 43 /\ c <> 61 /\ c < 128.
Proof.
  intros H. assert (R : 48 <= c <= 102).
  { unfold digit_value in H.
    destruct ((48 <=? c) && (c <=? 57)) eqn:E1; [lia|].
    destruct ((65 <=? c) && (c <=? 70)) eqn:E2; [lia|].
    destruct ((97 <=? c) && (c <=? 102)) eqn:E3; [lia|discriminate]. }
  assert (S : forallb (fun c => match digit_value c with
     | Some _ => query_char c && negb (c =? 61) | None => true end) (zrange 103) = true) by (vm_compute; reflexivity).
  assert (E := sweep 103 _ S c ltac:(lia)). cbv beta in E. rewrite H in E.
  apply andb_true_iff in E. destruct E. repeat split; auto; lia.
Qed.

Lemma pct_value a b : 0 <= a < 16 -> 0 <= b < 16 -> Z.lor (Z.shiftl a 4) b = 16 * a + b.
Proof.
  intros Ha Hb. rewrite Z.shiftl_mul_pow2 by lia. rewrite lor_shifted by (change (2 ^ 4) with 16; lia).
  change (2 ^ 4) with 16. lia.
Qed.

(** ** The query parser *)

Lemma bad_char_spec c : 0 <= c < 128 -> bad_char c = negb (query_char c).
Proof.
  intros H. apply eqb_prop.
  apply (sweep 128 (fun c => Bool.eqb (bad_char c) (negb (query_char c)))); [vm_compute; reflexivity|lia].
Qed.

Ltac dforall := match goal with |- context [forallb ?f ?l] => destruct (forallb f l) end.
Ltac dform := match goal with |- context [form_decode ?l] => destruct (form_decode l) end.

Definition plus (c : Z) : Z := if c =? 43 then 32 else c.
Definition legal (c : Z) : bool := (128 <=? c) || query_char c.

Lemma query_legal c : query_char c = true -> legal c = true.
Proof. unfold legal. intros ->. apply orb_true_r. Qed.

Fixpoint elem (s : list Z) : list Z :=
  match s with [] => [] | c :: r => if c =? 38 then [] else c :: elem r end.
Fixpoint after (s : list Z) : list Z :=
  match s with [] => [] | c :: r => if c =? 38 then s else after r end.

Lemma form_nil : form_decode [] = Some [].
Proof. reflexivity. Qed.

Lemma form_cons c s : c <> 37 ->
  form_decode (c :: s) = match form_decode s with Some t => Some (plus c :: t) | None => None end.
Proof.
  intros H. unfold form_decode. cbn [map pct_decode]. fold (plus c).
  assert (plus c =? 37 = false) as -> by (unfold plus; destruct (c =? 43) eqn:E; lia). reflexivity.
Qed.

Lemma form_pct a b s : form_decode (37 :: a :: b :: s)
  = match digit_value a, digit_value b, form_decode s with
    | Some x, Some y, Some t => Some (16 * x + y :: t) | _, _, _ => None end.
Proof.
  unfold form_decode. cbn [map pct_decode]. change (37 =? 43) with false. cbv iota. change (37 =? 37) with true. cbv iota.
  assert (P : forall c, digit_value (plus c) = digit_value c).
  { intros c. unfold plus. destruct (c =? 43) eqn:E; [|reflexivity]. assert (c = 43) as -> by lia. reflexivity. }
  fold (plus a) (plus b). rewrite !P. reflexivity.
Qed.

Lemma form_short x : form_decode (37 :: x) = 
  match x with
  | a :: b :: s => match digit_value a, digit_value b, form_decode s with
    | Some x, Some y, Some t => Some (16 * x + y :: t) | _, _, _ => None end
  | _ => None
  end.
Proof. destruct x as [|a [|b s]]; [reflexivity|reflexivity|apply form_pct]. Qed.

Lemma nonneg_cases c : byte c -> (c <? 128 = true /\ 0 <= c < 128 /\ legal c = query_char c) \/ (c <? 128 = false /\ legal c = true).
Proof. unfold byte, legal. intros H. destruct (c <? 128) eqn:E; [left|right].
  - assert (128 <=? c = false) as -> by lia. split; [auto|]. split; [lia|reflexivity].
  - assert (128 <=? c = true) as -> by lia. auto.
Qed.

(** What one scan does once the '=' has been seen. *)
Lemma scan_some n : forall s acc k, (length s <= n)%nat -> bytes s ->
  scan s acc (Some k) =
  if forallb legal (elem s) then
    match form_decode (elem s) with
    | Some t => ScanOk (acc ++ t) (Some k) (after s)
    | None => ScanErr
    end
  else ScanErr.
Proof.
  induction n as [|n IH]; intros s acc k L Hb.
  - destruct s; [|cbn in L; lia]. cbn. now rewrite app_nil_r.
  - destruct s as [|c r]; [cbn; now rewrite app_nil_r|].
    cbn [length] in L. inversion_clear Hb as [|? ? Hc Hr]. cbn [scan elem after].
    assert (IHr := fun acc => IH r acc k ltac:(lia) Hr).
    destruct (nonneg_cases c Hc) as [(Ec & Hc2 & EL)|(Ec & EL)]; rewrite Ec.
    + rewrite bad_char_spec by lia.
      destruct (query_char c) eqn:EQ; cbn [negb].
      * destruct (c =? 38) eqn:E38.
        { cbn. now rewrite app_nil_r. }
        cbn [forallb]. rewrite EL. cbn [andb].
        destruct (c =? 37) eqn:E37.
        { assert (c = 37) as -> by lia. rewrite form_short.
          destruct r as [|h1 [|h2 r']].
          - dforall; reflexivity.
          - cbn [elem]. destruct (h1 =? 38); dforall; reflexivity.
          - rewrite !hexv_digit. 
            destruct (digit_value h1) as [v1|] eqn:D1.
            2:{ cbn [elem]. destruct (h1 =? 38) eqn:?; [dforall; reflexivity|].
                destruct (h2 =? 38); [dforall; reflexivity|]. rewrite D1.
                dforall; reflexivity. }
            destruct (digit_plain _ _ D1) as (Q1 & N1 & _). cbn [elem].
            assert (h1 =? 38 = false) as -> by lia.
            destruct (digit_value h2) as [v2|] eqn:D2.
            2:{ destruct (h2 =? 38); [dforall; reflexivity|]. rewrite D1, D2.
                dforall; reflexivity. }
            destruct (digit_plain _ _ D2) as (Q2 & N2 & _).
            assert (h2 =? 38 = false) as -> by lia. cbn [after].
            assert (h1 =? 38 = false) as -> by lia. assert (h2 =? 38 = false) as -> by lia.
            inversion_clear Hr as [|? ? _ Hr']. inversion_clear Hr' as [|? ? _ Hr].
            rewrite (IH r') by (auto; cbn [length] in L; lia).
            cbn [forallb]. rewrite (query_legal _ Q1), (query_legal _ Q2). cbn [andb].
            destruct (forallb legal (elem r')); [|reflexivity].
            rewrite D1, D2. destruct (form_decode (elem r')); [|reflexivity].
            rewrite pct_value by (eapply digit_range; eauto). now rewrite <- app_assoc. }
        rewrite form_cons by lia.
        destruct (c =? 43) eqn:E43.
        { rewrite IHr. dforall; [|reflexivity]. dform; [|reflexivity].
          unfold plus. rewrite E43. now rewrite <- app_assoc. }
        rewrite andb_false_r. rewrite IHr. dforall; [|reflexivity].
        dform; [|reflexivity]. unfold plus. rewrite E43. now rewrite <- app_assoc.
      * destruct (c =? 38) eqn:E38.
        { assert (c = 38) as -> by lia. discriminate EQ. }
        cbn [forallb]. rewrite EL. reflexivity.
    + assert (c =? 38 = false) as -> by lia. cbn [forallb]. rewrite EL. cbn [andb].
      rewrite form_cons by lia. rewrite IHr. dforall; [|reflexivity].
      dform; [|reflexivity]. unfold plus. assert (c =? 43 = false) as -> by lia. now rewrite <- app_assoc.
Qed.

Lemma split_first_cons d c s : split_first d (c :: s) =
  if c =? d then ([], Some s) else (c :: fst (split_first d s), snd (split_first d s)).
Proof. cbn. destruct (c =? d); [reflexivity|]. destruct (split_first d s). reflexivity. Qed.

(** ... and from the start of an element. *)
Definition scan_spec (e rest acc : list Z) : scan_result :=
  if forallb legal e then
    let '(a, v) := split_first 61 e in
    match form_decode a with
    | None => ScanErr
    | Some t =>
        match v with
        | None => ScanOk (acc ++ t) None rest
        | Some v => match form_decode v with
                    | None => ScanErr
                    | Some u => ScanOk (acc ++ t ++ u) (Some (length (acc ++ t))) rest
                    end
        end
    end
  else ScanErr.

Lemma scan_none n : forall s acc, (length s <= n)%nat -> bytes s ->
  scan s acc None = scan_spec (elem s) (after s) acc.
Proof.
  induction n as [|n IH]; intros s acc L Hb.
  - destruct s; [|cbn in L; lia]. unfold scan_spec. cbn. now rewrite app_nil_r.
  - destruct s as [|c r]; [unfold scan_spec; cbn; now rewrite app_nil_r|].
    cbn [length] in L. inversion_clear Hb as [|? ? Hc Hr]. cbn [scan elem after].
    assert (IHr := fun acc => IH r acc ltac:(lia) Hr).
    destruct (nonneg_cases c Hc) as [(Ec & Hc2 & EL)|(Ec & EL)]; rewrite Ec.
    + rewrite bad_char_spec by lia.
      destruct (query_char c) eqn:EQ; cbn [negb].
      * destruct (c =? 38) eqn:E38.
        { unfold scan_spec. cbn. now rewrite app_nil_r. }
        destruct (c =? 37) eqn:E37.
        { assert (c = 37) as -> by lia.
          unfold scan_spec. cbn [forallb]. rewrite EL. cbn [andb].
          rewrite split_first_cons. change (37 =? 61) with false. cbv iota. rewrite form_short.
          destruct r as [|h1 [|h2 r']].
          - dforall; reflexivity.
          - cbn [elem]. destruct (h1 =? 38); [dforall; reflexivity|].
            rewrite split_first_cons. destruct (h1 =? 61); dforall; reflexivity.
          - rewrite !hexv_digit. 
            destruct (digit_value h1) as [v1|] eqn:D1.
            2:{ cbn [elem]. destruct (h1 =? 38) eqn:?; [dforall; reflexivity|].
                dforall; [|reflexivity].
                destruct (h2 =? 38).
                - rewrite split_first_cons. destruct (h1 =? 61); reflexivity.
                - rewrite !split_first_cons. destruct (h1 =? 61); [reflexivity|]. cbn [fst].
                  destruct (h2 =? 61); [reflexivity|]. cbn [fst]. rewrite D1. reflexivity. }
            destruct (digit_plain _ _ D1) as (Q1 & N1 & _ & _ & M1 & _). cbn [elem].
            assert (h1 =? 38 = false) as -> by lia.
            destruct (digit_value h2) as [v2|] eqn:D2.
            2:{ dforall; [|reflexivity]. rewrite split_first_cons. assert (h1 =? 61 = false) as -> by lia. cbn [fst].
                destruct (h2 =? 38); [reflexivity|]. rewrite split_first_cons.
                destruct (h2 =? 61); [reflexivity|]. cbn [fst]. rewrite D1, D2. reflexivity. }
            destruct (digit_plain _ _ D2) as (Q2 & N2 & _ & _ & M2 & _).
            assert (h2 =? 38 = false) as -> by lia. cbn [after].
            assert (h1 =? 38 = false) as -> by lia. assert (h2 =? 38 = false) as -> by lia.
            inversion_clear Hr as [|? ? _ Hr']. inversion_clear Hr' as [|? ? _ Hr].
            rewrite (IH r') by (auto; cbn [length] in L; lia).
            cbn [forallb]. rewrite (query_legal _ Q1), (query_legal _ Q2). cbn [andb].
            unfold scan_spec. destruct (forallb legal (elem r')); [|reflexivity].
            rewrite !split_first_cons. assert (h1 =? 61 = false) as -> by lia. assert (h2 =? 61 = false) as -> by lia.
            cbn [fst snd]. rewrite D1, D2. destruct (split_first 61 (elem r')) as [a v]. cbn [fst snd].
            destruct (form_decode a) as [t|]; [|reflexivity].
            rewrite pct_value by (eapply digit_range; eauto).
            destruct v as [v|]; [|now rewrite <- app_assoc].
            destruct (form_decode v); [|reflexivity]. cbn [app]. rewrite <- !app_assoc. reflexivity. }
        unfold scan_spec. cbn [forallb]. rewrite EL. cbn [andb]. rewrite split_first_cons.
        destruct (c =? 43) eqn:E43.
        { assert (c = 43) as -> by lia. change (43 =? 61) with false. cbv iota. rewrite form_cons by lia.
          rewrite IHr. unfold scan_spec.
          dforall; [|reflexivity]. destruct (split_first 61 (elem r)) as [a v]. cbn [fst snd].
          destruct (form_decode a); [|reflexivity]. change (plus 43) with 32.
          destruct v as [v|]; [|now rewrite <- app_assoc].
          destruct (form_decode v); [|reflexivity]. cbn [app]. rewrite <- !app_assoc. reflexivity. }
        rewrite andb_true_r. destruct (c =? 61) eqn:E61.
        { rewrite (scan_some n) by (auto; lia). rewrite form_nil. cbn [app]. rewrite app_nil_r.
          dforall; [|reflexivity]. dform; reflexivity. }
        rewrite form_cons by lia. rewrite IHr. unfold scan_spec.
        dforall; [|reflexivity]. destruct (split_first 61 (elem r)) as [a v]. cbn [fst snd].
        destruct (form_decode a); [|reflexivity]. unfold plus. rewrite E43.
        destruct v as [v|]; [|now rewrite <- app_assoc].
        destruct (form_decode v); [|reflexivity]. cbn [app]. rewrite <- !app_assoc. reflexivity.
      * destruct (c =? 38) eqn:E38.
        { assert (c = 38) as -> by lia. discriminate EQ. }
        unfold scan_spec. cbn [forallb]. rewrite EL. reflexivity.
    + assert (c =? 38 = false) as -> by lia. unfold scan_spec. cbn [forallb]. rewrite EL. cbn [andb].
      rewrite split_first_cons. assert (c =? 61 = false) as -> by lia. 
      rewrite form_cons by lia. rewrite IHr. unfold scan_spec.
      dforall; [|reflexivity]. destruct (split_first 61 (elem r)) as [a v]. cbn [fst snd].
      destruct (form_decode a); [|reflexivity]. unfold plus. assert (c =? 43 = false) as -> by lia.
      destruct v as [v|]; [|now rewrite <- app_assoc].
      destruct (form_decode v); [|reflexivity]. cbn [app]. rewrite <- !app_assoc. reflexivity.
Qed.

Lemma scan_pair s : bytes s ->
  match scan s [] None with
  | ScanErr => pair_of (elem s) = None
  | ScanOk acc None rest => pair_of (elem s) = Some (acc, None) /\ rest = after s
  | ScanOk acc (Some n) rest => pair_of (elem s) = Some (firstn n acc, Some (skipn n acc)) /\ rest = after s
  end.
Proof.
  intros Hb. rewrite (scan_none (length s)) by auto. unfold scan_spec, pair_of.
  change (fun c => (128 <=? c) || query_char c) with legal.
  destruct (forallb legal (elem s)); [|reflexivity]. destruct (split_first 61 (elem s)) as [a v].
  destruct (form_decode a) as [t|]; [|reflexivity]. destruct v as [v|]; [|auto].
  destruct (form_decode v) as [u|]; [|reflexivity]. cbn [app].
  rewrite firstn_app, skipn_app, Nat.sub_diag, firstn_all, skipn_all. cbn. rewrite app_nil_r. auto.
Qed.

Lemma split_elem s : split_on 38 s = elem s :: match after s with [] => [] | _ :: r => split_on 38 r end.
Proof.
  induction s as [|c r IH]; [reflexivity|]. cbn [split_on elem after].
  destruct (c =? 38); [reflexivity|]. rewrite IH. reflexivity.
Qed.

Lemma after_suffix s : exists p, s = p ++ after s.
Proof.
  induction s as [|c r IH]; [exists []; reflexivity|]. cbn [after]. destruct (c =? 38); [exists []; reflexivity|].
  destruct IH as [p E]. exists (c :: p). cbn. congruence.
Qed.

Lemma skipn_app_len {A} (p t : list A) : skipn (length p) (p ++ t) = t.
Proof. rewrite skipn_app, skipn_all, Nat.sub_diag. reflexivity. Qed.

Lemma q_run_spec : forall fuel s p t q, bytes s -> Z.of_nat (length s) < 2 ^ 63 ->
  s = p ++ t -> q_str q = s ->
  ((q_pos q = size_max /\ p = []) \/ (q_pos q = Z.of_nat (length p) - 1 /\ p <> [])) ->
  (length t + 2 <= fuel)%nat ->
  q_run fuel q = query_of t.
Proof.
  change (2 ^ 63) with 9223372036854775808.
  induction fuel as [|fuel IH]; intros s p t q Hb Hl Hs Hq Hpos Hf; [lia|].
  cbn [q_run]. unfold q_next. rewrite Hq.
  assert (Lp : length s = (length p + length t)%nat) by (rewrite Hs; apply app_length).
  assert (G : negb (q_pos q =? size_max) && (Z.of_nat (length s) <=? q_pos q) = false).
  { unfold size_max in *. destruct Hpos as [[E _]|[E Hne]]; [lia|].
    assert (0 < length p)%nat by (destruct p; [congruence|cbn; lia]). lia. }
  rewrite G. cbv zeta.
  assert (E1 : (q_pos q + 1) mod two64 = Z.of_nat (length p)).
  { unfold size_max, two64 in *. destruct Hpos as [[E ->]|[E Hne]]; rewrite E; [reflexivity|].
    replace (Z.of_nat (length p) - 1 + 1) with (Z.of_nat (length p)) by lia. apply Z.mod_small. lia. }
  rewrite E1, Nat2Z.id, Hs, skipn_app_len.
  assert (Hbt : bytes t) by (rewrite Hs in Hb; apply bytes_app in Hb; tauto).
  pose proof (scan_pair t Hbt) as SP. unfold query_of. rewrite split_elem. cbn [pairs_of].
  destruct (scan t [] None) as [|acc nlen rest].
  - rewrite SP. reflexivity.
  - destruct (after_suffix t) as [e Ee].
    assert (HR : rest = after t) by (destruct nlen; tauto). subst rest.
    set (pos' := Z.of_nat (length s) - Z.of_nat (length (after t))). 
    assert (Hle : (length t = length e + length (after t))%nat) by (rewrite Ee at 1; apply app_length).
    rewrite <- Hs. fold pos'.
    assert (Rest : forall name value, q_run fuel (mkQ s pos' name value)
       = pairs_of match after t with [] => [] | _ :: r => split_on 38 r end).
    { intros name value. destruct (after t) as [|x r] eqn:Ea.
      - destruct fuel as [|fuel']; [lia|]. cbn [q_run]. unfold q_next. cbn [q_str q_pos].
        assert (Ep : pos' = Z.of_nat (length s)) by (unfold pos'; cbn [length]; lia).
        assert (negb (pos' =? size_max) && (Z.of_nat (length s) <=? pos') = true) as ->.
        { rewrite Ep. unfold size_max. lia. }
        unfold q_error. cbn [q_pos pairs_of]. rewrite Ep. unfold error_pos. f_equal. lia.
      - apply (IH s (p ++ e ++ [x]) r); auto.
        + rewrite Hs, Ee. rewrite <- !app_assoc. reflexivity.
        + right. cbn [q_pos]. unfold pos'. cbn [length] in *. rewrite !app_length. cbn [length]. split; [lia|].
          intros C. apply (f_equal (@length Z)) in C. rewrite !app_length in C. cbn in C. lia.
        + cbn [length] in *. lia. }
    destruct nlen as [n|]; destruct SP as [SP _]; rewrite SP; cbn [q_name q_value]; rewrite Rest; reflexivity.
Qed.

Lemma parse_query_spec s : bytes s -> Z.of_nat (length s) < 2 ^ 63 -> parse_query s = query_of s.
Proof.
  intros Hb Hl. unfold parse_query. apply (q_run_spec _ s [] s); auto.
Qed.

(** ** The query encoder *)

Lemma udigit_value d : 0 <= d < 16 -> digit_value (udigit d) = Some d /\ query_char (udigit d) = true
  /\ unreserved (udigit d) = true /\ udigit d <> 38 /\ udigit d <> 61.
Proof.
  intros H. assert (S : forallb (fun d => (match digit_value (udigit d) with Some v => v =? d | None => false end)
      && query_char (udigit d) && unreserved (udigit d) && negb (udigit d =? 38) && negb (udigit d =? 61)) (zrange 16) = true) by reflexivity.
  assert (E := sweep 16 _ S d ltac:(lia)). cbv beta in E. rewrite !andb_true_iff in E.
  destruct (digit_value (udigit d)); [|intuition discriminate]. 
  destruct E as [[[[E1 E2] E3] E4] E5]. split; [f_equal; lia|]. repeat split; auto; lia.
Qed.

Lemma nibbles c : byte c -> Z.land (Z.shiftr c 4) 15 = c / 16 /\ Z.land c 15 = c mod 16.
Proof.
  intros H. unfold byte in H. rewrite Z.shiftr_div_pow2 by lia. change 15 with (Z.ones 4). rewrite !Z.land_ones by lia.
  change (2 ^ 4) with 16. split; [|reflexivity]. lia.
Qed.

Lemma escape_form c s : byte c -> form_decode (escape c ++ s) = match form_decode s with Some t => Some (c :: t) | None => None end.
Proof.
  intros H. unfold escape. cbn [app]. rewrite form_pct. destruct (nibbles c H) as [-> ->]. unfold byte in H.
  destruct (udigit_value (c / 16) ltac:(lia)) as [-> _]. destruct (udigit_value (c mod 16) ltac:(lia)) as [-> _].
  destruct (form_decode s); [|reflexivity]. do 2 f_equal. lia.
Qed.

Lemma encode_form b s : bytes s -> form_decode (flat_map (encode_query_char b) s) = Some s.
Proof.
  induction 1 as [|c s Hc Hs IH]; [reflexivity|]. cbn [flat_map]. unfold encode_query_char at 1.
  destruct (path_safe c || (b && (c =? 61))) eqn:E.
  - cbn [app]. rewrite form_cons, IH.
    + unfold plus. destruct (c =? 43) eqn:E2; [|reflexivity]. assert (c = 43) as -> by lia. destruct b; discriminate E.
    + intros ->. destruct b; discriminate E.
  - destruct (c =? 32) eqn:E2.
    + cbn [app]. rewrite form_cons, IH by lia. assert (c = 32) as -> by lia. reflexivity.
    + rewrite escape_form by auto. now rewrite IH.
Qed.

(** Every character that is written is legal, none is '&', and keys hold no '='. *)
Lemma encode_char_legal b c x : byte c -> In x (encode_query_char b c) ->
  query_char x = true /\ x <> 38 /\ (b = false -> x <> 61).
Proof.
  intros Hc. unfold encode_query_char. destruct (path_safe c || (b && (c =? 61))) eqn:E.
  - intros [<-|[]].
    assert (S : forallb (fun c => negb (path_safe c) || (query_char c && negb (c =? 38) && negb (c =? 61))) (zrange 256) = true)
      by (vm_compute; reflexivity).
    assert (Q := sweep_byte _ S c Hc). cbv beta in Q.
    destruct (path_safe c); cbn [negb orb] in *.
    + rewrite !andb_true_iff in Q. split; [tauto|]. split; [lia|]. lia.
    + assert (c = 61) as -> by lia. split; [reflexivity|]. split; [lia|]. intros ->. discriminate E.
  - destruct (c =? 32).
    + intros [<-|[]]. split; [reflexivity|]. lia.
    + destruct (nibbles c Hc) as [E1 E2]. unfold escape. rewrite E1, E2. unfold byte in Hc.
      destruct (udigit_value (c / 16) ltac:(lia)) as (_ & A1 & _ & A2 & A3).
      destruct (udigit_value (c mod 16) ltac:(lia)) as (_ & B1 & _ & B2 & B3).
      intros [<-|[<-|[<-|[]]]]; repeat split; auto; lia.
Qed.

Definition piece (kv : list Z * list Z) : list Z :=
  flat_map (encode_query_char false) (fst kv) ++ [61] ++ flat_map (encode_query_char true) (snd kv).

Definition pair_bytes (kv : list Z * list Z) : Prop := bytes (fst kv) /\ bytes (snd kv).

Lemma flat_legal b s x : bytes s -> In x (flat_map (encode_query_char b) s) ->
  query_char x = true /\ x <> 38 /\ (b = false -> x <> 61).
Proof.
  intros Hs Hx. apply in_flat_map in Hx. destruct Hx as (c & Hc & Hx).
  unfold bytes in Hs. rewrite Forall_forall in Hs. eapply encode_char_legal; eauto.
Qed.

Lemma piece_legal kv x : pair_bytes kv -> In x (piece kv) -> query_char x = true /\ x <> 38.
Proof.
  intros [Hk Hv] Hx. unfold piece in Hx. rewrite !in_app_iff in Hx. destruct Hx as [Hx|[[<-|[]]|Hx]].
  - destruct (flat_legal _ _ _ Hk Hx) as (A & B & _). auto.
  - split; [reflexivity|lia].
  - destruct (flat_legal _ _ _ Hv Hx) as (A & B & _). auto.
Qed.

Lemma split_first_app d a b : ~ In d a -> split_first d (a ++ d :: b) = (a, Some b).
Proof.
  induction a as [|c a IH]; intros H; cbn [app split_first].
  - now rewrite Z.eqb_refl.
  - assert (c =? d = false) as ->.
    { apply Z.eqb_neq. intros ->. apply H. now left. }
    rewrite IH; [reflexivity|]. intros C. apply H. now right.
Qed.

Lemma piece_pair kv : pair_bytes kv -> pair_of (piece kv) = Some (fst kv, Some (snd kv)).
Proof.
  intros H. unfold pair_of.
  assert (E : forallb (fun c => (128 <=? c) || query_char c) (piece kv) = true).
  { apply forallb_forall. intros x Hx. destruct (piece_legal kv x H Hx) as [-> _]. apply orb_true_r. }
  rewrite E. unfold piece. cbn [app]. destruct H as [Hk Hv]. rewrite split_first_app.
  - now rewrite !encode_form.
  - intros C. destruct (flat_legal _ _ _ Hk C) as (_ & _ & N). now apply N.
Qed.

Fixpoint join (ps : list (list Z)) : list Z :=
  match ps with [] => [] | [p] => p | p :: r => p ++ [38] ++ join r end.

Lemma piece_nonempty kv : piece kv <> [].
Proof. unfold piece. destruct (flat_map _ (fst kv)); discriminate. Qed.

Lemma encode_query_join kvs : encode_query kvs = join (map piece kvs).
Proof.
  assert (G : forall kvs acc, acc <> [] -> fold_left append_query kvs acc
     = acc ++ match kvs with [] => [] | _ => [38] ++ join (map piece kvs) end).
  { clear. induction kvs as [|kv kvs IH]; intros acc Ha; [now rewrite app_nil_r|].
    cbn [fold_left]. unfold append_query at 2. fold (piece kv).
    destruct acc as [|a acc]; [congruence|]. rewrite IH.
    - cbn [map join]. destruct kvs as [|kv2 kvs].
      + cbn [map]. rewrite app_nil_r. rewrite <- !app_assoc. reflexivity.
      + cbn [map]. rewrite <- !app_assoc. reflexivity.
    - intros C. apply app_eq_nil in C. destruct C as [_ C]. now apply piece_nonempty in C. }
  destruct kvs as [|kv kvs]; [reflexivity|]. unfold encode_query. cbn [fold_left]. unfold append_query at 2.
  fold (piece kv). cbn [app]. rewrite G by apply piece_nonempty. destruct kvs; [cbn; now rewrite app_nil_r|reflexivity].
Qed.

Lemma split_on_nosep d a : ~ In d a -> split_on d a = [a].
Proof.
  induction a as [|c a IH]; intros H; [reflexivity|]. cbn [split_on].
  assert (c =? d = false) as ->. { apply Z.eqb_neq. intros ->. apply H. now left. }
  rewrite IH; [reflexivity|]. intros C. apply H. now right.
Qed.

Lemma split_on_app d a b : ~ In d a -> split_on d (a ++ d :: b) = a :: split_on d b.
Proof.
  induction a as [|c a IH]; intros H; cbn [app split_on].
  - now rewrite Z.eqb_refl.
  - assert (c =? d = false) as ->. { apply Z.eqb_neq. intros ->. apply H. now left. }
    rewrite IH; [reflexivity|]. intros C. apply H. now right.
Qed.

Lemma split_join ps : ps <> [] -> Forall (fun p => ~ In 38 p) ps -> split_on 38 (join ps) = ps.
Proof.
  intros Hne H. induction H as [|p ps Hp Hps IH]; [congruence|]. destruct ps as [|q ps].
  - cbn [join]. now apply split_on_nosep.
  - change (join (p :: q :: ps)) with (p ++ 38 :: join (q :: ps)). rewrite split_on_app by auto.
    rewrite IH; [reflexivity|discriminate].
Qed.

Lemma query_round kvs : kvs <> [] -> Forall pair_bytes kvs ->
  query_of (encode_query kvs) = (map (fun kv => (fst kv, Some (snd kv))) kvs, false).
Proof.
  intros Hne H. unfold query_of. rewrite encode_query_join, split_join.
  - clear Hne. induction H as [|kv kvs Hkv Hk IH]; [reflexivity|]. cbn [map pairs_of].
    rewrite piece_pair by auto. now rewrite IH.
  - destruct kvs; [congruence|discriminate].
  - apply Forall_forall. intros p Hp. apply in_map_iff in Hp. destruct Hp as (kv & <- & Hin).
    rewrite Forall_forall in H. intros C. destruct (piece_legal kv 38 (H kv Hin) C) as [_ N]. congruence.
Qed.

Lemma encode_query_legal kvs : Forall pair_bytes kvs -> Forall (fun c => query_char c = true) (encode_query kvs).
Proof.
  intros H. rewrite encode_query_join. apply Forall_forall. intros x Hx.
  assert (G : forall ps, (forall p, In p ps -> forall y, In y p -> query_char y = true) -> In x (join ps) -> query_char x = true).
  { clear. induction ps as [|p ps IH]; intros Hp Hx; [destruct Hx|]. destruct ps as [|q ps].
    - cbn [join] in Hx. apply (Hp p); auto. now left.
    - change (join (p :: q :: ps)) with (p ++ 38 :: join (q :: ps)) in Hx. apply in_app_iff in Hx.
      destruct Hx as [Hx|[<-|Hx]]; [apply (Hp p); auto; now left|reflexivity|].
      apply IH; auto. intros p' Hp'. apply Hp. now right. }
  apply (G (map piece kvs)); [|exact Hx]. intros p Hp y Hy. apply in_map_iff in Hp. destruct Hp as (kv & <- & Hin).
  rewrite Forall_forall in H. now apply (piece_legal kv y (H kv Hin)).
Qed.

Lemma encode_query_bytes kvs : Forall pair_bytes kvs -> bytes (encode_query kvs).
Proof.
  intros H. apply encode_query_legal in H. eapply Forall_impl; [|exact H]. intros c Hc. cbv beta in Hc.
  unfold byte. unfold query_char, pchar, unreserved, sub_delim in Hc. cbn [existsb] in Hc. lia.
Qed.

(** ** Paths *)

Definition D (st : list (list Z)) : list Z := rev (dir_text st).

Lemma is_seg_spec a b : is_seg a b = true <-> a = b.
Proof. unfold is_seg. destruct (list_eq_dec Z.eq_dec a b); split; congruence. Qed.

Lemma D_nil : D [] = [47].
Proof. reflexivity. Qed.

Lemma dir_text_cons seg st : dir_text (seg :: st) = dir_text st ++ seg ++ [47].
Proof. unfold dir_text. cbn [rev]. rewrite flat_map_app. cbn [flat_map app]. now rewrite app_nil_r. Qed.

Lemma D_cons seg st : D (seg :: st) = 47 :: rev seg ++ D st.
Proof. unfold D. rewrite dir_text_cons. rewrite !rev_app_distr. reflexivity. Qed.

Lemma D_head st : exists r, D st = 47 :: r.
Proof. destruct st; [exists []; reflexivity|]. rewrite D_cons. eauto. Qed.

(** A run of non-slashes before a slash determines the last segment. *)
Lemma starts_run x : forall w r, ~ In 47 x -> ~ In 47 w ->
  starts (x ++ [47]) (w ++ 47 :: r) = is_seg w x.
Proof.
  induction x as [|a x IH]; intros w r Hx Hw.
  - destruct w as [|b w]; [reflexivity|]. cbn [app starts].
    assert (47 =? b = false) as ->. { apply Z.eqb_neq. intros <-. apply Hw. now left. }
    symmetry. apply not_true_is_false. rewrite is_seg_spec. discriminate.
  - destruct w as [|b w].
    + cbn [app starts]. assert (a =? 47 = false) as ->. { apply Z.eqb_neq. intros ->. apply Hx. now left. }
      symmetry. apply not_true_is_false. rewrite is_seg_spec. discriminate.
    + cbn [app starts]. rewrite IH; [|intros C; apply Hx; now right|intros C; apply Hw; now right].
      destruct (a =? b) eqn:E.
      * assert (a = b) as -> by lia. cbn [andb].
        destruct (is_seg w x) eqn:E2; symmetry.
        { apply is_seg_spec in E2. subst. now apply is_seg_spec. }
        apply not_true_is_false. rewrite is_seg_spec. intros C. injection C as ->.
        enough (is_seg x x = true) by congruence. now apply is_seg_spec.
      * cbn [andb]. symmetry. apply not_true_is_false. rewrite is_seg_spec. intros C. injection C as -> ->. lia.
Qed.

Lemma is_seg_rev w x : is_seg (rev w) (rev x) = is_seg w x.
Proof.
  apply eq_true_iff_eq. rewrite !is_seg_spec. split; [|congruence].
  intros H. apply (f_equal (@rev Z)) in H. now rewrite !rev_involutive in H.
Qed.

Lemma starts_seg x w st : ~ In 47 x -> ~ In 47 w ->
  starts (rev x ++ [47]) (rev w ++ D st) = is_seg w x.
Proof.
  intros Hx Hw. destruct (D_head st) as [r ->]. rewrite starts_run, is_seg_rev; auto;
    intros C; apply in_rev in C; auto.
Qed.

Lemma starts_closed x w st : ~ In 47 x -> ~ In 47 w ->
  starts (47 :: rev x ++ [47]) (47 :: rev w ++ D st) = is_seg w x.
Proof. intros. cbn [starts]. rewrite Z.eqb_refl. cbn [andb]. now apply starts_seg. Qed.

Ltac noslash := cbn; intuition discriminate.

Lemma starts_closed_open x w st : ~ In 47 x -> ~ In 47 w -> Forall proper st -> ~ proper x ->
  starts (47 :: rev x ++ [47]) (rev w ++ D st) = false.
Proof.
  intros Hx Hw Hst Hp. destruct w as [|a w] using rev_ind.
  - cbn [rev app]. destruct st as [|seg st]; [rewrite D_nil; cbn; destruct (rev x ++ [47]) eqn:E; [destruct (rev x); discriminate|reflexivity]|].
    rewrite D_cons. inversion_clear Hst as [|? ? Hseg _]. rewrite starts_closed by (auto; apply Hseg).
    apply not_true_is_false. rewrite is_seg_spec. intros ->. auto.
  - rewrite rev_app_distr. cbn [rev app starts].
    assert (47 =? a = false) as ->; [|reflexivity]. apply Z.eqb_neq. intros <-. apply Hw. apply in_or_app. right. now left.
Qed.

Lemma starts_open_closed x w st : x <> [] -> ~ In 47 x -> starts (rev x ++ [47]) (47 :: rev w ++ D st) = false.
Proof.
  intros Hne Hx. destruct x as [|a x] using rev_ind; [congruence|]. rewrite rev_app_distr. cbn [rev app starts].
  assert (a =? 47 = false) as ->; [|reflexivity]. apply Z.eqb_neq. intros ->. apply Hx. apply in_or_app. right. now left.
Qed.

Lemma pop_dot_dot_D st n r : Forall proper st -> skipn n r = D st -> pop_dot_dot n r = D (tl st).
Proof.
  intros Hst E. unfold pop_dot_dot. rewrite E. destruct st as [|seg st]; [reflexivity|].
  rewrite D_cons. cbn [length tl]. destruct (D_head st) as [d Ed].
  assert ((1 <? S (length (rev seg ++ D st)))%nat = true) as ->.
  { apply Nat.ltb_lt. rewrite Ed, app_length. cbn [length]. lia. }
  inversion_clear Hst as [|? ? Hseg _]. destruct Hseg as (_ & _ & _ & Hn).
  assert (~ In 47 (rev seg)) by (intros C; apply in_rev in C; auto).
  rewrite Ed. clear Ed E. induction (rev seg) as [|a l IH]; [reflexivity|]. cbn [app pop_segment].
  assert (a =? 47 = false) as ->. { apply Z.eqb_neq. intros ->. apply H. now left. }
  apply IH. intros C. apply H. now right.
Qed.

Lemma not_proper_special x : x = [] \/ x = dot \/ x = dot_dot -> ~ proper x.
Proof. unfold proper. tauto. Qed.

Lemma starts_special_open w st : ~ In 47 w -> Forall proper st ->
  starts [47; 47] (rev w ++ D st) = false /\ starts [47; 46; 47] (rev w ++ D st) = false
  /\ starts [47; 46; 46; 47] (rev w ++ D st) = false.
Proof.
  intros Hw Hst. split; [|split].
  - apply (starts_closed_open [] w st); auto; first [now (apply not_proper_special; auto) | noslash].
  - apply (starts_closed_open dot w st); auto; first [now (apply not_proper_special; auto) | noslash].
  - apply (starts_closed_open dot_dot w st); auto; first [now (apply not_proper_special; auto) | noslash].
Qed.

Lemma starts_special_closed w st : ~ In 47 w ->
  starts [47; 47] (47 :: rev w ++ D st) = is_seg w [] /\ starts [47; 46; 47] (47 :: rev w ++ D st) = is_seg w dot
  /\ starts [47; 46; 46; 47] (47 :: rev w ++ D st) = is_seg w dot_dot.
Proof.
  intros Hw. split; [|split].
  - apply (starts_closed [] w st); auto; noslash.
  - apply (starts_closed dot w st); auto; noslash.
  - apply (starts_closed dot_dot w st); auto; noslash.
Qed.

Lemma starts_final_open w st : ~ In 47 w ->
  starts [46; 47] (rev w ++ D st) = is_seg w dot /\ starts [46; 46; 47] (rev w ++ D st) = is_seg w dot_dot.
Proof.
  intros Hw. split.
  - apply (starts_seg dot w st); auto; noslash.
  - apply (starts_seg dot_dot w st); auto; noslash.
Qed.

Lemma canon_once_open w st : ~ In 47 w -> Forall proper st -> canon_once (rev w ++ D st) = rev w ++ D st.
Proof.
  intros Hw Hst. unfold canon_once.
  destruct (starts_special_open w st Hw Hst) as (-> & -> & ->).
  reflexivity.
Qed.

Lemma canon_once_closed w st : ~ In 47 w -> Forall proper st -> canon_once (47 :: rev w ++ D st) = D (enter st w).
Proof.
  intros Hw Hst. unfold canon_once, enter.
  destruct (starts_special_closed w st Hw) as (-> & -> & ->).
  destruct (is_seg w []) eqn:E1; [apply is_seg_spec in E1; subst; reflexivity|].
  destruct (is_seg w dot) eqn:E2; [apply is_seg_spec in E2; subst; reflexivity|].
  destruct (is_seg w dot_dot) eqn:E3; [apply is_seg_spec in E3; subst; now apply pop_dot_dot_D|].
  cbn [orb]. now rewrite D_cons.
Qed.

Lemma canon_final_closed w st : ~ In 47 w -> Forall proper st -> canon_final (47 :: rev w ++ D st) = D (enter st w).
Proof.
  intros Hw Hst. rewrite <- canon_once_closed by auto. unfold canon_final, canon_once.
  assert (starts [46; 47] (47 :: rev w ++ D st) = false) as -> by reflexivity.
  assert (starts [46; 46; 47] (47 :: rev w ++ D st) = false) as -> by reflexivity. reflexivity.
Qed.

Lemma canon_final_open w st : ~ In 47 w -> Forall proper st -> rev (canon_final (rev w ++ D st)) = path_text st [w].
Proof.
  intros Hw Hst. unfold canon_final. cbn [path_text].
  destruct (starts_special_open w st Hw Hst) as (-> & -> & ->).
  destruct (starts_final_open w st Hw) as (-> & ->).
  destruct (is_seg w []) eqn:E1.
  { apply is_seg_spec in E1. subst. apply rev_involutive. }
  cbn [orb]. destruct (is_seg w dot) eqn:E2.
  { apply is_seg_spec in E2. subst. cbn [rev dot app skipn]. unfold D. apply rev_involutive. }
  destruct (is_seg w dot_dot) eqn:E3.
  { apply is_seg_spec in E3. subst. rewrite (pop_dot_dot_D st) by auto. unfold D. apply rev_involutive. }
  rewrite rev_app_distr. unfold D. now rewrite !rev_involutive.
Qed.

(** The loop over the decoded characters. *)
Definition canon_step (r : list Z) (c : Z) : list Z := c :: canon_once r.

Lemma canon_loop_decoded n : forall s d r, (length s <= n)%nat -> pct_decode s = Some d ->
  canon_loop s r = inr (fold_left canon_step d r).
Proof.
  induction n as [|n IH]; intros s d r L H.
  - destruct s; [|cbn in L; lia]. cbn in H. injection H as <-. reflexivity.
  - destruct s as [|c s]; [cbn in H; injection H as <-; reflexivity|]. cbn [length] in L.
    cbn [pct_decode canon_loop] in *. destruct (c =? 37).
    + destruct s as [|a [|b s]]; [discriminate|discriminate|]. rewrite !hexv_digit. cbn [length] in L.
      destruct (digit_value a) as [x|] eqn:Ex; [|discriminate]. destruct (digit_value b) as [y|] eqn:Ey; [|discriminate].
      destruct (pct_decode s) as [t|] eqn:Et; [|discriminate]. injection H as <-. cbn [fold_left].
      rewrite (IH s t) by (auto; lia). rewrite pct_value by (eapply digit_range; eauto). reflexivity.
    + destruct (pct_decode s) as [t|] eqn:Et; [|discriminate]. injection H as <-. cbn [fold_left].
      rewrite (IH s t) by (auto; lia). reflexivity.
Qed.

Lemma enter_proper st w : Forall proper st -> ~ In 47 w -> Forall proper (enter st w).
Proof.
  intros Hst Hw. unfold enter. destruct (is_seg w [] || is_seg w dot) eqn:E; [auto|].
  destruct (is_seg w dot_dot) eqn:E2.
  - destruct Hst; [constructor|auto].
  - apply orb_false_iff in E. destruct E as [E0 E1]. constructor; [|auto].
    unfold proper. repeat split; auto; intros C; apply is_seg_spec in C; congruence.
Qed.

Lemma canon_loop_closed d w st : ~ In 47 w -> Forall proper st ->
  rev (canon_final (fold_left canon_step d (47 :: rev w ++ D st)))
  = rev (canon_final (fold_left canon_step d (D (enter st w)))).
Proof.
  intros Hw Hst. assert (Hp := enter_proper st w Hst Hw). destruct d as [|c d].
  - cbn [fold_left]. rewrite canon_final_closed by auto.
    assert (C := canon_final_open [] (enter st w) ltac:(noslash) Hp). cbn [rev app] in C. rewrite C. unfold D. apply rev_involutive.
  - cbn [fold_left]. unfold canon_step at 2 4. rewrite canon_once_closed by auto.
    assert (C := canon_once_open [] (enter st w) ltac:(noslash) Hp). cbn [rev app] in C. now rewrite C.
Qed.

Lemma canon_fold d : forall w st, ~ In 47 w -> Forall proper st ->
  rev (canon_final (fold_left canon_step d (rev w ++ D st))) = path_text st (split_on 47 (w ++ d)).
Proof.
  induction d as [|c d IH]; intros w st Hw Hst.
  - rewrite app_nil_r, split_on_nosep by auto. cbn [fold_left]. now apply canon_final_open.
  - cbn [fold_left]. unfold canon_step at 2. rewrite canon_once_open by auto.
    destruct (Z.eq_dec c 47) as [->|Hc].
    + rewrite canon_loop_closed by auto. rewrite split_on_app by auto.
      assert (IHd := IH [] (enter st w) ltac:(noslash) (enter_proper st w Hst Hw)). cbn [rev app] in IHd. rewrite IHd.
      cbn [path_text]. destruct (split_on 47 d) eqn:E; [|reflexivity].
      exfalso. destruct d; cbn in E; [discriminate|]. destruct (z =? 47); [discriminate|]. destruct (split_on 47 d); discriminate.
    + replace (c :: rev w ++ D st) with (rev (w ++ [c]) ++ D st) by (rewrite rev_app_distr; reflexivity).
      rewrite IH; auto.
      * now rewrite <- app_assoc.
      * intros C. apply in_app_iff in C. destruct C as [C|[C|[]]]; auto.
Qed.

Lemma canonicalize_spec s d : pct_decode s = Some d -> canonicalize s = canonical_text d.
Proof.
  intros H. unfold canonicalize. rewrite (canon_loop_decoded (length s) s d) by auto.
  apply (canon_fold d [] []); [noslash|constructor].
Qed.

(** The specification really yields canonical paths, and leaves them alone. *)
Lemma split_on_nosep_all d s : Forall (fun p => ~ In d p) (split_on d s).
Proof.
  induction s as [|c s IH]; cbn [split_on]; [repeat constructor; auto|].
  destruct (c =? d) eqn:E; [constructor; auto|].
  destruct (split_on d s) as [|p ps]; [constructor; [|constructor]|].
  - cbn. intuition lia.
  - inversion_clear IH. constructor; [|auto]. cbn. intuition lia.
Qed.

Lemma path_text_canonical segs : forall st, Forall proper st -> Forall (fun p => ~ In 47 p) segs ->
  canonical (path_text st segs).
Proof.
  assert (G : forall st, Forall proper st -> canonical (dir_text st)).
  { intros st H. exists (rev st), []. rewrite rev_involutive, app_nil_r. split; [reflexivity|]. split; [now apply Forall_rev|auto]. }
  induction segs as [|seg segs IH]; intros st Hst Hs; [now apply G|]. inversion_clear Hs as [|? ? H1 H2].
  cbn [path_text]. destruct segs as [|seg2 segs].
  - destruct (is_seg seg [] || is_seg seg dot) eqn:E; [now apply G|].
    destruct (is_seg seg dot_dot) eqn:E2; [apply G; destruct Hst; [constructor|auto]|].
    apply orb_false_iff in E. destruct E as [E0 E1].
    exists (rev st), seg. rewrite rev_involutive. split; [reflexivity|]. split; [now apply Forall_rev|]. right.
    unfold proper. repeat split; auto; intros C; apply is_seg_spec in C; congruence.
  - apply IH; [now apply enter_proper|auto].
Qed.

Lemma canonical_text_canonical s : canonical (canonical_text s).
Proof. apply path_text_canonical; [constructor|apply split_on_nosep_all]. Qed.

Lemma proper_flags w : proper w -> is_seg w [] = false /\ is_seg w dot = false /\ is_seg w dot_dot = false.
Proof.
  intros (H0 & H1 & H2 & _). repeat split; apply not_true_is_false; rewrite is_seg_spec; auto.
Qed.

Lemma canonical_fixed p : canonical p -> canonical_text p = p.
Proof.
  intros (segs & last & -> & Hs & Hl).
  assert (G : forall segs st, Forall proper segs -> 
      path_text st (split_on 47 (flat_map (fun seg => seg ++ [47]) segs ++ last)) = dir_text (rev segs ++ st) ++ last).
  { clear segs Hs. induction segs as [|seg segs IH]; intros st Hs.
    - cbn [flat_map app rev]. destruct Hl as [->|Hl].
      + cbn. now rewrite app_nil_r.
      + rewrite split_on_nosep by apply Hl. cbn [path_text]. destruct (proper_flags last Hl) as (-> & -> & ->). reflexivity.
    - inversion_clear Hs as [|? ? H1 H2]. cbn [flat_map]. rewrite <- !app_assoc. cbn [app].
      rewrite split_on_app by apply H1. cbn [path_text rev].
      destruct (split_on 47 _) eqn:E.
      { exfalso. destruct (flat_map (fun s => s ++ [47]) segs ++ last); cbn in E; [discriminate|].
        destruct (z =? 47); [discriminate|]. destruct (split_on 47 l); discriminate. }
      rewrite IH by auto. unfold enter. destruct (proper_flags seg H1) as (-> & -> & ->). cbn [orb].
      now rewrite <- app_assoc. }
  unfold canonical_text, dir_text at 1. rewrite rev_involutive. cbn [app].
  replace (47 :: flat_map (fun seg => seg ++ [47]) segs ++ last) with ([] ++ 47 :: flat_map (fun seg => seg ++ [47]) segs ++ last) by reflexivity.
  rewrite split_on_app by noslash. cbn [path_text].
  destruct (split_on 47 _) eqn:E.
  { exfalso. destruct (flat_map (fun s => s ++ [47]) segs ++ last); cbn in E; [discriminate|].
    destruct (z =? 47); [discriminate|]. destruct (split_on 47 l); discriminate. }
  rewrite <- E. change (enter [] []) with (@nil (list Z)). rewrite G by auto. now rewrite app_nil_r.
Qed.

(** Malformed escapes: what is returned is the directory stack, plus the
    unfinished segment as it stood, without the final step. *)
Lemma canon_step_state c w st : ~ In 47 w -> Forall proper st -> forall r,
  r = rev w ++ D st \/ r = 47 :: rev w ++ D st ->
  exists w' st', ~ In 47 w' /\ Forall proper st' /\ canon_once r = rev w' ++ D st'
   /\ (c :: canon_once r = rev (w' ++ [c]) ++ D st' ).
Proof.
  intros Hw Hst r [->| ->].
  - exists w, st. rewrite canon_once_open by auto. repeat split; auto. now rewrite rev_app_distr.
  - exists [], (enter st w). rewrite canon_once_closed by auto. repeat split; auto. now apply enter_proper.
Qed.

Lemma canon_loop_state n : forall s w st r, (length s <= n)%nat -> ~ In 47 w -> Forall proper st ->
  r = rev w ++ D st \/ r = 47 :: rev w ++ D st ->
  match canon_loop s r with
  | inl r' => exists w' st', ~ In 47 w' /\ Forall proper st' /\ rev r' = dir_text st' ++ w'
  | inr r' => canonical (rev (canon_final r'))
  end.
Proof.
  induction n as [|n IH]; intros s w st r L Hw Hst Hr.
  - destruct s; [|cbn in L; lia]. cbn [canon_loop]. destruct Hr as [->| ->].
    + rewrite canon_final_open by auto. apply path_text_canonical; auto.
    + rewrite canon_final_closed by auto. unfold D. rewrite rev_involutive.
      assert (C := path_text_canonical [] (enter st w) (enter_proper st w Hst Hw) ltac:(constructor)). exact C.
  - destruct s as [|c s].
    + cbn [canon_loop]. destruct Hr as [->| ->].
      * rewrite canon_final_open by auto. apply path_text_canonical; auto.
      * rewrite canon_final_closed by auto. unfold D. rewrite rev_involutive.
        assert (C := path_text_canonical [] (enter st w) (enter_proper st w Hst Hw) ltac:(constructor)). exact C.
    + cbn [length] in L.
      assert (Ret : exists w' st', ~ In 47 w' /\ Forall proper st' /\ rev (canon_once r) = dir_text st' ++ w').
      { destruct (canon_step_state 0 w st Hw Hst r Hr) as (w' & st' & H1 & H2 & E & _). exists w', st'.
        rewrite E, rev_app_distr. unfold D. rewrite !rev_involutive. auto. }
      assert (Next : forall c' s', (length s' <= n)%nat -> match canon_loop s' (c' :: canon_once r) with
          | inl r' => exists w' st', ~ In 47 w' /\ Forall proper st' /\ rev r' = dir_text st' ++ w'
          | inr r' => canonical (rev (canon_final r')) end).
      { intros c' s' L'. destruct (canon_step_state c' w st Hw Hst r Hr) as (w' & st' & H1 & H2 & E & E2).
        destruct (Z.eq_dec c' 47) as [->|Hc].
        - apply (IH s' w' st'); auto. right. rewrite E2, rev_app_distr. reflexivity.
        - apply (IH s' (w' ++ [c']) st'); auto. intros C. apply in_app_iff in C. destruct C as [C|[C|[]]]; auto. }
      cbn [canon_loop]. cbv zeta. destruct (c =? 37).
      * destruct s as [|h1 [|h2 s]]; [exact Ret|exact Ret|]. cbn [length] in L.
        destruct (hexv h1); [|exact Ret]. destruct (hexv h2); [|exact Ret]. apply Next. lia.
      * apply Next. lia.
Qed.

Lemma canonicalize_any s : exists w st, ~ In 47 w /\ Forall proper st /\ canonicalize s = dir_text st ++ w.
Proof.
  unfold canonicalize. assert (C := canon_loop_state (length s) s [] [] [47] ltac:(lia) ltac:(noslash) ltac:(constructor) ltac:(left; reflexivity)).
  destruct (canon_loop s [47]) as [r|r].
  - destruct C as (w & st & C). exists w, st. tauto.
  - destruct C as (segs & last & E & Hs & Hl). exists last, (rev segs). split; [|split].
    + destruct Hl as [->|Hl]; [noslash|apply Hl].
    + now apply Forall_rev.
    + now rewrite E.
Qed.

(** ** The path encoder *)
Definition encode_raw (p : list Z) : list Z := flat_map (fun c => if path_safe c then [c] else escape c) p.

Lemma encode_raw_decode p : bytes p -> pct_decode (encode_raw p) = Some p.
Proof.
  induction 1 as [|c p Hc Hp IH]; [reflexivity|]. unfold encode_raw in *. cbn [flat_map].
  destruct (path_safe c) eqn:E.
  - cbn [app pct_decode]. assert (c =? 37 = false) as ->.
    { apply Z.eqb_neq. intros ->. discriminate E. }
    now rewrite IH.
  - unfold escape. cbn [app pct_decode]. destruct (nibbles c Hc) as [-> ->]. unfold byte in Hc.
    destruct (udigit_value (c / 16) ltac:(lia)) as [-> _]. destruct (udigit_value (c mod 16) ltac:(lia)) as [-> _].
    change (37 =? 37) with true. cbv iota. change (match pct_decode (flat_map (fun c => if path_safe c then [c] else escape c) p) with Some t => Some (16 * (c / 16) + c mod 16 :: t) | None => None end = Some (c :: p)). rewrite IH. do 2 f_equal. lia.
Qed.

Lemma encode_path_nonempty p : p <> [] -> encode_path p = encode_raw p.
Proof.
  intros H. unfold encode_path. fold (encode_raw p). destruct (encode_raw p) eqn:E; [|reflexivity].
  destruct p as [|c p]; [congruence|]. unfold encode_raw in E. cbn [flat_map] in E. destruct (path_safe c); discriminate.
Qed.

Lemma encode_path_canonical p : bytes p -> canonicalize (encode_path p) = canonical_text p.
Proof.
  intros H. destruct p as [|c p]; [reflexivity|]. rewrite encode_path_nonempty by discriminate.
  apply canonicalize_spec. now apply encode_raw_decode.
Qed.

Lemma encode_path_legal p : bytes p -> Forall (fun c => path_char c = true) (encode_path p).
Proof.
  intros Hp. destruct p as [|c0 p0]; [repeat constructor|]. rewrite encode_path_nonempty by discriminate.
  apply Forall_forall. intros x Hx. unfold encode_raw in Hx. apply in_flat_map in Hx.
  destruct Hx as (c & Hc & Hx). unfold bytes in Hp. rewrite Forall_forall in Hp. specialize (Hp c Hc).
  destruct (path_safe c) eqn:E.
  - destruct Hx as [<-|[]].
    assert (S : forallb (fun c => negb (path_safe c) || path_char c) (zrange 256) = true) by (vm_compute; reflexivity).
    assert (Q := sweep_byte _ S c Hp). cbv beta in Q. rewrite E in Q. exact Q.
  - destruct (nibbles c Hp) as [E1 E2]. unfold escape in Hx. rewrite E1, E2 in Hx. unfold byte in Hp.
    assert (U : forall d, 0 <= d < 16 -> path_char (udigit d) = true).
    { intros d Hd. unfold path_char, pchar. destruct (udigit_value d Hd) as (_ & _ & -> & _). reflexivity. }
    destruct Hx as [<-|[<-|[<-|[]]]]; [reflexivity|apply U; lia|apply U; lia].
Qed.
