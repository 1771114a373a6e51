(** Proofs about JSON strings. *)
From Coq Require Import List ZArith Bool Lia Arith ZifyBool ZifyNat.
From Coq Require Import String.
From Verif Require Import Base BaseLemmas Text HoutModel JsonModel JsonSpec.
Import ListNotations.
Open Scope list_scope.
Open Scope Z_scope.
Notation length := List.length.
Ltac Zify.zify_post_hook ::= Z.div_mod_to_equations.

Lemma decode_utf8 cp s : scalar cp -> utf8_decode (utf8 cp ++ s) = Some (cp, length (utf8 cp)).
Proof.
  unfold scalar, utf8. intros H. destruct (cp <? 128) eqn:E1; [|destruct (cp <? 2048) eqn:E2; [|destruct (cp <? 65536) eqn:E3]];
    cbn [app utf8_decode List.length].
  - rewrite E1. reflexivity.
  - replace (192 + cp / 64 <? 128) with false by lia. replace (192 + cp / 64 <? 192) with false by lia.
    replace (192 + cp / 64 <? 224) with true by lia. cbv zeta.
    replace (_ && _) with true by (unfold continuation; lia). f_equal. f_equal. lia.
  - replace (224 + cp / 4096 <? 128) with false by lia. replace (224 + cp / 4096 <? 192) with false by lia.
    replace (224 + cp / 4096 <? 224) with false by lia. replace (224 + cp / 4096 <? 240) with true by lia. cbv zeta.
    replace ((224 + cp / 4096 - 224) * 4096 + (128 + cp / 64 mod 64 - 128) * 64 + (128 + cp mod 64 - 128)) with cp by lia.
    replace (_ && _) with true by (unfold continuation; lia). reflexivity.
  - replace (240 + cp / 262144 <? 128) with false by lia. replace (240 + cp / 262144 <? 192) with false by lia.
    replace (240 + cp / 262144 <? 224) with false by lia. replace (240 + cp / 262144 <? 240) with false by lia.
    replace (240 + cp / 262144 <? 248) with true by lia. cbv zeta.
    replace ((240 + cp / 262144 - 240) * 262144 + (128 + cp / 4096 mod 64 - 128) * 4096 + (128 + cp / 64 mod 64 - 128) * 64 + (128 + cp mod 64 - 128)) with cp by lia.
    replace (_ && _) with true by (unfold continuation; lia). reflexivity.
Qed.

Lemma decode_sound s cp n : Forall byte s -> utf8_decode s = Some (cp, n) -> scalar cp /\ exists t, s = utf8 cp ++ t /\ n = length (utf8 cp).
Proof.
  unfold byte, scalar, utf8_decode. intros B H. destruct s as [|a s]; [discriminate|].
  inversion B as [|? ? Ba Bs]; subst.
  destruct (a <? 128) eqn:E1.
  { injection H as <- <-. split; [lia|]. exists s. unfold utf8. rewrite E1. split; reflexivity. }
  destruct (a <? 192) eqn:E2; [discriminate|]. destruct (a <? 224) eqn:E3.
  { destruct s as [|b s]; [discriminate|]. cbv zeta in H.
    destruct (_ && _) eqn:C; [|discriminate]. injection H as <- <-. unfold continuation in C.
    split; [lia|]. exists s. unfold utf8.
    replace (_ <? 128) with false by lia. replace (_ <? 2048) with true by lia.
    split; [|reflexivity]. cbn [app]. repeat (apply f_equal2; [lia|]). reflexivity. }
  destruct (a <? 240) eqn:E4.
  { destruct s as [|b [|c s]]; try discriminate. cbv zeta in H.
    destruct (_ && _) eqn:C; [|discriminate]. injection H as <- <-. unfold continuation in C.
    split; [lia|]. exists s. unfold utf8.
    replace (_ <? 128) with false by lia. replace (_ <? 2048) with false by lia. replace (_ <? 65536) with true by lia.
    split; [|reflexivity]. cbn [app]. repeat (apply f_equal2; [lia|]). reflexivity. }
  destruct (a <? 248) eqn:E5; [|discriminate].
  destruct s as [|b [|c [|d s]]]; try discriminate. cbv zeta in H.
  destruct (_ && _) eqn:C; [|discriminate]. injection H as <- <-. unfold continuation in C.
  split; [lia|]. exists s. unfold utf8.
  replace (_ <? 128) with false by lia. replace (_ <? 2048) with false by lia. replace (_ <? 65536) with false by lia.
  split; [|reflexivity]. cbn [app]. repeat (apply f_equal2; [lia|]). reflexivity.
Qed.

Lemma utf8_nonempty cp : exists b t, utf8 cp = b :: t.
Proof. unfold utf8. repeat destruct (_ <? _); eauto. Qed.

(** The characters of a string exist and are unique; the loop follows them. *)
Lemma quote_loop_spec f junk s cps : characters s cps -> Forall byte s -> forall fuel, (length s <= fuel)%nat ->
  quote_loop f junk fuel s = List.concat (map (quote_code_point f junk) cps).
Proof.
  induction 1 as [|cp s cps Hc _ IH|b s cps Hi _ IH]; intros B fuel L.
  - destruct fuel; reflexivity.
  - destruct (utf8_nonempty cp) as (b & t & E). rewrite E in L. cbn [app List.length] in L.
    destruct fuel as [|fuel]; [lia|]. pose proof (decode_utf8 cp s Hc) as D.
    rewrite E in D |- *. cbn [app] in D |- *. cbn [quote_loop]. rewrite D.
    cbn [map List.concat]. f_equal. rewrite E in B. apply Forall_app in B.
    replace (skipn (length (b :: t)) (b :: t ++ s)) with s.
    + apply IH; [apply B|]. rewrite app_length in L. lia.
    + change (b :: t ++ s) with ((b :: t) ++ s). rewrite skipn_app, skipn_all, Nat.sub_diag. reflexivity.
  - cbn [List.length] in L. destruct fuel as [|fuel]; [lia|]. cbn [quote_loop map List.concat].
    destruct (utf8_decode (b :: s)) as [[cp n]|] eqn:D.
    { apply decode_sound in D; [|exact B]. destruct D as (Hc & t & E & _). destruct (Hi cp t Hc E). }
    f_equal. apply IH; [inversion B; assumption|lia].
Qed.

Lemma characters_total s : Forall byte s -> exists cps, characters s cps.
Proof.
  assert (G : forall n s, (length s <= n)%nat -> Forall byte s -> exists cps, characters s cps).
  { induction n as [|n IH]; intros [|b t] L B; try (exists []; constructor; fail); [cbn in L; lia|].
    destruct (utf8_decode (b :: t)) as [[cp m]|] eqn:D.
    - destruct (decode_sound _ _ _ B D) as (Hc & u & E & _).
      destruct (utf8_nonempty cp) as (b' & t' & E').
      destruct (IH u) as (cps & C).
      { rewrite E' in E. apply (f_equal (@List.length Z)) in E. rewrite app_length in E. cbn [List.length] in *. lia. }
      { rewrite E in B. apply Forall_app in B. apply B. }
      exists (cp :: cps). rewrite E. constructor; assumption.
    - destruct (IH t) as (cps & C); [cbn in L; lia|inversion B; assumption|].
      exists (65533 :: cps). constructor; [|exact C]. intros cp u Hc E. rewrite E, (decode_utf8 _ _ Hc) in D. discriminate. }
  intros B. exact (G (length s) s (le_n _) B).
Qed.

(** *** Escapes *)

(** The number writer gives eight digits. *)
Definition bare (f : Z -> list Z) : Prop := forall v, 0 <= v < 2 ^ 32 -> f v = hex_digits 8 v.

Lemma hex_value_digit v : 0 <= v < 16 -> hex_value (hex_digit v) = Some v.
Proof.
  intros H. unfold hex_value, hex_digit. destruct (v <? 10) eqn:E.
  - replace (_ && _) with true by lia. f_equal. lia.
  - replace ((48 <=? 55 + v) && (55 + v <=? 57)) with false by lia.
    replace ((65 <=? 55 + v) && (55 + v <=? 70)) with true by lia. f_equal. lia.
Qed.

Definition d (v : Z) : Z := hex_digit (v mod 16).

Lemma eight u v : 0 <= u < 65536 -> 0 <= v < 65536 -> hex_digits 8 (u * 65536 + v) =
  [d (u / 4096); d (u / 256); d (u / 16); d u; d (v / 4096); d (v / 256); d (v / 16); d v].
Proof.
  intros Hu Hv. cbn [hex_digits app]. unfold d. repeat (apply f_equal2; [apply f_equal; lia|]). reflexivity.
Qed.

Lemma four_d u : 0 <= u < 65536 -> four_digits (d (u / 4096)) (d (u / 256)) (d (u / 16)) (d u) = Some u.
Proof.
  intros H. unfold four_digits, d. rewrite !hex_value_digit by lia. f_equal. lia.
Qed.

Lemma json_units_u u s : 0 <= u < 65536 ->
  json_units (92 :: 117 :: d (u / 4096) :: d (u / 256) :: d (u / 16) :: d u :: s)
  = match json_units s with Some (us, r) => Some (u :: us, r) | None => None end.
Proof.
  intros H. cbn [json_units]. change (92 =? 34) with false. change (92 =? 92) with true. change (117 =? 117) with true.
  cbv iota. rewrite (four_d u H). reflexivity.
Qed.

Lemma quote_code_point_read f junk cp s us r cps : bare f -> 0 <= junk < 65536 -> scalar cp ->
  json_units s = Some (us, r) -> utf16_characters us = Some cps ->
  exists us', json_units (quote_code_point f junk cp ++ s) = Some (us', r) /\ utf16_characters us' = Some (cp :: cps).
Proof.
  intros Hf Hj Hc Hs Hu.
  assert (A : 0 <= cp < 55296 -> utf16_characters (cp :: us) = Some (cp :: cps)).
  { intros C. cbn [utf16_characters]. replace (_ && _) with false by lia. replace (_ && _) with false by lia. rewrite Hu. reflexivity. }
  unfold quote_code_point.
  repeat match goal with |- context[if cp =? ?k then _ else _] => destruct (Z.eqb_spec cp k) as [->|?];
    [exists (k :: us); split; [cbn [app txt]; cbn; rewrite Hs; reflexivity|apply A; lia]|] end.
  destruct ((cp =? 34) || (cp =? 92)) eqn:E1.
  { exists (cp :: us). split; [|apply A; lia]. cbn [app json_units]. change (92 =? 34) with false. change (92 =? 92) with true. cbv iota.
    replace (cp =? 117) with false by lia. unfold simple_escape. rewrite E1. cbn [orb]. rewrite Hs. reflexivity. }
  destruct ((32 <=? cp) && (cp <=? 126)) eqn:E2.
  { exists (cp :: us). split; [|apply A; lia]. cbn [app json_units].
    replace (cp =? 34) with false by lia. replace (cp =? 92) with false by lia. replace (_ && _) with true by lia.
    rewrite Hs. reflexivity. }
  unfold escape, utf16_encode. unfold scalar in Hc. destruct (cp <? 65536) eqn:E3; cbn [nth List.length].
  - rewrite Hf by lia. rewrite eight by lia. change (1 * 6)%nat with 6%nat. cbn [firstn skipn app txt].
    exists (cp :: us). split.
    + change (txt "\u") with [92; 117]. cbn [firstn app]. rewrite json_units_u by lia. rewrite Hs. reflexivity.
    + destruct Hc as [Hc|Hc]; [apply A; exact Hc|]. cbn [utf16_characters].
      replace (_ && _) with false by lia. replace (_ && _) with false by lia. rewrite Hu. reflexivity.
  - set (h := 55296 + (cp - 65536) / 1024). set (l := 56320 + (cp - 65536) mod 1024).
    assert (Hh : 55296 <= h < 56320) by (unfold h; lia). assert (Hl : 56320 <= l < 57344) by (unfold l; lia).
    rewrite Hf by lia. rewrite eight by lia. change (2 * 6)%nat with 12%nat. change (txt "\u") with [92; 117].
    cbn [firstn skipn app]. exists (h :: l :: us). split.
    + rewrite json_units_u by lia. rewrite json_units_u by lia. rewrite Hs. reflexivity.
    + cbn [utf16_characters]. replace ((55296 <=? h) && (h <? 56320)) with true by lia.
      replace ((56320 <=? l) && (l <? 57344)) with true by lia. rewrite Hu. cbn [option_map]. f_equal. f_equal.
      unfold h, l. lia.
Qed.

Lemma characters_scalar s cps : characters s cps -> Forall scalar cps.
Proof. induction 1; constructor; try assumption. unfold scalar. lia. Qed.

Lemma quote_reads f junk s cps rest : bare f -> 0 <= junk < 65536 -> Forall byte s -> characters s cps ->
  json_reads (quote_json_string f junk s ++ rest) cps rest.
Proof.
  intros Hf Hj B C. unfold quote_json_string, json_reads. cbn [app json_string]. change (34 =? 34) with true. cbv iota.
  rewrite (quote_loop_spec f junk s cps C B _ (le_n _)). rewrite <- app_assoc.
  pose proof (characters_scalar _ _ C) as S. clear C B. induction S as [|cp cps Hc _ IH]; cbn [map List.concat app].
  - exists []. split; reflexivity.
  - destruct IH as (us & E & U). rewrite <- app_assoc.
    exact (quote_code_point_read f junk cp _ us rest cps Hf Hj Hc E U).
Qed.

(** Everything that is written is a printable ASCII character. *)
Lemma escape_ascii f junk cp : bare f -> 0 <= junk < 65536 -> scalar cp ->
  Forall (fun c => 32 <= c <= 126) (quote_code_point f junk cp).
Proof.
  intros Hf Hj Hc. assert (D : forall v, 32 <= d v <= 126) by (intros v; unfold d, hex_digit; destruct (_ <? 10) eqn:E; lia).
  unfold quote_code_point.
  do 5 (match goal with |- context[if cp =? ?k then _ else _] => destruct (cp =? k);
    [cbn; repeat (apply Forall_cons; [lia|]); apply Forall_nil|] end).
  destruct ((cp =? 34) || (cp =? 92)) eqn:E1; [repeat (apply Forall_cons; [lia|]); apply Forall_nil|].
  destruct (_ && _) eqn:E2; [repeat (apply Forall_cons; [lia|]); apply Forall_nil|].
  unfold escape, utf16_encode. unfold scalar in Hc. destruct (cp <? 65536) eqn:E3; cbn [nth List.length];
    rewrite Hf by lia; rewrite eight by lia; change (txt "\u") with [92; 117]; cbn [firstn skipn app Nat.mul Nat.add];
    repeat (apply Forall_cons; [try apply D; lia|]); apply Forall_nil.
Qed.
