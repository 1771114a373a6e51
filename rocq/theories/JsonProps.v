(** C53: JSON strings. *)
From Coq Require Import List ZArith Bool Lia ZifyBool.
From Coq Require Import String.
From Verif Require Import Base Text HoutModel JsonModel JsonSpec JsonProofs.
Import ListNotations.
Open Scope list_scope.
Open Scope Z_scope.
Notation length := List.length.

(** If the number writer writes eight hexadecimal digits, then any string of
    bytes is written as a JSON string which is read back as its characters,
    whatever follows it. *)
Theorem json_quote f junk s rest : bare f -> 0 <= junk < 65536 -> Forall byte s ->
  exists cps, characters s cps /\ json_reads (quote_json_string f junk s ++ rest) cps rest.
Proof.
  intros Hf Hj B. destruct (characters_total s B) as (cps & C). exists cps. split; [exact C|].
  apply quote_reads; assumption.
Qed.

(** UTF-8 text is read back as it is. *)
Theorem json_quote_utf8 f junk cps rest : bare f -> 0 <= junk < 65536 -> Forall scalar cps ->
  json_reads (quote_json_string f junk (List.concat (map utf8 cps)) ++ rest) cps rest.
Proof.
  intros Hf Hj S. apply quote_reads; try assumption.
  - clear Hf Hj. induction S as [|cp cps Hc _ IH]; cbn [map List.concat]; [constructor|]. apply Forall_app. split; [|exact IH].
    unfold scalar in Hc. unfold utf8, byte. Ltac Zify.zify_post_hook ::= Z.div_mod_to_equations.
    destruct (cp <? 128) eqn:E1; [|destruct (cp <? 2048) eqn:E2; [|destruct (cp <? 65536) eqn:E3]];
      repeat (apply Forall_cons; [lia|]); apply Forall_nil.
  - clear Hf Hj. induction S as [|cp cps Hc _ IH]; cbn [map List.concat]; constructor; assumption.
Qed.

(** Only printable ASCII characters are written. *)
Theorem json_ascii f junk s : bare f -> 0 <= junk < 65536 -> Forall byte s ->
  Forall (fun c => 32 <= c <= 126) (quote_json_string f junk s).
Proof.
  intros Hf Hj B. destruct (characters_total s B) as (cps & C). unfold quote_json_string.
  rewrite (quote_loop_spec f junk s cps C B _ (le_n _)). apply characters_scalar in C.
  constructor; [lia|]. apply Forall_app. split; [|constructor; [lia|constructor]].
  induction C as [|cp cps Hc _ IH]; cbn [map List.concat]; [constructor|]. apply Forall_app.
  split; [apply escape_ascii; assumption|exact IH].
Qed.

(** But if it writes [0x] before the digits, as it does where the headers of
    chunks are written, then no string with a character that has to be written
    as a number is read. *)
Theorem json_prefix_refuted f junk cp rest : (forall v, f v = txt "0x" ++ hex_digits 8 v) -> scalar cp ->
  126 < cp -> json_string (quote_json_string f junk (utf8 cp) ++ rest) = None.
Proof.
  intros Hf Hc H. unfold quote_json_string.
  assert (B : Forall byte (utf8 cp)).
  { unfold scalar in Hc. unfold utf8, byte. destruct (cp <? 128) eqn:E1; [|destruct (cp <? 2048) eqn:E2; [|destruct (cp <? 65536) eqn:E3]];
      repeat (apply Forall_cons; [lia|]); apply Forall_nil. }
  assert (C : characters (utf8 cp) [cp]).
  { rewrite <- (app_nil_r (utf8 cp)). constructor; [exact Hc|constructor]. }
  rewrite (quote_loop_spec f junk _ _ C B _ (le_n _)). cbn [map List.concat]. rewrite app_nil_r.
  cbn [app json_string]. change (34 =? 34) with true. cbv iota.
  unfold quote_code_point. replace (cp =? 8) with false by lia. replace (cp =? 12) with false by lia.
  replace (cp =? 10) with false by lia. replace (cp =? 13) with false by lia. replace (cp =? 9) with false by lia.
  replace ((cp =? 34) || (cp =? 92)) with false by lia. replace ((32 <=? cp) && (cp <=? 126)) with false by lia.
  unfold escape. cbv zeta. rewrite Hf. set (ds := hex_digits 8 _).
  assert (L : exists a b t, ds = a :: b :: t).
  { unfold ds. cbn [hex_digits]. cbn [app]. eauto. }
  destruct L as (a & b & t & ->).
  assert (U : exists n, (length (utf16_encode cp) * 6 = 6 + n)%nat).
  { unfold utf16_encode. destruct (cp <? 65536); [exists 0%nat|exists 6%nat]; reflexivity. }
  destruct U as (n & ->). change (txt "\u") with [92; 117]. change (txt "0x") with [48; 120].
  cbn [app firstn Nat.add json_units]. change (92 =? 34) with false. change (92 =? 92) with true. change (117 =? 117) with true.
  cbv iota. unfold four_digits. change (hex_value 48) with (Some 0). change (hex_value 120) with (@None Z). reflexivity.
Qed.

(** A string with quotes, a control character, a character beyond the basic
    plane and an invalid byte. *)
Example json_example : Forall byte [34; 10; 240; 159; 152; 128; 255; 97]
  /\ quote_json_string (hex_digits 8) 0 [34; 10; 240; 159; 152; 128; 255; 97]
     = txt """\""\n\uD83D\uDE00\uFFFDa"""
  /\ bare (hex_digits 8)
  /\ characters [34; 10; 240; 159; 152; 128; 255; 97] [34; 10; 128512; 65533; 97].
Proof.
  split; [unfold byte; repeat (apply Forall_cons; [lia|]); apply Forall_nil|].
  split; [vm_compute; reflexivity|]. split; [intros v _; reflexivity|].
  apply (characters_valid 34); [unfold scalar; lia|]. apply (characters_valid 10); [unfold scalar; lia|].
  apply (characters_valid 128512); [unfold scalar; lia|]. apply characters_invalid.
  - intros cp t Hc E. pose proof (decode_utf8 cp t Hc) as D. rewrite <- E in D. discriminate.
  - apply (characters_valid 97); [unfold scalar; lia|]. constructor.
Qed.

Print Assumptions json_quote.
Print Assumptions json_quote_utf8.
Print Assumptions json_ascii.
Print Assumptions json_prefix_refuted.
