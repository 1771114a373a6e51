(** Proofs about the calendar. *)
From Coq Require Import ZArith List Lia Bool ZifyBool String.
From Verif Require Import Base BaseLemmas Text DateModel DateSpec.
Import ListNotations.
Open Scope list_scope.
Open Scope Z_scope.
Notation length := List.length.
Ltac Zify.zify_post_hook ::= Z.div_mod_to_equations.

(** Days before the year that begins in March, and before its months *)
Definition dby (y : Z) : Z := 365 * y + y / 4 - y / 100 + y / 400.
Definition dbm (mp : Z) : Z := (153 * mp + 2) / 5.

Lemma dby_step y : dby (y + 1) = dby y + 365 + (if leap (y + 1) then 1 else 0).
Proof. unfold dby, leap. destruct ((y + 1) mod 4 =? 0) eqn:A, ((y + 1) mod 100 =? 0) eqn:B, ((y + 1) mod 400 =? 0) eqn:C; cbn [andb orb negb]; lia. Qed.

Definition march (days : Z) : Z * Z :=
  let z := days + 719468 in
  let era := z / 146097 in let doe := z mod 146097 in
  let c := Z.min 3 (doe / 36524) in let r := doe - c * 36524 in
  let q := r / 1461 in let r2 := r mod 1461 in
  let y := Z.min 3 (r2 / 365) in
  (era * 400 + c * 100 + q * 4 + y, r2 - y * 365).

Lemma march_spec days : let '(yy, doy) := march days in
  dby yy + doy = days + 719468 /\ 0 <= doy <= 364 + (if leap (yy + 1) then 1 else 0).
Proof.
  unfold march. set (z := days + 719468). clearbody z.
  set (era := z / 146097). set (doe := z mod 146097). assert (Hz : z = era * 146097 + doe /\ 0 <= doe < 146097) by (subst era doe; lia). clearbody era doe.
  set (c := Z.min 3 (doe / 36524)). set (r := doe - c * 36524).
  assert (Hc : 0 <= c <= 3 /\ doe = c * 36524 + r /\ 0 <= r <= 36524 /\ (r = 36524 -> c = 3)) by (subst r c; lia). clearbody c r.
  set (q := r / 1461). set (r2 := r mod 1461). assert (Hq : r = q * 1461 + r2 /\ 0 <= r2 < 1461) by (subst q r2; lia). clearbody q r2.
  set (y := Z.min 3 (r2 / 365)). assert (Hy : 0 <= y <= 3 /\ 365 * y <= r2 /\ r2 - 365 * y <= 365 /\ (r2 - 365 * y = 365 -> y = 3)) by (subst y; lia). clearbody y.
  assert (Q : 0 <= q <= 24) by lia. assert (Q2 : c < 3 -> q = 24 -> r2 < 1460) by lia.
  assert (E4 : (era * 400 + c * 100 + q * 4 + y) / 4 = era * 100 + c * 25 + q) by (clear - Hy; lia).
  assert (E1 : (era * 400 + c * 100 + q * 4 + y) / 100 = era * 4 + c) by (clear - Hy Q; lia).
  assert (E0 : (era * 400 + c * 100 + q * 4 + y) / 400 = era) by (clear - Hy Q Hc; lia).
  unfold dby. rewrite E4, E1, E0. split; [lia|]. split; [lia|].
  destruct (Z.eq_dec (r2 - y * 365) 365) as [E|]; [|destruct (leap _); lia].
  assert (y = 3) by lia. subst y.
  assert (L : leap (era * 400 + c * 100 + q * 4 + 3 + 1) = true); [|rewrite L; lia].
  unfold leap. replace ((era * 400 + c * 100 + q * 4 + 3 + 1) mod 4) with 0 by (clear; lia). cbn [Z.eqb andb].
  destruct (Z.eq_dec q 24) as [->|].
  - assert (c = 3) by lia. subst c. replace ((era * 400 + 3 * 100 + 24 * 4 + 3 + 1) mod 400) with 0 by (clear; lia). apply orb_true_r.
  - replace ((era * 400 + c * 100 + q * 4 + 3 + 1) mod 100) with (q * 4 + 4) by (clear - Q n; lia). replace (q * 4 + 4 =? 0) with false by lia. reflexivity.
Qed.

Definition mp_of (doy : Z) : Z := (5 * doy + 2) / 153.
Lemma mp_spec doy : 0 <= doy <= 365 -> 0 <= mp_of doy <= 11 /\ dbm (mp_of doy) <= doy < dbm (mp_of doy + 1).
Proof. intros H. unfold dbm, mp_of. lia. Qed.

Lemma mp_cases mp : 0 <= mp <= 11 -> mp = 0 \/ mp = 1 \/ mp = 2 \/ mp = 3 \/ mp = 4 \/ mp = 5 \/ mp = 6 \/ mp = 7 \/ mp = 8 \/ mp = 9 \/ mp = 10 \/ mp = 11.
Proof. lia. Qed.

(** A day as a March year, a month of it, and a day of that *)
Definition back (yy mp d : Z) : Z * Z * Z :=
  let m := if mp <? 10 then mp + 3 else mp - 9 in ((if m <=? 2 then yy + 1 else yy), m, d).

Lemma civil_back days : let '(yy, doy) := march days in civil days = back yy (mp_of doy) (doy - dbm (mp_of doy) + 1).
Proof. reflexivity. Qed.

Lemma dbm_days yy mp : 0 <= mp <= 10 -> let '(y, m, _) := back yy mp 1 in dbm (mp + 1) - dbm mp = month_days y m.
Proof.
  intros H. assert (mp <= 11) by lia. destruct (mp_cases mp ltac:(lia)) as [->|X]; [reflexivity|].
  repeat match type of X with _ \/ _ => destruct X as [->|X]; [reflexivity|] end. lia.
Qed.

Lemma civil_facts days : let '(y, m, d) := civil days in valid_date y m d /\ days_of y m d = days.
Proof.
  pose proof (civil_back days) as E. pose proof (march_spec days) as M. destruct (march days) as [yy doy]. rewrite E. clear E.
  destruct M as [M1 M2]. pose proof (mp_spec doy ltac:(destruct (leap (yy + 1)); lia)) as [P1 P2]. set (mp := mp_of doy) in *. clearbody mp.
  unfold back. set (m := if mp <? 10 then mp + 3 else mp - 9). set (y := if m <=? 2 then yy + 1 else yy).
  assert (Hm : 1 <= m <= 12 /\ (m <= 2 -> mp = m + 9 /\ y = yy + 1) /\ (2 < m -> mp = m - 3 /\ y = yy)) by (subst y m; destruct (Z.ltb_spec mp 10); [destruct (Z.leb_spec (mp + 3) 2)|destruct (Z.leb_spec (mp - 9) 2)]; lia).
  split.
  - split; [lia|]. split; [lia|]. destruct (Z.eq_dec mp 11) as [->|].
    + assert (m = 2) by lia. assert (y = yy + 1) by lia. rewrite H, H0. unfold month_days. cbn [Z.eqb]. replace (dbm 11) with 337 by reflexivity.
      change (Pos.eqb 2 2) with true. cbn match. destruct (leap (yy + 1)); lia.
    + pose proof (dbm_days yy mp ltac:(lia)) as D. unfold back in D. fold m y in D. lia.
  - unfold days_of. fold (dbm (if m <=? 2 then m + 9 else m - 3)).
    replace (if m <=? 2 then m + 9 else m - 3) with mp by (destruct (Z.leb_spec m 2); lia).
    replace (if m <=? 2 then y - 1 else y) with yy by (destruct (Z.leb_spec m 2); lia). fold (dbm mp). unfold dby in M1. clear - M1. generalize dependent (dbm mp). intros. lia.
Qed.

(** * Injectivity *)
Lemma dby_mono a b : a < b -> dby a + 365 + (if leap (a + 1) then 1 else 0) <= dby b.
Proof.
  intros H. rewrite <- (dby_step a). assert (a + 1 <= b) by lia. unfold dby. lia.
Qed.

Lemma unmarch y m d : valid_date y m d -> exists yy mp, (y, m, d) = back yy mp d /\ 0 <= mp <= 11 /\
  days_of y m d = dby yy + (dbm mp + d - 1) - 719468 /\ 0 <= dbm mp + d - 1 <= 364 + (if leap (yy + 1) then 1 else 0) /\
  dbm mp + d - 1 < dbm (mp + 1).
Proof.
  intros [Hm Hd]. exists (if m <=? 2 then y - 1 else y), (if m <=? 2 then m + 9 else m - 3).
  destruct (Z.leb_spec m 2).
  - assert (B : back (y - 1) (m + 9) d = (y, m, d)).
    { unfold back. assert (m = 1 \/ m = 2) as [-> | ->] by lia; cbn; f_equal; f_equal; lia. }
    split; [auto|]. split; [lia|]. split; [unfold days_of; destruct (Z.leb_spec m 2); [|lia]; unfold dby, dbm; lia|].
    replace (y - 1 + 1) with y by lia. assert (m = 1 \/ m = 2) as [-> | ->] by lia; unfold month_days in Hd.
    + change (1 =? 2) with false in Hd. cbn [Z.eqb Pos.eqb orb] in Hd. change (dbm (1 + 9)) with 306. change (dbm (1 + 9 + 1)) with 337. destruct (leap y); lia.
    + change (2 =? 2) with true in Hd. cbn match in Hd. change (dbm (2 + 9)) with 337. change (dbm (2 + 9 + 1)) with 367. destruct (leap y); lia.
  - assert (B : back y (m - 3) d = (y, m, d)).
    { unfold back. replace (m - 3 <? 10) with true by lia. replace (m - 3 + 3) with m by lia. replace (m <=? 2) with false by lia. reflexivity. }
    split; [auto|]. split; [lia|]. split; [unfold days_of; destruct (Z.leb_spec m 2); [lia|]; unfold dby, dbm; lia|].
    pose proof (dbm_days y (m - 3) ltac:(lia)) as D. unfold back in D. replace (m - 3 <? 10) with true in D by lia. replace (m - 3 + 3) with m in D by lia. replace (m <=? 2) with false in D by lia.
    assert (dbm (m - 3 + 1) <= 337) by (unfold dbm; lia). assert (0 <= dbm (m - 3)) by (unfold dbm; lia).
    destruct (leap (y + 1)); lia.
Qed.

Lemma days_of_inj y m d y' m' d' : valid_date y m d -> valid_date y' m' d' -> days_of y m d = days_of y' m' d' -> (y, m, d) = (y', m', d').
Proof.
  intros V V' E. destruct (unmarch _ _ _ V) as (yy & mp & B & P & D & R & R2). destruct (unmarch _ _ _ V') as (yy' & mp' & B' & P' & D' & R' & R2').
  rewrite D, D' in E. assert (Y : yy = yy').
  { destruct (Z.lt_trichotomy yy yy') as [L|[L|L]]; [pose proof (dby_mono _ _ L); lia|auto|pose proof (dby_mono _ _ L); lia]. }
  subst yy'. destruct V as [_ V], V' as [_ V']. assert (M : mp = mp').
  { destruct (Z.lt_trichotomy mp mp') as [L|[L|L]]; [|auto|]; exfalso.
    - assert (dbm (mp + 1) <= dbm mp') by (unfold dbm; lia). lia.
    - assert (dbm (mp' + 1) <= dbm mp) by (unfold dbm; lia). lia. }
  subst mp'. assert (d = d') by lia. subst. now rewrite B, B'.
Qed.

Lemma civil_days_of y m d : valid_date y m d -> civil (days_of y m d) = (y, m, d).
Proof.
  intros V. pose proof (civil_facts (days_of y m d)) as F. destruct (civil (days_of y m d)) as [[y' m'] d']. destruct F as [V' E].
  now apply days_of_inj.
Qed.

Lemma month_days_bound y m : 28 <= month_days y m <= 31.
Proof. unfold month_days. destruct (m =? 2); [destruct (leap y); lia|]. destruct (_ || _); lia. Qed.

Lemma days_of_next x : let '(y, m, d) := x in valid_date y m d ->
  let '(y', m', d') := next_day x in valid_date y' m' d' /\ days_of y' m' d' = days_of y m d + 1.
Proof.
  destruct x as [[y m] d]. intros [Hm Hd]. unfold next_day. destruct (Z.ltb_spec d (month_days y m)).
  - split; [split; lia|]. unfold days_of. lia.
  - assert (d = month_days y m) by lia. subst d. destruct (Z.ltb_spec m 12).
    + pose proof (month_days_bound y (m + 1)). split; [split; lia|].
      unfold days_of. destruct (Z.eq_dec m 2) as [->|].
      * unfold month_days. cbn [Z.eqb]. change (Pos.eqb 2 2) with true. cbn match. change (2 + 1 <=? 2) with false. change (2 <=? 2) with true. cbn match.
        pose proof (dby_step (y - 1)) as S. replace (y - 1 + 1) with y in S by lia. unfold dby in S. revert S. destruct (leap y); intros S; clear - S; lia.
      * assert (X : m = 1 \/ m = 3 \/ m = 4 \/ m = 5 \/ m = 6 \/ m = 7 \/ m = 8 \/ m = 9 \/ m = 10 \/ m = 11) by lia.
        repeat match type of X with _ \/ _ => destruct X as [->|X]; [cbn; lia|] end. subst m. cbn. lia.
    + assert (m = 12) by lia. subst m. split; [split; [lia|]; pose proof (month_days_bound (y + 1) 1); lia|].
      unfold days_of. change (month_days y 12) with 31. change (1 <=? 2) with true. change (12 <=? 2) with false. cbn match. replace (y + 1 - 1) with y by lia. clear. lia.
Qed.

Lemma civil_next days : civil (days + 1) = next_day (civil days).
Proof.
  pose proof (civil_facts days) as F. pose proof (days_of_next (civil days)) as N. destruct (civil days) as [[y m] d]. destruct F as [V E].
  specialize (N V). destruct (next_day (y, m, d)) as [[y' m'] d']. destruct N as [V' E']. rewrite <- E, <- E'. now apply civil_days_of.
Qed.

(** * Times *)
Lemma timegm_localtime off t : timegm (localtime off t) = t + off.
Proof.
  unfold localtime. pose proof (civil_facts ((t + off) / 86400)) as F. destruct (civil ((t + off) / 86400)) as [[y m] d]. destruct F as [_ F].
  unfold timegm. cbn [year mon mday hour minute second]. rewrite F. generalize (t + off). clear. intros x. lia.
Qed.

(** * Reading back what was printed *)
Lemma digit_true x : 0 <= x <= 9 -> digit (48 + x) = true.
Proof. unfold digit. lia. Qed.

Lemma skip_digit f x r : f (48 + x) = false -> skip f (48 + x :: r) = 48 + x :: r.
Proof. intros H. cbn [skip]. now rewrite H. Qed.

Lemma number_two lo hi v r : 0 <= v <= 99 -> lo <= v <= hi -> get_number lo hi 2 (two v ++ r) = Some (v, r).
Proof.
  intros H L. unfold get_number, two. cbn [app]. rewrite skip_digit by lia. rewrite digit_true by lia. cbn [Nat.sub get_digits].
  rewrite digit_true by lia. replace ((48 + v / 10 mod 10 - 48) * 10 <=? hi) with true by lia. cbn [andb].
  replace ((48 + v / 10 mod 10 - 48) * 10 + (48 + v mod 10 - 48)) with v by lia. replace ((v <? lo) || (hi <? v)) with false by lia. reflexivity.
Qed.

Lemma number_padded lo hi v c r : 0 <= v <= 9 -> lo <= v <= hi -> digit c = false -> get_number lo hi 2 (32 :: 48 + v :: c :: r) = Some (v, c :: r).
Proof.
  intros H L D. unfold get_number. cbn [skip]. change (32 =? 32) with true. cbn match. replace (48 + v =? 32) with false by lia. rewrite digit_true by lia. cbn [Nat.sub get_digits].
  rewrite D, andb_false_r. replace (48 + v - 48) with v by lia. replace ((v <? lo) || (hi <? v)) with false by lia. reflexivity.
Qed.

Lemma number_four v r : 0 <= v <= 9999 -> get_number 0 9999 4 (four v ++ r) = Some (v, r).
Proof.
  intros H. unfold get_number, four. cbn [app]. rewrite skip_digit by lia. rewrite digit_true by lia. cbn [Nat.sub get_digits].
  set (a := v / 1000 mod 10). set (b := v / 100 mod 10). set (c := v / 10 mod 10). set (d := v mod 10).
  assert (E : v = a * 1000 + b * 100 + c * 10 + d /\ 0 <= a <= 9 /\ 0 <= b <= 9 /\ 0 <= c <= 9 /\ 0 <= d <= 9) by (subst a b c d; lia).
  clearbody a b c d. destruct E as (E & Ha & Hb & Hc & Hd). rewrite !digit_true by lia.
  replace ((48 + a - 48) * 10 <=? 9999) with true by lia. cbn [andb].
  replace (((48 + a - 48) * 10 + (48 + b - 48)) * 10 <=? 9999) with true by lia. cbn [andb].
  replace ((((48 + a - 48) * 10 + (48 + b - 48)) * 10 + (48 + c - 48)) * 10 <=? 9999) with true by lia. cbn [andb].
  replace ((((48 + a - 48) * 10 + (48 + b - 48)) * 10 + (48 + c - 48)) * 10 + (48 + d - 48)) with v by lia.
  replace ((v <? 0) || (9999 <? v)) with false by lia. reflexivity.
Qed.

Lemma day_cases w : 0 <= w <= 6 -> w = 0 \/ w = 1 \/ w = 2 \/ w = 3 \/ w = 4 \/ w = 5 \/ w = 6.
Proof. lia. Qed.
Lemma month_cases m : 1 <= m <= 12 -> m = 1 \/ m = 2 \/ m = 3 \/ m = 4 \/ m = 5 \/ m = 6 \/ m = 7 \/ m = 8 \/ m = 9 \/ m = 10 \/ m = 11 \/ m = 12.
Proof. lia. Qed.
Ltac each H := repeat match type of H with _ \/ _ => destruct H as [->|H]; [reflexivity|] end; subst; reflexivity.

Lemma day_comma w r : 0 <= w <= 6 -> match_names 0 day_names (abbr day_names w ++ 44 :: r) = Some (w, 44 :: r).
Proof. intros H. apply day_cases in H. each H. Qed.
Lemma day_space w r : 0 <= w <= 6 -> match_names 0 day_names (abbr day_names w ++ 32 :: r) = Some (w, 32 :: r).
Proof. intros H. apply day_cases in H. each H. Qed.
Lemma day_full w r : 0 <= w <= 6 -> match_names 0 day_names (full day_names w ++ r) = Some (w, r).
Proof. intros H. apply day_cases in H. each H. Qed.
Lemma month_space m r : 1 <= m <= 12 -> match_names 1 month_names (abbr month_names (m - 1) ++ 32 :: r) = Some (m, 32 :: r).
Proof. intros H. apply month_cases in H. each H. Qed.
Lemma month_dash m r : 1 <= m <= 12 -> match_names 1 month_names (abbr month_names (m - 1) ++ 45 :: r) = Some (m, 45 :: r).
Proof. intros H. apply month_cases in H. each H. Qed.
Lemma skip_month m r : 1 <= m <= 12 -> skip space (32 :: abbr month_names (m - 1) ++ r) = abbr month_names (m - 1) ++ r.
Proof. intros H. apply month_cases in H. each H. Qed.
Lemma skip_two v r : skip space (32 :: two v ++ r) = two v ++ r.
Proof. unfold two. cbn [app skip]. change (space 32) with true. cbv iota. replace (space (48 + v / 10 mod 10)) with false by (unfold space; lia). reflexivity. Qed.
Lemma skip_four v r : skip space (32 :: four v ++ r) = four v ++ r.
Proof. unfold four. cbn [app skip]. change (space 32) with true. cbv iota. replace (space (48 + v / 1000 mod 10)) with false by (unfold space; lia). reflexivity. Qed.
Lemma skip_e v r : 0 <= v -> skip space (32 :: (if v <? 10 then [32; 48 + v] else two v) ++ r) = if v <? 10 then 48 + v :: r else two v ++ r.
Proof.
  intros H. destruct (v <? 10); [|apply skip_two]. cbn [app skip]. change (space 32) with true. cbn match. replace (space (48 + v)) with false by (unfold space; lia). reflexivity.
Qed.
Lemma number_e v r : 1 <= v <= 31 -> get_number 1 31 2 (if v <? 10 then 48 + v :: 32 :: r else two v ++ 32 :: r) = Some (v, 32 :: r).
Proof.
  intros H. destruct (Z.ltb_spec v 10); [|apply number_two; lia]. unfold get_number. cbn [skip]. replace (48 + v =? 32) with false by lia.
  rewrite digit_true by lia. cbn [Nat.sub get_digits]. change (digit 32) with false. rewrite andb_false_r. replace (48 + v - 48) with v by lia.
  replace ((v <? 1) || (31 <? v)) with false by lia. reflexivity.
Qed.

Definition clock_ok (b : tm) : Prop := 0 <= hour b <= 23 /\ 0 <= minute b <= 59 /\ 0 <= second b <= 59.
Lemma time_back h mi s y m d h' mi' s' w o r : 0 <= h <= 23 -> 0 <= mi <= 59 -> 0 <= s <= 59 ->
  get_time (mkTm y m d h' mi' s' w o) ((two h ++ 58 :: two mi ++ 58 :: two s) ++ r) = Some (mkTm y m d h mi s w o, r).
Proof.
  intros H1 H2 H3. unfold get_time. rewrite <- app_assoc. rewrite number_two by lia. cbn [app match_char]. change (58 =? 58) with true. cbn match.
  rewrite <- app_assoc. rewrite number_two by lia. cbn [app match_char]. change (58 =? 58) with true. cbn match. rewrite number_two by lia. reflexivity.
Qed.

Definition ok_tm (b : tm) : Prop :=
  0 <= year b <= 9999 /\ 1 <= mon b <= 12 /\ 1 <= mday b <= 31 /\ 0 <= hour b <= 23 /\ 0 <= minute b <= 59 /\ 0 <= second b <= 59 /\ 0 <= wday b <= 6.

Lemma ok_localtime off t : -9999999999 <= t + off <= 9999999999 -> ok_tm (localtime off t) /\ 1653 <= year (localtime off t) <= 2286.
Proof.
  intros H. unfold localtime, ok_tm. pose proof (civil_facts ((t + off) / 86400)) as F. destruct (civil ((t + off) / 86400)) as [[y m] d]. destruct F as [[F1 F2] F].
  cbn [year mon mday hour minute second wday]. pose proof (month_days_bound y m).
  assert (Y : 1653 <= y <= 2286).
  { assert (X : -115741 <= (t + off) / 86400 <= 115740) by (clear - H; lia). rewrite <- F in X. assert (D : 1 <= d <= 31) by lia. clear - X D F1. unfold days_of in X. destruct (Z.leb_spec m 2); lia. }
  assert (D : 1 <= d <= 31) by lia. clear - F1 D Y. generalize (t + off). intros x. repeat split; lia.
Qed.

Ltac fmt := match goal with |- context [txt ?s] => let f := eval vm_compute in (txt s) in change (txt s) with f end.

Lemma strptime_sp f b s : strptime (32 :: f) b s = strptime f b (skip space s).
Proof. reflexivity. Qed.
Lemma strptime_conv c f b s : strptime (37 :: c :: f) b s = match pconv c b s with Some (b, s) => strptime f b s | None => None end.
Proof. reflexivity. Qed.
Lemma strptime_comma f b s : strptime (44 :: f) b (44 :: s) = strptime f b s.
Proof. reflexivity. Qed.
Lemma strptime_dash f b s : strptime (45 :: f) b (45 :: s) = strptime f b s.
Proof. reflexivity. Qed.

(** The results, except that two-digit years are ambiguous. *)
Lemma back_rfc1123 y m d h mi s w o r : ok_tm (mkTm y m d h mi s w o) ->
  strptime (txt "%a, %d %b %Y %T GMT") garbage (strftime (txt "%a, %d %b %Y %T GMT") (mkTm y m d h mi s w o) ++ r) = Some (mkTm y m d h mi s w 0, r).
Proof.
  intros (Y & M & D & H & Mi & S & W). cbn [year mon mday hour minute second wday] in *. fmt.
  match goal with |- strptime ?f _ (strftime ?f ?b ++ r) = _ => change (strftime f b) with
    (abbr day_names w ++ 44 :: 32 :: two d ++ 32 :: abbr month_names (m - 1) ++ 32 :: four y ++ 32 :: (two h ++ 58 :: two mi ++ 58 :: two s) ++ [32; 71; 77; 84]) end.
  rewrite <- app_assoc. cbn [app]. rewrite <- app_assoc. cbn [app]. rewrite <- app_assoc. cbn [app]. rewrite <- (app_assoc (four y)). cbn [app]. rewrite <- (app_assoc (two h ++ _)). cbn [app].
  rewrite strptime_conv. unfold pconv at 1, garbage. change ((97 =? 97) || (97 =? 65)) with true. cbv iota. rewrite day_comma by lia. cbv iota beta.
  rewrite strptime_comma, strptime_sp, skip_two. rewrite strptime_conv. unfold pconv at 1. cbn [Z.eqb Pos.eqb orb]. rewrite number_two by lia.
  rewrite strptime_sp, skip_month by lia. rewrite strptime_conv. unfold pconv at 1. cbn [Z.eqb Pos.eqb orb]. rewrite month_space by lia.
  rewrite strptime_sp, skip_four. rewrite strptime_conv. unfold pconv at 1. cbn [Z.eqb Pos.eqb orb]. rewrite number_four by lia.
  rewrite strptime_sp. rewrite <- app_assoc. rewrite skip_two. rewrite app_assoc. rewrite strptime_conv. unfold pconv at 1. cbn [Z.eqb Pos.eqb orb]. rewrite time_back by lia.
  reflexivity.
Qed.

Lemma back_rfc850 y m d h mi s w o r : ok_tm (mkTm y m d h mi s w o) ->
  strptime (txt "%A, %d-%b-%y %T GMT") garbage (strftime (txt "%A, %d-%b-%y %T GMT") (mkTm y m d h mi s w o) ++ r)
    = Some (mkTm (if 69 <=? y mod 100 then 1900 + y mod 100 else 2000 + y mod 100) m d h mi s w 0, r).
Proof.
  intros (Y & M & D & H & Mi & S & W). cbn [year mon mday hour minute second wday] in *. fmt.
  match goal with |- strptime ?f _ (strftime ?f ?b ++ r) = _ => change (strftime f b) with
    (full day_names w ++ 44 :: 32 :: two d ++ 45 :: abbr month_names (m - 1) ++ 45 :: two (y mod 100) ++ 32 :: (two h ++ 58 :: two mi ++ 58 :: two s) ++ [32; 71; 77; 84]) end.
  rewrite <- app_assoc. cbn [app]. rewrite <- app_assoc. cbn [app]. rewrite <- app_assoc. cbn [app]. rewrite <- (app_assoc (two (y mod 100))). cbn [app]. rewrite <- (app_assoc (two h ++ _)). cbn [app].
  rewrite strptime_conv. unfold pconv at 1, garbage. change ((65 =? 97) || (65 =? 65)) with true. cbv iota. rewrite day_full by lia. cbv iota beta.
  rewrite strptime_comma, strptime_sp, skip_two. rewrite strptime_conv. unfold pconv at 1. cbn [Z.eqb Pos.eqb orb]. rewrite number_two by lia.
  rewrite strptime_dash, strptime_conv. unfold pconv at 1. cbn [Z.eqb Pos.eqb orb]. rewrite month_dash by lia.
  rewrite strptime_dash, strptime_conv. unfold pconv at 1. cbn [Z.eqb Pos.eqb orb]. rewrite number_two by lia.
  rewrite strptime_sp. rewrite <- app_assoc. rewrite skip_two. rewrite app_assoc. rewrite strptime_conv. unfold pconv at 1. cbn [Z.eqb Pos.eqb orb]. rewrite time_back by lia.
  reflexivity.
Qed.

Lemma back_cookie y m d h mi s w o r : ok_tm (mkTm y m d h mi s w o) ->
  strptime (txt "%a, %d-%b-%Y %T GMT") garbage (strftime (txt "%a, %d-%b-%Y %T GMT") (mkTm y m d h mi s w o) ++ r) = Some (mkTm y m d h mi s w 0, r).
Proof.
  intros (Y & M & D & H & Mi & S & W). cbn [year mon mday hour minute second wday] in *. fmt.
  match goal with |- strptime ?f _ (strftime ?f ?b ++ r) = _ => change (strftime f b) with
    (abbr day_names w ++ 44 :: 32 :: two d ++ 45 :: abbr month_names (m - 1) ++ 45 :: four y ++ 32 :: (two h ++ 58 :: two mi ++ 58 :: two s) ++ [32; 71; 77; 84]) end.
  rewrite <- app_assoc. cbn [app]. rewrite <- app_assoc. cbn [app]. rewrite <- app_assoc. cbn [app]. rewrite <- (app_assoc (four y)). cbn [app]. rewrite <- (app_assoc (two h ++ _)). cbn [app].
  rewrite strptime_conv. unfold pconv at 1, garbage. change ((97 =? 97) || (97 =? 65)) with true. cbv iota. rewrite day_comma by lia. cbv iota beta.
  rewrite strptime_comma, strptime_sp, skip_two. rewrite strptime_conv. unfold pconv at 1. cbn [Z.eqb Pos.eqb orb]. rewrite number_two by lia.
  rewrite strptime_dash, strptime_conv. unfold pconv at 1. cbn [Z.eqb Pos.eqb orb]. rewrite month_dash by lia.
  rewrite strptime_dash, strptime_conv. unfold pconv at 1. cbn [Z.eqb Pos.eqb orb]. rewrite number_four by lia.
  rewrite strptime_sp. rewrite <- app_assoc. rewrite skip_two. rewrite app_assoc. rewrite strptime_conv. unfold pconv at 1. cbn [Z.eqb Pos.eqb orb]. rewrite time_back by lia.
  reflexivity.
Qed.

Lemma back_asctime y m d h mi s w o r : ok_tm (mkTm y m d h mi s w o) ->
  strptime (txt "%a %b %e %T %Y") garbage (strftime (txt "%a %b %e %T %Y") (mkTm y m d h mi s w o) ++ r) = Some (mkTm y m d h mi s w 0, r).
Proof.
  intros (Y & M & D & H & Mi & S & W). cbn [year mon mday hour minute second wday] in *. fmt.
  match goal with |- strptime ?f _ (strftime ?f ?b ++ r) = _ => change (strftime f b) with
    (abbr day_names w ++ 32 :: abbr month_names (m - 1) ++ 32 :: (if d <? 10 then [32; 48 + d] else two d) ++ 32 :: (two h ++ 58 :: two mi ++ 58 :: two s) ++ 32 :: four y ++ []) end.
  rewrite app_nil_r. rewrite <- app_assoc. cbn [app]. rewrite <- app_assoc. cbn [app]. rewrite <- (app_assoc (if d <? 10 then _ else _)). cbn [app]. rewrite <- (app_assoc (two h ++ _)). cbn [app].
  rewrite strptime_conv. unfold pconv at 1, garbage. change ((97 =? 97) || (97 =? 65)) with true. cbv iota. rewrite day_space by lia. cbv iota beta.
  rewrite strptime_sp, skip_month by lia. rewrite strptime_conv. unfold pconv at 1. cbn [Z.eqb Pos.eqb orb]. rewrite month_space by lia.
  rewrite strptime_sp, skip_e by lia. rewrite strptime_conv. unfold pconv at 1. cbn [Z.eqb Pos.eqb orb]. rewrite number_e by lia.
  rewrite strptime_sp. rewrite <- (app_assoc (two h)). rewrite skip_two. rewrite (app_assoc (two h)). rewrite strptime_conv. unfold pconv at 1. cbn [Z.eqb Pos.eqb orb]. rewrite time_back by lia.
  rewrite strptime_sp, skip_four, strptime_conv. unfold pconv at 1. cbn [Z.eqb Pos.eqb orb]. rewrite number_four by lia. reflexivity.
Qed.

Lemma zone_back off y m d h mi s w o : Z.abs off < 360000 -> off mod 60 = 0 ->
  strptime (txt "%z") (mkTm y m d h mi s w o) (32 :: zone off) = Some (mkTm y m d h mi s w off, []).
Proof.
  intros H1 H2. fmt. rewrite strptime_conv. unfold pconv. cbn [Z.eqb Pos.eqb orb]. unfold get_zone, zone. cbn [skip]. change (space 32) with true. cbv iota.
  set (sg := if off <? 0 then 45 else 43). replace (space sg) with false by (subst sg; destruct (off <? 0); reflexivity).
  replace (sg =? 90) with false by (subst sg; destruct (off <? 0); reflexivity). replace ((sg =? 43) || (sg =? 45)) with true by (subst sg; destruct (off <? 0); reflexivity).
  set (hh := Z.abs off / 3600). set (mm := Z.abs off / 60 mod 60). assert (E : Z.abs off = hh * 3600 + mm * 60 /\ 0 <= hh <= 99 /\ 0 <= mm <= 59) by (subst hh mm; lia). clearbody hh mm.
  unfold two. cbn [app]. cbn [zone_digits].
  set (a := hh / 10 mod 10). set (b := hh mod 10). set (c := mm / 10 mod 10). set (e := mm mod 10).
  assert (E1 : hh = a * 10 + b /\ 0 <= a <= 9 /\ 0 <= b <= 9) by (subst a b; lia). assert (E2 : mm = c * 10 + e /\ 0 <= c <= 9 /\ 0 <= e <= 9) by (subst c e; lia). clearbody a b c e.
  rewrite !digit_true by lia.
  assert (C : 48 + c = 48 \/ 48 + c = 49 \/ 48 + c = 50 \/ 48 + c = 51 \/ 48 + c = 52 \/ 48 + c = 53) by lia.
  set (v := (((0 * 10 + (48 + a - 48)) * 10 + (48 + b - 48)) * 10 + (48 + c - 48)) * 10 + (48 + e - 48)).
  assert (V : v = hh * 100 + mm) by (subst v; lia). clearbody v.
  assert (F : (if 60 <=? v mod 100 then None else Some (mkTm y m d h mi s w ((if sg =? 45 then -1 else 1) * (v / 100 * 3600 + v mod 100 * 60)), [] : list Z)) = Some (mkTm y m d h mi s w off, [])).
  { replace (v mod 100) with mm by lia. replace (v / 100) with hh by lia. replace (60 <=? mm) with false by lia. do 3 f_equal. subst sg. destruct (Z.ltb_spec off 0); cbn [Z.eqb Pos.eqb]; lia. }
  cbn [year mon mday hour minute second wday].
  repeat match type of C with _ \/ _ => destruct C as [->|C]; [rewrite F; reflexivity|] end. rewrite C, F. reflexivity.
Qed.

Lemma zone_length off : length (zone off) = 5%nat.
Proof. unfold zone, two. reflexivity. Qed.

Lemma back_git y m d h mi s w o r : ok_tm (mkTm y m d h mi s w o) ->
  strptime (txt "%Y-%m-%d %T") garbage (strftime (txt "%Y-%m-%d %T") (mkTm y m d h mi s w o) ++ r) = Some (mkTm y m d h mi s 0 0, r).
Proof.
  intros (Y & M & D & H & Mi & S & W). cbn [year mon mday hour minute second wday] in *. fmt.
  match goal with |- strptime ?f _ (strftime ?f ?b ++ r) = _ => change (strftime f b) with
    (four y ++ 45 :: two m ++ 45 :: two d ++ 32 :: (two h ++ 58 :: two mi ++ 58 :: two s) ++ []) end.
  rewrite app_nil_r. rewrite <- app_assoc. cbn [app]. rewrite <- app_assoc. cbn [app]. rewrite <- (app_assoc (two d)). cbn [app].
  rewrite strptime_conv. unfold pconv at 1, garbage. cbn [Z.eqb Pos.eqb orb]. rewrite number_four by lia.
  rewrite strptime_dash, strptime_conv. unfold pconv at 1. cbn [Z.eqb Pos.eqb orb]. rewrite number_two by lia.
  rewrite strptime_dash, strptime_conv. unfold pconv at 1. cbn [Z.eqb Pos.eqb orb]. rewrite number_two by lia.
  rewrite strptime_sp. rewrite <- (app_assoc (two h)). rewrite skip_two. rewrite (app_assoc (two h)). rewrite strptime_conv. unfold pconv at 1. cbn [Z.eqb Pos.eqb orb]. rewrite time_back by lia.
  reflexivity.
Qed.

(** * Lengths *)
Lemma abbr_day_length w : 0 <= w <= 6 -> length (abbr day_names w) = 3%nat.
Proof. intros H. apply day_cases in H. each H. Qed.
Lemma abbr_month_length m : 1 <= m <= 12 -> length (abbr month_names (m - 1)) = 3%nat.
Proof. intros H. apply month_cases in H. each H. Qed.
Lemma full_day_length w : 0 <= w <= 6 -> (6 <= length (full day_names w) <= 9)%nat.
Proof.
  intros H. apply day_cases in H.
  repeat match type of H with _ \/ _ => destruct H as [->|H]; [split; apply Nat.leb_le; reflexivity|] end. subst. split; apply Nat.leb_le; reflexivity.
Qed.
