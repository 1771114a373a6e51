(** C42 and C43: dates and clock readings. *)
From Coq Require Import ZArith List Lia Bool ZifyBool String.
From Verif Require Import Base BaseLemmas Text DateModel DateSpec DateProofs.
Import ListNotations.
Open Scope list_scope.
Open Scope Z_scope.
Notation length := List.length.
Ltac Zify.zify_post_hook ::= Z.div_mod_to_equations.

(** * C43: seconds and nanoseconds *)

(** The nanoseconds are always within a second. *)
Theorem timespec_nanos ns : i64 ns -> 0 <= snd (timespec ns) <= 999999999.
Proof. intros H. unfold timespec, to_u64, two64. cbn [snd]. lia. Qed.
Print Assumptions timespec_nanos.

(** The parts make up the clock reading, unless it is within the first second that can
    be represented; they are converted back to it.  Missing: those readings (see below). *)
Theorem timespec_exact_partial ns : i64 ns -> -9223372036000000000 <= ns ->
  let '(s, n) := timespec ns in s * 1000000000 + n = ns /\ 0 <= n <= 999999999 /\ from_timespec s n = Some ns.
Proof.
  unfold i64, two64. intros H L. unfold timespec, to_u64.
  assert (E : (ns mod two64 + 9223372036000000000) mod two64 = ns + 9223372036000000000).
  { rewrite Z.add_mod_idemp_l by (unfold two64; lia). apply Z.mod_small. unfold two64. lia. }
  rewrite E. set (x := ns + 9223372036000000000) in *. assert (X : 0 <= x) by lia.
  assert (F : (x / 1000000000 - 9223372036) * 1000000000 + x mod 1000000000 = ns) by lia. assert (R : 0 <= x mod 1000000000 <= 999999999) by lia.
  set (s := x / 1000000000 - 9223372036) in *. set (n := x mod 1000000000) in *. assert (S : -9223372036 <= s) by lia. clearbody s n x.
  split; [auto|]. split; [auto|]. unfold from_timespec, in_i64. rewrite F. replace (_ && _ && _) with true by lia. reflexivity.
Qed.
Print Assumptions timespec_exact_partial.

(** Readings within the first second are turned into times in the far future. *)
Theorem timespec_refuted : exists ns, i64 ns /\ fst (timespec ns) * 1000000000 + snd (timespec ns) <> ns.
Proof. exists (-9223372036854775808). split; [unfold i64, two64; lia|]. vm_compute. discriminate. Qed.
Print Assumptions timespec_refuted.

Example timespec_negative : timespec (-1) = (-1, 999999999) /\ timespec 1500000000 = (1, 500000000).
Proof. split; reflexivity. Qed.

(** * C42: the calendar *)

(** Day 0 is 1 January 1970, a Thursday, and a day is followed by the next one. *)
Theorem date_calendar days : civil 0 = (1970, 1, 1) /\ civil (days + 1) = next_day (civil days).
Proof. split; [reflexivity|apply civil_next]. Qed.
Print Assumptions date_calendar.

Definition date (b : tm) : Z * Z * Z := (year b, mon b, mday b).
Definition clock (b : tm) : Z := hour b * 3600 + minute b * 60 + second b.
Theorem date_fields t : let b := gmtime t in
  valid_date (year b) (mon b) (mday b) /\ 0 <= hour b <= 23 /\ 0 <= minute b <= 59 /\ 0 <= second b <= 59 /\
  date (gmtime (t + 86400)) = next_day (date b) /\ clock (gmtime (t + 86400)) = clock b /\
  wday (gmtime (t + 86400)) = (wday b + 1) mod 7 /\ gmtime 0 = mkTm 1970 1 1 0 0 0 4 0.
Proof.
  cbv zeta.
  assert (E0 : gmtime t = let '(y, m, d) := civil (t / 86400) in mkTm y m d (t mod 86400 / 3600) (t mod 86400 mod 3600 / 60) (t mod 86400 mod 60) ((t / 86400 + 4) mod 7) 0).
  { unfold gmtime, localtime. now rewrite !Z.add_0_r. }
  pose proof (civil_facts (t / 86400)) as F. pose proof (civil_next (t / 86400)) as N.
  assert (E : gmtime (t + 86400) = let '(y, m, d) := civil (t / 86400 + 1) in mkTm y m d (t mod 86400 / 3600) (t mod 86400 mod 3600 / 60) (t mod 86400 mod 60) ((t / 86400 + 1 + 4) mod 7) 0).
  { unfold gmtime, localtime. rewrite Z.add_0_r. replace ((t + 86400) / 86400) with (t / 86400 + 1) by lia. replace ((t + 86400) mod 86400) with (t mod 86400) by lia. reflexivity. }
  rewrite E, E0, N. clear E E0 N. destruct (civil (t / 86400)) as [[y m] d]. destruct F as [V _]. destruct (next_day (y, m, d)) as [[y' m'] d'] eqn:N.
  unfold date, clock. cbn [year mon mday hour minute second wday]. rewrite N.
  split; [exact V|]. clear. split; [lia|]. split; [lia|]. split; [lia|]. split; [reflexivity|]. split; [reflexivity|]. split; [lia|reflexivity].
Qed.
Print Assumptions date_fields.

(** From a second count to fields and back, and from fields to a second count and back. *)
Theorem date_roundtrip t : timegm (gmtime t) = t.
Proof. unfold gmtime. rewrite timegm_localtime. lia. Qed.
Print Assumptions date_roundtrip.

Theorem date_unique b : valid_date (year b) (mon b) (mday b) ->
  0 <= hour b <= 23 -> 0 <= minute b <= 59 -> 0 <= second b <= 59 ->
  let c := gmtime (timegm b) in date c = date b /\ hour c = hour b /\ minute c = minute b /\ second c = second b.
Proof.
  intros V H M S. unfold gmtime, localtime, timegm. rewrite Z.add_0_r. set (D := days_of (year b) (mon b) (mday b)).
  assert (E1 : (D * 86400 + hour b * 3600 + minute b * 60 + second b) / 86400 = D) by (clearbody D; lia).
  assert (E2 : (D * 86400 + hour b * 3600 + minute b * 60 + second b) mod 86400 = hour b * 3600 + minute b * 60 + second b) by (clearbody D; lia).
  rewrite E1, E2. unfold D. rewrite civil_days_of by auto. cbn. unfold date. cbn. split; [reflexivity|]. lia.
Qed.
Print Assumptions date_unique.

(** ** Printing *)
Lemma seconds_range ns : i64 ns -> -2208988800 <= seconds ns <= 9223372037.
Proof. unfold i64, two64. intros H. unfold seconds, clamp, timespec, to_u64, two64. cbn [fst]. destruct (_ <? _) eqn:A; [lia|]. destruct (253402300799 <? _) eqn:B; lia. Qed.

Lemma seconds_exact ns : i64 ns -> -2208988800 * 1000000000 <= ns -> seconds ns = ns / 1000000000 /\ in_i64 (ns / 1000000000 * 1000000000) = true.
Proof.
  intros H L. pose proof (timespec_exact_partial ns H ltac:(lia)) as E. unfold seconds. destruct (timespec ns) as [s n]. destruct E as (E1 & E2 & _). cbn [fst].
  assert (s = ns / 1000000000) by lia. subst s. unfold i64, two64 in H. unfold clamp, in_i64. split.
  - replace (ns / 1000000000 <? -2208988800) with false by lia. replace (253402300799 <? ns / 1000000000) with false by lia. reflexivity.
  - lia.
Qed.

Lemma gmtime_shape ns : i64 ns -> exists y m d h mi s w, gmtime (seconds ns) = mkTm y m d h mi s w 0 /\ ok_tm (mkTm y m d h mi s w 0).
Proof.
  intros H. pose proof (seconds_range ns H) as R. destruct (ok_localtime 0 (seconds ns) ltac:(lia)) as [O _]. unfold gmtime, localtime in *.
  destruct (civil ((seconds ns + 0) / 86400)) as [[y m] d]. do 7 eexists. split; [reflexivity|exact O].
Qed.

(** Printed dates have the documented lengths. *)
Theorem date_printed ns off : i64 ns -> (forall t, Z.abs (off t) < 360000) ->
  length (print_rfc1123 ns) = 29%nat /\ (30 <= length (print_rfc850 ns) <= 33)%nat /\ length (print_asctime ns) = 24%nat /\
  length (print_cookie ns) = 29%nat /\ length (print_git off ns) = 25%nat.
Proof.
  intros H Ho. unfold print_rfc1123, print_rfc850, print_asctime, print_cookie. destruct (gmtime_shape ns H) as (y & m & d & h & mi & s & w & -> & O).
  destruct O as (Y & M & D & Hh & Mi & S & W). cbn [year mon mday hour minute second wday] in *.
  pose proof (abbr_day_length w W). pose proof (abbr_month_length m M). pose proof (full_day_length w W).
  split; [|split; [|split; [|split]]].
  - fmt. match goal with |- context [strftime ?f ?b] => change (strftime f b) with
      (abbr day_names w ++ 44 :: 32 :: two d ++ 32 :: abbr month_names (m - 1) ++ 32 :: four y ++ 32 :: (two h ++ 58 :: two mi ++ 58 :: two s) ++ [32; 71; 77; 84]) end.
    repeat (rewrite app_length; cbn [length two four app]). lia.
  - fmt. match goal with |- context [strftime ?f ?b] => change (strftime f b) with
      (full day_names w ++ 44 :: 32 :: two d ++ 45 :: abbr month_names (m - 1) ++ 45 :: two (y mod 100) ++ 32 :: (two h ++ 58 :: two mi ++ 58 :: two s) ++ [32; 71; 77; 84]) end.
    repeat (rewrite app_length; cbn [length two four app]). lia.
  - fmt. match goal with |- context [strftime ?f ?b] => change (strftime f b) with
      (abbr day_names w ++ 32 :: abbr month_names (m - 1) ++ 32 :: (if d <? 10 then [32; 48 + d] else two d) ++ 32 :: (two h ++ 58 :: two mi ++ 58 :: two s) ++ 32 :: four y ++ []) end.
    destruct (d <? 10); repeat (rewrite app_length; cbn [length two four app]); lia.
  - fmt. match goal with |- context [strftime ?f ?b] => change (strftime f b) with
      (abbr day_names w ++ 44 :: 32 :: two d ++ 45 :: abbr month_names (m - 1) ++ 45 :: four y ++ 32 :: (two h ++ 58 :: two mi ++ 58 :: two s) ++ [32; 71; 77; 84]) end.
    repeat (rewrite app_length; cbn [length two four app]). lia.
  - unfold print_git. destruct (localtime _ _). reflexivity.
Qed.
Print Assumptions date_printed.

(** ** Reading back *)
Lemma parse_gmt_back f n text r b v k : length text = k -> (k = n \/ (k <= n)%nat /\ r = []) ->
  strptime f garbage text = Some (b, []) -> timegm b = v -> in_i64 (v * 1000000000) = true ->
  parse_gmt f n (text ++ r) = Ok (v * 1000000000) k.
Proof.
  intros K L E T I. unfold parse_gmt. assert (F : firstn n (text ++ r) = text).
  { subst k. destruct L as [<-|[L ->]]; [now rewrite firstn_app, Nat.sub_diag, firstn_all, app_nil_r|]. rewrite app_nil_r. now apply firstn_all2. }
  rewrite F, E. unfold from_time_t. now rewrite T, I, K.
Qed.

Lemma shape ns : i64 ns -> -2208988800 * 1000000000 <= ns -> exists y m d h mi s w,
  gmtime (seconds ns) = mkTm y m d h mi s w 0 /\ ok_tm (mkTm y m d h mi s w 0) /\ (forall w' o, timegm (mkTm y m d h mi s w' o) = ns / 1000000000) /\ in_i64 (ns / 1000000000 * 1000000000) = true.
Proof.
  intros H L. destruct (seconds_exact ns H L) as [E I]. pose proof (date_roundtrip (seconds ns)) as T. destruct (gmtime_shape ns H) as (y & m & d & h & mi & s & w & G & O).
  exists y, m, d, h, mi, s, w. split; [exact G|]. split; [exact O|]. split; [|exact I]. intros w' o. rewrite <- E, <- T. rewrite G. reflexivity.
Qed.

Definition since_1900 (ns : Z) : Prop := i64 ns /\ -2208988800 * 1000000000 <= ns.

(** For every time since 1900 (a time before is printed as 1900-01-01), a printed date is parsed back to
    the same second, whatever text may follow. *)
Theorem date_rfc1123 ns r : since_1900 ns -> parse_rfc1123 (print_rfc1123 ns ++ r) = Ok (ns / 1000000000 * 1000000000) 29.
Proof.
  intros [H L]. destruct (date_printed ns (fun _ => 0) H ltac:(intros; lia)) as (Len & _). destruct (shape ns H L) as (y & m & d & h & mi & s & w & G & O & T & I).
  unfold parse_rfc1123. eapply parse_gmt_back; [exact Len|left; reflexivity| |apply T|exact I].
  unfold print_rfc1123. rewrite G. rewrite <- (app_nil_r (strftime _ _)). apply back_rfc1123, O.
Qed.
Print Assumptions date_rfc1123.

Theorem date_asctime ns r : since_1900 ns -> parse_asctime (print_asctime ns ++ r) = Ok (ns / 1000000000 * 1000000000) 24.
Proof.
  intros [H L]. destruct (date_printed ns (fun _ => 0) H ltac:(intros; lia)) as (_ & _ & Len & _). destruct (shape ns H L) as (y & m & d & h & mi & s & w & G & O & T & I).
  unfold parse_asctime. eapply parse_gmt_back; [exact Len|left; reflexivity| |apply T|exact I].
  unfold print_asctime. rewrite G. rewrite <- (app_nil_r (strftime _ _)). apply back_asctime, O.
Qed.
Print Assumptions date_asctime.

Theorem date_cookie ns r : since_1900 ns -> parse_cookie (print_cookie ns ++ r) = Ok (ns / 1000000000 * 1000000000) 29.
Proof.
  intros [H L]. destruct (date_printed ns (fun _ => 0) H ltac:(intros; lia)) as (_ & _ & _ & Len & _). destruct (shape ns H L) as (y & m & d & h & mi & s & w & G & O & T & I).
  unfold parse_cookie. eapply parse_gmt_back; [exact Len|left; reflexivity| |apply T|exact I].
  unfold print_cookie. rewrite G. rewrite <- (app_nil_r (strftime _ _)). apply back_cookie, O.
Qed.
Print Assumptions date_cookie.

(** The local time zone must have an offset of whole minutes, below 100 hours. *)
Theorem date_git off mktime ns r : since_1900 ns -> (forall t, Z.abs (off t) < 360000 /\ off t mod 60 = 0) ->
  parse_git mktime (print_git off ns ++ r) = Ok (ns / 1000000000 * 1000000000) 25.
Proof.
  intros [H L] Ho. destruct (date_printed ns off H ltac:(intros; apply Ho)) as (_ & _ & _ & _ & Len). destruct (seconds_exact ns H L) as [E I].
  pose proof (seconds_range ns H) as R. unfold parse_git, print_git in *. rewrite E in *. set (t := ns / 1000000000) in *. destruct (Ho t) as [O1 O2]. set (o := off t) in *.
  pose proof (timegm_localtime o t) as T. destruct (ok_localtime o t ltac:(lia)) as [O _].
  assert (Z0 : gmtoff (localtime o t) = o) by (unfold localtime; destruct (civil _) as [[? ?] ?]; reflexivity).
  assert (F : firstn 25 (strftime (txt "%Y-%m-%d %T %z") (localtime o t) ++ r) = strftime (txt "%Y-%m-%d %T") (localtime o t) ++ 32 :: zone o).
  { rewrite <- Len, firstn_app, Nat.sub_diag, firstn_all, app_nil_r. destruct (localtime o t) as [y m d h mi s w g]. cbn in Z0. subst g. reflexivity. }
  rewrite F. rewrite <- Len at 1. destruct (localtime o t) as [y m d h mi s w g] eqn:G. cbn [gmtoff] in Z0. subst g.
  rewrite (back_git y m d h mi s w o (32 :: zone o) O). rewrite zone_back by (auto; lia).
  replace (timegm (mkTm y m d h mi s 0 o)) with (t + o) by exact (eq_sym T). cbn [gmtoff]. replace (t + o - o) with t by lia. unfold from_time_t. rewrite I. f_equal.
Qed.
Print Assumptions date_git.

(** Two-digit years stand for 1969 to 2068; nothing may follow the text. *)
Theorem date_rfc850 ns : -31536000 * 1000000000 <= ns < 3124224000 * 1000000000 ->
  parse_rfc850 (print_rfc850 ns) = Ok (ns / 1000000000 * 1000000000) (length (print_rfc850 ns)).
Proof.
  intros B. assert (H : i64 ns) by (unfold i64, two64; lia). destruct (date_printed ns (fun _ => 0) H ltac:(intros; lia)) as (_ & Len & _).
  destruct (shape ns H ltac:(lia)) as (y & m & d & h & mi & s & w & G & O & T & I).
  assert (Y : 1969 <= y <= 2068).
  { destruct O as (_ & M & D & Hh & Mi & S & _). cbn [year mon mday hour minute second] in *. specialize (T 0 0). unfold timegm in T. cbn [year mon mday hour minute second] in T.
    assert (X : -365 <= days_of y m d < 36160) by (clear - T B Hh Mi S; lia). clear - X M D.
    unfold days_of in X. destruct (Z.leb_spec m 2); lia. }
  assert (Y2 : (if 69 <=? y mod 100 then 1900 + y mod 100 else 2000 + y mod 100) = y) by (clear - Y; destruct (Z.leb_spec 69 (y mod 100)); lia).
  unfold parse_rfc850. rewrite <- (app_nil_r (print_rfc850 ns)) at 1. eapply parse_gmt_back; [reflexivity|right; split; [apply Len|reflexivity]| |apply T|exact I].
  unfold print_rfc850. rewrite G. rewrite <- (app_nil_r (strftime _ _)). rewrite back_rfc850 by exact O. now rewrite Y2.
Qed.
Print Assumptions date_rfc850.

(** ** The parser that accepts every format.  It gets the length of the text as well. *)
Lemma no_rfc1123_dash w d r : 0 <= w <= 6 -> 1 <= d <= 31 ->
  parse_rfc1123 (full day_names w ++ 44 :: 32 :: two d ++ 45 :: r) = No /\ parse_rfc1123 (abbr day_names w ++ 44 :: 32 :: two d ++ 45 :: r) = No.
Proof.
  intros W D. unfold parse_rfc1123, parse_gmt. fmt.
  assert (F : exists r1 r2, firstn 29 (full day_names w ++ 44 :: 32 :: two d ++ 45 :: r) = full day_names w ++ 44 :: 32 :: two d ++ 45 :: r1
    /\ firstn 29 (abbr day_names w ++ 44 :: 32 :: two d ++ 45 :: r) = abbr day_names w ++ 44 :: 32 :: two d ++ 45 :: r2).
  { apply day_cases in W. repeat match type of W with _ \/ _ => destruct W as [->|W]; [do 2 eexists; split; reflexivity|] end. subst. do 2 eexists; split; reflexivity. }
  destruct F as (r1 & r2 & -> & ->). split.
  - rewrite strptime_conv. unfold pconv at 1, garbage. change ((97 =? 97) || (97 =? 65)) with true. cbv iota. rewrite day_full by lia. cbv iota beta.
    rewrite strptime_comma, strptime_sp, skip_two. rewrite strptime_conv. unfold pconv at 1. cbn [Z.eqb Pos.eqb orb]. rewrite number_two by lia. reflexivity.
  - rewrite strptime_conv. unfold pconv at 1, garbage. change ((97 =? 97) || (97 =? 65)) with true. cbv iota. rewrite day_comma by lia. cbv iota beta.
    rewrite strptime_comma, strptime_sp, skip_two. rewrite strptime_conv. unfold pconv at 1. cbn [Z.eqb Pos.eqb orb]. rewrite number_two by lia. reflexivity.
Qed.

Lemma no_asctime_comma w r : 0 <= w <= 6 -> parse_asctime (abbr day_names w ++ 44 :: r) = No.
Proof.
  intros W. unfold parse_asctime, parse_gmt. fmt. apply day_cases in W.
  repeat match type of W with _ \/ _ => destruct W as [->|W]; [reflexivity|] end. subst. reflexivity.
Qed.

Lemma no_asctime_digit x r : 0 <= x <= 9 -> parse_asctime (48 + x :: r) = No.
Proof.
  intros X. assert (C : x = 0 \/ x = 1 \/ x = 2 \/ x = 3 \/ x = 4 \/ x = 5 \/ x = 6 \/ x = 7 \/ x = 8 \/ x = 9) by lia.
  unfold parse_asctime, parse_gmt. fmt. repeat match type of C with _ \/ _ => destruct C as [->|C]; [reflexivity|] end. subst. reflexivity.
Qed.

Lemma text_rfc850 y m d h mi s w o : exists r, strftime (txt "%A, %d-%b-%y %T GMT") (mkTm y m d h mi s w o) = full day_names w ++ 44 :: 32 :: two d ++ 45 :: r.
Proof. eexists. reflexivity. Qed.
Lemma text_cookie y m d h mi s w o : exists r, strftime (txt "%a, %d-%b-%Y %T GMT") (mkTm y m d h mi s w o) = abbr day_names w ++ 44 :: 32 :: two d ++ 45 :: r.
Proof. eexists. reflexivity. Qed.
Lemma text_git y m d h mi s w o : exists r, strftime (txt "%Y-%m-%d %T %z") (mkTm y m d h mi s w o) = 48 + y / 1000 mod 10 :: r.
Proof. eexists. reflexivity. Qed.

Lemma or_first v k q : or_else (Ok v (S k)) q = Ok v (S k).
Proof. reflexivity. Qed.
Lemma or_no q : or_else No q = q.
Proof. reflexivity. Qed.

(** A wrapper, so that parsers are not unfolded when terms are compared *)
Lemma parse_eq mktime s n p1 p2 p3 p4 p5 : parse_rfc1123 s = p1 -> parse_rfc850 s = p2 -> parse_asctime s = p3 -> parse_cookie s = p4 -> parse_git mktime s = p5 ->
  parse mktime s n = or_else (if (29 <=? n)%nat then p1 else No) (or_else (if (30 <=? n)%nat then p2 else No)
    (or_else (if (24 <=? n)%nat then p3 else No) (or_else (if (29 <=? n)%nat then p4 else No) (if (19 <=? n)%nat then p5 else No)))).
Proof. intros <- <- <- <- <-. reflexivity. Qed.

Theorem date_parse ns off mktime : since_1900 ns -> (forall t, Z.abs (off t) < 360000 /\ off t mod 60 = 0) ->
  let v := ns / 1000000000 * 1000000000 in
  parse mktime (print_rfc1123 ns) 29 = Ok v 29 /\
  (-31536000 * 1000000000 <= ns < 3124224000 * 1000000000 ->
     parse mktime (print_rfc850 ns) (length (print_rfc850 ns)) = Ok v (length (print_rfc850 ns))) /\
  parse mktime (print_asctime ns) 24 = Ok v 24 /\
  parse mktime (print_cookie ns) 29 = Ok v 29 /\
  parse mktime (print_git off ns) 25 = Ok v 25.
Proof.
  intros Hn Ho v. pose proof Hn as [H L]. destruct (shape ns H L) as (y & m & d & h & mi & s & w & G & O & _ & _).
  destruct O as (_ & M & D & _ & _ & _ & W). cbn [mon mday wday] in M, D, W.
  pose proof (date_rfc1123 ns [] Hn) as R1. pose proof (date_rfc850 ns) as R2. pose proof (date_asctime ns [] Hn) as R3.
  pose proof (date_cookie ns [] Hn) as R4. pose proof (date_git off mktime ns [] Hn Ho) as R5. rewrite app_nil_r in R1, R3, R4, R5. fold v in R1, R2, R3, R4, R5.
  assert (N1 : parse_rfc1123 (print_rfc850 ns) = No) by (unfold print_rfc850; rewrite G; destruct (text_rfc850 y m d h mi s w 0) as [r ->]; exact (proj1 (no_rfc1123_dash w d r W D))).
  assert (N2 : parse_rfc1123 (print_cookie ns) = No) by (unfold print_cookie; rewrite G; destruct (text_cookie y m d h mi s w 0) as [r ->]; exact (proj2 (no_rfc1123_dash w d r W D))).
  assert (N3 : parse_asctime (print_cookie ns) = No) by (unfold print_cookie; rewrite G; destruct (text_cookie y m d h mi s w 0) as [r ->]; exact (no_asctime_comma w _ W)).
  assert (N4 : parse_asctime (print_git off ns) = No).
  { unfold print_git. destruct (localtime _ _) as [y' m' d' h' mi' s' w' o']. destruct (text_git y' m' d' h' mi' s' w' o') as [r ->].
    apply no_asctime_digit. pose proof (Z.mod_pos_bound (y' / 1000) 10). lia. }
  destruct (date_printed ns (fun _ => 0) H ltac:(intros; lia)) as (_ & Len & _).
  generalize dependent (print_rfc1123 ns). generalize dependent (print_rfc850 ns). generalize dependent (print_asctime ns). generalize dependent (print_cookie ns). generalize dependent (print_git off ns).
  intros s5 R5 N4 s4 R4 N2 N3 s3 R3 s2 R2 N1 Len s1 R1.
  split; [|split; [|split; [|split]]].
  - rewrite (parse_eq mktime s1 29 _ _ _ _ _ R1 eq_refl eq_refl eq_refl eq_refl). reflexivity.
  - intros B. rewrite (parse_eq mktime s2 _ _ _ _ _ _ N1 (R2 B) eq_refl eq_refl eq_refl).
    replace (29 <=? length s2)%nat with true by (symmetry; apply Nat.leb_le; lia). replace (30 <=? length s2)%nat with true by (symmetry; apply Nat.leb_le; lia).
    rewrite or_no. destruct (length s2); [lia|reflexivity].
  - rewrite (parse_eq mktime s3 24 _ _ _ _ _ eq_refl eq_refl R3 eq_refl eq_refl). reflexivity.
  - rewrite (parse_eq mktime s4 29 _ _ _ _ _ N2 eq_refl N3 R4 eq_refl). reflexivity.
  - rewrite (parse_eq mktime s5 25 _ _ _ _ _ eq_refl eq_refl N4 eq_refl R5). reflexivity.
Qed.
Print Assumptions date_parse.

(** What a parser accepts is a whole second, and not more characters than it looks at. *)
Theorem date_whole f n s ns k : parse_gmt f n s = Ok ns k -> ns mod 1000000000 = 0 /\ i64 ns /\ (k <= n)%nat /\ (k <= length s)%nat.
Proof.
  unfold parse_gmt. destruct (strptime f garbage (firstn n s)) as [[b [|x r]]|]; try discriminate. unfold from_time_t. destruct (in_i64 _) eqn:I; [|discriminate].
  intros [= <- <-]. rewrite firstn_length. split; [apply Z.mod_mul; lia|]. unfold in_i64 in I. unfold i64, two64. lia.
Qed.
Print Assumptions date_whole.

(** ** Where it fails *)

(** A time before 1900 is printed as 1900-01-01. *)
Theorem date_early_refuted : exists ns, i64 ns /\ print_rfc1123 ns = txt "Mon, 01 Jan 1900 00:00:00 GMT" /\ ns / 1000000000 <> -2208988800.
Proof. exists (-3000000000 * 1000000000). split; [unfold i64, two64; lia|]. split; [vm_compute; reflexivity|]. vm_compute. discriminate. Qed.
Print Assumptions date_early_refuted.

(** A year from 2263 on is accepted, and the conversion overflows. *)
Theorem date_overflow_refuted : exists s, length s = 29%nat /\ parse_rfc1123 s = Overflow.
Proof. exists (txt "Sun, 06 Nov 2994 08:49:37 GMT"). split; reflexivity. Qed.
Print Assumptions date_overflow_refuted.

(** Times outside of 1969 to 2068 do not survive two-digit years. *)
Theorem date_rfc850_refuted : exists ns, since_1900 ns /\ exists k, parse_rfc850 (print_rfc850 ns) = Ok k (length (print_rfc850 ns)) /\ k <> ns / 1000000000 * 1000000000.
Proof.
  exists (3124224000 * 1000000000). split; [unfold since_1900, i64, two64; lia|]. eexists. split; [vm_compute; reflexivity|]. vm_compute. discriminate.
Qed.
Print Assumptions date_rfc850_refuted.

(** The number of characters may be more than the length of the text that was given. *)
Theorem date_view_refuted : exists mktime s n ns k, (n <= length s)%nat /\ parse mktime s n = Ok ns k /\ (n < k)%nat.
Proof.
  exists (fun _ => 0), (txt "1994-11-06 16:49:37 +0800"), 19%nat. do 2 eexists. split; [vm_compute; lia|]. split; [vm_compute; reflexivity|]. lia.
Qed.
Print Assumptions date_view_refuted.

(** A date with a one-digit day is accepted with 28 characters, not 29 as documented; so is one that does not exist. *)
Theorem date_lenient_refuted : exists s k t, parse_rfc1123 s = Ok k 28 /\ parse_rfc1123 t = Ok 5097600000000000 29 /\
  t = txt "Sun, 29 Feb 1970 00:00:00 GMT" /\ date (gmtime 5097600) = (1970, 3, 1).
Proof. exists (txt "Sun, 6 Nov 1994 08:49:37 GMT"). do 2 eexists. split; [vm_compute; reflexivity|]. split; [|split; [reflexivity|reflexivity]]. vm_compute. reflexivity. Qed.
Print Assumptions date_lenient_refuted.

Example since_1900_now : since_1900 784111777123456789 /\ print_rfc1123 784111777123456789 = txt "Sun, 06 Nov 1994 08:49:37 GMT"
  /\ print_rfc850 784111777123456789 = txt "Sunday, 06-Nov-94 08:49:37 GMT" /\ print_asctime 784111777123456789 = txt "Sun Nov  6 08:49:37 1994"
  /\ print_cookie 784111777123456789 = txt "Sun, 06-Nov-1994 08:49:37 GMT" /\ print_git (fun _ => 28800) 784111777123456789 = txt "1994-11-06 16:49:37 +0800".
Proof. split; [unfold since_1900, i64, two64; lia|]. vm_compute. auto. Qed.
Example negative_zone : print_git (fun _ => -12600) 0 = txt "1969-12-31 20:30:00 -0330" /\ parse (fun _ => 0) (txt "1969-12-31 20:30:00 -0330") 25 = Ok 0 25.
Proof. split; reflexivity. Qed.
Example unique_date : valid_date 2000 2 29 /\ gmtime (timegm (mkTm 2000 2 29 23 59 59 0 0)) = mkTm 2000 2 29 23 59 59 2 0.
Proof. split; [unfold valid_date; vm_compute; intuition discriminate|reflexivity]. Qed.
