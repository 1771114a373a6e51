(** Proofs about the fields of HTTP values. *)
From Coq Require Import ZArith List Lia Bool ZifyBool ZifyNat Arith.
From Verif Require Import Base BaseLemmas DateModel DateProofs DateProps HvalModel HvalSpec HvalProofs HvalProps NetrefSpec AddrTextModel AddrTextProofs HvnModel HvnSpec.
Import ListNotations.
Open Scope Z_scope.

(** Decimal notation *)
Lemma put_du_lead n : forall v, 0 <= v < 10 ^ Z.of_nat n -> (0 < n)%nat -> hd 0 (put_du n v) = 48 -> put_du n v = [48].
Proof.
  induction n as [|n IH]; intros v Hv Hn H; [lia|]. cbn [put_du] in *. destruct (v <? 10) eqn:E.
  - cbn [hd] in H. f_equal. lia.
  - exfalso. destruct n as [|n']; [cbn in Hv; lia|]. rewrite Nat2Z.inj_succ, Z.pow_succ_r in Hv by lia.
    assert (R : 0 <= v / 10 < 10 ^ Z.of_nat (S n')) by lia.
    destruct (put_du_spec (S n') (v / 10) R ltac:(lia)) as (N & _ & V). specialize (IH (v / 10) R ltac:(lia)).
    destruct (put_du (S n') (v / 10)) as [|c r]; [congruence|]. cbn in H. specialize (IH H). injection IH as -> ->.
    cbn in V. lia.
Qed.
Lemma put_du_digits v : 0 <= v <= 9223372036854775808 -> digits (put_du 20 v) /\ decimal_value (put_du 20 v) = v.
Proof.
  intros H. assert (R : 0 <= v < 10 ^ Z.of_nat 20) by (change (10 ^ Z.of_nat 20) with 100000000000000000000; lia).
  destruct (put_du_spec 20 v R ltac:(lia)) as (N & F & V). split; [|exact V]. split; [exact N|]. split; [exact F|]. apply put_du_lead; [exact R|lia].
Qed.
Lemma put_di_denotes n : int64 n -> denotes (put_di n) n.
Proof.
  unfold int64. intros H. unfold put_di. destruct (n <? 0) eqn:E.
  - left. exists (put_du 20 (- n)). destruct (put_du_digits (- n) ltac:(lia)) as (A & B). repeat (split; [solve [auto]|]). split; [lia|exact B].
  - right. destruct (put_du_digits n ltac:(lia)) as (A & B). split; [exact A|]. split; [lia|exact B].
Qed.
Lemma put_di_chars n : int64 n -> Forall (fun c => 48 <= c <= 57 \/ c = 45) (put_di n) /\ put_di n <> [].
Proof.
  unfold int64. intros H. unfold put_di. destruct (n <? 0) eqn:E.
  - destruct (put_du_digits (- n) ltac:(lia)) as ((_ & A & _) & _). split; [|discriminate]. constructor; [auto|]. eapply Forall_impl; [|exact A]. cbn. tauto.
  - destruct (put_du_digits n ltac:(lia)) as ((N & A & _) & _). split; [|exact N]. eapply Forall_impl; [|exact A]. cbn. tauto.
Qed.

(** Blanks at the ends *)
Lemma strip_blank a s : Forall outer_blank a -> strip (a ++ s) = strip s.
Proof. induction 1 as [|c a H _ IH]; [reflexivity|]. cbn [app strip]. unfold edge. destruct H as [-> | ->]; exact IH. Qed.
Lemma strip_plain s : ~ outer_blank (hd 0 s) -> strip s = s.
Proof. destruct s as [|c s]; [reflexivity|]. cbn [hd strip]. intros H. unfold edge. destruct (c =? 32) eqn:A; [exfalso; apply H; left; lia|]. destruct (c =? 9) eqn:B; [exfalso; apply H; right; lia|reflexivity]. Qed.
Lemma trim_parts a t b : Forall outer_blank a -> Forall outer_blank b -> t <> [] -> ~ outer_blank (hd 0 t) -> ~ outer_blank (last t 0) ->
  trim (a ++ t ++ b) = t /\ strip (a ++ t ++ b) = t ++ b.
Proof.
  intros A B N H L. unfold trim. rewrite strip_blank by auto. assert (S : strip (t ++ b) = t ++ b) by (apply strip_plain; destruct t; [congruence|exact H]).
  rewrite S. split; [|reflexivity]. rewrite rev_app_distr, strip_blank by now apply Forall_rev. rewrite strip_plain; [apply rev_involutive|].
  destruct (exists_last N) as (t' & c & ->). rewrite rev_app_distr. cbn. rewrite last_last in L. exact L.
Qed.
Lemma trim_blank a : Forall outer_blank a -> trim a = [].
Proof. intros A. unfold trim. rewrite <- (app_nil_r a), strip_blank by auto. reflexivity. Qed.
Lemma trim_word s : Forall (fun c => ~ outer_blank c) s -> trim s = s.
Proof.
  intros F. destruct s as [|c s]; [reflexivity|].
  assert (H : trim ([] ++ (c :: s) ++ []) = c :: s).
  { apply (trim_parts [] (c :: s) []); auto; [discriminate|now inversion F|].
    destruct (@exists_last _ (c :: s) ltac:(discriminate)) as (t & x & E). rewrite E in *. rewrite last_last. apply Forall_app in F. destruct F as [_ F]. now inversion F. }
  rewrite app_nil_r in H. exact H.
Qed.
Lemma c_str_in s c : In c (c_str s) -> In c s.
Proof.
  unfold c_str. intros H. pose proof (until_spec (fun c => c =? 0) s) as U. destruct (until _ s) as [a b]. destruct U as (-> & _). apply in_or_app. now left.
Qed.

Lemma date_chars ns : i64 ns -> Forall (fun c => 32 <= c <= 126) (print_rfc1123 ns) /\ 65 <= hd 0 (print_rfc1123 ns) /\ last (print_rfc1123 ns) 0 = 84
  /\ hd 0 (print_rfc1123 ns) <> 34.
Proof.
  intros H. unfold print_rfc1123. destruct (gmtime_shape ns H) as (y & m & d & h & mi & s & w & -> & O).
  destruct O as (Y & M & Dd & Hh & Mi & S & W). cbn [year mon mday hour minute second wday] in *.
  fmt. match goal with |- context [strftime ?f ?b] => change (strftime f b) with
    (abbr day_names w ++ 44 :: 32 :: two d ++ 32 :: abbr month_names (m - 1) ++ 32 :: four y ++ 32 :: (two h ++ 58 :: two mi ++ 58 :: two s) ++ [32; 71; 77; 84]) end.
  assert (T : forall n, Forall (fun c => 32 <= c <= 126) (two n)) by (intros n; unfold two; repeat constructor; lia).
  assert (F : forall n, Forall (fun c => 32 <= c <= 126) (four n)) by (intros n; unfold four; repeat constructor; lia).
  assert (DN : Forall (fun c => 32 <= c <= 126) (abbr day_names w) /\ 65 <= hd 0 (abbr day_names w) /\ abbr day_names w <> []).
  { assert (w = 0 \/ w = 1 \/ w = 2 \/ w = 3 \/ w = 4 \/ w = 5 \/ w = 6) as Q by lia. decompose [or] Q; subst w; (split; [vm_compute; repeat constructor; discriminate|]); split; vm_compute; discriminate. }
  assert (MN : Forall (fun c => 32 <= c <= 126) (abbr month_names (m - 1))).
  { assert (m = 1 \/ m = 2 \/ m = 3 \/ m = 4 \/ m = 5 \/ m = 6 \/ m = 7 \/ m = 8 \/ m = 9 \/ m = 10 \/ m = 11 \/ m = 12) as Q by lia. decompose [or] Q; subst m; vm_compute; repeat constructor; discriminate. }
  destruct DN as (D1 & D2 & D3). split; [|split; [|split]].
  - repeat first [apply Forall_app; split | apply Forall_cons; [lia|] | apply Forall_nil | apply T | apply F | exact D1 | exact MN].
  - destruct (abbr day_names w); [congruence|exact D2].
  - rewrite !app_comm_cons, !app_assoc. match goal with |- last (?x ++ [32; 71; 77; 84]) 0 = 84 => change (x ++ [32; 71; 77; 84]) with (x ++ [32; 71; 77] ++ [84]); rewrite app_assoc, last_last; reflexivity end.
  - destruct (abbr day_names w); [congruence|]. cbn [hd app] in *. lia.
Qed.

Lemma print_again ns : since_1900 ns -> print_rfc1123 (ns / 1000000000 * 1000000000) = print_rfc1123 ns.
Proof.
  intros S. pose proof S as [H L]. destruct (seconds_exact ns H L) as (E & Q).
  assert (E' : seconds (ns / 1000000000 * 1000000000) = seconds ns).
  { rewrite E. destruct (seconds_exact (ns / 1000000000 * 1000000000)) as (-> & _).
    - unfold in_i64 in Q. unfold i64, two64. lia.
    - lia.
    - apply Z.div_mul. discriminate. }
  unfold print_rfc1123. now rewrite E'.
Qed.
Lemma print_date_form D print_d (w : value D) x : f_int w = false -> f_dbl w = false -> (if f_dt w then print_rfc1123 (v_dt w) else print_text (v_str w)) = x ->
  HvnModel.print D print_d w = x.
Proof. intros H1 H2 <-. unfold HvnModel.print. now rewrite H1, H2. Qed.

Lemma update_date D read_i read_d mktime (s : list Z) ns (k : nat) : s <> [] -> ~ outer_blank (hd 0 s) -> ~ outer_blank (last s 0) -> Forall (fun c => c <> 0) s ->
  read_i s = None -> read_d s = None -> length s = k -> DateModel.parse mktime s k = Ok ns k ->
  forall v : value D, exists w, update_text D read_i read_d mktime (mkV D s (v_int v) (v_dbl v) (v_dt v) true false false false) = Some w
    /\ see w = mkSeen false s None None (Some ns) /\ f_int w = false /\ f_dbl w = false /\ f_dt w = true /\ v_dt w = ns.
Proof.
  intros N B1 B2 U RI RD Len P v. destruct (trim_parts [] s [] (Forall_nil _) (Forall_nil _) N B1 B2) as (T1 & T2). rewrite app_nil_r in *. cbn [app] in *.
  assert (C : c_str s = s).
  { unfold c_str. rewrite <- (app_nil_r s) at 1. rewrite until_app; [reflexivity| |exact I]. eapply Forall_impl; [|exact U]. cbn. intros c K. lia. }
  unfold update_text. cbn [v_str v_int v_dbl v_dt]. rewrite T1, T2, C. destruct s as [|c r]; [congruence|]. rewrite RI, RD, Len, P, Nat.eqb_refl.
  eexists. split; [reflexivity|]. unfold see. cbn [v_str v_int v_dbl v_dt f_str f_int f_dbl f_dt negb]. auto 10.
Qed.

Section Oracles.
  Variables (D : Type) (zero : D) (of_int : Z -> D) (to_int : D -> Z * bool) (print_d : D -> list Z)
            (read_i : list Z -> option Z) (read_d : list Z -> option D) (mktime : tm -> Z).
  Notation update_text := (update_text D read_i read_d mktime).
  Notation step := (step D zero of_int to_int print_d read_i read_d mktime).
  Notation fresh := (fresh D zero).
  Notation parse := (HvnModel.parse D zero read_i read_d mktime).
  Notation print := (HvnModel.print D print_d).
  Notation with_text := (with_text D zero read_i read_d mktime).

  Lemma update_seen v w : v_str v = v_str w -> option_map see (update_text v) = option_map see (update_text w).
  Proof.
    intros E. unfold HvnModel.update_text. rewrite E. destruct (trim (v_str w)) as [|c sv]; [reflexivity|]. cbn [v_str v_int v_dbl v_dt].
    destruct (read_i (c :: sv)), (read_d (c :: sv)); destruct (DateModel.parse mktime (c_str (strip (v_str w))) (length (c :: sv))) as [|ns n|];
      try reflexivity; unfold see; cbn [v_str v_int v_dbl v_dt f_str f_int f_dbl f_dt option_map]; destruct (n =? _)%nat; reflexivity.
  Qed.

  Lemma update_form v w : update_text v = Some w -> v_str w = v_str v /\ f_str w = true
    /\ (trim (v_str v) <> [] -> (if f_int w then Some (v_int w) else None) = read_i (trim (v_str v))
                             /\ (if f_dbl w then Some (v_dbl w) else None) = read_d (trim (v_str v)))
    /\ (trim (v_str v) = [] -> f_int w = false /\ f_dbl w = false /\ f_dt w = false).
  Proof.
    unfold HvnModel.update_text. cbn [v_str v_int v_dbl v_dt]. destruct (trim (v_str v)) as [|c sv] eqn:T.
    - intros [= <-]. cbn. repeat split; congruence.
    - intros H. destruct (read_i (c :: sv)) as [i|] eqn:RI, (read_d (c :: sv)) as [d|] eqn:RD;
        destruct (DateModel.parse mktime (c_str (strip (v_str v))) (length (c :: sv))) as [|ns n|]; try discriminate; injection H as <-; cbn [v_str v_int v_dbl v_dt f_str f_int f_dbl f_dt];
        repeat split; congruence.
  Qed.

  (** A text without a colon has no date. *)
  Lemma update_word v : ~ In 58 (v_str v) -> v_str v <> [] -> Forall (fun c => ~ outer_blank c) (v_str v) ->
    exists w, update_text v = Some w /\ see w = mkSeen false (v_str v) (read_i (v_str v)) (read_d (v_str v)) None.
  Proof.
    intros C N F. unfold HvnModel.update_text. rewrite (trim_word _ F). destruct (v_str v) as [|c s] eqn:E; [congruence|]. cbn [v_str v_int v_dbl v_dt].
    rewrite no_date.
    - destruct (read_i (c :: s)), (read_d (c :: s)); eexists; split; reflexivity.
    - intros H. apply C. apply c_str_in in H. rewrite strip_plain in H; [exact H|]. cbn [hd]. now inversion F.
  Qed.

  Lemma parse_word s : Forall (fun c => ~ is_blank c /\ ~ In c separators) s -> s <> [] ->
    exists w, parse s = Some (Some (w, length s)) /\ see w = mkSeen false s (read_i s) (read_d s) None.
  Proof.
    intros F N. assert (C : ~ In 58 s) by (intros H; rewrite Forall_forall in F; apply (proj2 (F _ H)); unfold separators; cbn; tauto).
    assert (P : parse_value mktime s = Text s (length s)).
    { unfold parse_value. rewrite no_date by auto. assert (parse_unquoted s = s) as ->.
      { unfold parse_unquoted. rewrite <- (app_nil_r s) at 1. rewrite until_app; [reflexivity| |exact I]. eapply Forall_impl; [|exact F]. cbn beta. intros c [H1 H2].
        unfold separators in H2. cbn [In] in H2. unfold is_blank in H1. unfold unquoted_sep. lia. }
      destruct s as [|c s]; [congruence|]. inversion F as [|? ? [_ T2] _]; subst. replace (c =? 34) with false; [reflexivity|].
      symmetry. apply Z.eqb_neq. intros ->. apply T2. now left. }
    unfold HvnModel.parse. rewrite P. destruct (update_word (mkV D s 0 zero 0 true false false false)) as (w & E & S); cbn [v_str] in *; auto.
    - eapply Forall_impl; [|exact F]. intros c [H _]. unfold outer_blank, is_blank in *. lia.
    - exists w. unfold HvnModel.with_text. rewrite E. auto.
  Qed.
End Oracles.
