(** C38, C46 and C56: MySQL values. *)
From Coq Require Import List ZArith Bool Lia Arith ZifyBool ZifyNat.
From Coq Require Import String.
From Verif Require Import Base BaseLemmas Text NetrefSpec RedisSpec DateSpec DateModel DateProofs DateProps.
From Verif Require RedisModel RedisProofs.
From Verif Require Import MysqlModel MysqlSpec.
Import ListNotations.
Open Scope list_scope.
Open Scope Z_scope.
Notation length := List.length.
Ltac Zify.zify_post_hook ::= Z.div_mod_to_equations.

(** *** Literals *)

(** The text between the quotes: a backslash before each special character. *)
Fixpoint escaped (s : list Z) : list Z :=
  match s with [] => [] | c :: s => (if special c then [92; c] else [c]) ++ escaped s end.

Lemma find_in_spec s : forall i, match find_in i s with
  | Some k => exists p c q, s = p ++ c :: q /\ k = (i + length p)%nat /\ special c = true /\ Forall (fun c => special c = false) p
  | None => Forall (fun c => special c = false) s
  end.
Proof.
  induction s as [|c s IH]; intros i; cbn [find_in]; [constructor|].
  destruct (special c) eqn:E.
  - exists [], c, s. cbn. repeat split; auto; lia.
  - specialize (IH (S i)). destruct (find_in (S i) s).
    + destruct IH as (p & d & q & -> & -> & Sd & F). exists (c :: p), d, q. cbn. repeat split; auto; lia.
    + constructor; assumption.
Qed.

Lemma escaped_app s t : escaped (s ++ t) = escaped s ++ escaped t.
Proof. induction s as [|c s IH]; [reflexivity|]. cbn [app escaped]. rewrite IH, app_assoc. reflexivity. Qed.

Lemma escaped_plain s : Forall (fun c => special c = false) s -> escaped s = s.
Proof. induction 1 as [|c s H _ IH]; [reflexivity|]. cbn [escaped]. rewrite H, IH. reflexivity. Qed.

(** [pre] has been written, [c] is the special character at [base] whose
    backslash has been written. *)
Lemma blob_loop_spec fuel : forall pre c post text, (length post <= fuel)%nat ->
  blob_loop fuel (pre ++ c :: post) text (length pre) (S (length pre)) = text ++ [c] ++ escaped post.
Proof.
  induction fuel as [|fuel IH]; intros pre c post text L.
  - destruct post; [|cbn in L; lia]. cbn [blob_loop]. rewrite app_length, Nat.add_comm, Nat.add_sub.
    rewrite skipn_app, skipn_all, Nat.sub_diag. reflexivity.
  - cbn [blob_loop]. unfold find_of.
    assert (K : skipn (S (length pre)) (pre ++ c :: post) = post).
    { rewrite skipn_app, skipn_all2 by lia. replace (S (length pre) - length pre)%nat with 1%nat by lia. reflexivity. }
    rewrite K. pose proof (find_in_spec post (S (length pre))) as F. destruct (find_in (S (length pre)) post) as [k|].
    + destruct F as (p & d & q & -> & -> & Sd & F).
      replace (pre ++ c :: p ++ d :: q) with ((pre ++ c :: p) ++ d :: q) by (rewrite <- app_assoc; reflexivity).
      replace (S (length pre) + length p)%nat with (length (pre ++ c :: p)) by (rewrite app_length; cbn [List.length]; lia).
      rewrite IH by (rewrite app_length in L; cbn [List.length] in L; lia).
      assert (K2 : firstn (length (pre ++ c :: p) - length pre) (skipn (length pre) ((pre ++ c :: p) ++ d :: q)) = c :: p).
      { rewrite <- app_assoc, skipn_app, skipn_all, Nat.sub_diag. cbn [app skipn]. rewrite app_length.
        replace (length pre + length (c :: p) - length pre)%nat with (length (c :: p)) by lia.
        change (c :: p ++ d :: q) with ((c :: p) ++ d :: q). rewrite firstn_app, firstn_all, Nat.sub_diag, app_nil_r. reflexivity. }
      rewrite K2. rewrite escaped_app, (escaped_plain p F). cbn [escaped]. rewrite Sd.
      rewrite <- !app_assoc. cbn [app]. rewrite <- ?app_assoc. reflexivity.
    + rewrite (escaped_plain post F). rewrite app_length, skipn_app, skipn_all, Nat.sub_diag.
      replace (length pre + length (c :: post) - length pre)%nat with (length (c :: post)) by lia.
      cbn [app skipn]. rewrite firstn_all. reflexivity.
Qed.

Lemma blob_escaped s : blob_loop (length s) s [] 0 0 = escaped s.
Proof.
  destruct (length s) as [|n] eqn:L; [destruct s; [reflexivity|discriminate]|]. cbn [blob_loop]. unfold find_of. cbn [skipn].
  pose proof (find_in_spec s 0) as F. destruct (find_in 0 s) as [k|].
  - destruct F as (p & c & q & -> & -> & Sc & F). cbn [Nat.add]. rewrite blob_loop_spec by (rewrite app_length in L; cbn [List.length] in L; lia).
    rewrite Nat.sub_0_r, firstn_app, firstn_all, Nat.sub_diag, app_nil_r.
    rewrite escaped_app, (escaped_plain p F). cbn [escaped]. rewrite Sc. rewrite <- !app_assoc. cbn [app]. rewrite <- ?app_assoc. reflexivity.
  - rewrite (escaped_plain s F), Nat.sub_0_r, firstn_all. reflexivity.
Qed.

Lemma escaped_read s rest : hd 0 rest <> 39 -> sql_string (escaped s ++ [39] ++ rest) = Some (s, rest).
Proof.
  intros H. induction s as [|c s IH].
  - cbn [escaped app sql_string]. change (39 =? 39) with true. destruct rest as [|d rest]; [reflexivity|]. cbn [hd] in H.
    replace (d =? 39) with false by lia. reflexivity.
  - cbn [escaped]. unfold special. destruct ((c =? 39) || (c =? 34) || (c =? 92)) eqn:E.
    + cbn [app sql_string] in *. change (92 =? 39) with false. change (92 =? 92) with true. cbv iota. rewrite IH.
      unfold unescape. replace (c =? 48) with false by lia. replace (c =? 98) with false by lia. replace (c =? 110) with false by lia.
      replace (c =? 114) with false by lia. replace (c =? 116) with false by lia. replace (c =? 90) with false by lia.
      replace ((c =? 37) || (c =? 95)) with false by lia. reflexivity.
    + cbn [app sql_string] in *. replace (c =? 39) with false by lia. replace (c =? 92) with false by lia. rewrite IH. reflexivity.
Qed.

(** A printed string is a single literal which is read back as the same bytes,
    and whatever comes after it comes after the literal. *)
Theorem sql_literal double_text off s rest : hd 0 rest <> 39 ->
  exists t, print double_text off (Blob s) ++ rest = 39 :: t /\ sql_string t = Some (s, rest).
Proof.
  intros H. exists (escaped s ++ [39] ++ rest). cbn [print]. rewrite blob_escaped. split.
  - cbn [app]. rewrite <- app_assoc. reflexivity.
  - apply escaped_read. exact H.
Qed.

(** This depends on the mode and on the character set of the server. *)
Theorem sql_mode_refuted double_text off : exists s rest t x r,
  print double_text off (Blob s) ++ rest = 39 :: t /\ hd 0 rest <> 39
  /\ plain_string t = Some (x, r) /\ r <> rest.
Proof. exists (txt "' OR 1=1 -- "), []. do 3 eexists. repeat split; try (vm_compute; reflexivity); vm_compute; discriminate. Qed.

Theorem sql_charset_refuted double_text off : exists s rest t x r,
  print double_text off (Blob s) ++ rest = 39 :: t /\ hd 0 rest <> 39
  /\ gbk_string t = Some (x, r) /\ r <> rest.
Proof. exists (191 :: txt "' OR 1=1 -- "), []. do 3 eexists. repeat split; try (vm_compute; reflexivity); vm_compute; discriminate. Qed.

Theorem sql_integer double_text off n : - 2 ^ 63 <= n < 2 ^ 63 -> integer_text n (print double_text off (Int n)).
Proof. intros H. apply RedisProofs.put_int_text. exact H. Qed.

(** *** Dates *)

Lemma epoch_civil days : epoch_day days (civil days).
Proof.
  assert (P : forall n, epoch_day (Z.of_nat n) (civil (Z.of_nat n))).
  { induction n as [|n IH]; [constructor|]. rewrite Nat2Z.inj_succ. unfold Z.succ. rewrite civil_next. constructor. exact IH. }
  assert (N : forall n, epoch_day (- Z.of_nat n) (civil (- Z.of_nat n))).
  { induction n as [|n IH]; [constructor|]. apply epoch_before.
    - rewrite <- civil_next. replace (- Z.of_nat (S n) + 1) with (- Z.of_nat n) by lia. exact IH.
    - pose proof (civil_facts (- Z.of_nat (S n))) as F. destruct (civil (- Z.of_nat (S n))) as [[y m] d]. apply F. }
  destruct (Z.le_gt_cases 0 days).
  - replace days with (Z.of_nat (Z.to_nat days)) by lia. apply P.
  - replace days with (- Z.of_nat (Z.to_nat (- days))) by lia. apply N.
Qed.

Lemma localtime_spec off t : let b := localtime off t in
  local_time t off (year b) (mon b) (mday b) (hour b) (minute b) (second b) /\ gmtoff b = off.
Proof.
  cbv zeta. unfold localtime. pose proof (epoch_civil ((t + off) / 86400)) as E. destruct (civil ((t + off) / 86400)) as [[y m] d] eqn:C.
  cbn [year mon mday hour minute second gmtoff]. split; [|reflexivity].
  split; [lia|]. split; [lia|]. split; [lia|]. exists ((t + off) / 86400). split; [exact E|]. lia.
Qed.

Lemma two_digits v : 0 <= v <= 99 -> digits_of 2 v (two v).
Proof.
  intros H. unfold digits_of, two, decimal, number. split; [reflexivity|]. split; [|cbn [fold_left]; lia].
  repeat (apply Forall_cons; [lia|]); apply Forall_nil.
Qed.

Lemma four_digits v : 0 <= v <= 9999 -> digits_of 4 v (four v).
Proof.
  intros H. unfold digits_of, four, decimal, number. split; [reflexivity|]. split; [|cbn [fold_left]; lia].
  repeat (apply Forall_cons; [lia|]); apply Forall_nil.
Qed.

(** A time point, since 1900, is printed as the local date and time. *)
Theorem sql_datetime double_text off ns : since_1900 ns -> (forall t, Z.abs (off t) < 360000) ->
  exists y m d h mi s t,
    print double_text off (Datetime ns) = [39] ++ t ++ [39] /\ datetime_text y m d h mi s t
    /\ local_time (ns / 1000000000) (off (ns / 1000000000)) y m d h mi s.
Proof.
  intros [H L] Ho. destruct (seconds_exact ns H L) as [E _]. cbn [print]. unfold print_git. cbv zeta. rewrite E.
  set (t := ns / 1000000000) in *. specialize (Ho t). set (o := off t) in *.
  destruct (localtime_spec o t) as [S G]. pose proof (seconds_range ns H) as R. rewrite E in R.
  destruct (ok_localtime o t ltac:(lia)) as [O Y]. destruct (localtime o t) as [y m d h mi s w g].
  cbn [year mon mday hour minute second gmtoff] in *. subst g. destruct O as (OY & OM & OD & OH & OMi & OS & _).
  cbn [year mon mday hour minute second] in *.
  exists y, m, d, h, mi, s, (four y ++ [45] ++ two m ++ [45] ++ two d ++ [32] ++ two h ++ [58] ++ two mi ++ [58] ++ two s).
  split; [reflexivity|]. split; [|exact S].
  constructor; first [apply four_digits; lia|apply two_digits; lia].
Qed.

(** *** Time points in the database *)

(** Exactly what is read back, for any zone between -15:00 and +35:00: the
    millisecond, but the part of the offset below half an hour is added. *)
Theorem time_stored off timelocal ns : i64 ns -> -9223372000000000000 <= ns <= 9223370000000000000 ->
  - 54000 + 1800 <= off (ns / 1000000000) < 126000 ->
  decode_time timelocal (encode_time off ns)
  = Some (ns / 1000000 * 1000000 + off (ns / 1000000000) mod 1800 * 1000000000).
Proof.
  intros H L O. pose proof (timespec_exact_partial ns H ltac:(lia)) as E. unfold encode_time. destruct (timespec ns) as [sec nsec].
  destruct E as (E1 & E2 & _). assert (sec = ns / 1000000000) by lia. subst sec. set (t := ns / 1000000000) in *. set (o := off t) in *.
  pose proof (timegm_localtime o t) as T. destruct (localtime_spec o t) as [_ G].
  destruct (localtime o t) as [y m d h mi s w g]. cbn [year mon mday hour minute second gmtoff] in *. subst g.
  unfold decode_time. cbn [t_year t_month t_day t_hour t_minute t_second t_part].
  set (k := nsec / 1000000). assert (K : 0 <= k <= 999) by (unfold k; lia).
  rewrite (Z.mod_small (54000 + o) 4294967296) by lia. set (z := (54000 + o) / 1800). assert (Hz : 1 <= z < 100) by (unfold z; lia).
  assert (M : (k * 1000 + z) mod 100 = z) by lia. rewrite M. replace (z =? 0) with false by lia.
  replace ((k * 1000 + z) / 1000) with k by lia.
  unfold timegm in *. cbn [year mon mday hour minute second] in *. rewrite T.
  assert (F : t + o - (z * 1800 - 54000) = t + o mod 1800) by (unfold z; lia). rewrite F.
  unfold from_timespec, in_i64. set (q := o mod 1800) in *. assert (Q : 0 <= q < 1800) by (unfold q; lia).
  assert (I : ns / 1000000 * 1000000 = t * 1000000000 + k * 1000000) by (unfold k; lia). rewrite I. clearbody q z k t.
  match goal with |- (if ?c then _ else _) = _ => replace c with true by lia end. f_equal. lia.
Qed.

(** So it is the same millisecond if the offset consists of half hours. *)
Theorem time_stored_partial off timelocal ns : i64 ns -> -9223372000000000000 <= ns <= 9223370000000000000 ->
  - 54000 < off (ns / 1000000000) < 126000 -> off (ns / 1000000000) mod 1800 = 0 ->
  decode_time timelocal (encode_time off ns) = Some (ns / 1000000 * 1000000).
Proof.
  intros H L O M. rewrite (time_stored off timelocal ns H L) by lia. rewrite M. f_equal. lia.
Qed.

(** In Nepal it is a quarter of an hour later. *)
Theorem time_stored_refuted : exists off ns, i64 ns /\ (forall t, off t = 20700) /\
  forall timelocal, decode_time timelocal (encode_time off ns) = Some (ns / 1000000 * 1000000 + 900 * 1000000000).
Proof.
  exists (fun _ => 20700), 1700000000123456789. split; [unfold i64, two64; lia|]. split; [reflexivity|]. intros timelocal.
  rewrite time_stored; [reflexivity|unfold i64, two64; lia|lia|lia].
Qed.

(** What has not been written by this class, and has no zone, is a local
    time. *)
Theorem time_foreign timelocal t : t_part t mod 100 = 0 ->
  decode_time timelocal t =
  from_timespec (timelocal (mkTm (t_year t) (t_month t) (t_day t) (t_hour t) (t_minute t) (t_second t) 0 0))
    (t_part t / 1000 * 1000000).
Proof. intros H. unfold decode_time. rewrite H. reflexivity. Qed.

(** *** Arguments *)

Definition plain (v : value) : Prop := match v with Datetime ns => i64 ns /\ -9223372036000000000 <= ns | _ => True end.

Lemma encode_conveys off ns : (forall t, - 54000 <= off t < 126000) -> i64 ns /\ -9223372036000000000 <= ns ->
  conveys off (Datetime ns) (S_time (encode_time off ns)).
Proof.
  intros Ho [H L]. pose proof (timespec_exact_partial ns H L) as E. unfold encode_time. destruct (timespec ns) as [sec nsec].
  destruct E as (E1 & E2 & _). assert (sec = ns / 1000000000) by lia. subst sec. constructor.
  - cbn [t_year t_month t_day t_hour t_minute t_second]. apply localtime_spec.
  - cbn [t_part]. rewrite (proj2 (localtime_spec _ _)). specialize (Ho (ns / 1000000000)).
    rewrite (Z.mod_small (54000 + _) 4294967296) by lia. replace nsec with (ns mod 1000000000) by lia.
    set (z := (54000 + _) / 1800). assert (0 <= z < 1000) by (unfold z; lia). clearbody z. lia.
Qed.

Lemma set_at_length l i t : (i < length l)%nat -> length (set_at l i t) = length l.
Proof. intros H. unfold set_at. rewrite app_length, firstn_length. cbn [List.length]. rewrite skipn_length. lia. Qed.

Lemma set_at_same l i t : (i < length l)%nat -> nth_error (set_at l i t) i = Some t.
Proof.
  intros H. unfold set_at. rewrite nth_error_app2 by (rewrite firstn_length; lia).
  rewrite firstn_length, Nat.min_l, Nat.sub_diag by lia. reflexivity.
Qed.

Lemma set_at_other l i j t : (i < length l)%nat -> i <> j -> nth_error (set_at l i t) j = nth_error l j.
Proof.
  intros H N. rewrite <- (firstn_skipn i l) at 2. unfold set_at.
  destruct (Nat.lt_ge_cases j i).
  - rewrite !nth_error_app1 by (rewrite firstn_length; lia). reflexivity.
  - rewrite !nth_error_app2 by (rewrite firstn_length; lia). rewrite firstn_length, Nat.min_l by lia.
    destruct (skipn i l) as [|x r] eqn:K.
    + apply (f_equal (@List.length _)) in K. rewrite skipn_length in K. cbn in K. lia.
    + assert (K' : skipn (S i) l = r).
      { assert (LL : l = firstn i l ++ x :: r) by (rewrite <- K; symmetry; apply firstn_skipn).
        rewrite LL, skipn_app, skipn_all2 by (rewrite firstn_length; lia). rewrite firstn_length, Nat.min_l by lia.
        replace (S i - i)%nat with 1%nat by lia. reflexivity. }
      rewrite K'. replace (j - i)%nat with (S (j - i - 1)) by lia. reflexivity.
Qed.

(** The buffer is empty or has all its elements. *)
Definition sized (n : nat) (b : buffer) : Prop := (fst b = O /\ snd b = []) \/ (fst b = 1%nat /\ length (snd b) = n).

(** What has been bound stays so. *)
Lemma bind_spec off n : forall args nparams col b xs b',
  (forall t, - 54000 <= off t < 126000) -> Forall plain args -> (col + length args = n)%nat -> (nparams <= length args)%nat -> sized n b ->
  bind_args off nparams col n args b = (xs, b') ->
  sized n b' /\ (fst b = 1%nat -> fst b' = 1%nat) /\ (forall i, (i < col)%nat -> fst b = 1%nat -> nth_error (snd b') i = nth_error (snd b) i)
  /\ exists l, all_some (map (send b') xs) = Some l /\ Forall2 (conveys off) (firstn nparams args) l.
Proof.
  induction args as [|v args IH]; intros nparams col b xs b' Ho P Hc Hn Sb E.
  - cbn [List.length] in Hn. assert (nparams = O) by lia. subst. cbn [bind_args] in E. injection E as <- <-. repeat split; auto.
    exists []. split; [reflexivity|constructor].
  - destruct nparams as [|nparams].
    { cbn [bind_args] in E. injection E as <- <-. repeat split; auto. exists []. split; [reflexivity|constructor]. }
    cbn [List.length] in *. inversion P as [|? ? Pv Pa]; subst. cbn [bind_args] in E.
    assert (SIMPLE : forall x sx, (forall b, send b x = Some sx) -> conveys off v sx ->
      (let '(xs, b) := bind_args off nparams (S col) (col + S (length args)) args b in (x :: xs, b)) = (xs, b') ->
      sized (col + S (length args)) b' /\ (fst b = 1%nat -> fst b' = 1%nat)
      /\ (forall i, (i < col)%nat -> fst b = 1%nat -> nth_error (snd b') i = nth_error (snd b) i)
      /\ exists l, all_some (map (send b') xs) = Some l /\ Forall2 (conveys off) (firstn (S nparams) (v :: args)) l).
    { intros x sx Hx Cx E'. destruct (bind_args off nparams (S col) (col + S (length args)) args b) as [ys c] eqn:B.
      injection E' as <- <-. destruct (IH nparams (S col) b ys c Ho Pa ltac:(lia) ltac:(lia) Sb B) as (S1 & S2 & S3 & l & A & F).
      split; [exact S1|]. split; [exact S2|]. split; [intros i Hi; apply S3; lia|].
      exists (sx :: l). cbn [map all_some]. rewrite Hx, A. split; [reflexivity|]. cbn [firstn]. constructor; assumption. }
    destruct v as [|k|x|s|ns].
    + apply (SIMPLE Bind_null S_null); [reflexivity|constructor|exact E].
    + apply (SIMPLE (Bind_int k) (S_int k)); [reflexivity|constructor|exact E].
    + apply (SIMPLE (Bind_double x) (S_double x)); [reflexivity|constructor|exact E].
    + apply (SIMPLE (Bind_blob s) (S_blob s)); [reflexivity|constructor|exact E].
    + clear SIMPLE. set (n := (col + S (length args))%nat) in *.
      assert (RZ : exists l, resize n b = (1%nat, l) /\ length l = n /\ (fst b = 1%nat -> l = snd b)).
      { destruct b as [g l]. destruct Sb as [[G L]|[G L]]; cbn [fst snd] in *; subst g; unfold resize.
        - subst l. cbn [List.length]. replace (n <=? 0)%nat with false by lia. exists (repeat zero_time (n - 0)).
          split; [reflexivity|]. split; [rewrite repeat_length; lia|discriminate].
        - rewrite L. replace (n <=? n)%nat with true by lia. exists l. rewrite firstn_all2 by lia. auto. }
      destruct RZ as (l & RE & RL & RS). rewrite RE in E.
      set (c := (1%nat, set_at l col (encode_time off ns))) in *.
      destruct (bind_args off nparams (S col) n args c) as [ys d] eqn:B. injection E as <- <-.
      assert (Sc : sized n c) by (right; split; [reflexivity|]; unfold c; cbn [snd]; rewrite set_at_length; lia).
      destruct (IH nparams (S col) c ys d Ho Pa ltac:(lia) ltac:(lia) Sc B) as (S1 & S2 & S3 & r & A & F).
      split; [exact S1|]. split; [intros _; apply S2; reflexivity|]. split.
      * intros i Hi G. rewrite (S3 i ltac:(lia) eq_refl). unfold c. cbn [snd]. rewrite set_at_other by lia. rewrite (RS G). reflexivity.
      * exists (S_time (encode_time off ns) :: r). cbn [map all_some send]. rewrite (S2 eq_refl).
        change (1 =? 1)%nat with true. cbv iota. rewrite (S3 col ltac:(lia) eq_refl). unfold c. cbn [snd]. rewrite set_at_same by lia. cbn [option_map].
        rewrite A. split; [reflexivity|]. cbn [firstn]. constructor; [|exact F]. apply encode_conveys; assumption.
Qed.

(** Every parameter of a statement gets its argument. If there are too few,
    nothing is sent. *)
Theorem statement_arguments off nparams args : (forall t, - 54000 <= off t < 126000) -> Forall plain args ->
  if (length args <? nparams)%nat then execute off nparams args = Throws
  else exists l, execute off nparams args = Sends l /\ Forall2 (conveys off) (firstn nparams args) l.
Proof.
  intros Ho P. unfold execute. destruct (length args <? nparams)%nat eqn:L; [reflexivity|].
  destruct (bind_args off nparams 0 (length args) args (O, [])) as [xs b] eqn:B.
  destruct (bind_spec off (length args) args nparams 0 (O, []) xs b Ho P eq_refl ltac:(lia) (or_introl (conj eq_refl eq_refl)) B)
    as (_ & _ & _ & l & A & F).
  exists l. rewrite A. split; [reflexivity|exact F].
Qed.

(** *** Rows *)

Lemma string_fetched filler s : (length s <= 255)%nat ->
  resize_string filler (length s) (firstn 255 s ++ skipn (length (firstn 255 s)) (resize_string filler 255 [])) = s.
Proof.
  intros L. rewrite (firstn_all2 s) by lia. unfold resize_string at 1. rewrite firstn_app, firstn_all, Nat.sub_diag.
  cbn [firstn]. rewrite app_nil_r, app_length. replace (length s - _)%nat with O by lia. apply app_nil_r.
Qed.

(** Every field of a row is read in full, however long it is. *)
Theorem row_fetched timelocal filler fs cs : Forall2 fits fs cs ->
  fetch_row timelocal filler fs cs = Some (map cell_value cs).
Proof.
  unfold fetch_row. induction 1 as [|f c fs cs H _ IH]; [reflexivity|]. cbn [combine map fst snd all_some].
  assert (E : fetch_column timelocal filler f c = Some (cell_value c)).
  { destruct H; try reflexivity. cbn [fetch_column cell_value]. destruct (255 <? length s)%nat eqn:L; [reflexivity|].
    rewrite string_fetched by lia. reflexivity. }
  rewrite E. cbn [all_some] in *. rewrite IH. reflexivity.
Qed.

(** *** Examples *)

Example sql_example : print (fun _ => None) (fun _ => 3600) (Blob (txt "it's a \ ""test""")) = txt "'it\'s a \\ \""test\""'"
  /\ print (fun _ => None) (fun _ => 3600) (Datetime 784111777000000000) = txt "'1994-11-06 09:49:37'".
Proof. split; vm_compute; reflexivity. Qed.

Example time_example : i64 1700000000123456789 /\ encode_time (fun _ => 3600) 1700000000123456789
  = mkTime 2023 11 14 23 13 20 123032.
Proof. split; [unfold i64, two64; lia|vm_compute; reflexivity]. Qed.

Example execute_example : execute (fun _ => 0) 3 [Datetime 0; Int 5; Datetime 1000000000; Blob []]
  = Sends [S_time (mkTime 1970 1 1 0 0 0 30); S_int 5; S_time (mkTime 1970 1 1 0 0 1 30)].
Proof. vm_compute. reflexivity. Qed.

Example row_example : Forall2 fits [F_int; F_other; F_time] [C_int 4; C_bytes (repeat 7 300); C_null].
Proof. repeat constructor. Qed.

Print Assumptions sql_literal.
Print Assumptions sql_mode_refuted.
Print Assumptions sql_charset_refuted.
Print Assumptions sql_integer.
Print Assumptions sql_datetime.
Print Assumptions time_stored.
Print Assumptions time_stored_partial.
Print Assumptions time_stored_refuted.
Print Assumptions time_foreign.
Print Assumptions statement_arguments.
Print Assumptions row_fetched.
