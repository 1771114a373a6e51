(** Theorems about the fields of HTTP values (C40, C90). *)
From Coq Require Import ZArith List Lia Bool ZifyBool ZifyNat Arith.
From Coq Require Import (notations) String.
From Verif Require Import Base Text BaseLemmas DateModel DateProofs DateProps HvalModel HvalSpec HvalProofs HvalProps NetrefSpec AddrTextModel AddrTextProofs HvnModel HvnSpec HvnProofs.
Import ListNotations.
Open Scope Z_scope.
Local Notation length := List.length.

Section Oracles.
  (** Whatever doubles are, and whatever the external functions do *)
  Variables (D : Type) (zero : D) (of_int : Z -> D) (to_int : D -> Z * bool) (print_d : D -> list Z)
            (read_i : list Z -> option Z) (read_d : list Z -> option D) (mktime : tm -> Z).
  Notation step := (step D zero of_int to_int print_d read_i read_d mktime).
  Notation run := (run D zero of_int to_int print_d read_i read_d mktime).
  Notation fresh := (fresh D zero).
  Notation parse := (HvnModel.parse D zero read_i read_d mktime).
  Notation print := (HvnModel.print D print_d).

  (** * C90 *)

  (** What can be learnt from a value depends only on what has been assigned last, whatever it was before; all
      fields do, unless it was a text. *)
  Theorem hvn_last : forall (os : list (op D)) (v : value D) (o : op D), run fresh os = Some v ->
    option_map see (step v o) = option_map see (step fresh o)
    /\ ((forall s, o <> SetText s) -> step v o = step fresh o).
  Proof.
    intros os v o _. split.
    - destruct o; cbn [HvnModel.step]; try reflexivity. now apply update_seen.
    - intros N. destruct o; try reflexivity. now elim (N s).
  Qed.

  (** Texts are kept as they are.  A text is an integer, or a double, if and only if it can be read as one when the
      blanks at its ends are ignored. *)
  Theorem hvn_text : forall (v w : value D) (a t b : list Z), Forall outer_blank a -> Forall outer_blank b ->
    (t <> [] -> ~ outer_blank (hd 0 t) /\ ~ outer_blank (last t 0)) ->
    step v (SetText (a ++ t ++ b)) = Some w ->
    s_null (see w) = false /\ s_text (see w) = a ++ t ++ b
    /\ (t <> [] -> s_int (see w) = read_i t /\ s_dbl (see w) = read_d t)
    /\ (t = [] -> s_int (see w) = None /\ s_dbl (see w) = None /\ s_date (see w) = None).
  Proof.
    intros v w a t b A B T H. cbn [HvnModel.step] in H. apply update_form in H. cbn [v_str] in H. destruct H as (H1 & H2 & H3 & H4).
    unfold see. cbn [s_null s_text s_int s_dbl s_date]. rewrite H2. split; [reflexivity|]. split; [exact H1|]. split.
    - intros N. destruct (T N) as (T1 & T2). destruct (trim_parts a t b A B N T1 T2) as (E & _). rewrite E in *. now apply H3.
    - intros ->. cbn [app] in *. rewrite trim_blank in * by (apply Forall_app; auto). destruct (H4 eq_refl) as (-> & -> & ->). auto.
  Qed.

  (** A text without a colon, which no date is without, always gives a value; so does every text that is not read
      as a date. *)
  Theorem hvn_text_total : forall (v : value D) (s : list Z), ~ In 58 s -> exists w, step v (SetText s) = Some w /\ s_date (see w) = None.
  Proof.
    intros v s C. cbn [HvnModel.step]. unfold update_text. cbn [v_str v_int v_dbl v_dt]. destruct (trim s) as [|c sv]; [eexists; split; reflexivity|].
    rewrite no_date.
    - destruct (read_i (c :: sv)), (read_d (c :: sv)); eexists; split; reflexivity.
    - intros H. apply C. apply c_str_in in H. clear -H. induction s as [|x s IH]; [exact H|]. cbn [strip] in H. destruct (edge x); [right; auto|exact H].
  Qed.

  (** An integer is its decimal notation, and is printed so. *)
  Theorem hvn_int : forall (v : value D) (n : Z), int64 n ->
    exists w, step v (SetInt n) = Some w /\ denotes (s_text (see w)) n
      /\ see w = mkSeen false (s_text (see w)) (Some n) (Some (of_int n)) None /\ print w = s_text (see w).
  Proof.
    intros v n R. eexists. split; [reflexivity|]. split; [now apply put_di_denotes|]. split; reflexivity.
  Qed.

  (** A double is printed as its text, and it is an integer if and only if the conversion is exact. *)
  Theorem hvn_dbl : forall (v : value D) (d : D),
    exists w, step v (SetDbl d) = Some w
      /\ see w = mkSeen false (print_d d) (if snd (to_int d) then Some (fst (to_int d)) else None) (Some d) None
      /\ (snd (to_int d) = false -> print w = s_text (see w)).
  Proof.
    intros v d. cbn [HvnModel.step]. unfold update_dbl. destruct (to_int d) as [n ok]. eexists. split; [reflexivity|].
    unfold see. cbn [v_str v_int v_dbl v_dt f_str f_int f_dbl f_dt negb fst snd]. split; [reflexivity|]. intros ->. reflexivity.
  Qed.

  (** A date is its text (to the second), and the text is read as that date. *)
  Theorem hvn_date : forall (v : value D) (ns : Z), since_1900 ns ->
    (exists w, step v (SetDate ns) = Some w /\ see w = mkSeen false (print_rfc1123 ns) None None (Some ns) /\ print w = print_rfc1123 ns)
    /\ (read_i (print_rfc1123 ns) = None -> read_d (print_rfc1123 ns) = None ->
        exists w, step v (SetText (print_rfc1123 ns)) = Some w
          /\ see w = mkSeen false (print_rfc1123 ns) None None (Some (ns / 1000000000 * 1000000000))
          /\ print w = print_rfc1123 ns).
  Proof.
    intros v ns S. split.
    { exists (update_dt D zero ns). split; [reflexivity|]. split; [reflexivity|]. apply print_date_form; reflexivity. }
    intros RI RD. pose proof S as [H L]. destruct (date_chars ns H) as (C & C1 & C2 & _).
    destruct (date_parse ns (fun _ => 0) mktime S ltac:(intros; split; [lia|reflexivity])) as (P & _).
    destruct (date_printed ns (fun _ => 0) H ltac:(intros; lia)) as (Len & _).
    assert (N : print_rfc1123 ns <> []) by (intros E; rewrite E in Len; discriminate).
    assert (B1 : ~ outer_blank (hd 0 (print_rfc1123 ns))) by (unfold outer_blank; lia).
    assert (B2 : ~ outer_blank (last (print_rfc1123 ns) 0)) by (rewrite C2; unfold outer_blank; lia).
    assert (U : Forall (fun c => c <> 0) (print_rfc1123 ns)) by (eapply Forall_impl; [|exact C]; cbn; intros c K; lia).
    pose proof (update_date D read_i read_d mktime (print_rfc1123 ns) _ 29 N B1 B2 U RI RD Len P v) as (w & E & Sn & F1 & F2 & F3 & F4).
    exists w. split; [exact E|]. split; [exact Sn|]. apply print_date_form; [exact F1|exact F2|]. rewrite F3, F4. now apply print_again.
  Qed.

  (** A date at the beginning of a header is read, whatever follows it, and is
      printed as it was. *)
  Theorem hvn_read_date : forall (v : value D) (ns : Z) (r : list Z), since_1900 ns ->
    exists w, step v (Parse (print_rfc1123 ns ++ r)) = Some w /\ v_str w = print_rfc1123 ns
      /\ f_dt w = true /\ v_dt w = ns / 1000000000 * 1000000000 /\ print w = print_rfc1123 ns.
  Proof.
    intros v ns r S. pose proof S as [H L]. destruct (date_chars ns H) as (_ & C1 & _ & _).
    pose proof (date_rfc1123 ns r S) as P. pose proof (print_again ns S) as A.
    destruct (date_printed ns (fun _ => 0) H ltac:(intros; lia)) as (Len & _).
    cbn [HvnModel.step]. unfold HvnModel.parse, parse_value.
    assert (E : DateModel.parse mktime (print_rfc1123 ns ++ r) (length (print_rfc1123 ns ++ r)) = Ok (ns / 1000000000 * 1000000000) 29).
    { rewrite app_length, Len. clear A C1 Len. revert P. generalize (print_rfc1123 ns). intros s P.
      rewrite (parse_eq mktime (s ++ r) _ _ _ _ _ _ P eq_refl eq_refl eq_refl eq_refl).
      replace (29 <=? 29 + length r)%nat with true by (symmetry; apply Nat.leb_le; lia). reflexivity. }
    rewrite E. clear E P. revert C1 A Len. generalize (print_rfc1123 ns). intros s C1 A Len.
    destruct s as [|c s]; [discriminate|]. cbn [hd] in C1. cbn [app]. replace (c =? 34) with false by lia.
    eexists. split; [reflexivity|]. unfold with_date. cbn [v_str v_dt f_dt].
    split; [change (c :: s ++ r) with ((c :: s) ++ r); rewrite <- Len; rewrite firstn_app, Nat.sub_diag, firstn_all; cbn [firstn]; apply app_nil_r|].
    split; [reflexivity|]. split; [reflexivity|]. unfold HvnModel.print. cbn [f_int f_dbl f_dt v_dt]. exact A.
  Qed.

  (** * C40, for all values *)

  (** A value that is neither a number nor a date is printed as a text (properties hv_clean, hv_print), and reading
      what was printed gives the text back with blanks squeezed, unless a date in it overflows. *)
  Theorem hvn_print_partial : forall (v w : value D) (s : list Z), step v (SetText s) = Some w ->
    s_int (see w) = None -> s_dbl (see w) = None -> s_date (see w) = None -> s <> [] ->
    print w = print_text s
    /\ (parse (print w) = None \/ exists w' t, parse (print w) = Some (Some (w', length (print w))) /\ squeezed s t /\ s_text (see w') = t).
  Proof.
    intros v w s H I1 I2 I3 N. cbn [HvnModel.step] in H. assert (F := update_form _ _ _ _ _ _ H). cbn [v_str] in F. destruct F as (E & _ & _ & _).
    assert (P : print w = print_text s).
    { unfold HvnModel.print. unfold see in *. cbn [s_int s_dbl s_date] in *. destruct (f_int w); [discriminate|]. destruct (f_dbl w); [discriminate|]. destruct (f_dt w); [discriminate|]. now rewrite E. }
    split; [exact P|]. rewrite P. destruct (hv_parse mktime s N) as (t & S & Q). unfold HvnModel.parse. rewrite Q. unfold with_text.
    destruct (update_text D read_i read_d mktime (mkV D t 0 zero 0 true false false false)) as [w'|] eqn:U; [|auto]. right. exists w', t. split; [reflexivity|]. split; [exact S|].
    apply update_form in U. cbn [v_str] in U. apply U.
  Qed.

  (** Numbers: an integer, and a text that is one, are printed so that they are read as the same integer, if the
      reader knows decimal notation.  Missing: the text may be another one. *)
  Theorem hvn_number_partial : forall (v w : value D) (o : op D) (n : Z), (o = SetInt n \/ exists s, o = SetText s) ->
    step v o = Some w -> s_int (see w) = Some n -> int64 n ->
    (forall t, denotes t n -> read_i t = Some n) ->
    denotes (print w) n
    /\ exists w', parse (print w) = Some (Some (w', length (print w))) /\ s_int (see w') = Some n /\ s_text (see w') = print w.
  Proof.
    intros v w o n _ _ S R L. unfold see in S. cbn [s_int] in S. destruct (f_int w) eqn:F; [|discriminate]. injection S as S.
    assert (P : print w = put_di n) by (unfold HvnModel.print; now rewrite F, S). rewrite P. split; [now apply put_di_denotes|].
    destruct (put_di_chars n R) as (C & N). destruct (parse_word D zero of_int to_int print_d read_i read_d mktime (put_di n)) as (w' & E & Q); [|exact N|].
    - eapply Forall_impl; [|exact C]. cbn beta. intros c K. unfold is_blank, separators. cbn [In]. lia.
    - exists w'. rewrite E, Q. cbn [s_int s_text]. rewrite (L _ (put_di_denotes n R)). auto.
  Qed.

  (** The text is another one for example for 007, which is printed as 7. *)
  Theorem hvn_number_text_refuted : forall v : value D, read_i (txt "007") = Some 7 ->
    exists w, step v (SetText (txt "007")) = Some w /\ s_text (see w) = txt "007" /\ print w = txt "7".
  Proof.
    intros v L. destruct (update_word D read_i read_d mktime (mkV D (txt "007") (v_int v) (v_dbl v) (v_dt v) true false false false)) as (w & E & S).
    - vm_compute. intuition discriminate.
    - discriminate.
    - cbn. repeat (apply Forall_cons; [unfold outer_blank; lia|]). apply Forall_nil.
    - exists w. split; [exact E|]. rewrite S. split; [reflexivity|]. cbn [v_str] in S. rewrite L in S. unfold see in S.
      unfold HvnModel.print. destruct (f_int w); [|discriminate]. injection S as _ _ -> _ _. reflexivity.
  Qed.

  (** as_integer() of a text that is not an integer may be what it was before, although the fields are documented to
      be always synchronized; a new value has zero there. *)
  Theorem hvn_stale_refuted : read_i (txt "x") = None ->
    exists v w, run fresh [SetInt 42; SetText (txt "x")] = Some v /\ run fresh [SetText (txt "x")] = Some w
      /\ v_int v = 42 /\ v_int w = 0 /\ see v = see w.
  Proof.
    intros L. cbn [HvnModel.run HvnModel.step]. unfold update_text. cbn [v_str v_int v_dbl v_dt update_int HvnModel.fresh].
    change (c_str (strip (txt "x"))) with [120]. change (trim (txt "x")) with [120]. change (txt "x") with [120] in *. cbv iota. rewrite no_date by (intros [X|[]]; discriminate).
    rewrite L. destruct (read_d [120]); do 2 eexists; repeat split; reflexivity.
  Qed.

  (** A date that has been read by [parse] is said to be null. *)
  Theorem hvn_date_null_refuted : forall ns, since_1900 ns ->
    exists w, parse (print_rfc1123 ns) = Some (Some (w, 29%nat))
      /\ see w = mkSeen true (print_rfc1123 ns) None None (Some (ns / 1000000000 * 1000000000)).
  Proof.
    intros ns S. pose proof S as [H L]. destruct (date_chars ns H) as (_ & _ & _ & C).
    destruct (date_parse ns (fun _ => 0) mktime S ltac:(intros; split; [lia|reflexivity])) as (P & _).
    destruct (date_printed ns (fun _ => 0) H ltac:(intros; lia)) as (Len & _).
    assert (V : parse_value mktime (print_rfc1123 ns) = Date (ns / 1000000000 * 1000000000) 29).
    { unfold parse_value. rewrite Len, P. destruct (print_rfc1123 ns) as [|c r] eqn:E; [discriminate|]. cbn [hd] in C. destruct (c =? 34) eqn:X; [lia|reflexivity]. }
    unfold HvnModel.parse. rewrite V. eexists. split; [reflexivity|]. unfold see, with_date. cbn [v_str v_int v_dbl v_dt f_str f_int f_dbl f_dt negb].
    rewrite <- Len, firstn_all. reflexivity.
  Qed.
End Oracles.
Print Assumptions hvn_last.
Print Assumptions hvn_text.
Print Assumptions hvn_text_total.
Print Assumptions hvn_int.
Print Assumptions hvn_dbl.
Print Assumptions hvn_date.
Print Assumptions hvn_read_date.
Print Assumptions hvn_print_partial.
Print Assumptions hvn_number_partial.
Print Assumptions hvn_number_text_refuted.
Print Assumptions hvn_stale_refuted.
Print Assumptions hvn_date_null_refuted.

(** A sample of the external functions: "doubles" are numbers of halves; only decimal integers are read. *)
Definition sample_digits (s : list Z) : option Z :=
  match s with [] => None | _ => if forallb (fun c => (48 <=? c) && (c <=? 57)) s then Some (decimal_value s) else None end.
Definition sample_read (s : list Z) : option Z :=
  match s with
  | c :: t => if c =? 45 then option_map Z.opp (sample_digits t) else sample_digits s
  | [] => None
  end.
Definition sample_step := step Z 0 (fun n => 2 * n) (fun d => (d / 2, Z.even d)) (fun d => put_di (d / 2) ++ (if Z.even d then [] else txt ".5"))
                               sample_read (fun s => option_map (Z.mul 2) (sample_read s)) (fun _ => 0).
Lemma sample_digits_ok s : digits s -> sample_digits s = Some (decimal_value s).
Proof.
  intros (N & F & _). unfold sample_digits. destruct s as [|c s]; [congruence|].
  replace (forallb _ (c :: s)) with true; [reflexivity|]. symmetry. apply forallb_forall. intros x I. rewrite Forall_forall in F. specialize (F x I). lia.
Qed.
Example hvn_laws : forall n t, denotes t n -> sample_read t = Some n.
Proof.
  intros n t [(u & -> & Dg & _ & E)|(Dg & _ & E)]; unfold sample_read.
  - cbn [Z.eqb]. change (45 =? 45) with true. cbn iota. rewrite (sample_digits_ok u Dg), E. cbn. f_equal. lia.
  - destruct t as [|c t]; [destruct Dg; congruence|]. pose proof Dg as (_ & F & _). inversion F; subst. destruct (c =? 45) eqn:X; [lia|]. now rewrite sample_digits_ok.
Qed.
Example hvn_cases :
  option_map see (sample_step (fresh Z 0) (SetInt (-42))) = Some (mkSeen false (txt "-42") (Some (-42)) (Some (-84)) None)
  /\ option_map see (sample_step (update_int Z (fun n => 2 * n) 7) (SetText (txt "  19 "))) = Some (mkSeen false (txt "  19 ") (Some 19) (Some 38) None)
  /\ option_map see (sample_step (fresh Z 0) (SetText (txt "a 1"))) = Some (mkSeen false (txt "a 1") None None None)
  /\ option_map see (sample_step (fresh Z 0) (SetDbl 7)) = Some (mkSeen false (txt "3.5") None (Some 7) None)
  /\ option_map see (sample_step (fresh Z 0) (SetText (txt "Sun, 06 Nov 1994 08:49:37 GMT"))) = Some (mkSeen false (txt "Sun, 06 Nov 1994 08:49:37 GMT") None None (Some 784111777000000000))
  /\ option_map (print Z (fun d => [])) (sample_step (fresh Z 0) (SetText (txt "a; b"))) = Some ([34] ++ txt "a; b" ++ [34])
  /\ sample_read (txt "007") = Some 7 /\ sample_read (txt "x") = None.
Proof. vm_compute. repeat split. Qed.

(** hvn_read_date: a moment in 2024, and something that follows it. *)
Example hvn_read_date_case : since_1900 1714500000123456789 /\
  exists w, sample_step (fresh Z 0) (Parse (print_rfc1123 1714500000123456789 ++ txt "; x=1")) = Some w
    /\ v_dt w = 1714500000000000000 /\ v_str w = txt "Tue, 30 Apr 2024 18:00:00 GMT".
Proof. split; [vm_compute; repeat split; discriminate|]. vm_compute. eexists. repeat split. Qed.
