(** Theorems about splitting and joining text (C17). *)
From Coq Require Import ZArith List Lia Bool.
From Coq Require Import (notations) String.
From Verif Require Import Base Text BaseLemmas UriSpec SplitModel SplitSpec SplitProofs.
Import ListNotations.
Open Scope Z_scope.

(** What [explode] returns, if no field but the last consists of blanks and the
    text does not start with the delimiter: the fields without the blanks
    around them, a blank last field left out. *)
Theorem explode_fields_partial : forall (text : list Z) (d limit : Z) (init : list (list Z)) (last : list Z),
  ~ blank d -> Z.of_nat (length text) < 2 ^ 63 - 1 ->
  fields d limit text = init ++ [last] ->
  Forall (fun f => f = [] \/ ~ all_blank f) init ->
  (forall f rest, init = f :: rest -> f <> []) ->
  exists segs, explode text d limit = Some segs
    /\ ((all_blank last /\ Forall2 trims_to init segs)
        \/ (~ all_blank last /\ Forall2 trims_to (init ++ [last]) segs)).
Proof.
  intros text d limit init last Hd Hl Hf Hi Hn. rewrite explode_outcome by auto. rewrite Hf.
  rewrite outcome_good by auto.
  assert (F : forall l, Forall2 trims_to l (map trim l)).
  { induction l; constructor; auto. apply trim_spec. }
  eexists. split; [reflexivity|]. destruct (blankb last) eqn:B.
  - left. apply blankb_spec in B. rewrite app_nil_r. auto.
  - right. split; [intros C; apply blankb_spec in C; congruence|]. apply Forall2_app; [apply F|]. apply (F [last]).
Qed.
Print Assumptions explode_fields_partial.

Example explode_fields_ex :
  fields 44 18446744073709551615 (txt " a ,b c,,d , ") = [txt " a "; txt "b c"; []; txt "d "] ++ [txt " "]
  /\ explode (txt " a ,b c,,d , ") 44 18446744073709551615 = Some [txt "a"; txt "b c"; []; txt "d"]
  /\ explode (txt "k = v = w") 61 2 = Some [txt "k"; txt "v = w"].
Proof. vm_compute. auto. Qed.

(** For every text: no more segments than the limit, and each is a part of the
    text that neither starts nor ends with a blank. *)
Theorem explode_segments : forall (text : list Z) (d limit : Z) (segs : list (list Z)),
  ~ blank d -> Z.of_nat (length text) < 2 ^ 63 - 1 ->
  explode text d limit = Some segs ->
  Z.of_nat (length segs) <= Z.max 1 limit
  /\ Forall (fun g => (exists a b, text = a ++ g ++ b) /\ trims_to g g) segs.
Proof. exact explode_slices. Qed.
Print Assumptions explode_segments.

Example explode_segments_ex : explode (txt "a,b,c,d") 44 3 = Some [txt "a"; txt "b"; txt "c,d"].
Proof. vm_compute. reflexivity. Qed.

(** Joining and splitting gives the segments back, if they hold no delimiter and
    no outer blanks, and the first and the last one are not empty. *)
Theorem explode_round_trip_partial : forall (segs : list (list Z)) (d limit : Z),
  ~ blank d ->
  Z.of_nat (length (implode segs d)) < 2 ^ 63 - 1 ->
  Z.of_nat (length segs) <= limit ->
  Forall (fun g => ~ In d g /\ trims_to g g) segs ->
  (forall g rest, segs = g :: rest -> g <> []) ->
  (forall g rest, segs = rest ++ [g] -> g <> []) ->
  explode (implode segs d) d limit = Some segs.
Proof. exact explode_implode. Qed.
Print Assumptions explode_round_trip_partial.

Example explode_round_trip_ex :
  implode [txt "one"; []; txt "two three"] 59 = txt "one;;two three"
  /\ explode (txt "one;;two three") 59 3 = Some [txt "one"; []; txt "two three"].
Proof. vm_compute. auto. Qed.

(** [implode] writes the segments with one delimiter between neighbours. *)
Theorem implode_text : forall (segs : list (list Z)) (d : Z), implode segs d = joined d segs.
Proof. exact implode_joined. Qed.
Print Assumptions implode_text.

Example implode_text_ex : implode [txt "a"; txt "b"; txt "c"] 46 = txt "a.b.c".
Proof. vm_compute. reflexivity. Qed.

(** With a blank delimiter and no limit, the result is all fields that are not
    blank, trimmed. *)
Theorem explode_blank_delimiter : forall (text : list Z) (d limit : Z),
  blank d -> Z.of_nat (length text) < 2 ^ 63 - 1 -> Z.of_nat (length text) < limit ->
  exists fs segs, explode text d limit = Some segs /\ Forall2 trims_to fs segs
    /\ fs = filter (fun f => negb (forallb is_blank f)) (split_on d text).
Proof.
  intros text d limit Hd Hl Hlim. exists (filter nonblank (split_on d text)), (map trim (filter nonblank (split_on d text))).
  split; [|split].
  - unfold explode. change (fun c => negb (is_blank c)) with nb.
    apply (explode_run_blank d limit) with (pre := []) (s := text) (segs := []); auto; try lia.
    + now apply nb_false.
  - induction (filter nonblank (split_on d text)); constructor; auto. apply trim_spec.
  - reflexivity.
Qed.
Print Assumptions explode_blank_delimiter.

Example explode_blank_delimiter_ex : explode (txt "  ls  -l  . ") 32 100 = Some [txt "ls"; txt "-l"; txt "."].
Proof. vm_compute. reflexivity. Qed.

(** A field of blanks between two delimiters, or before the first one, makes the
    function fail (an assertion failure or a length that has wrapped). *)
Theorem explode_blank_field : forall (text : list Z) (d limit : Z) (init : list (list Z)) (last f : list Z),
  ~ blank d -> Z.of_nat (length text) < 2 ^ 63 - 1 ->
  fields d limit text = init ++ [last] -> In f init -> f <> [] -> all_blank f ->
  explode text d limit = None.
Proof.
  intros text d limit init last f Hd Hl Hf Hin Hne Hb. rewrite explode_outcome by auto. rewrite Hf. eapply outcome_bad; eauto.
Qed.
Print Assumptions explode_blank_field.

Example explode_blank_field_ex : explode (txt "a, ,b") 44 100 = None /\ explode (txt " ,b") 44 100 = None.
Proof. vm_compute. auto. Qed.

(** The full property fails: there are texts on which nothing is returned, and
    segments (an empty first one) that do not come back. *)
Theorem explode_total_refuted : exists (text : list Z) (d limit : Z), ~ blank d /\ bytes text /\ explode text d limit = None.
Proof.
  exists (txt "a, ,b"), 44, 100. split; [unfold blank; lia|]. split; [|vm_compute; reflexivity].
  repeat constructor; unfold byte; cbn; lia.
Qed.
Print Assumptions explode_total_refuted.

Theorem explode_round_trip_refuted : exists (segs : list (list Z)) (d limit : Z),
  ~ blank d /\ Forall (fun g => ~ In d g /\ trims_to g g) segs /\ Z.of_nat (length segs) <= limit
  /\ explode (implode segs d) d limit = Some [txt ",a"; txt "a"] /\ segs = [[]; txt "a"].
Proof.
  exists [[]; txt "a"], 44, 100. split; [unfold blank; lia|]. split; [|split; [|split]].
  - repeat constructor.
    + auto.
    + apply trim_iff. reflexivity.
    + cbn. intuition discriminate.
    + apply trim_iff. reflexivity.
  - cbn. lia.
  - vm_compute. reflexivity.
  - reflexivity.
Qed.
Print Assumptions explode_round_trip_refuted.
