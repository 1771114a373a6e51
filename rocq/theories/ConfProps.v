(** Theorems about configuration files. *)
From Coq Require Import List ZArith Bool Lia ZifyBool.
From Coq Require Import String.
From Verif Require Import Base Text NetrefSpec GeoModel ConfModel ConfSpec ConfProofs.
Import ListNotations.
Open Scope list_scope.
Open Scope Z_scope.
Notation length := List.length.

(** C32: the text of a path leads to what its names and subscripts lead to. *)
Theorem config_path root steps t : path_text steps t ->
  exists o, leads (Obj root) steps o /\ query root t = o.
Proof.
  intros P. exists (follow (Obj root) steps). split; [apply follow_leads; eapply path_digits; eauto|].
  apply run_path, P.
Qed.
Print Assumptions config_path.

(** There is only one such outcome, also of an exception. *)
Theorem config_unique root steps t o : path_text steps t -> leads (Obj root) steps o -> query root t = o.
Proof.
  intros P L. rewrite (run_path root steps t P). pose proof (path_digits _ _ P) as D. clear P.
  assert (U : forall l k v, has l k v -> member l k = Some v).
  { intros l k v (p & q & -> & N). induction p as [|(k', w) p IH]; cbn [app member].
    - rewrite (proj2 (RedisProofs.text_eqb_spec k k) eq_refl). reflexivity.
    - destruct (RedisModel.text_eqb k' k) eqn:E; [apply RedisProofs.text_eqb_spec in E; subst; exfalso; apply N; left; reflexivity|].
      apply IH. intros I. apply N. right. exact I. }
  assert (V : forall l k, ~ In k (map fst l) -> member l k = None).
  { intros l k N. destruct (member l k) as [v|] eqn:E; [|reflexivity]. exfalso. apply N.
    destruct (member_some l k v E) as (p & q & -> & _). rewrite map_app. apply in_or_app. right. left. reflexivity. }
  assert (W : forall ds, ~ too_large ds -> bad_index ds = false).
  { intros ds N. apply not_true_iff_false. rewrite bad_index_spec. exact N. }
  induction L as [v|l n v steps o H L IH|l n steps H|v n steps H|l ds v steps o H H1 L IH|l ds steps H H1|v ds steps H|v ds steps H];
    cbn [follow]; try (inversion D as [|? ? D1 D2]; subst).
  - reflexivity.
  - rewrite (U _ _ _ H). apply IH, D2.
  - rewrite (V _ _ H). reflexivity.
  - destruct v; try reflexivity. exfalso. eapply H. reflexivity.
  - rewrite (W _ H), H1. apply IH, D2.
  - rewrite (W _ H). cbn in D1.
    pose proof (NetrefProofs.number_acc ds 0 D1 ltac:(lia)) as G. fold (number ds) in G.
    destruct (nth_error l (Z.to_nat (number ds))) eqn:E; [|reflexivity].
    assert (L : (Z.to_nat (number ds) < length l)%nat) by (apply nth_error_Some; congruence). lia.
  - destruct (bad_index ds); [reflexivity|]. destruct v; try reflexivity. exfalso. eapply H. reflexivity.
  - rewrite (proj2 (bad_index_spec ds) H). reflexivity.
Qed.
Print Assumptions config_unique.

(** A value is found only if the whole text is a path which leads to it. *)
Theorem config_found root t v : query root t = Found v ->
  exists steps, path_text steps t /\ leads (Obj root) steps (Found v).
Proof.
  intros H. destruct (query_text root t _ H ltac:(discriminate)) as (steps & p & q & r & Es & (-> & ->) & P & F).
  rewrite app_nil_r in P, Es. subst t. exists steps. split; [exact P|]. rewrite <- F.
  apply follow_leads. eapply path_digits; eauto.
Qed.
Print Assumptions config_found.

(** Nothing is found without an error only if the text begins with a path that
    leads nowhere; only the bracket at its end may be missing. So a malformed
    path is reported, unless what is before the mistake is already missing. *)
Theorem config_missing root t : query root t = Missing ->
  exists steps p q r, t = p ++ q /\ (r = [] \/ r = [93]) /\ path_text steps (p ++ r) /\ leads (Obj root) steps Missing.
Proof.
  intros H. destruct (query_text root t _ H ltac:(discriminate)) as (steps & p & q & r & Es & Fin & P & F).
  exists steps, p, q, r. split; [exact Es|]. split; [exact Fin|]. split; [exact P|]. rewrite <- F.
  apply follow_leads. eapply path_digits; eauto.
Qed.
Print Assumptions config_missing.

(** A malformed path is not always reported. *)
Theorem config_malformed_refuted : exists root t, (forall steps, ~ path_text steps t) /\ query root t <> Throws.
Proof.
  exists [], (txt "a.!"). split; [|vm_compute; discriminate].
  assert (B : forall b, blanks b -> ~ In 33 b).
  { intros b B I. unfold blanks in B. rewrite Forall_forall in B. specialize (B 33 I). lia. }
  assert (N : forall n, is_name n -> ~ In 33 n).
  { intros n N I. inversion N as [c s C F]; subst. destruct I as [->|I]; [unfold letter in C; lia|].
    rewrite Forall_forall in F. specialize (F 33 I). unfold letter, decimal in F. lia. }
  assert (D : forall ds, Forall decimal ds -> ~ In 33 ds).
  { intros ds F I. rewrite Forall_forall in F. specialize (F 33 I). unfold decimal in F. lia. }
  assert (M : forall steps t, more steps t -> ~ In 33 t).
  { intros steps t M. induction M; rewrite ?in_app_iff; cbn [In]; [tauto|..].
    - specialize (B _ H) as X1. specialize (B _ H1) as X2. specialize (N _ H0) as X3. intuition discriminate.
    - specialize (B _ H) as X1. specialize (B _ H2) as X2. specialize (B _ H3) as X3. specialize (D _ H1) as X4. intuition discriminate. }
  assert (P : forall steps t, path_text steps t -> ~ In 33 t).
  { intros steps t P. inversion P; subst. rewrite !in_app_iff. specialize (B _ H) as X1. specialize (B _ H1) as X2. specialize (N _ H0) as X3. specialize (M _ _ H2). tauto. }
  intros steps Q. apply (P _ _ Q). cbn. auto.
Qed.
Print Assumptions config_malformed_refuted.

(** A configuration, and a path in it. *)
Definition sample : list (list Z * value) :=
  [(txt "log", Obj [(txt "file", Str (txt "x.log"))]);
   (txt "main", Obj [(txt "array", Arr [Int 1; Null; Obj [(txt "v-1", Bool true)]])])].

Example config_sample :
  path_text [By_name (txt "main"); By_name (txt "array"); By_index (txt "2"); By_name (txt "v-1")] (txt " main . array [ 2 ]. v-1 ")
  /\ query sample (txt " main . array [ 2 ]. v-1 ") = Found (Bool true)
  /\ query sample (txt "main.array[3]") = Missing
  /\ query sample (txt "log.file[0]") = Throws
  /\ query sample (txt "main.array[10000000]") = Throws.
Proof.
  Local Ltac each := repeat (apply Forall_cons; [vm_compute; intuition discriminate|]); apply Forall_nil.
  split; [|vm_compute; auto].
  apply (path_made (txt " ") (txt "main") (txt " ") _ (txt ". array [ 2 ]. v-1 ")); [each|apply name_made; [vm_compute; intuition discriminate|each]|each|].
  apply (more_name (txt " ") (txt "array") (txt " ") _ (txt "[ 2 ]. v-1 ")); [each|apply name_made; [vm_compute; intuition discriminate|each]|each|].
  apply (more_index (txt " ") (txt "2") (txt " ") (txt "") _ (txt ". v-1 ")); [each|discriminate|each|each|each|].
  apply (more_name (txt " ") (txt "v-1") (txt " ") [] []); [each|apply name_made; [vm_compute; intuition discriminate|each]|each|constructor].
Qed.

(** C33: a getter returns what it should for the outcome of its path. *)
Lemma get_expected {A} root o (check : value -> option A) (accepts : value -> A -> Prop) :
  (forall v x, check v = Some x <-> accepts v x) ->
  forall t, expected o accepts (query root t) (get root o check t).
Proof.
  intros C t. unfold get, queried. destruct (query root t) as [v| |] eqn:Q.
  - assert (G : v <> Null -> expected o accepts (Found v) (match check v with Some x => Got A x | None => Error A end)).
    { intros N. destruct (check v) as [x|] eqn:E; [apply expected_value; [exact N|]; apply C, E|].
      apply expected_unfit; [exact N|]. intros x X. apply C in X. congruence. }
    destruct v; try (apply G; discriminate). destruct o; [apply expected_null|apply expected_no_null]; auto.
  - destruct o; [apply expected_null|apply expected_no_null]; auto.
  - apply expected_error.
Qed.

Lemma ge_le x y : ge x y = true <-> num_le y x.
Proof.
  unfold ge. split.
  - destruct x as [| | |a], y as [| | |b]; cbn; try discriminate; intros H; constructor; try discriminate; lia.
  - intros H. inversion H as [a b L|z N|z N]; subst; cbn; [lia| |]; destruct x || destruct y; cbn; congruence || reflexivity.
Qed.

Theorem config_getters root to_real o t :
  let got := query root t in
  expected o a_boolean got (get_boolean root o t)
  /\ (forall min max, expected o (an_integer min max) got (get_integer root o min max t))
  /\ (forall min max, expected o (a_real to_real min max) got (get_real root to_real o min max t))
  /\ expected o a_string got (get_string root o t)
  /\ expected o an_array got (get_array_size root o t).
Proof.
  cbv zeta. repeat split; intros; apply get_expected.
  - intros v x. unfold a_boolean. destruct v; split; congruence.
  - intros v x. unfold an_integer. destruct v; try (split; [discriminate|intros (E & _); discriminate]).
    destruct ((min <=? n) && (n <=? max)) eqn:E; split.
    + intros [= <-]. split; [reflexivity|lia].
    + intros ([= <-] & _). reflexivity.
    + discriminate.
    + intros ([= <-] & L). lia.
  - intros v x. unfold a_real. destruct v; try (split; [discriminate|intros ([E|(n & E & _)] & _); discriminate]).
    + destruct (ge (to_real n) min && ge max (to_real n)) eqn:E; split.
      * intros [= <-]. apply andb_prop in E. destruct E as (E1 & E2). rewrite <- !ge_le. split; [right; eauto|auto].
      * intros ([E'|(n' & [= <-] & ->)] & _); [discriminate|reflexivity].
      * discriminate.
      * intros ([E'|(n' & [= <-] & ->)] & L1 & L2); [discriminate|]. rewrite <- ge_le in L1, L2. rewrite L1, L2 in E. discriminate.
    + destruct (ge x0 min && ge max x0) eqn:E; split.
      * intros [= <-]. apply andb_prop in E. destruct E as (E1 & E2). rewrite <- !ge_le. split; [left; reflexivity|auto].
      * intros ([[= <-]|(n' & E' & _)] & _); [reflexivity|discriminate].
      * discriminate.
      * intros ([[= <-]|(n' & E' & _)] & L1 & L2); [|discriminate]. rewrite <- ge_le in L1, L2. rewrite L1, L2 in E. discriminate.
  - intros v x. unfold a_string. destruct v; split; congruence.
  - intros v x. unfold an_array. destruct v; try (split; [discriminate|intros (l' & E & _); discriminate]).
    split; [intros [= <-]; eauto|]. intros (l' & [= <-] & ->). reflexivity.
Qed.
Print Assumptions config_getters.

Example config_got : get_integer sample false 1 9 (txt "main.array[0]") = Got Z 1
  /\ get_integer sample true 2 9 (txt "main.array[0]") = Error Z
  /\ get_integer sample true 2 9 (txt "main.array[1]") = Nothing Z
  /\ get_integer sample false 2 9 (txt "main.array[1]") = Error Z
  /\ get_string sample true (txt "log.file") = Got _ (txt "x.log")
  /\ get_real sample (fun n => if n =? 1 then Fin 10 else NaN) true (Fin 0) Plus_inf (txt "main.array[0]") = Got num (Fin 10).
Proof. vm_compute. auto 10. Qed.
