(** C51: headers in the semicolon-inside-comma-separated format. *)
From Coq Require Import ZArith List Lia Bool ZifyBool String.
From Verif Require Import Base BaseLemmas Text DateModel HvalModel HvalSpec HvalProofs HvalProps HdrModel HdrSpec HdrProofs.
Import ListNotations.
Open Scope list_scope.
Open Scope Z_scope.
Notation length := List.length.

(** [next_attribute] succeeds exactly if an attribute is at the beginning of the header, or
    behind a semicolon.  It gives the name and the value, and stops at the separator or at the end;
    so it never moves across a comma. *)
Theorem hdr_attribute mktime s s' : next_attribute mktime s = (s', true) <->
  exists t a r v, (at_ s = Start /\ t = hstr s \/ at_ s = At (59 :: t)) /\ t = written a ++ r /\ attribute mktime a r v /\
    s' = mkS (hstr s) (At r) (label a) v.
Proof.
  unfold next_attribute. split.
  - destruct (at_ s) as [|[|c t]| |] eqn:P; try discriminate.
    + intros H. apply next_from_true in H as (a & r & v & H). exists (hstr s), a, r, v. tauto.
    + destruct (Z.eqb_spec c 44); [discriminate|]. destruct (Z.eqb_spec c 59) as [->|]; [|discriminate].
      intros H. apply next_from_true in H as (a & r & v & H). exists t, a, r, v. tauto.
  - intros (t & a & r & v & [[-> H]|H] & E & A & ->); [subst t; rewrite <- (next_from_attribute mktime s a r v A), <- E; reflexivity|].
    rewrite H. change (59 =? 44) with false. change (59 =? 59) with true. cbv iota. rewrite E. now apply next_from_attribute.
Qed.
Print Assumptions hdr_attribute.

(** [next_element] at the beginning or at a comma does the same. *)
Theorem hdr_element mktime s s' : (at_ s = Start \/ exists t, at_ s = At (44 :: t)) ->
  (next_element mktime s = (s', true) <->
   exists t a r v, (at_ s = Start /\ t = hstr s \/ at_ s = At (44 :: t)) /\ t = written a ++ r /\ attribute mktime a r v /\
     s' = mkS (hstr s) (At r) (label a) v).
Proof.
  intros P. unfold next_element. split.
  - destruct P as [P|[t P]]; rewrite P; intros H; [|cbn [element_loop] in H; rewrite P in H; change (44 =? 44) with true in H; cbv iota in H];
      apply next_from_true in H as (a & r & v & H); [exists (hstr s)|exists t]; exists a, r, v; tauto.
  - intros (t & a & r & v & [[Q H]|H] & E & A & ->).
    + rewrite Q. subst t. rewrite <- (next_from_attribute mktime s a r v A), <- E. reflexivity.
    + rewrite H. cbn [element_loop]. rewrite H. change (44 =? 44) with true. cbv iota. rewrite E. now apply next_from_attribute.
Qed.
Print Assumptions hdr_element.

(** Elsewhere it skips the attributes that remain of the current element, and gives the first attribute of
    the next one, or nothing if there is no other element. *)
Lemma attributes_app mktime l : forall l' m, attributes mktime (l ++ l') m -> exists m1 m2, m = m1 ++ m2 /\ length m1 = length l /\ attributes mktime l' m2.
Proof.
  induction l as [|[e a] l IH]; intros l' m H.
  - exists [], m. auto.
  - cbn in H. destruct m as [|[[e' n] v] m]; [contradiction|]. destruct H as (_ & _ & _ & H). apply IH in H as (m1 & m2 & -> & L & H).
    exists ((e', n, v) :: m1), m2. cbn. auto.
Qed.
Lemma loop_skips mktime l : forall m s fuel rest, Forall (fun x => fst x = false) l -> (length l < fuel)%nat ->
  attributes mktime (l ++ rest) m -> at_ s = At (tail_text (l ++ rest)) ->
  exists s1 fuel1, element_loop mktime fuel s = element_loop mktime (S fuel1) s1 /\ at_ s1 = At (tail_text rest) /\ hstr s1 = hstr s.
Proof.
  induction l as [|[e a] l IH]; intros m s fuel rest F L A P.
  - destruct fuel as [|fuel]; [cbn in L; lia|]. exists s, fuel. auto.
  - destruct fuel as [|fuel]; [cbn in L; lia|]. inversion F as [|? ? F1 F2]; subst. cbn in F1. subst e. cbn [app tail_text] in P. cbn [app attributes] in A.
    destruct m as [|[[e' n] v] m]; [contradiction|]. destruct A as (_ & _ & A1 & A2).
    cbn [element_loop]. rewrite P. change (59 =? 44) with false. change (59 =? 59) with true. cbv iota. rewrite (next_from_attribute _ _ _ _ _ A1). cbn [fst].
    destruct (IH m (mkS (hstr s) (At (tail_text (l ++ rest))) (label a) v) fuel rest F2 ltac:(cbn in L; lia) A2 eq_refl) as (s1 & f1 & H1 & H2 & H3). exists s1, f1. auto.
Qed.
Lemma tail_length l : (length l <= length (tail_text l))%nat.
Proof. induction l as [|[e a] l IH]; cbn; [lia|]. rewrite app_length. lia. Qed.

Theorem hdr_skip mktime l a l' m s v : Forall (fun x => fst x = false) l -> attributes mktime (l ++ (true, a) :: l') m ->
  attribute mktime a (tail_text l') v -> at_ s = At (tail_text (l ++ (true, a) :: l')) ->
  next_element mktime s = (mkS (hstr s) (At (tail_text l')) (label a) v, true).
Proof.
  intros F A V P. unfold next_element. rewrite P. edestruct (loop_skips mktime l m s (S (length (tail_text (l ++ (true, a) :: l'))))) as (s1 & f1 & H1 & H2 & H3); [exact F| |exact A|exact P|].
  - pose proof (tail_length (l ++ (true, a) :: l')) as T. rewrite app_length in T. cbn [length] in T. apply le_n_S. lia.
  - rewrite H1. cbn [element_loop]. rewrite H2. cbn [tail_text]. change (44 =? 44) with true. cbv iota. rewrite (next_from_attribute _ _ _ _ _ V). now rewrite H3.
Qed.
Print Assumptions hdr_skip.
Theorem hdr_last mktime l m s : Forall (fun x => fst x = false) l -> attributes mktime l m -> at_ s = At (tail_text l) ->
  snd (next_element mktime s) = false /\ at_ (fst (next_element mktime s)) = At [].
Proof.
  intros F A P. unfold next_element. rewrite P. rewrite <- (app_nil_r l) in A, P. edestruct (loop_skips mktime l m s (S (length (tail_text l)))) as (s1 & f1 & H1 & H2 & H3); [exact F| |exact A|exact P|].
  - pose proof (tail_length l) as T. apply le_n_S. exact T.
  - rewrite H1. cbn [element_loop]. rewrite H2. cbn. auto.
Qed.
Print Assumptions hdr_last.

(** Reading a header with the usual loops, [while(next_element()) { ... while(next_attribute()) ... }]:
    whether a call to [next_element] found it, the name, and the value.  The last position is also given. *)
Fixpoint visit (mktime : tm -> Z) (fuel : nat) (s : st) : list (bool * list Z * value) * pos :=
  match fuel with
  | O => ([], at_ s)
  | S fuel =>
      match next_attribute mktime s with
      | (s, true) => let '(l, p) := visit mktime fuel s in ((false, name s, val s) :: l, p)
      | (s, false) =>
          match next_element mktime s with
          | (s, true) => let '(l, p) := visit mktime fuel s in ((true, name s, val s) :: l, p)
          | (s, false) => ([], at_ s)
          end
      end
  end.
Definition read_header (mktime : tm -> Z) (h : list Z) : list (bool * list Z * value) * pos :=
  match next_element mktime (reload h) with
  | (s, true) => let '(l, p) := visit mktime (length h) s in ((true, name s, val s) :: l, p)
  | (s, false) => ([], at_ s)
  end.

(** All attributes of a header are found, in their elements, in order, and the end is reached. *)
Theorem hdr_all mktime a v l m : attribute mktime a (tail_text l) v -> attributes mktime l m ->
  read_header mktime (written a ++ tail_text l) = ((true, label a, v) :: m, At []).
Proof.
  intros A L. unfold read_header. change (next_element mktime (reload (written a ++ tail_text l))) with (next_from mktime (reload (written a ++ tail_text l)) (written a ++ tail_text l)).
  rewrite (next_from_attribute _ _ _ _ _ A). cbn [name val hstr reload].
  assert (X : forall fuel l m h n v, attributes mktime l m -> (length l < fuel)%nat -> visit mktime fuel (mkS h (At (tail_text l)) n v) = (m, At [])).
  { clear. induction fuel as [|fuel IH]; intros l m h n v A L; [lia|]. destruct l as [|[e a] l]; cbn in A.
    - destruct m; [|contradiction]. reflexivity.
    - destruct m as [|[[e' n'] v'] m]; [contradiction|]. destruct A as (<- & -> & A1 & A2). cbn [length] in L. cbn [visit tail_text]. destruct e.
      + change (next_attribute mktime (mkS h (At (44 :: written a ++ tail_text l)) n v)) with (mkS h (At (44 :: written a ++ tail_text l)) n v, false). cbv iota.
        change (next_element mktime (mkS h (At (44 :: written a ++ tail_text l)) n v)) with (next_from mktime (mkS h (At (44 :: written a ++ tail_text l)) n v) (written a ++ tail_text l)).
        rewrite (next_from_attribute _ _ _ _ _ A1). cbn [hstr]. rewrite (IH l m) by (auto; lia). reflexivity.
      + change (next_attribute mktime (mkS h (At (59 :: written a ++ tail_text l)) n v)) with (next_from mktime (mkS h (At (59 :: written a ++ tail_text l)) n v) (written a ++ tail_text l)).
        rewrite (next_from_attribute _ _ _ _ _ A1). cbn [hstr]. rewrite (IH l m) by (auto; lia). reflexivity. }
  rewrite (X _ l m); [reflexivity|exact L|]. destruct A as (_ & _ & N & _). unfold written. destruct (label a) as [|c t]; [congruence|]. rewrite !app_length. cbn [length].
  pose proof (tail_length l). lia.
Qed.
Print Assumptions hdr_all.

(** A notation of which no character begins a date: text without a colon. *)
Theorem hdr_plain mktime v rest : Forall (fun c => ~ is_blank c /\ c <> 44 /\ c <> 59) v -> hd 0 v <> 34 -> v <> [] ->
  match rest with [] => True | c :: _ => is_blank c \/ c = 44 \/ c = 59 end -> ~ In 58 (v ++ rest) -> means mktime v rest (Str v).
Proof.
  intros F H N R C. apply (m_plain mktime v rest (cstr (v ++ rest)) 0 0); auto.
  - apply cstr_spec.
  - intros b t Q. apply quoted_at_spec in Q as [_ [r Q]]. destruct (cstr_spec (v ++ rest)) as [_ [E|[q E]]]; rewrite Q in E; destruct v as [|c v]; try congruence;
      cbn in E; injection E as E1 E2; apply H; cbn; congruence.
  - left. apply no_date. intros I. apply C. destruct (cstr_spec (v ++ rest)) as [_ [E|[q E]]]; [now rewrite <- E|]. rewrite E. apply in_app_iff. auto.
Qed.
Print Assumptions hdr_plain.
(** Text that the value printer has quoted is read back, whatever follows (C40). *)
Theorem hdr_quoted mktime s rest : bytes s -> ~ is_token s -> exists t, squeezed s t /\ means mktime (print_text s) rest (Str t).
Proof.
  intros B H. destruct (hv_print s) as [[T _]|(_ & b & t & E & S & Q)]; [contradiction|]. exists t. split; [exact Q|].
  assert (Z0 : Forall (fun c => c <> 0) (print_text s)) by (eapply Forall_impl; [|exact (hv_clean s B)]; cbn; intros; lia).
  pose proof (cstr_spec (print_text s ++ rest)) as C.
  assert (P : exists r, cstr (print_text s ++ rest) = print_text s ++ r).
  { unfold cstr. clear -Z0. induction Z0 as [|c u Hc F [r IH]]; [exists (cstr rest); reflexivity|]. exists r. cbn [app until]. replace (c =? 0) with false by lia.
    destruct (until (fun c => c =? 0) (u ++ rest)) as [a b]. cbn [fst] in *. now rewrite IH. }
  destruct P as [r P]. eapply (m_quoted mktime _ _ _ b t C); [|exact E]. split; [exact S|]. exists r. rewrite P, E. cbn. now rewrite <- app_assoc.
Qed.
Print Assumptions hdr_quoted.

(** At the end and after an error nothing is found any more, and the position stays. *)
Theorem hdr_end mktime s : at_ s = At [] \/ at_ s = Bad -> next_attribute mktime s = (s, false) /\ next_element mktime s = (s, false).
Proof. intros [P|P]; unfold next_attribute, next_element; rewrite P; cbn [element_loop length]; rewrite ?P; auto. Qed.
Print Assumptions hdr_end.

(** An empty element, which RFC 9110 (5.6.1) demands to be ignored, ends the loops, and the
    attributes that follow it are lost. *)
Theorem hdr_empty_refuted : exists h mktime, h = txt "gzip, , br" /\
  read_header mktime h = ([(true, txt "gzip", Null)], At (txt " , br")).
Proof. exists (txt "gzip, , br"), (fun _ => 0). split; reflexivity. Qed.
Print Assumptions hdr_empty_refuted.

Example hdr_example : read_header (fun _ => 0) (txt "deflate;q=0.5 ,br; q = ""a \""b"" ; x=") =
  ([(true, txt "deflate", Null); (false, txt "q", Str (txt "0.5")); (true, txt "br", Null); (false, txt "q", Str (txt "a ""b")); (false, txt "x", Str [])], At []).
Proof. vm_compute. reflexivity. Qed.
Example hdr_cookie_example : read_header (fun _ => 0) (txt "id=1; Expires=Sun, 06 Nov 1994 08:49:37 GMT; Path=/") =
  ([(true, txt "id", Str (txt "1")); (false, txt "Expires", Time 784111777000000000); (false, txt "Path", Str (txt "/"))], At []).
Proof. vm_compute. reflexivity. Qed.
(** The hypotheses of [hdr_all] are met by such a header. *)
Example hdr_all_example : let a := mkA [] (txt "deflate") [] None in let b := mkA [] (txt "q") [] (Some ([], txt "0.5", txt " ")) in let c := mkA (txt " ") (txt "br") [] None in
  attribute (fun _ => 0) a (tail_text [(false, b); (true, c)]) Null /\
  attributes (fun _ => 0) [(false, b); (true, c)] [(false, txt "q", Str (txt "0.5")); (true, txt "br", Null)].
Proof.
  assert (T : forall t, forallb (fun c => negb (sep c)) t = true -> is_token t).
  { intros t H. apply Forall_forall. intros c Hc. rewrite forallb_forall in H. specialize (H c Hc). apply sep_false. now destruct (sep c). }
  assert (W : Forall is_ws (txt " ")) by (repeat constructor).
  assert (K1 : is_token (txt "deflate")) by (apply T; reflexivity). assert (K2 : is_token (txt "q")) by (apply T; reflexivity). assert (K3 : is_token (txt "br")) by (apply T; reflexivity).
  assert (N1 : txt "deflate" <> []) by discriminate. assert (N2 : txt "q" <> []) by discriminate. assert (N3 : txt "br" <> []) by discriminate.
  cbn zeta. split.
  - unfold attribute. cbn [before label after assigned]. split; [constructor|]. split; [exact K1|]. split; [exact N1|]. split; [constructor|]. split; [left; reflexivity|reflexivity].
  - cbn [attributes]. split; [reflexivity|]. split; [reflexivity|]. split.
    + unfold attribute. cbn [before label after assigned]. split; [constructor|]. split; [exact K2|]. split; [exact N2|]. split; [constructor|]. split; [right; reflexivity|].
      split; [constructor|]. split; [exact W|]. split; [cbn; unfold is_ws; lia|]. apply hdr_plain.
      * cbn. repeat (apply Forall_cons; [unfold is_blank; lia|]). constructor.
      * cbn. lia.
      * discriminate.
      * cbn. unfold is_blank. lia.
      * cbn. intuition lia.
    + split; [reflexivity|]. split; [reflexivity|]. split; [|exact I]. unfold attribute. cbn [before label after assigned]. split; [exact W|]. split; [exact K3|]. split; [exact N3|].
      split; [constructor|]. split; [exact I|reflexivity].
Qed.
