(** Proofs about header parsing. *)
From Coq Require Import ZArith List Lia Bool ZifyBool.
From Verif Require Import Base BaseLemmas DateModel HvalModel HvalSpec HvalProofs HvalProps HdrModel HdrSpec.
Import ListNotations.
Open Scope Z_scope.

Definition no_ws (p : list Z) : Prop := match p with c :: _ => ~ is_ws c | [] => True end.
Lemma ws_spec c : ws c = true <-> is_ws c.
Proof. unfold ws, is_ws. lia. Qed.
Lemma skip_split s : exists w, s = w ++ skip ws s /\ Forall is_ws w /\ no_ws (skip ws s).
Proof.
  induction s as [|c s IH]; cbn [skip]; [exists []; cbn; auto|]. destruct (ws c) eqn:E.
  - destruct IH as (w & H1 & H2 & H3). exists (c :: w). cbn. rewrite <- H1. apply ws_spec in E. auto.
  - exists []. cbn. split; [reflexivity|]. split; [constructor|]. rewrite <- ws_spec. congruence.
Qed.
Lemma skip_app w p : Forall is_ws w -> no_ws p -> skip ws (w ++ p) = p.
Proof.
  induction 1 as [|c w Hc F IH]; intros H; cbn [app skip].
  - destruct p as [|c p]; [reflexivity|]. cbn [skip]. cbn in H. rewrite <- ws_spec in H. destruct (ws c); [contradiction|reflexivity].
  - apply ws_spec in Hc. rewrite Hc. auto.
Qed.

Lemma cstr_spec s : c_text s (cstr s).
Proof.
  unfold cstr. pose proof (until_spec (fun c => c =? 0) s) as U. destruct (until (fun c => c =? 0) s) as [a b]. destruct U as (E & F & G). cbn [fst]. split.
  - eapply Forall_impl; [|exact F]. cbn. intros; lia.
  - destruct b as [|c b]; [left; now rewrite app_nil_r in E|]. right. exists b. replace 0 with c by lia. exact E.
Qed.
Lemma cstr_unique s u : c_text s u -> cstr s = u.
Proof.
  intros [F H]. unfold cstr. assert (F' : Forall (fun c => (c =? 0) = false) u) by (eapply Forall_impl; [|exact F]; cbn; intros; lia).
  destruct H as [<-|[r ->]].
  - rewrite <- (app_nil_r u) at 1. rewrite (until_app _ u _ F'); cbn; auto.
  - rewrite (until_app _ u _ F'); cbn; auto.
Qed.

(** What the value parser does, without regard to the first character *)
Definition unquoted_value (mktime : tm -> Z) (s : list Z) : found :=
  match DateModel.parse mktime s (length s) with
  | Overflow => Undefined
  | Ok ns (S n) => Date ns (S n)
  | _ => match parse_unquoted s with [] => Nothing | t => Text t (length t) end
  end.
Lemma parse_value_cases mktime s : parse_value mktime s =
  match parse_quoted s with QOk t n => Text t n | _ => unquoted_value mktime s end.
Proof.
  pose proof (hv_no_overrun s) as O. unfold parse_value. fold (unquoted_value mktime s). destruct s as [|c s].
  - change (parse_quoted []) with QNo. unfold unquoted_value. rewrite no_date by auto. reflexivity.
  - destruct (c =? 34) eqn:E.
    + destruct (parse_quoted (c :: s)) as [|t n|] eqn:Q; [reflexivity| |congruence]. apply hv_quoted in Q as (b & r & _ & _ & ->). now rewrite Nat.add_comm.
    + unfold parse_quoted. rewrite E. destruct (_ <? 2)%nat; reflexivity.
Qed.

Lemma until_until f g s : (forall c, g c = true -> f c = true) -> fst (until f (fst (until g s))) = fst (until f s).
Proof.
  intros H. induction s as [|c s IH]; cbn [until fst]; [reflexivity|]. destruct (g c) eqn:E; [cbn; now rewrite (H c E)|].
  destruct (until g s) as [a b]. cbn [fst] in IH. cbn [fst until]. destruct (f c); [reflexivity|]. destruct (until f a), (until f s). cbn [fst] in *. now subst.
Qed.
Lemma unquoted_cstr p : parse_unquoted (cstr p) = parse_unquoted p.
Proof. apply until_until. intros c H. unfold unquoted_sep. lia. Qed.

Lemma skipn_exact {A} (a b : list A) : skipn (length a) (a ++ b) = b.
Proof. rewrite skipn_app, skipn_all, Nat.sub_diag. reflexivity. Qed.

(** The value and the text behind it *)
Definition read_value (mktime : tm -> Z) (p : list Z) : option (value * list Z) :=
  match parse_value mktime (cstr p) with
  | Nothing => Some (Str [], p)
  | Text u n => Some (Str u, skipn n p)
  | Date ns n => Some (Time ns, skipn n p)
  | Undefined => None
  end.

Lemma quoted_at_spec u b t : quoted_at u b t <-> parse_quoted u = QOk t (length b + 2) /\ exists r, u = 34 :: b ++ 34 :: r.
Proof.
  unfold quoted_at. rewrite hv_quoted. split.
  - intros (S & r & E). split; [|eauto]. exists b, r. auto.
  - intros ((b' & r' & E' & S & L) & r & E). split; [|eauto]. replace b with b'; [exact S|]. rewrite E' in E. injection E as E.
    assert (L' : length b' = length b) by lia. clear -E L'. revert b E L'. induction b' as [|x b' IH]; intros [|y b] E L'; cbn in *; try discriminate; [reflexivity|].
    injection E as -> E. f_equal. apply IH; auto.
Qed.
Lemma not_quoted u : (forall b t, ~ quoted_at u b t) <-> parse_quoted u = QNo.
Proof.
  split; intros H.
  - destruct (parse_quoted u) as [|t n|] eqn:Q; [reflexivity| |now destruct (hv_no_overrun u)]. exfalso. apply hv_quoted in Q as (b & r & E & S & L).
    apply (H b t). split; [exact S|eauto].
  - intros b t Q. apply quoted_at_spec in Q as [Q _]. congruence.
Qed.

Lemma read_value_means mktime p v rest : read_value mktime p = Some (v, rest) <-> exists u, p = u ++ rest /\ means mktime u rest v.
Proof.
  unfold read_value. rewrite parse_value_cases. pose proof (cstr_spec p) as C. split.
  - destruct (parse_quoted (cstr p)) as [|t n|] eqn:Q.
    2:{ intros [= <- <-]. apply hv_quoted in Q as (b & r & E & S & ->).
        assert (P : exists r', p = (34 :: b ++ [34]) ++ r').
        { destruct C as [_ [C|[q C]]]; rewrite E in C; [exists r; subst p; cbn; now rewrite <- app_assoc|].
          exists (r ++ 0 :: q). rewrite C. cbn. f_equal. rewrite <- !app_assoc. reflexivity. }
        destruct P as [r' P]. assert (L : (length b + 2 = length (34%Z :: b ++ [34%Z]))%nat) by (cbn; rewrite app_length; cbn; lia).
        exists (34 :: b ++ [34]). rewrite P, L, skipn_exact. split; [reflexivity|]. eapply (m_quoted mktime _ _ (cstr p) b t); [rewrite <- P; exact C| |reflexivity].
        split; [exact S|eauto]. }
    + intros H. pose proof (proj2 (not_quoted (cstr p)) Q) as NQ. revert H. unfold unquoted_value.
      assert (PL : forall ns n, (DateModel.parse mktime (cstr p) (length (cstr p)) = No \/ DateModel.parse mktime (cstr p) (length (cstr p)) = Ok ns n /\ n = 0%nat) ->
        match match parse_unquoted (cstr p) with [] => Nothing | t => Text t (length t) end with
        | Nothing => Some (Str [], p) | Text u n => Some (Str u, skipn n p) | Date ns n => Some (Time ns, skipn n p) | Undefined => None end = Some (v, rest) ->
        exists u, p = u ++ rest /\ means mktime u rest v).
      { intros ns n N H. rewrite unquoted_cstr in H. destruct (hv_unquoted p) as (r & E & F & G).
        assert (K : Some (Str (parse_unquoted p), r) = Some (v, rest)).
        { rewrite <- H. clear -E. set (t := parse_unquoted p) in *. clearbody t. subst p. destruct t as [|c t]; [reflexivity|]. cbv iota beta zeta. rewrite skipn_exact. reflexivity. }
        injection K as <- <-. exists (parse_unquoted p). split; [exact E|]. eapply (m_plain mktime _ _ (cstr p) n ns); auto. now rewrite <- E. }
      destruct (parse mktime (cstr p) (length (cstr p))) as [|ns [|n]|] eqn:D; try discriminate.
      * apply (PL 0 0%nat). auto.
      * apply (PL ns 0%nat). auto.
      * intros [= <- <-]. exists (firstn (S n) p). rewrite firstn_skipn. split; [reflexivity|]. eapply (m_date mktime _ _ (cstr p) ns (S n)); rewrite ?firstn_skipn; auto.
    + discriminate || (exfalso; now apply (hv_no_overrun (cstr p))).
  - intros (u & -> & M). destruct M as [x b t X Q E|x ns n X NQ N D E|x n ns X NQ N F G]; apply cstr_unique in X; rewrite X.
    + apply quoted_at_spec in Q as [Q _]. rewrite Q. f_equal. f_equal. replace (length b + 2)%nat with (length u); [apply skipn_exact|]. subst u. cbn. rewrite app_length. cbn. lia.
    + apply not_quoted in NQ. rewrite NQ. unfold unquoted_value. rewrite D. destruct n as [|n]; [congruence|]. f_equal. f_equal.
      pose proof (firstn_skipn (S n) (u ++ rest)) as Y. rewrite <- E in Y. now apply app_inv_head in Y.
    + apply not_quoted in NQ. rewrite NQ. unfold unquoted_value.
      assert (U : parse_unquoted x = u).
      { rewrite <- X, unquoted_cstr. unfold parse_unquoted. rewrite until_app; [reflexivity| |].
        - eapply Forall_impl; [|exact F]. cbn. intros c (H1 & H2 & H3). unfold unquoted_sep, is_blank in *. lia.
        - destruct rest as [|c r]; [auto|]. unfold unquoted_sep, is_blank in *. lia. }
      rewrite U.       assert (ZZ : match match u with [] => Nothing | t => Text t (length t) end with Nothing => Some (Str [], u ++ rest) | Text w k => Some (Str w, skipn k (u ++ rest))
        | Date ns k => Some (Time ns, skipn k (u ++ rest)) | Undefined => None end = Some (Str u, rest)).
      { destruct u as [|c u]; [reflexivity|]. cbv iota beta zeta. rewrite skipn_exact. reflexivity. }
      destruct N as [->|[-> ->]]; (rewrite <- ZZ; destruct u; reflexivity).
Qed.

(** * One attribute *)
Definition after_name (mktime : tm -> Z) (p : list Z) : option (value * list Z) :=
  match p with 61 :: q => read_value mktime (skip ws q) | q => Some (Null, q) end.
Lemma after_name_other mktime d q : d <> 61 -> after_name mktime (d :: q) = Some (Null, d :: q).
Proof. intros D. destruct d as [|d|d]; try reflexivity. do 6 (destruct d as [d|d|]; try reflexivity). congruence. Qed.
Lemma next_from_eq mktime s rest : next_from mktime s rest =
  let p := skip ws rest in
  match p with
  | [] => (mkS (hstr s) (At rest) (name s) (val s), false)
  | c :: _ =>
      if (c =? 59) || (c =? 44) then (mkS (hstr s) (At rest) (name s) (val s), false)
      else match parse_token p with
           | [] => (mkS (hstr s) Bad (name s) (val s), false)
           | t =>
               match after_name mktime (skip ws (skipn (length t) p)) with
               | None => (mkS (hstr s) Ub t Null, false)
               | Some (v, q) => match skip ws q with
                                | [] => (mkS (hstr s) (At []) t v, true)
                                | c :: q => if (c =? 59) || (c =? 44) then (mkS (hstr s) (At (c :: q)) t v, true) else (mkS (hstr s) Bad t v, false)
                                end
               end
           end
  end.
Proof.
  unfold next_from, after_name, read_value. cbv zeta. destruct (skip ws rest) as [|c p]; [reflexivity|]. destruct ((c =? 59) || (c =? 44)); [reflexivity|].
  destruct (parse_token (c :: p)) as [|x t]; [reflexivity|]. destruct (skip ws (skipn (length (x :: t)) (c :: p))) as [|d q]; [reflexivity|].
  destruct (Z.eq_dec d 61) as [->|D].
  - destruct (parse_value mktime (cstr (skip ws q))); try reflexivity; cbv iota; match goal with |- context [match ?k with [] => _ | _ => _ end] => destruct k; reflexivity end.
  - destruct d as [|d|d]; [| |match goal with |- context [skip ws (Z.neg d :: q)] => destruct (skip ws (Z.neg d :: q)); reflexivity end];
      [destruct (skip ws (0 :: q)); reflexivity|].
    do 6 (destruct d as [d|d|]; try (match goal with |- context [skip ws (?x :: q)] => destruct (skip ws (x :: q)); reflexivity end)). congruence.
Qed.

Lemma token_head c s : is_token (c :: s) -> ~ is_ws c /\ (c =? 59) || (c =? 44) = false.
Proof.
  intros T. inversion T as [|? ? [T1 T2] _]; subst. unfold is_blank in T1. unfold is_ws. split; [lia|].
  assert (c <> 59) by (intros ->; apply T2; unfold separators; cbn; tauto). assert (c <> 44) by (intros ->; apply T2; unfold separators; cbn; tauto). lia.
Qed.

Lemma parse_token_app t r : is_token t -> match r with [] => True | c :: _ => is_blank c \/ In c separators end -> parse_token (t ++ r) = t.
Proof.
  intros T R. unfold parse_token. rewrite until_app; [reflexivity| |].
  - eapply Forall_impl; [|exact T]. intros c. now rewrite sep_false.
  - destruct r; [auto|]. now apply sep_spec.
Qed.
Lemma ends_no_ws r : ends r -> no_ws r.
Proof. destruct r as [|c r]; [auto|]. cbn. unfold is_ws. lia. Qed.
Lemma ws_blank c : is_ws c -> is_blank c.
Proof. unfold is_ws, is_blank. lia. Qed.
Lemma ends_cases r : ends r -> forall (A : Type) (f : list Z -> A) (g : A), match r with [] => f r | c :: q => if (c =? 59) || (c =? 44) then f r else g end = f r.
Proof. destruct r as [|c r]; [reflexivity|]. cbn [ends]. intros H A f g. replace ((c =? 59) || (c =? 44)) with true by lia. reflexivity. Qed.

Lemma next_from_attribute mktime s a r v : attribute mktime a r v -> next_from mktime s (written a ++ r) = (mkS (hstr s) (At r) (label a) v, true).
Proof.
  intros (W1 & T & N & W2 & E & V). destruct a as [w1 t w2 f]. cbn [before label after assigned] in *. unfold written. cbn [before label after assigned].
  rewrite next_from_eq. cbv zeta. destruct t as [|c t]; [congruence|]. pose proof (token_head c t T) as [Hc Hs].
  set (F := match f with None => [] | Some (w, u, w') => 61 :: w ++ u ++ w' end) in *.
  replace ((w1 ++ (c :: t) ++ w2 ++ F) ++ r) with (w1 ++ (c :: t) ++ w2 ++ F ++ r) by (rewrite <- !app_assoc; reflexivity).
  rewrite skip_app by (auto; cbn; auto). assert (FR : match F ++ r with [] => True | c :: _ => c = 61 \/ c = 59 \/ c = 44 end).
  { unfold F. destruct f as [[[w u] w']|]; cbn; [lia|]. destruct r; cbn in *; [auto|lia]. }
  assert (FW : no_ws (F ++ r)). { destruct (F ++ r) as [|d q]; [exact I|]. cbn. unfold is_ws. lia. }
  rewrite parse_token_app.
  2: exact T.
  2:{ destruct w2 as [|d w2]; [cbn [app]; destruct (F ++ r) as [|d q]; [auto|]; right; unfold separators; cbn; lia|]. cbn. left. apply ws_blank. now inversion W2. }
  change ((c :: t) ++ w2 ++ F ++ r) with (c :: (t ++ w2 ++ F ++ r)) at 1. cbv iota. rewrite Hs. cbv iota.
  change (length (c :: t)) with (length (c :: t)). rewrite skipn_exact, skip_app by auto. unfold F. destruct f as [[[w u] w']|].
  - destruct V as (V1 & V2 & V3 & V4). cbn [app]. replace ((w ++ u ++ w') ++ r) with (w ++ (u ++ w' ++ r)) by (rewrite <- !app_assoc; reflexivity). cbn [after_name]. rewrite skip_app by auto.
    rewrite (proj2 (read_value_means mktime (u ++ w' ++ r) v (w' ++ r))) by eauto. rewrite skip_app by (auto using ends_no_ws).
    rewrite <- (ends_cases r E _ (fun r => (mkS (hstr s) (At r) (c :: t) v, true)) (mkS (hstr s) Bad (c :: t) v, false)). destruct r; reflexivity.
  - cbn [app]. subst v.
    destruct r as [|d q]; [reflexivity|]. cbn in E. destruct E as [-> | ->]; reflexivity.
Qed.

Lemma next_from_true mktime s rest s' : next_from mktime s rest = (s', true) ->
  exists a r v, rest = written a ++ r /\ attribute mktime a r v /\ s' = mkS (hstr s) (At r) (label a) v.
Proof.
  rewrite next_from_eq. cbv zeta. destruct (skip_split rest) as (w1 & E1 & W1 & N1). destruct (skip ws rest) as [|c p]; [discriminate|].
  destruct ((c =? 59) || (c =? 44)); [discriminate|]. destruct (hv_token (c :: p)) as (r1 & E2 & T & G2). destruct (parse_token (c :: p)) as [|x t] eqn:PT; [discriminate|].
  rewrite E2. rewrite skipn_exact. destruct (skip_split r1) as (w2 & E3 & W2 & N2). destruct (skip ws r1) as [|d q] eqn:SK.
  - cbn [after_name skip]. intros [= <-]. exists (mkA w1 (x :: t) w2 None), [], Null. split; [|split; [|reflexivity]].
    + unfold written. cbn [before label after assigned]. rewrite E1, E2, E3, !app_nil_r. reflexivity.
    + unfold attribute. cbn [before label after assigned ends]. repeat (split; [auto; try congruence|]). reflexivity.
  - destruct (Z.eq_dec d 61) as [->|D].
    + cbn [after_name]. destruct (skip_split q) as (w3 & E4 & W3 & N3). destruct (read_value mktime (skip ws q)) as [[v z]|] eqn:RV; [|discriminate].
      apply read_value_means in RV as (u & E5 & M). destruct (skip_split z) as (w4 & E6 & W4 & N4). intros H.
      assert (K : ends (skip ws z) /\ s' = mkS (hstr s) (At (skip ws z)) (x :: t) v).
      { clear -H. revert H. destruct (skip ws z) as [|e z']; [intros [= <-]; cbn; auto|]. destruct ((e =? 59) || (e =? 44)) eqn:E7; [|discriminate]. intros [= <-]. split; [cbn; lia|reflexivity]. }
      destruct K as [K ->]. exists (mkA w1 (x :: t) w2 (Some (w3, u, w4))), (skip ws z), v. split; [|split; [|reflexivity]].
      * unfold written. cbn [before label after assigned]. rewrite E1, E2, E3, E4, E5, E6 at 1. rewrite <- !app_assoc. cbn [app]. rewrite <- !app_assoc. reflexivity.
      * unfold attribute. cbn [before label after assigned]. do 7 (split; [auto; try congruence|]). rewrite <- E6, <- E5. split; [exact N3|exact M].
    + rewrite after_name_other by auto.
      replace (skip ws (d :: q)) with (d :: q) by (symmetry; apply (skip_app [] (d :: q)); auto). cbv iota beta. destruct ((d =? 59) || (d =? 44)) eqn:E7; [|discriminate].
      intros [= <-]. exists (mkA w1 (x :: t) w2 None), (d :: q), Null. split; [|split; [|reflexivity]].
      * unfold written. cbn [before label after assigned]. rewrite E1, E2, E3, app_nil_r, <- !app_assoc. reflexivity.
      * unfold attribute. cbn [before label after assigned ends]. repeat (split; [auto; try congruence; try lia|]). reflexivity.
Qed.
