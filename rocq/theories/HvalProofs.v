(** Proofs about HTTP values. *)
From Coq Require Import ZArith List Lia Bool ZifyBool.
From Verif Require Import Base BaseLemmas DateModel HvalModel HvalSpec.
Import ListNotations.
Open Scope Z_scope.

Lemma blank_spec c : blank c = true <-> is_blank c.
Proof. unfold blank, is_blank. lia. Qed.
Lemma blank_false c : blank c = false <-> ~ is_blank c.
Proof. rewrite <- blank_spec. destruct (blank c); split; congruence. Qed.
Lemma sep_spec c : sep c = true <-> is_blank c \/ In c separators.
Proof. unfold sep, is_blank, separators. cbn [In]. lia. Qed.
Lemma sep_false c : sep c = false <-> ~ is_blank c /\ ~ In c separators.
Proof. pose proof (sep_spec c). destruct (sep c); split; intros; try tauto; [discriminate|]. split; intros X; assert (false = true) by tauto; discriminate. Qed.

Lemma until_spec f s : let '(a, b) := until f s in s = a ++ b /\ Forall (fun c => f c = false) a /\ match b with [] => True | c :: _ => f c = true end.
Proof.
  induction s as [|c s IH]; cbn [until]; [auto|]. destruct (f c) eqn:E; [auto|]. destruct (until f s) as [a b]. destruct IH as (-> & F & G). auto.
Qed.
Lemma until_app f a b : Forall (fun c => f c = false) a -> match b with [] => True | c :: _ => f c = true end -> until f (a ++ b) = (a, b).
Proof.
  intros F G. induction F as [|c a Hc F IH]; cbn.
  - destruct b as [|c b]; [reflexivity|]. cbn. now rewrite G.
  - rewrite Hc, IH. reflexivity.
Qed.

(** * Quoted strings *)
Lemma qloop_plain b t : stands_for b t -> forall acc n r, qloop false (b ++ 34 :: r) acc n = QOk (acc ++ t) (n + length b + 1).
Proof.
  induction 1 as [|c b t H1 H2 H IH|c b t H IH]; intros acc n r.
  - cbn. rewrite app_nil_r. f_equal. lia.
  - cbn [app qloop]. replace (negb (c =? 34) || false) with true by lia. replace (negb (c =? 92) || false) with true by lia.
    destruct (b ++ 34 :: r) eqn:E; [now apply app_eq_nil in E|]. rewrite <- E. rewrite IH. rewrite <- app_assoc. f_equal. cbn. lia.
  - cbn [app]. change (qloop false (92 :: c :: b ++ 34 :: r) acc n) with (qloop true (c :: b ++ 34 :: r) acc (S n)).
    cbn [qloop]. rewrite !orb_true_r. destruct (b ++ 34 :: r) eqn:E; [now apply app_eq_nil in E|]. rewrite <- E. rewrite IH. rewrite <- app_assoc. f_equal. cbn. lia.
Qed.

Lemma qloop_inv s : forall esc acc n u m, qloop esc s acc n = QOk u m ->
  exists b t r, s = b ++ 34 :: r /\ u = acc ++ t /\ m = (n + length b + 1)%nat /\
    if esc then exists c b' t', b = c :: b' /\ t = c :: t' /\ stands_for b' t' else stands_for b t.
Proof.
  induction s as [|c s IH]; intros esc acc n u m H; cbn [qloop] in H; [discriminate|].
  destruct (negb (c =? 34) || esc) eqn:E.
  - destruct (negb (c =? 92) || esc) eqn:E2; (destruct s as [|x s]; [discriminate|]); apply IH in H as (b & t & r & Es & -> & -> & H).
    + exists (c :: b), (c :: t), r. rewrite Es. split; [reflexivity|]. split; [now rewrite <- app_assoc|]. split; [cbn; lia|].
      destruct esc; [exists c, b, t; auto|]. constructor; auto; lia.
    + destruct H as (c' & b' & t' & -> & -> & H). exists (c :: c' :: b'), (c' :: t'), r. rewrite Es. split; [reflexivity|]. split; [reflexivity|]. split; [cbn; lia|].
      destruct esc; [rewrite orb_true_r in E2; discriminate|]. assert (c = 92) by lia. subst c. constructor. exact H.
  - injection H as <- <-. exists [], [], s. destruct esc; [rewrite orb_true_r in E; discriminate|]. assert (c = 34) by lia. subst c.
    rewrite app_nil_r. split; [reflexivity|]. split; [reflexivity|]. split; [cbn; lia|constructor].
Qed.

Lemma qloop_oob s esc acc n : s <> [] -> qloop esc s acc n <> Oob.
Proof.
  revert esc acc n. induction s as [|c s IH]; intros esc acc n H; [congruence|]. cbn [qloop]. destruct (negb (c =? 34) || esc); [|discriminate].
  destruct (negb (c =? 92) || esc); (destruct s as [|x s]; [discriminate|]; apply IH; discriminate).
Qed.

(** * Printing *)
Lemma escape_blanks b s : Forall is_blank b -> escape true (b ++ s) = escape true s.
Proof. induction 1 as [|c b Hc F IH]; [reflexivity|]. cbn [app escape]. apply blank_spec in Hc. now rewrite Hc. Qed.
Lemma escape_nonblank s : match s with x :: _ => ~ is_blank x | [] => True end -> escape true s = escape false s.
Proof. destruct s as [|c s]; [reflexivity|]. intros H. apply blank_false in H. cbn [escape]. now rewrite H. Qed.

Lemma escape_stands s t : squeezed s t -> stands_for (escape false s) t.
Proof.
  induction 1 as [|c s t H S IH|c b s t H B N S IH].
  - constructor.
  - cbn [escape andb]. apply blank_false in H. destruct ((c =? 92) || (c =? 34)) eqn:E; [constructor; auto|]. rewrite H. constructor; auto; lia.
  - cbn [escape andb]. apply blank_spec in H as H'. replace ((c =? 92) || (c =? 34)) with false by (unfold is_blank in H; lia). rewrite H'.
    rewrite escape_blanks by auto. rewrite escape_nonblank by auto. constructor; auto; lia.
Qed.

Lemma blanks_split s : exists b r, s = b ++ r /\ Forall is_blank b /\ match r with x :: _ => ~ is_blank x | [] => True end.
Proof.
  induction s as [|c s IH]; [exists [], []; auto|]. destruct (blank c) eqn:E.
  - apply blank_spec in E. destruct IH as (b & r & -> & F & G). exists (c :: b), r. auto.
  - apply blank_false in E. exists [], (c :: s). auto.
Qed.

Lemma squeezed_exists s : exists t, squeezed s t.
Proof.
  remember (length s) as n eqn:L. revert s L. induction n as [n IH] using lt_wf_ind; intros s L. destruct s as [|c s]; [exists []; constructor|].
  destruct (blank c) eqn:E.
  - apply blank_spec in E. destruct (blanks_split s) as (b & r & -> & F & G).
    destruct (IH (length r) ltac:(cbn in L; rewrite app_length in L; lia) r eq_refl) as [t T]. exists (32 :: t). constructor; auto.
  - apply blank_false in E. destruct (IH (length s) ltac:(cbn in L; lia) s eq_refl) as [t T]. exists (c :: t). constructor; auto.
Qed.

Lemma squeezed_unique s t : squeezed s t -> forall t', squeezed s t' -> t = t'.
Proof.
  induction 1 as [|c s t H S IH|c b s t H B N S IH]; intros t' H'.
  - now inversion H'.
  - inversion H' as [|c' s' t'' H1 H2|c' b' s' t'' H1 H2 H3 H4]; subst; [f_equal; auto|contradiction].
  - remember (c :: b ++ s) as z eqn:E. destruct H' as [|c' s' t'' H1 H2|c' b' s' t'' H1 H2 H3 H4]; [discriminate|injection E as -> _; contradiction|].
    injection E as _ E. symmetry in E. f_equal. apply IH.
    assert (X : s = s'); [|now subst].
    clear - B N H2 H3 E. revert b' E H2. induction B as [|x b Hx B IHb]; intros b' E H2.
    + cbn in E. destruct b' as [|y b']; [auto|]. subst s. inversion H2. contradiction.
    + destruct b' as [|y b']; cbn in E; [subst s'; contradiction|]. injection E as -> E. apply (IHb b' E). now inversion H2.
Qed.

Lemma squeezed_app a s t : Forall (fun c => ~ is_blank c) a -> squeezed s t -> squeezed (a ++ s) (a ++ t).
Proof. induction 1 as [|c a Hc F IH]; intros S; cbn; [auto|]. constructor; auto. Qed.

Lemma stands_app a t b u : stands_for a t -> stands_for b u -> stands_for (a ++ b) (t ++ u).
Proof. induction 1; intros; cbn; auto; constructor; auto. Qed.
Lemma stands_plain a : Forall (fun c => c <> 34 /\ c <> 92) a -> stands_for a a.
Proof. induction 1 as [|c a [H1 H2] F IH]; constructor; auto. Qed.

Lemma sep_parts c : sep c = false -> ~ is_blank c /\ c <> 34 /\ c <> 92.
Proof. intros H. apply sep_false in H as [H1 H2]. split; [auto|]. unfold separators in H2. cbn in H2. split; intros ->; apply H2; tauto. Qed.

(** The shape of printed text *)
Lemma print_shape s : (is_token s /\ print_text s = s) \/
  (exists b t, print_text s = 34 :: b ++ [34] /\ squeezed s t /\ stands_for b t /\ ~ is_token s).
Proof.
  unfold print_text. pose proof (until_spec sep s) as U. destruct (until sep s) as [a b]. destruct U as (E & F & G). destruct b as [|c b].
  - left. split; [|reflexivity]. rewrite app_nil_r in E. subst a. unfold is_token. eapply Forall_impl; [|exact F]. intros c Hc. now apply sep_false.
  - right. destruct (squeezed_exists (c :: b)) as [t T]. exists (a ++ escape false (c :: b)), (a ++ t). split; [now rewrite <- app_assoc|].
    split; [subst s; apply squeezed_app; auto; eapply Forall_impl; [|exact F]; intros x Hx; now apply sep_parts in Hx|].
    split; [apply stands_app; [apply stands_plain|now apply escape_stands]; eapply Forall_impl; [|exact F]; intros x Hx; now apply sep_parts in Hx|].
    intros X. subst s. apply Forall_app in X as [_ X]. inversion X as [|? ? X1 _]; subst. apply sep_false in X1. congruence.
Qed.

Lemma escape_clean k s : bytes s -> Forall (fun c => 32 <= c /\ c <> 127) (escape k s).
Proof.
  intros H. revert k. induction H as [|c s Hc H IH]; intros k; cbn [escape]; [constructor|]. unfold byte in Hc.
  destruct (k && blank c); [auto|]. destruct ((c =? 92) || (c =? 34)) eqn:E; [repeat (apply Forall_cons; [lia|]); auto|].
  destruct (blank c) eqn:B; [apply Forall_cons; [lia|]; auto|]. unfold blank in B. apply Forall_cons; [lia|]; auto.
Qed.

(** * A text without a colon is not a date *)
Lemma skip_in f s : In 58 (skip f s) -> In 58 s.
Proof. induction s as [|c s IH]; cbn; [auto|]. destruct (f c); cbn; intuition. Qed.
Lemma match_char_in c s r : match_char c s = Some r -> In 58 r -> In 58 s.
Proof. destruct s as [|x s]; cbn; [discriminate|]. destruct (x =? c); [|discriminate]. intros [= <-]. auto. Qed.
Lemma match_string_in w : forall s r, match_string w s = Some r -> In 58 r -> In 58 s.
Proof.
  induction w as [|c w IH]; intros [|x s] r; cbn; try discriminate; try (intros [= <-]; auto; fail). destruct (lower c =? lower x); [|discriminate]. intros H I. right. eauto.
Qed.
Lemma match_names_in names : forall k s j r, match_names k names s = Some (j, r) -> In 58 r -> In 58 s.
Proof.
  induction names as [|w names IH]; intros k s j r; cbn [match_names]; [discriminate|].
  destruct (match_string w s) eqn:E1; [intros [= <- <-]; eapply match_string_in; eauto|].
  destruct (match_string (firstn 3 w) s) eqn:E2; [intros [= <- <-]; eapply match_string_in; eauto|]. eauto.
Qed.
Lemma get_digits_in n : forall hi v s x r, get_digits n hi v s = (x, r) -> In 58 r -> In 58 s.
Proof.
  induction n as [|n IH]; intros hi v s x r; cbn [get_digits]; [intros [= <- <-]; auto|]. destruct s as [|c s]; [intros [= <- <-]; auto|].
  destruct ((v * 10 <=? hi) && digit c); [intros H I; right; eauto|intros [= <- <-]; auto].
Qed.
Lemma get_number_in lo hi n s x r : get_number lo hi n s = Some (x, r) -> In 58 r -> In 58 s.
Proof.
  unfold get_number. pose proof (skip_in (fun c => c =? 32) s) as S. destruct (skip (fun c => c =? 32) s) as [|c s']; [discriminate|].
  destruct (digit c); [|discriminate]. destruct (get_digits (n - 1) hi (c - 48) s') as [v q] eqn:E. destruct ((v <? lo) || (hi <? v)); [discriminate|].
  intros [= <- <-] I. apply S. right. eapply get_digits_in; eauto.
Qed.
Lemma get_time_in b s b' r : get_time b s = Some (b', r) -> In 58 s.
Proof.
  unfold get_time. destruct (get_number 0 23 2 s) as [[h s1]|] eqn:E; [|discriminate]. destruct s1 as [|c s1]; cbn [match_char]; [discriminate|].
  destruct (Z.eqb_spec c 58); [|discriminate]. intros _. eapply get_number_in; [exact E|]. subst. now left.
Qed.
Lemma zone_digits_in n : forall v s m x r, zone_digits n v s = (m, x, r) -> In 58 r -> In 58 s.
Proof.
  induction n as [|n IH]; intros v s m x r; cbn [zone_digits]; [intros [= <- <- <-]; auto|].
  destruct s as [|c s]; [intros [= <- <- <-]; auto|]. destruct (digit c); [|intros [= <- <- <-]; auto].
  assert (A : forall n' v', n' = n -> zone_digits n' v' s = (m, x, r) -> In 58 r -> In 58 (c :: s)) by (intros n' v' -> H I; right; eauto).
  assert (B : forall n' v', n' = n -> zone_digits n' v' (tl s) = (m, x, r) -> In 58 r -> In 58 (c :: s)).
  { intros n' v' -> H I. right. apply IH in H; auto. destruct s; cbn in H; auto. now right. }
  destruct n as [|[|[|n]]]; try (apply A; reflexivity). destruct s as [|y s]; [apply A; reflexivity|].
  destruct (Z.eq_dec y 58) as [->|Ny].
  - destruct s as [|d s]; [apply A; reflexivity|]. destruct (digit d); [apply B; reflexivity|apply A; reflexivity].
  - intros H. apply (A 2%nat (v * 10 + (c - 48)) eq_refl). revert H.
    destruct y as [|p|p]; auto. repeat (destruct p as [p|p|]; auto; try (exfalso; apply Ny; reflexivity)).
Qed.
Lemma get_zone_in b s b' r : get_zone b s = Some (b', r) -> In 58 r -> In 58 s.
Proof.
  unfold get_zone. pose proof (skip_in space s) as S. destruct (skip space s) as [|c s']; [discriminate|]. destruct (c =? 90).
  - intros [= <- <-] I. apply S. now right.
  - destruct ((c =? 43) || (c =? 45)); [|discriminate]. destruct (zone_digits 4 0 s') as [[k v] q] eqn:E. intros H I.
    assert (X : In 58 q) by (destruct k as [|[|[|k]]]; try discriminate; [destruct (60 <=? v mod 100); [discriminate|]|]; injection H as <- <-; auto).
    apply S. right. eapply zone_digits_in; eauto.
Qed.
Lemma pconv_in c b s b' r : pconv c b s = Some (b', r) -> (c = 84 \/ In 58 r) -> In 58 s.
Proof.
  destruct b as [y m d h mi se w o]. unfold pconv.
  destruct ((c =? 97) || (c =? 65)) eqn:E1; [destruct (match_names 0 day_names s) as [[k q]|] eqn:E; [|discriminate]; intros [= <- <-] [->|I]; [discriminate|]; eapply match_names_in; eauto|].
  destruct (c =? 98) eqn:E2; [destruct (match_names 1 month_names s) as [[k q]|] eqn:E; [|discriminate]; intros [= <- <-] [->|I]; [discriminate|]; eapply match_names_in; eauto|].
  destruct ((c =? 100) || (c =? 101)) eqn:E3; [destruct (get_number 1 31 2 s) as [[k q]|] eqn:E; [|discriminate]; intros [= <- <-] [->|I]; [discriminate|]; eapply get_number_in; eauto|].
  destruct (c =? 109) eqn:E4; [destruct (get_number 1 12 2 s) as [[k q]|] eqn:E; [|discriminate]; intros [= <- <-] [->|I]; [discriminate|]; eapply get_number_in; eauto|].
  destruct (c =? 121) eqn:E5; [destruct (get_number 0 99 2 s) as [[k q]|] eqn:E; [|discriminate]; intros [= <- <-] [->|I]; [discriminate|]; eapply get_number_in; eauto|].
  destruct (c =? 89) eqn:E6; [destruct (get_number 0 9999 4 s) as [[k q]|] eqn:E; [|discriminate]; intros [= <- <-] [->|I]; [discriminate|]; eapply get_number_in; eauto|].
  destruct (c =? 84) eqn:E7; [intros H _; eapply get_time_in; eauto|].
  destruct (c =? 122); [|discriminate]. intros H [->|I]; [discriminate|]. eapply get_zone_in; eauto.
Qed.

(** Whether a format has [%T] *)
Fixpoint has_time (f : list Z) : bool :=
  match f with
  | [] => false
  | p :: f' => if space p then has_time f' else if p =? 37 then match f' with c :: f'' => (c =? 84) || has_time f'' | [] => false end else has_time f'
  end.
Lemma strptime_in f : forall b s b' r, strptime f b s = Some (b', r) -> has_time f = true \/ In 58 r -> In 58 s.
Proof.
  remember (length f) as n eqn:L. revert f L. induction n as [n IH] using lt_wf_ind; intros f L b s b' r. destruct f as [|p f].
  - cbn. intros [= <- <-] [X|X]; [discriminate|auto].
  - cbn [strptime has_time]. destruct (space p).
    + intros H X. eapply skip_in. eapply (IH (length f)); eauto. cbn in L; lia.
    + destruct (p =? 37).
      * destruct f as [|c f]; [discriminate|]. destruct (pconv c b s) as [[b1 s1]|] eqn:E; [|discriminate]. intros H X. eapply pconv_in; [exact E|].
        destruct (Z.eqb_spec c 84); [auto|right]. eapply (IH (length f)); [cbn in L; lia|reflexivity|exact H|]. exact X.
      * destruct (match_char p s) as [s1|] eqn:E; [|discriminate]. intros H X. eapply match_char_in; [exact E|]. eapply (IH (length f)); eauto. cbn in L; lia.
Qed.

Lemma firstn_in (n : nat) (s : list Z) : In 58 (firstn n s) -> In 58 s.
Proof. intros H. rewrite <- (firstn_skipn n s). apply in_app_iff. auto. Qed.
Lemma parse_gmt_in f n s : has_time f = true -> ~ In 58 s -> parse_gmt f n s = No.
Proof.
  intros T H. unfold parse_gmt. destruct (strptime f garbage (firstn n s)) as [[b r]|] eqn:E; [|reflexivity]. exfalso. apply H. eapply firstn_in.
  eapply strptime_in; eauto.
Qed.
Lemma no_date mktime s n : ~ In 58 s -> parse mktime s n = No.
Proof.
  intros H. unfold parse.
  assert (P1 : parse_rfc1123 s = No) by (apply parse_gmt_in; auto). assert (P2 : parse_rfc850 s = No) by (apply parse_gmt_in; auto).
  assert (P3 : parse_asctime s = No) by (apply parse_gmt_in; auto). assert (P4 : parse_cookie s = No) by (apply parse_gmt_in; auto).
  assert (P5 : parse_git mktime s = No).
  { unfold parse_git. match goal with |- context [strptime ?f garbage ?t] => destruct (strptime f garbage t) as [[b r]|] eqn:E; [|reflexivity] end.
    exfalso. apply H. eapply firstn_in. eapply strptime_in; [exact E|]. left. reflexivity. }
  rewrite P1, P2, P3, P4, P5. destruct (29 <=? n)%nat, (30 <=? n)%nat, (24 <=? n)%nat, (19 <=? n)%nat; reflexivity.
Qed.
