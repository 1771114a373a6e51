(** C40: HTTP header values. *)
From Coq Require Import ZArith List Lia Bool ZifyBool String.
From Verif Require Import Base BaseLemmas Text DateModel HvalModel HvalSpec HvalProofs.
Import ListNotations.
Open Scope list_scope.
Open Scope Z_scope.
Notation length := List.length.

(** Printed text never has a line break or another control character, whatever the text is. *)
Theorem hv_clean s : bytes s -> Forall (fun c => 32 <= c /\ c <> 127) (print_text s).
Proof.
  intros H. unfold print_text. pose proof (until_spec sep s) as U. destruct (until sep s) as [a b]. destruct U as (E & F & _).
  assert (A : Forall (fun c => 32 <= c /\ c <> 127) a).
  { apply Forall_forall. intros c Hc. rewrite Forall_forall in F. specialize (F c Hc). unfold bytes in H. rewrite Forall_forall in H. specialize (H c ltac:(rewrite E; apply in_app_iff; auto)).
    unfold byte in H. apply sep_parts in F as [F _]. unfold is_blank in F. lia. }
  destruct b as [|c b]; [rewrite E, app_nil_r; exact A|]. apply Forall_cons; [lia|]. apply Forall_app. split; [exact A|]. apply Forall_app. split.
  - apply escape_clean. unfold bytes in *. rewrite E in H. now apply Forall_app in H.
  - apply Forall_cons; [lia|constructor].
Qed.
Print Assumptions hv_clean.

(** A text that is a token is printed as it is.  Any other text is printed as one quoted string: the
    contents stand for the text, in which sequences of blanks have become single spaces. *)
Theorem hv_print s : (is_token s /\ print_text s = s) \/
  (~ is_token s /\ exists b t, print_text s = 34 :: b ++ [34] /\ stands_for b t /\ squeezed s t).
Proof. destruct (print_shape s) as [H|(b & t & H1 & H2 & H3 & H4)]; [auto|right]. split; [auto|]. exists b, t. auto. Qed.
Print Assumptions hv_print.

(** The parser for quoted strings accepts exactly a quoted string at the beginning of the
    text, whatever follows, and gives the text it stands for; it never reads beyond the end. *)
Theorem hv_quoted s t n : parse_quoted s = QOk t n <->
  exists b r, s = 34 :: b ++ 34 :: r /\ stands_for b t /\ n = (length b + 2)%nat.
Proof.
  unfold parse_quoted. split.
  - destruct (length s <? 2)%nat; [discriminate|]. destruct s as [|c s]; [discriminate|]. destruct (Z.eqb_spec c 34); [|discriminate]. subst c. intros H.
    apply qloop_inv in H as (b & u & r & -> & -> & -> & H). exists b, r. split; [reflexivity|]. split; [exact H|]. lia.
  - intros (b & r & -> & H & ->). replace (length (34%Z :: b ++ 34%Z :: r) <? 2)%nat with false by (symmetry; apply Nat.ltb_ge; cbn; rewrite app_length; cbn; lia).
    change (34 =? 34) with true. cbv iota. rewrite (qloop_plain b t H). cbn [app]. f_equal. lia.
Qed.
Print Assumptions hv_quoted.

Theorem hv_no_overrun s : parse_quoted s <> Oob.
Proof.
  unfold parse_quoted. destruct (Nat.ltb_spec (length s) 2) as [|L]; [discriminate|]. destruct s as [|c s]; [discriminate|]. destruct (c =? 34); [|discriminate].
  apply qloop_oob. destruct s; [cbn in L; lia|discriminate].
Qed.
Print Assumptions hv_no_overrun.

(** The round trip: text which is not a token, printed and followed by anything, is parsed as
    that text with sequences of blanks replaced. *)
Theorem hv_roundtrip s r : ~ is_token s ->
  exists t, squeezed s t /\ parse_quoted (print_text s ++ r) = QOk t (length (print_text s)).
Proof.
  intros H. destruct (print_shape s) as [[H1 _]|(b & t & E & S & T & _)]; [contradiction|]. exists t. split; [exact S|]. rewrite E.
  apply hv_quoted. exists b, r. split; [cbn; now rewrite <- app_assoc|]. split; [exact T|]. cbn. rewrite app_length. cbn. lia.
Qed.
Print Assumptions hv_roundtrip.

(** The general parser applied to the printed text gives the text, too. *)
Theorem hv_parse mktime s : s <> [] -> exists t, squeezed s t /\ parse_value mktime (print_text s) = Text t (length (print_text s)).
Proof.
  intros N. destruct (print_shape s) as [[T E]|(b & t & E & S & St & _)].
  - exists s. assert (Sq : squeezed s s).
    { rewrite <- (app_nil_r s). apply squeezed_app; [|constructor]. eapply Forall_impl; [|exact T]. cbn. tauto. }
    split; [exact Sq|]. rewrite E. unfold parse_value. rewrite no_date.
    + replace (parse_unquoted s) with s.
      * destruct s as [|c s]; [congruence|]. inversion T as [|? ? [T1 T2] _]; subst. replace (c =? 34) with false; [reflexivity|].
        symmetry. apply Z.eqb_neq. intros ->. apply T2. now left.
      * unfold parse_unquoted. rewrite <- (app_nil_r s) at 2. rewrite until_app; [reflexivity| |exact I]. eapply Forall_impl; [|exact T]. cbn beta. intros c [H1 H2].
        unfold separators in H2. cbn [In] in H2. unfold is_blank in H1. unfold unquoted_sep. lia.
    + intros X. unfold is_token in T. rewrite Forall_forall in T. apply T in X as [_ X]. apply X. unfold separators. cbn. tauto.
  - exists t. split; [exact S|]. rewrite E. unfold parse_value. change (34 =? 34) with true. cbv iota.
    assert (Q : parse_quoted (34 :: b ++ [34]) = QOk t (length b + 2)) by (apply hv_quoted; exists b, []; auto). rewrite Q.
    replace (length (34 :: b ++ [34])) with (length b + 2)%nat by (cbn; rewrite app_length; cbn; lia). rewrite Nat.add_comm. reflexivity.
Qed.
Print Assumptions hv_parse.

(** It is the original text unless that has control characters or more than one space in a row. *)
Definition tidy (s : list Z) : Prop :=
  Forall (fun c => is_blank c -> c = 32) s /\ forall a b, s <> a ++ [32; 32] ++ b.
Theorem hv_exact s t : tidy s -> squeezed s t -> t = s.
Proof.
  intros [F A] S. induction S as [|c s t H S IH|c b s t H B N S IH].
  - reflexivity.
  - f_equal. apply IH; [now inversion F|]. intros a d E. apply (A (c :: a) d). cbn. now rewrite E.
  - inversion F as [|? ? F1 F2]; subst. rewrite (F1 H) in *. destruct b as [|x b].
    + cbn [app] in *. f_equal. apply IH; [auto|]. intros a d E. apply (A (32 :: a) d). cbn. now rewrite E.
    + exfalso. inversion B as [|? ? B1 B2]; subst. cbn in F2. inversion F2 as [|? ? F3 F4]; subst. rewrite (F3 B1) in *. apply (A [] (b ++ s)). reflexivity.
Qed.
Print Assumptions hv_exact.

(** In general it is not. *)
Theorem hv_exact_refuted : exists s t, bytes s /\ parse_quoted (print_text s) = QOk t (length (print_text s)) /\ t <> s.
Proof.
  exists (txt "a  b"), (txt "a b"). split; [unfold bytes; cbn; repeat (apply Forall_cons; [unfold byte; lia|]); apply Forall_nil|]. split; [reflexivity|discriminate].
Qed.
Print Assumptions hv_exact_refuted.

(** A token ends before the first separator; so does an unquoted value, whose separators are
    blanks, commas and semicolons. *)
Theorem hv_token s : exists r, s = parse_token s ++ r /\ is_token (parse_token s) /\
  match r with [] => True | c :: _ => is_blank c \/ In c separators end.
Proof.
  unfold parse_token. pose proof (until_spec sep s) as U. destruct (until sep s) as [a b]. destruct U as (E & F & G). exists b. cbn [fst]. split; [exact E|]. split.
  - eapply Forall_impl; [|exact F]. intros c Hc. now apply sep_false.
  - destruct b; [auto|]. now apply sep_spec.
Qed.
Print Assumptions hv_token.
Theorem hv_unquoted s : exists r, s = parse_unquoted s ++ r /\ Forall (fun c => ~ is_blank c /\ c <> 44 /\ c <> 59) (parse_unquoted s) /\
  match r with [] => True | c :: _ => is_blank c \/ c = 44 \/ c = 59 end.
Proof.
  unfold parse_unquoted. pose proof (until_spec unquoted_sep s) as U. destruct (until unquoted_sep s) as [a b]. destruct U as (E & F & G). exists b. cbn [fst]. split; [exact E|]. split.
  - eapply Forall_impl; [|exact F]. cbn beta. intros c Hc. unfold unquoted_sep in Hc. unfold is_blank. lia.
  - destruct b as [|c b]; [auto|]. unfold unquoted_sep in G. unfold is_blank. lia.
Qed.
Print Assumptions hv_unquoted.

Example hv_ex : print_text (txt "say ""hi""; \") = txt """say \""hi\""; \\""" /\ parse_quoted (txt """say \""hi\""; \\"", x") = QOk (txt "say ""hi""; \") 16
  /\ parse_quoted (txt """open") = QNo /\ parse_quoted (txt """open\""") = QNo /\ print_text [97; 13; 10; 98] = txt """a b""" /\ print_text (txt "token") = txt "token".
Proof. vm_compute. auto 10. Qed.
Example hv_tidy : tidy (txt "a b") /\ ~ is_token (txt "a b").
Proof.
  split; [split; [cbn; repeat (apply Forall_cons; [unfold is_blank; lia|]); apply Forall_nil|]|].
  - intros a b E. apply (f_equal (@length _)) in E as L. rewrite !app_length in L. cbn in L. destruct a as [|x a]; [discriminate|]. destruct a as [|y a]; [discriminate|]. cbn in L. lia.
  - intros H. inversion H as [|? ? _ H1]; subst. inversion H1 as [|? ? [H2 _] _]; subst. apply H2. unfold is_blank. cbn. lia.
Qed.
