(** C41: HTTP field names. *)
From Coq Require Import ZArith List Lia Bool ZifyBool String.
From Verif Require Import Base BaseLemmas Text HnameModel.
Import ListNotations.
Open Scope list_scope.
Open Scope Z_scope.
Notation length := List.length.

(** Specification: two characters are the same if they are equal or the upper- and lowercase forms of a letter. *)
Definition same_char (x y : Z) : Prop :=
  x = y \/ (97 <= x <= 122 /\ y = x - 32) \/ (97 <= y <= 122 /\ x = y - 32).
Definition same_name : list Z -> list Z -> Prop := Forall2 same_char.
(** Names which are not rejected *)
Definition name_char (c : Z) : Prop := 97 <= c <= 122 \/ 65 <= c <= 90 \/ 48 <= c <= 57 \/ c = 45 \/ c = 95.

Lemma lower_same x y : lower x = lower y <-> same_char x y.
Proof. unfold lower, same_char. destruct ((65 <=? x) && (x <=? 90)) eqn:A, ((65 <=? y) && (y <=? 90)) eqn:B; lia. Qed.

Lemma compare_zero a : forall b, ci_compare a b = 0 <-> map lower a = map lower b.
Proof.
  induction a as [|x a IH]; intros [|y b]; cbn [ci_compare map]; try (split; [lia|discriminate]); try tauto.
  destruct (Z.eqb_spec (lower x) (lower y)) as [E|E]; [rewrite IH, E; split; congruence|]. split; [lia|congruence].
Qed.
Lemma map_same a b : map lower a = map lower b <-> same_name a b.
Proof.
  unfold same_name. split.
  - revert b. induction a as [|x a IH]; intros [|y b] H; cbn in H; try discriminate; [constructor|]. injection H as H1 H2. constructor; [now apply lower_same|auto].
  - induction 1 as [|x y a b H F IH]; [reflexivity|]. cbn. apply lower_same in H. congruence.
Qed.

(** Equality ignores the case of ASCII letters and nothing else. *)
Theorem name_equal a b : equals a b = true <-> same_name a b.
Proof.
  unfold equals. rewrite <- map_same, <- compare_zero. destruct (Nat.eqb_spec (length a) (length b)) as [E|E]; cbn [negb].
  - lia.
  - split; [discriminate|]. intros H. exfalso. apply compare_zero in H. apply (f_equal (@length _)) in H. rewrite !map_length in H. auto.
Qed.
Print Assumptions name_equal.

(** It is an equivalence. *)
Theorem name_equivalence a b c : equals a a = true /\ equals a b = equals b a /\ (equals a b = true -> equals b c = true -> equals a c = true).
Proof.
  assert (R : forall x y, equals x y = true <-> map lower x = map lower y) by (intros; now rewrite name_equal, map_same).
  split; [now apply R|]. split; [apply eq_true_iff_eq; rewrite !R; split; congruence|]. rewrite !R. congruence.
Qed.
Print Assumptions name_equivalence.

(** The three-way comparison is a total order that agrees with equality: the operators [<], [<=], [>] and
    [>=] test its sign. *)
Lemma compare_anti a : forall b, Z.sgn (ci_compare b a) = - Z.sgn (ci_compare a b).
Proof.
  induction a as [|x a IH]; intros [|y b]; cbn [ci_compare]; try reflexivity. rewrite (Z.eqb_sym (lower y)).
  destruct (lower x =? lower y); [apply IH|lia].
Qed.
Lemma compare_trans a : forall b c, ci_compare a b <= 0 -> ci_compare b c <= 0 -> ci_compare a c <= 0 /\ (ci_compare a c = 0 -> ci_compare a b = 0 /\ ci_compare b c = 0).
Proof.
  induction a as [|x a IH]; intros [|y b] [|z c]; cbn [ci_compare]; try lia.
  destruct (Z.eqb_spec (lower x) (lower y)) as [E1|E1]; destruct (Z.eqb_spec (lower y) (lower z)) as [E2|E2]; destruct (Z.eqb_spec (lower x) (lower z)) as [E3|E3]; try lia.
  apply IH.
Qed.
Theorem name_order a b c :
  (ci_compare a b = 0 <-> equals a b = true) /\
  (ci_compare a b < 0 <-> ci_compare b a > 0) /\
  (ci_compare a b <= 0 -> ci_compare b c <= 0 -> ci_compare a c <= 0) /\
  (ci_compare a b < 0 -> ci_compare b c <= 0 -> ci_compare a c < 0) /\
  (ci_compare a b <= 0 -> ci_compare b c < 0 -> ci_compare a c < 0).
Proof.
  split; [now rewrite compare_zero, name_equal, map_same|]. pose proof (compare_anti a b). split; [lia|].
  pose proof (compare_trans a b c) as T. split; [intros; now apply T|].
  split; intros A B; destruct (T ltac:(lia) ltac:(lia)) as [T1 T2]; (destruct (Z.eq_dec (ci_compare a c) 0) as [Q|Q]; [apply T2 in Q; lia|lia]).
Qed.
Print Assumptions name_order.

(** Equal names have equal hashes. *)
Theorem name_hash h a b : equals a b = true -> rdhash h a = rdhash h b.
Proof.
  rewrite name_equal, <- map_same. unfold rdhash. generalize 0. revert b. induction a as [|x a IH]; intros [|y b] v H; cbn in H; try discriminate; [reflexivity|].
  injection H as H1 H2. cbn. rewrite H1. now apply IH.
Qed.
Print Assumptions name_hash.

(** A name is accepted if all its characters are allowed, and otherwise rejected.  The result is
    equal to the name, has no uppercase letter, and is not changed by another call. *)
Lemma lor32 c : 65 <= c <= 90 -> Z.lor c 32 = c + 32.
Proof.
  intros H. assert (E : Forall (fun c => Z.lor c 32 = c + 32) (map (fun k => Z.of_nat k + 65) (seq 0 26))) by (cbn; repeat (apply Forall_cons; [reflexivity|]); apply Forall_nil).
  rewrite Forall_forall in E. apply E. apply in_map_iff. exists (Z.to_nat (c - 65)). split; [lia|]. apply in_seq. lia.
Qed.
Lemma canon_spec s : (Forall name_char s -> canonicalize s = Some (map lower s)) /\ (forall t, canonicalize s = Some t -> Forall name_char s).
Proof.
  induction s as [|c s [IH1 IH2]]; cbn [canonicalize map]; [auto|]. split.
  - intros H. inversion H as [|? ? H1 H2]; subst. rewrite (IH1 H2). unfold name_char in H1.
    destruct (((97 <=? c) && (c <=? 122)) || ((48 <=? c) && (c <=? 57)) || (c =? 45) || (c =? 95)) eqn:E.
    + replace (lower c) with c by (unfold lower; replace ((65 <=? c) && (c <=? 90)) with false by lia; reflexivity). reflexivity.
    + replace (lower c) with (c + 32) by (unfold lower; replace ((65 <=? c) && (c <=? 90)) with true by lia; reflexivity).
      replace ((65 <=? c) && (c <=? 90)) with true by lia. now rewrite lor32 by lia.
  - intros t. destruct (((97 <=? c) && (c <=? 122)) || ((48 <=? c) && (c <=? 57)) || (c =? 45) || (c =? 95)) eqn:E.
    + destruct (canonicalize s); [|discriminate]. intros _. constructor; [unfold name_char; lia|eauto].
    + destruct ((65 <=? c) && (c <=? 90)) eqn:E2; [|discriminate]. destruct (canonicalize s); [|discriminate]. intros _. constructor; [unfold name_char; lia|eauto].
Qed.
Theorem name_canonical s :
  (Forall name_char s -> exists t, canonicalize s = Some t) /\
  (forall t, canonicalize s = Some t -> Forall name_char s /\ same_name s t /\ Forall (fun c => ~ 65 <= c <= 90) t /\ canonicalize t = Some t) /\
  (forall r t u, canonicalize s = Some t -> canonicalize r = Some u -> (t = u <-> equals s r = true)).
Proof.
  assert (L : forall c, lower (lower c) = lower c) by (intros c; unfold lower; destruct ((65 <=? c) && (c <=? 90)) eqn:E; [|now rewrite E]; replace ((65 <=? c + 32) && (c + 32 <=? 90)) with false by lia; reflexivity).
  split; [|split].
  - intros H. eexists. now apply canon_spec.
  - intros t H. pose proof (proj2 (canon_spec s) t H) as F. rewrite (proj1 (canon_spec s) F) in H. injection H as <-. split; [exact F|]. split; [|split].
    + apply map_same. rewrite map_map. apply map_ext. intros c. now rewrite L.
    + apply Forall_forall. intros x Hx. apply in_map_iff in Hx as (c & <- & _). unfold lower. destruct ((65 <=? c) && (c <=? 90)) eqn:E; lia.
    + rewrite (proj1 (canon_spec (map lower s))); [f_equal; rewrite map_map; apply map_ext; auto|]. apply Forall_forall. intros x Hx. apply in_map_iff in Hx as (c & <- & Hc).
      rewrite Forall_forall in F. specialize (F c Hc). unfold name_char, lower in *. destruct ((65 <=? c) && (c <=? 90)) eqn:E; lia.
  - intros r t u H1 H2. rewrite (proj1 (canon_spec s) (proj2 (canon_spec s) t H1)) in H1. rewrite (proj1 (canon_spec r) (proj2 (canon_spec r) u H2)) in H2.
    injection H1 as <-. injection H2 as <-. now rewrite name_equal, map_same.
Qed.
Print Assumptions name_canonical.

Example names : equals (txt "Content-Length") (txt "CONTENT-length") = true /\ equals (txt "a_b") (txt "aDb") = false
  /\ canonicalize (txt "Content-Length") = Some (txt "content-length") /\ canonicalize (txt "a b") = None
  /\ ci_compare (txt "Ab") (txt "aBc") < 0 /\ ci_compare (txt "b") (txt "ABC") > 0.
Proof. vm_compute. auto 10. Qed.
