(** Proofs about service URIs *)
From Coq Require Import ZArith List Bool Lia Arith String.
From Verif Require Import Text QryModel QrySpec.
From Verif Require NetrefModel NetrefSpec NetrefProps.
Import ListNotations.
Open Scope list_scope.
Open Scope Z_scope.
Notation length := List.length.

Lemma mark_some s t c : find_mark s = Some (t, c) -> (c = 64 \/ c = 47) /\ exists a b, s = a ++ c :: b /\ length a = t /\ ~ In 64 a /\ ~ In 47 a.
Proof.
  revert t. induction s as [|x s IH]; intros t; cbn [find_mark]; [discriminate|]. destruct ((x =? 64) || (x =? 47)) eqn:E.
  - intros [= <- <-]. apply orb_true_iff in E. rewrite !Z.eqb_eq in E. split; [exact E|]. exists [], s. cbn. tauto.
  - destruct (find_mark s) as [[t' c']|] eqn:F; [|discriminate]. intros [= <- ->]. destruct (IH t' eq_refl) as (Hc & a & b & -> & L & N1 & N2). split; [exact Hc|].
    apply orb_false_iff in E. rewrite !Z.eqb_neq in E. exists (x :: a), b. cbn [app length In]. repeat split; auto; intros [H|H]; tauto.
Qed.
Lemma mark_none s : find_mark s = None -> ~ In 64 s.
Proof.
  induction s as [|x s IH]; cbn [find_mark]; [intros _ []|]. destruct ((x =? 64) || (x =? 47)) eqn:E; [discriminate|]. destruct (find_mark s) as [[]|]; [discriminate|].
  apply orb_false_iff in E. rewrite !Z.eqb_neq in E. intros _ [H|H]; [tauto|]. now apply IH.
Qed.
Lemma mark_user u s : ~ In 64 u -> ~ In 47 u -> find_mark (u ++ 64 :: s) = Some (length u, 64).
Proof.
  induction u as [|x u IH]; intros N1 N2; [reflexivity|]. cbn [app find_mark]. cbn [In] in *. destruct ((x =? 64) || (x =? 47)) eqn:E; [apply orb_true_iff in E; rewrite !Z.eqb_eq in E; intuition|].
  rewrite IH by tauto. reflexivity.
Qed.

Lemma nonempty_view s v x : option_map (NetrefSpec.view s) v = Some x -> x <> [] -> exists q, nonempty v = Some q /\ view s q = x.
Proof.
  destruct v as [[p n]|]; [|discriminate]. cbn [option_map]. intros [= <-] N. destruct n as [|n]; [now destruct N|]. eexists. split; reflexivity.
Qed.
Lemma nonempty_none {A} (f : nat * nat -> A) v : option_map f v = None -> nonempty v = None.
Proof. destruct v as [[p n]|]; [discriminate|reflexivity]. Qed.

(** The rest of [service_params] *)
Definition params_of (defaults : params) (user uri : list Z) : option params :=
  let '(ref, n) := NetrefModel.parse_ref uri in
  if (n =? length uri)%nat then
    Some (mkParams user
      (match nonempty (NetrefModel.r_host ref) with Some v => view uri v | None => p_host defaults end)
      (match nonempty (NetrefModel.r_port ref), NetrefModel.r_num ref with Some _, Some x => x | _, _ => p_port defaults end)
      (match nonempty (NetrefModel.r_path ref) with Some v => skipn 1 (view uri v) | None => p_database defaults end))
  else None.
Lemma service_params_of defaults uri : service_params defaults uri =
  match find_mark uri with Some (t, 64) => params_of defaults (firstn t uri) (skipn (S t) uri) | _ => params_of defaults (p_user defaults) uri end.
Proof.
  unfold service_params, params_of. destruct (find_mark uri) as [[t c]|]; [|reflexivity]. destruct c as [|q|q]; try reflexivity. do 7 (destruct q; try reflexivity).
Qed.

Lemma params_of_spec defaults user uri p : params_of defaults user uri = Some p <->
  exists o, uri = reference_text o /\ (forall r, o = Some r -> NetrefSpec.valid r) /\ p = service defaults (Some user) o.
Proof.
  assert (C : forall r, NetrefSpec.valid r -> params_of defaults user (NetrefSpec.text_of r) = Some (service defaults (Some user) (Some r))).
  { intros r V. destruct (NetrefProps.netref_complete r V) as (w & E & H1 & _ & H3 & H4 & H5 & _). unfold params_of. rewrite E, Nat.eqb_refl. f_equal. destruct V as (V1 & _ & V3 & V4 & _).
    destruct r as [h br po pa qu fr]. cbn [NetrefSpec.host NetrefSpec.port NetrefSpec.path] in *. unfold service. cbn [NetrefSpec.host].
    destruct (nonempty_view _ _ _ H1 V1) as (q & -> & ->). f_equal.
    - destruct po as [ds|].
      + destruct V3 as (V3 & _). destruct (nonempty_view _ _ _ H3 V3) as (q2 & -> & _). rewrite H4. reflexivity.
      + rewrite (nonempty_none _ _ H3). reflexivity.
    - destruct pa as [pa|].
      + destruct V4 as ((q2 & ->) & _). destruct (nonempty_view _ _ _ H5 ltac:(discriminate)) as (q3 & -> & ->). reflexivity.
      + rewrite (nonempty_none _ _ H5). reflexivity. }
  split.
  - intros H. destruct uri as [|x uri].
    + exists None. split; [reflexivity|]. split; [discriminate|]. unfold params_of in H. vm_compute in H. injection H as <-. reflexivity.
    + assert (W : snd (NetrefModel.parse_ref (x :: uri)) = length (x :: uri)).
      { unfold params_of in H. destruct (NetrefModel.parse_ref (x :: uri)) as [w n]. destruct (Nat.eqb_spec n (length (x :: uri))); [assumption|discriminate]. }
      apply NetrefProps.netref_whole in W as (r & V & E); [|discriminate]. exists (Some r). split; [now symmetry|]. split; [now intros r' [= <-]|]. rewrite <- E, (C r V) in H. now injection H as <-.
  - intros ([r|] & -> & V & ->); cbn [reference_text]; [apply C; now apply V|]. reflexivity.
Qed.

Lemma split_no {A} (x y : A) a1 b1 a2 b2 : a1 ++ x :: b1 = a2 ++ y :: b2 -> ~ In y a1 -> x <> y -> In x a2.
Proof.
  revert a2. induction a1 as [|z a1 IH]; intros [|z2 a2] E N D; cbn [app In] in *; injection E as E1 E2; subst.
  - congruence.
  - now left.
  - destruct N. now left.
  - right. apply (IH a2); auto.
Qed.

Lemma service_iff defaults uri p : service_params defaults uri = Some p <->
  exists user o, uri = service_text user o /\ clear_user user o /\ (forall r, o = Some r -> NetrefSpec.valid r) /\ p = service defaults user o.
Proof.
  assert (Sn : forall o, service defaults (Some (p_user defaults)) o = service defaults None o) by reflexivity.
  rewrite service_params_of. split.
  - intros H. destruct (find_mark uri) as [[t c]|] eqn:F.
    + destruct (mark_some _ _ _ F) as ([-> | ->] & a & b & -> & L & N1 & N2).
      * subst t. rewrite firstn_app, firstn_all, Nat.sub_diag in H. cbn [firstn] in H. rewrite app_nil_r in H.
        assert (Es : skipn (S (length a)) (a ++ 64 :: b) = b) by (clear; induction a; cbn [length app skipn] in *; auto). rewrite Es in H.
        apply params_of_spec in H as (o & -> & V & ->). exists (Some a), o. split; [unfold service_text; now rewrite <- app_assoc|]. split; [now split|]. split; [exact V|reflexivity].
      * apply params_of_spec in H as (o & E & V & ->). exists None, o. split; [exact E|]. split; [|split; [exact V|reflexivity]]. intros a' b' E'. rewrite <- E in E'.
        apply (split_no _ _ _ _ _ _ E' N1). discriminate.
    + apply params_of_spec in H as (o & -> & V & ->). exists None, o. split; [reflexivity|]. split; [|split; [exact V|reflexivity]]. intros a b E. apply mark_none in F. destruct F. rewrite E. apply in_app_iff. right. now left.
  - intros ([u|] & o & -> & Cu & V & ->).
    + destruct Cu as [N1 N2]. unfold service_text. rewrite <- app_assoc. cbn [app]. rewrite mark_user by assumption. rewrite firstn_app, firstn_all, Nat.sub_diag. cbn [firstn]. rewrite app_nil_r.
      assert (Es : forall b, skipn (S (length u)) (u ++ 64 :: b) = b) by (intros b; clear; induction u; cbn [length app skipn] in *; auto). rewrite Es. apply params_of_spec. eauto.
    + unfold service_text. cbn [app]. cbn [clear_user] in Cu. rewrite <- Sn.
      assert (P : params_of defaults (p_user defaults) (reference_text o) = Some (service defaults (Some (p_user defaults)) o)) by (apply params_of_spec; eauto).
      destruct (find_mark (reference_text o)) as [[t c]|] eqn:F; [|exact P].
      destruct (mark_some _ _ _ F) as ([-> | ->] & a & b & E & L & N1 & N2); [|exact P]. destruct (N2 (Cu a b E)).
Qed.
