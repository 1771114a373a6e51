(** C37: commands that cannot be sent. *)
From Coq Require Import List ZArith Bool Lia Arith ZifyBool ZifyNat.
From Coq Require Import String.
From Verif Require Import Base Text MongoModel MongoSpec MongoProofs MongoProps.
Import ListNotations.
Open Scope list_scope.
Open Scope Z_scope.
Notation length := List.length.

(** A value that has a string which is too long for BSON, however deep. *)
Inductive oversized : value -> Prop :=
  | over_utf8 s : 2147483647 < Z.of_nat (length s) -> oversized (Utf8 s)
  | over_binary s : 4294967295 < Z.of_nat (length s) -> oversized (Binary s)
  | over_array v l : In v l -> oversized v -> oversized (Arr l)
  | over_document k v l : In (k, v) l -> oversized v -> oversized (Doc l).

Local Definition fails (v : value) : Prop := forall root cur rpos stack key,
  member cur (size cur - S rpos) = Some (key, v) ->
  exists n, (n <= 2 * weight v - 1)%nat /\ csteps n (root, cur, S rpos, stack) = None.

Local Lemma csteps_none n m s : csteps n s = None -> (n <= m)%nat -> csteps m s = None.
Proof. intros E L. replace m with (n + (m - n))%nat by lia. rewrite csteps_app, E. reflexivity. Qed.

Local Notation total w := (fold_right (fun kv n => (weight (snd kv) + n)%nat) O w).

Local Lemma members_fail c : forall suf, Forall (fun kv : list Z * value => (exists b, composes (snd kv) b) \/ fails (snd kv)) suf ->
  Exists (fun kv => fails (snd kv)) suf -> forall pre root stack, members c = pre ++ suf ->
  exists n, (n <= 2 * total suf)%nat /\ csteps n (root, c, length suf, stack) = None.
Proof.
  induction 1 as [|[k v] suf D _ IH]; intros X pre root stack Hm; [inversion X|]. cbn [snd] in D.
  assert (M : member c (size c - S (length suf)) = Some (k, v)).
  { rewrite member_nth, size_members, Hm, app_length. cbn [List.length].
    replace (length pre + S (length suf) - S (length suf))%nat with (length pre) by lia.
    rewrite nth_error_app2, Nat.sub_diag by lia. reflexivity. }
  cbn [fold_right snd List.length]. pose proof (weight_pos v) as W.
  assert (Now : fails v -> exists n, (n <= 2 * (weight v + total suf))%nat /\ csteps n (root, c, S (length suf), stack) = None).
  { intros F. destruct (F root c (length suf) stack k M) as (n & Hn & E). exists n. split; [lia|exact E]. }
  destruct D as [[b Hb]|F]; [|exact (Now F)].
  inversion X as [? ? F|? ? X']; subst; [exact (Now F)|].
  destruct (Hb root c (length suf) stack k M) as (n & Hn & E).
  destruct (append root stack (k, b)) as [root1 stack1].
  destruct (IH X' (pre ++ [(k, v)]) root1 stack1) as (m & Hm' & E'); [rewrite <- app_assoc; exact Hm|].
  exists (n + m)%nat. split; [lia|]. rewrite csteps_app, E. exact E'.
Qed.

Local Lemma numbered_total l : forall i, total (numbered i l) = fold_right (fun v n => (weight v + n)%nat) O l.
Proof. induction l as [|v l IH]; intros i; cbn [numbered fold_right snd]; [reflexivity|]. rewrite IH. reflexivity. Qed.

Local Lemma choose (l : list (list Z * value)) : Forall (fun kv => (exists b, composes (snd kv) b) \/ fails (snd kv)) l ->
  (exists bs, Forall2 (fun kv kb => fst kv = fst kb /\ composes (snd kv) (snd kb)) l bs) \/ Exists (fun kv => fails (snd kv)) l.
Proof.
  induction 1 as [|[k v] l D _ IH]; [left; exists []; constructor|]. cbn [snd] in D.
  destruct D as [[b B]|F]; [|right; constructor; exact F].
  destruct IH as [[bs F]|X]; [|right; apply Exists_cons_tl; exact X].
  left. exists ((k, b) :: bs). constructor; [auto|exact F].
Qed.

Local Lemma nested_decided w cur' (array : bool) : (forall c rpos key stack root, member c (size c - S rpos) = Some (key, w) ->
     cstep (root, c, S rpos, stack) = Some (root, cur', length (members cur'), mkFrame c rpos array key [] :: stack)) ->
  weight w = S (S (total (members cur'))) ->
  Forall (fun kv => (exists b, composes (snd kv) b) \/ fails (snd kv)) (members cur') ->
  (exists b, composes w b) \/ fails w.
Proof.
  intros St We D. destruct (choose _ D) as [[bs F]|X].
  - left. exists (if array then B_array bs else B_document bs). intros root cur rpos stack key Hm.
    destruct (composes_members cur' _ _ F [] root (mkFrame cur rpos array key [] :: stack) eq_refl) as (n & Hn & E).
    cbn [appends f_saved f_rpos f_array f_key f_temp app] in E.
    exists (1 + n + 1)%nat. split; [lia|].
    rewrite !csteps_app. cbn [csteps]. rewrite (St _ _ _ _ _ Hm), E. cbn [cstep f_saved f_rpos f_array f_key f_temp]. destruct (append _ _ _); reflexivity.
  - right. intros root cur rpos stack key Hm.
    destruct (members_fail cur' _ D X [] root (mkFrame cur rpos array key [] :: stack) eq_refl) as (n & Hn & E).
    exists (1 + n)%nat. split; [lia|]. rewrite csteps_app. cbn [csteps]. rewrite (St _ _ _ _ _ Hm). exact E.
Qed.

Local Lemma numbered_forall (P : value -> Prop) l : Forall P l -> forall i, Forall (fun kv => P (snd kv)) (numbered i l).
Proof. induction 1; intros i; cbn [numbered]; constructor; auto. Qed.

Local Lemma decided v : (exists b, composes v b) \/ fails v.
Proof.
  induction v as [|b|n|x|s|s|l IH|l IH|s|n] using value_induct.
  7: { apply (nested_decided (Arr l) (In_array l) true).
       - intros c rpos key stack root Hm. cbn [cstep]. rewrite Hm. cbn [members]. rewrite numbered_length. reflexivity.
       - cbn [weight members]. rewrite numbered_total. reflexivity.
       - cbn [members]. exact (numbered_forall (fun v => (exists b, composes v b) \/ fails v) l IH 0%nat). }
  7: { apply (nested_decided (Doc l) (In_document l) false).
       - intros c rpos key stack root Hm. cbn [cstep]. rewrite Hm. reflexivity.
       - reflexivity.
       - exact IH. }
  all: match goal with |- (exists b, composes ?v b) \/ _ => destruct (scalar_bson v) as [b'|] eqn:Sc end;
    [left; exists b'; intros root cur rpos stack key Hm; exists 1%nat; (split; [cbn; lia|]); cbn [csteps cstep]; rewrite Hm, Sc; destruct (append _ _ _); reflexivity
    |right; intros root cur rpos stack key Hm; exists 1%nat; (split; [cbn; lia|]); cbn [csteps cstep]; rewrite Hm, Sc; reflexivity].
Qed.

Local Lemma over_fails v : oversized v -> fails v.
Proof.
  induction 1 as [s L|s L|v l I _ IH|k v l I _ IH].
  - intros root cur rpos stack key Hm. exists 1%nat. split; [cbn; lia|]. cbn [csteps cstep]. rewrite Hm. cbn [scalar_bson]. replace (Z.of_nat (length s) <=? int_max) with false by (unfold int_max; lia). reflexivity.
  - intros root cur rpos stack key Hm. exists 1%nat. split; [cbn; lia|]. cbn [csteps cstep]. rewrite Hm. cbn [scalar_bson]. replace (Z.of_nat (length s) <=? uint_max) with false by (unfold uint_max; lia). reflexivity.
  - intros root cur rpos stack key Hm.
    destruct (members_fail (In_array l) (numbered 0 l)) with (pre := @nil (list Z * value)) (root := root) (stack := mkFrame cur rpos true key [] :: stack) as (n & Hn & E).
    + apply (numbered_forall (fun v => (exists b, composes v b) \/ fails v)). apply Forall_forall. intros x _. apply decided.
    + apply Exists_exists. destruct (In_nth_error _ _ I) as (i & Hi). pose proof (numbered_nth l 0 i) as Q. rewrite Hi in Q. eexists. split; [eapply nth_error_In; exact Q|exact IH].
    + reflexivity.
    + rewrite numbered_total in Hn. rewrite numbered_length in E. exists (1 + n)%nat. split; [cbn [weight]; lia|]. rewrite csteps_app. cbn [csteps cstep]. rewrite Hm. exact E.
  - intros root cur rpos stack key Hm.
    destruct (members_fail (In_document l) l) with (pre := @nil (list Z * value)) (root := root) (stack := mkFrame cur rpos false key [] :: stack) as (n & Hn & E).
    + apply Forall_forall. intros x _. apply decided.
    + apply Exists_exists. exists (k, v). auto.
    + reflexivity.
    + exists (1 + n)%nat. split; [cbn [weight]; lia|]. rewrite csteps_app. cbn [csteps cstep]. rewrite Hm. exact E.
Qed.

(** C37: if there is such a string, an exception is thrown and nothing is sent. *)
Theorem mongo_refused cmd : oversized (Doc cmd) -> compose cmd = None.
Proof.
  intros X. inversion X as [| | |k v l I O]; subst.
  destruct (members_fail (In_document cmd) cmd) with (pre := @nil (list Z * value)) (root := @nil (list Z * bson)) (stack := @nil frame) as (n & Hn & E).
  - apply Forall_forall. intros x _. apply decided.
  - apply Exists_exists. exists (k, v). split; [exact I|apply over_fails; exact O].
  - reflexivity.
  - unfold compose. rewrite (csteps_none n _ _ E); [reflexivity|]. cbn [weight]. lia.
Qed.

Local Lemma long_string n : Z.of_nat (length (repeat 0 (Z.to_nat n))) = Z.max 0 n.
Proof. rewrite repeat_length. lia. Qed.

Example mongo_refused_case : oversized (Doc [(txt "insert", Utf8 (txt "t")); (txt "documents", Arr [Doc []; Doc [(txt "b", Binary (repeat 0 (Z.to_nat 4294967296)))]])])
  /\ sendable (Binary (repeat 0 (Z.to_nat 4294967295))).
Proof.
  split; [|constructor; rewrite long_string; lia].
  eapply over_document; [right; left; reflexivity|]. eapply over_array; [right; left; reflexivity|]. eapply over_document; [left; reflexivity|].
  constructor. rewrite long_string. lia.
Qed.

Print Assumptions mongo_refused.
