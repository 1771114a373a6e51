(** Proofs about MongoDB values. *)
From Coq Require Import List ZArith Bool Lia Arith ZifyBool ZifyNat.
From Coq Require Import String.
From Verif Require Import Base BaseLemmas Text NetrefSpec AddrTextModel AddrTextProofs JsonModel JsonSpec.
From Verif Require Import RedisSpec.
From Verif Require RedisModel RedisProofs.
From Verif Require Import MongoModel MongoSpec.
Import ListNotations.
Open Scope list_scope.
Open Scope Z_scope.
Notation length := List.length.

Section value_ind.
  Variable P : value -> Prop.
  Hypothesis Hnull : P Null.
  Hypothesis Hbool : forall b, P (Bool b).
  Hypothesis Hint : forall n, P (Int n).
  Hypothesis Hdouble : forall x, P (Double x).
  Hypothesis Hutf8 : forall s, P (Utf8 s).
  Hypothesis Hbinary : forall s, P (Binary s).
  Hypothesis Harr : forall l, Forall P l -> P (Arr l).
  Hypothesis Hdoc : forall l, Forall (fun kv => P (snd kv)) l -> P (Doc l).
  Hypothesis Hoid : forall s, P (Oid s).
  Hypothesis Hdate : forall n, P (Date n).
  Fixpoint value_induct (v : value) : P v :=
    match v with
    | Null => Hnull | Bool b => Hbool b | Int n => Hint n | Double x => Hdouble x
    | Utf8 s => Hutf8 s | Binary s => Hbinary s
    | Arr l => Harr l ((fix go l : Forall P l :=
        match l with [] => Forall_nil P | v :: l => Forall_cons v (value_induct v) (go l) end) l)
    | Doc l => Hdoc l ((fix go l : Forall (fun kv => P (snd kv)) l :=
        match l with [] => Forall_nil _ | kv :: l => Forall_cons kv (value_induct (snd kv)) (go l) end) l)
    | Oid s => Hoid s | Date n => Hdate n
    end.
End value_ind.

Section bson_ind.
  Variable P : bson -> Prop.
  Hypothesis Hscalar : forall b, match b with B_array _ | B_document _ => False | _ => True end -> P b.
  Hypothesis Harr : forall l, Forall (fun kv => P (snd kv)) l -> P (B_array l).
  Hypothesis Hdoc : forall l, Forall (fun kv => P (snd kv)) l -> P (B_document l).
  Fixpoint bson_induct (b : bson) : P b :=
    match b with
    | B_array l => Harr l ((fix go l : Forall (fun kv => P (snd kv)) l :=
        match l with [] => Forall_nil _ | kv :: l => Forall_cons kv (bson_induct (snd kv)) (go l) end) l)
    | B_document l => Hdoc l ((fix go l : Forall (fun kv => P (snd kv)) l :=
        match l with [] => Forall_nil _ | kv :: l => Forall_cons kv (bson_induct (snd kv)) (go l) end) l)
    | B_null => Hscalar B_null I | B_bool b => Hscalar (B_bool b) I | B_int32 n => Hscalar (B_int32 n) I
    | B_int64 n => Hscalar (B_int64 n) I | B_double n => Hscalar (B_double n) I | B_utf8 n => Hscalar (B_utf8 n) I
    | B_binary n => Hscalar (B_binary n) I | B_oid n => Hscalar (B_oid n) I | B_date_time n => Hscalar (B_date_time n) I
    | B_other => Hscalar B_other I
    end.
End bson_ind.

(** *** Composition *)

Lemma csteps_app n : forall m s, csteps (n + m) s = match csteps n s with Some s' => csteps m s' | None => None end.
Proof. induction n as [|n IH]; intros m s; cbn [csteps Nat.add]; [reflexivity|]. destruct (cstep s); [apply IH|reflexivity]. Qed.

Fixpoint numbered (i : nat) (l : list value) : list (list Z * value) :=
  match l with
  | [] => []
  | v :: l => (put_du 20 (Z.of_nat i), v) :: numbered (S i) l
  end.

Definition members (c : container) : list (list Z * value) :=
  match c with In_array l => numbered 0 l | In_document l => l end.

Lemma numbered_length l : forall i, length (numbered i l) = length l.
Proof. induction l as [|v l IH]; intros i; cbn [numbered List.length]; [reflexivity|]. rewrite IH. reflexivity. Qed.

Lemma numbered_nth l : forall i j, nth_error (numbered i l) j =
  match nth_error l j with Some v => Some (put_du 20 (Z.of_nat (i + j)), v) | None => None end.
Proof.
  induction l as [|v l IH]; intros i [|j]; cbn [numbered nth_error]; try reflexivity.
  - rewrite Nat.add_0_r. reflexivity.
  - rewrite IH. replace (S i + j)%nat with (i + S j)%nat by lia. reflexivity.
Qed.

Lemma numbered_snd l : forall i, map snd (numbered i l) = l.
Proof. induction l as [|v l IH]; intros i; cbn [numbered map snd]; [reflexivity|]. rewrite IH. reflexivity. Qed.

Lemma size_members c : size c = length (members c).
Proof. destruct c; cbn [size members]; [rewrite numbered_length|]; reflexivity. Qed.

Lemma member_nth c i : member c i = nth_error (members c) i.
Proof. destruct c; cbn [member members]; [|reflexivity]. rewrite numbered_nth. reflexivity. Qed.

Definition appends (root : list (list Z * bson)) (stack : list frame) (xs : list (list Z * bson)) :=
  match stack with
  | [] => (root ++ xs, [])
  | f :: rest => (root, mkFrame (f_saved f) (f_rpos f) (f_array f) (f_key f) (f_temp f ++ xs) :: rest)
  end.

Lemma appends_app root stack xs ys :
  (let '(r, s) := appends root stack xs in appends r s ys) = appends root stack (xs ++ ys).
Proof. destruct stack; cbn [appends]; rewrite app_assoc; reflexivity. Qed.

Definition composes (v : value) (b : bson) : Prop := forall root cur rpos stack key,
  member cur (size cur - S rpos) = Some (key, v) ->
  exists n, (n <= 2 * weight v - 1)%nat /\
    csteps n (root, cur, S rpos, stack)
    = let '(root, stack) := append root stack (key, b) in Some (root, cur, rpos, stack).

Lemma weight_pos v : (2 <= weight v)%nat.
Proof. destruct v; cbn [weight]; lia. Qed.

Lemma composes_members c : forall suf bs, Forall2 (fun kv kb => fst kv = fst kb /\ composes (snd kv) (snd kb)) suf bs ->
  forall pre root stack, members c = pre ++ suf ->
  exists n, (n <= 2 * fold_right (fun kv n => (weight (snd kv) + n)%nat) O suf)%nat /\
    csteps n (root, c, length suf, stack)
    = let '(root, stack) := appends root stack bs in Some (root, c, O, stack).
Proof.
  induction 1 as [|[k v] [k' b] suf bs [Hk Hv] _ IH]; intros pre root stack Hm.
  - exists O. split; [cbn; lia|]. destruct stack as [|f stack]; cbn [csteps appends List.length]; rewrite app_nil_r; [reflexivity|].
    destruct f; reflexivity.
  - cbn [fst snd] in *. subst k'. destruct (Hv root c (length suf) stack k) as (n & Hn & E).
    { rewrite member_nth, size_members, Hm, app_length. cbn [List.length].
      replace (length pre + S (length suf) - S (length suf))%nat with (length pre) by lia.
      rewrite nth_error_app2, Nat.sub_diag by lia. reflexivity. }
    assert (Ha : append root stack (k, b) = appends root stack [(k, b)]) by (destruct stack; reflexivity).
    rewrite Ha in E. pose proof (appends_app root stack [(k, b)] bs) as Hap.
    destruct (appends root stack [(k, b)]) as [root1 stack1].
    destruct (IH (pre ++ [(k, v)]) root1 stack1) as (m & Hm' & E'); [rewrite <- app_assoc; exact Hm|].
    exists (n + m)%nat. cbn [fold_right snd]. pose proof (weight_pos v). split; [lia|].
    cbn [List.length]. rewrite csteps_app, E, E', Hap. reflexivity.
Qed.

(** What a value is composed into. *)
Fixpoint encode (v : value) : bson :=
  match v with
  | Arr l => B_array ((fix go i l := match l with [] => [] | v :: l => (put_du 20 (Z.of_nat i), encode v) :: go (S i) l end) O l)
  | Doc l => B_document (map (fun kv => (fst kv, encode (snd kv))) l)
  | _ => match scalar_bson v with Some b => b | None => B_null end
  end.

Definition encode_array := fix go (i : nat) (l : list value) : list (list Z * bson) :=
  match l with [] => [] | v :: l => (put_du 20 (Z.of_nat i), encode v) :: go (S i) l end.

Lemma encode_array_map l : forall i, encode_array i l = map (fun kv => (fst kv, encode (snd kv))) (numbered i l).
Proof.
  induction l as [|v l IH]; intros i; [reflexivity|]. cbn [encode_array numbered map fst snd].
  rewrite <- IH. reflexivity.
Qed.

Lemma encode_arr l : encode (Arr l) = B_array (map (fun kv => (fst kv, encode (snd kv))) (numbered 0 l)).
Proof. rewrite <- encode_array_map. reflexivity. Qed.

Lemma composes_all v : sendable v -> composes v (encode v).
Proof.
  induction v as [|b|n|x|s|s|l IH|l IH|s|n] using value_induct; intros W; inversion W; subst; clear W;
    try contradiction;
    intros root cur rpos stack key Hm.
  1-4,9,10: exists 1%nat; (split; [cbn; lia|]); cbn [csteps cstep]; rewrite Hm; cbn [scalar_bson encode];
    match goal with |- context[append ?a ?b ?c] => destruct (append a b c) end; reflexivity.
  1: exists 1%nat; (split; [cbn; lia|]); cbn [csteps cstep]; rewrite Hm; cbn [scalar_bson encode];
    replace (Z.of_nat (length s) <=? int_max) with true by (unfold int_max; lia);
    match goal with |- context[append ?a ?b ?c] => destruct (append a b c) end; reflexivity.
  1: exists 1%nat; (split; [cbn; lia|]); cbn [csteps cstep]; rewrite Hm; cbn [scalar_bson encode];
    replace (Z.of_nat (length s) <=? uint_max) with true by (unfold uint_max; lia);
    match goal with |- context[append ?a ?b ?c] => destruct (append a b c) end; reflexivity.
  - assert (F : Forall2 (fun kv kb => fst kv = fst kb /\ composes (snd kv) (snd kb)) (numbered 0 l)
                  (map (fun kv => (fst kv, encode (snd kv))) (numbered 0 l))).
    { clear - IH H0. set (i := O). clearbody i. revert i. induction l as [|v l IHl]; intros i; cbn [numbered map]; [constructor|].
      inversion IH; inversion H0; subst. constructor; [|apply IHl; assumption]. cbn [fst snd]. auto. }
    destruct (composes_members (In_array l) _ _ F [] root (mkFrame cur rpos true key [] :: stack) eq_refl) as (n & Hn & E).
    rewrite numbered_length in E. cbn [appends f_saved f_rpos f_array f_key f_temp app] in E.
    exists (1 + n + 1)%nat. split.
    { cbn [weight]. assert (Hw : forall i, fold_right (fun kv n => (weight (snd kv) + n)%nat) O (numbered i l)
        = fold_right (fun v n => (weight v + n)%nat) O l).
      { clear. induction l as [|v l IH]; intros i; cbn [numbered fold_right snd]; [reflexivity|]. rewrite IH. reflexivity. }
      rewrite Hw in Hn. lia. }
    rewrite !csteps_app. cbn [csteps cstep]. rewrite Hm. rewrite E. cbn [cstep f_saved f_rpos f_array f_key f_temp].
    rewrite encode_arr. destruct (append _ _ _); reflexivity.
  - assert (F : Forall2 (fun kv kb => fst kv = fst kb /\ composes (snd kv) (snd kb)) l
                  (map (fun kv => (fst kv, encode (snd kv))) l)).
    { clear - IH H0. induction l as [|v l IHl]; cbn [map]; [constructor|].
      inversion IH; inversion H0; subst. constructor; [|apply IHl; assumption]. cbn [fst snd]. auto. }
    destruct (composes_members (In_document l) _ _ F [] root (mkFrame cur rpos false key [] :: stack) eq_refl) as (n & Hn & E).
    cbn [appends f_saved f_rpos f_array f_key f_temp app] in E.
    exists (1 + n + 1)%nat. split; [cbn [weight]; lia|].
    rewrite !csteps_app. cbn [csteps cstep]. rewrite Hm. rewrite E. cbn [cstep f_saved f_rpos f_array f_key f_temp].
    destruct (append _ _ _); reflexivity.
Qed.

Lemma csteps_done n root c : csteps n (root, c, O, []) = Some (root, c, O, []).
Proof. induction n as [|n IH]; [reflexivity|]. cbn [csteps cstep]. exact IH. Qed.

Lemma compose_ok l : sendable (Doc l) -> compose l = Some (map (fun kv => (fst kv, encode (snd kv))) l).
Proof.
  intros W. inversion W as [| | |l' F|]; subst; [|contradiction].
  assert (C : Forall2 (fun kv kb => fst kv = fst kb /\ composes (snd kv) (snd kb)) l
                (map (fun kv => (fst kv, encode (snd kv))) l)).
  { clear W. induction F; cbn [map]; constructor; [|assumption]. cbn [fst snd]. split; [reflexivity|]. apply composes_all. assumption. }
  destruct (composes_members (In_document l) _ _ C [] [] [] eq_refl) as (n & Hn & E).
  unfold compose. replace (2 * weight (Doc l))%nat with (n + (2 * weight (Doc l) - n))%nat by (cbn [weight]; lia).
  rewrite csteps_app, E. cbn [appends app]. rewrite csteps_done. reflexivity.
Qed.

Lemma encode_represents v : sendable v -> represents (encode v) v.
Proof.
  induction v as [|b|n|x|s|s|l IH|l IH|s|n] using value_induct; intros W; inversion W; subst; clear W; try contradiction.
  - constructor.
  - constructor.
  - cbn [encode scalar_bson]. destruct (_ && _) eqn:E; constructor; lia.
  - constructor.
  - cbn [encode scalar_bson]. replace (Z.of_nat (length s) <=? int_max) with true by (unfold int_max; lia). constructor.
  - cbn [encode scalar_bson]. replace (Z.of_nat (length s) <=? uint_max) with true by (unfold uint_max; lia). constructor.
  - rewrite encode_arr. constructor.
    + set (i := O). clearbody i. clear - IH H0. revert i. induction l as [|v l IHl]; intros i; cbn [numbered map]; [constructor|].
      inversion IH; inversion H0; subst. constructor; [cbn [fst snd]; auto|apply IHl; assumption].
    + intros i k b E. rewrite nth_error_map, numbered_nth in E. destruct (nth_error l i) as [v|] eqn:N; [|discriminate].
      cbn [option_map fst snd Nat.add] in E. apply (f_equal (fun o => match o with Some x => fst x | None => [] end)) in E. cbn [fst] in E. rewrite <- E.
      apply put_du_spec; [|lia].
      assert (i < length l)%nat by (apply nth_error_Some; congruence). split; [lia|].
      apply Z.lt_trans with (2 ^ 64); [lia|reflexivity].
  - cbn [encode]. constructor. clear - IH H0. induction l as [|v l IHl]; cbn [map]; [constructor|].
    inversion IH; inversion H0; subst. constructor; [cbn [fst snd]; auto|apply IHl; assumption].
  - constructor.
  - cbn [encode scalar_bson]. pose proof (Z.quot_rem n 1000000 ltac:(lia)) as Q.
    constructor; intros Hn.
    + pose proof (Z.rem_bound_pos n 1000000 ltac:(lia) ltac:(lia)). lia.
    + pose proof (Z.rem_opp_l n 1000000 ltac:(lia)). pose proof (Z.rem_bound_pos (- n) 1000000 ltac:(lia) ltac:(lia)). lia.
Qed.

(** *** Pointers *)

Definition ext (w : value) (r : list (list Z * value)) : value :=
  match w with
  | Arr l => Arr (l ++ map snd r)
  | Doc l => Doc (l ++ r)
  | _ => w
  end.

Definition count (w : value) : nat := match w with Arr l => length l | Doc l => length l | _ => O end.
Definition cont (w : value) : Prop := match w with Arr _ | Doc _ => True | _ => False end.

Lemma load_store p : forall v w x, load v p = Some w -> exists v', store v p x = Some v' /\ load v' p = Some x.
Proof.
  induction p as [|i p IH]; intros v w x H; cbn [load] in H; [exists x; split; reflexivity|].
  destruct v as [| | | | | |l|l| |]; try discriminate; cbn [store].
  - destruct (nth_error l i) as [u|] eqn:E; [|discriminate].
    destruct (IH _ _ x H) as (u' & E1 & E2). rewrite E1. eexists. split; [reflexivity|]. cbn [load].
    assert (L : (i < length l)%nat) by (apply nth_error_Some; congruence).
    rewrite nth_error_app2; rewrite firstn_length, Nat.min_l by lia; [|lia]. rewrite Nat.sub_diag. exact E2.
  - destruct (nth_error l i) as [[k u]|] eqn:E; [|discriminate].
    destruct (IH _ _ x H) as (u' & E1 & E2). rewrite E1. eexists. split; [reflexivity|]. cbn [load].
    assert (L : (i < length l)%nat) by (apply nth_error_Some; congruence).
    rewrite nth_error_app2; rewrite firstn_length, Nat.min_l by lia; [|lia]. rewrite Nat.sub_diag. exact E2.
Qed.

Lemma replace_twice {A} (l : list A) i (a b : A) : (i < length l)%nat ->
  firstn i (firstn i l ++ a :: skipn (S i) l) ++ b :: skipn (S i) (firstn i l ++ a :: skipn (S i) l)
  = firstn i l ++ b :: skipn (S i) l.
Proof.
  intros L. rewrite firstn_app, firstn_firstn, Nat.min_id, firstn_length, Nat.min_l, Nat.sub_diag by lia.
  change (firstn 0 (a :: skipn (S i) l)) with (@nil A). rewrite app_nil_r. f_equal. f_equal.
  rewrite (skipn_app (S i)), firstn_length, Nat.min_l by lia.
  rewrite (skipn_all2 (firstn i l)) by (rewrite firstn_length; lia).
  replace (S i - i)%nat with 1%nat by lia. reflexivity.
Qed.

Lemma store_store p : forall v v1 x y, store v p x = Some v1 -> store v1 p y = store v p y.
Proof.
  induction p as [|i p IH]; intros v v1 x y H; [reflexivity|]. cbn [store] in H.
  destruct v as [| | | | | |l|l| |]; try discriminate.
  - destruct (nth_error l i) as [u|] eqn:E; [|discriminate].
    destruct (store u p x) as [u1|] eqn:S1; [|discriminate]. injection H as <-. cbn [store].
    assert (L : (i < length l)%nat) by (apply nth_error_Some; congruence).
    rewrite nth_error_app2; rewrite firstn_length, Nat.min_l by lia; [|lia]. rewrite Nat.sub_diag. cbn [nth_error].
    rewrite (IH _ _ _ y S1), E. destruct (store u p y) as [u2|]; [|reflexivity]. do 2 f_equal. apply (replace_twice l i _ _ L).
  - destruct (nth_error l i) as [[k u]|] eqn:E; [|discriminate].
    destruct (store u p x) as [u1|] eqn:S1; [|discriminate]. injection H as <-. cbn [store].
    assert (L : (i < length l)%nat) by (apply nth_error_Some; congruence).
    rewrite nth_error_app2; rewrite firstn_length, Nat.min_l by lia; [|lia]. rewrite Nat.sub_diag. cbn [nth_error].
    rewrite (IH _ _ _ y S1), E. destruct (store u p y) as [u2|]; [|reflexivity]. do 2 f_equal. apply (replace_twice l i _ _ L).
Qed.

Lemma load_app p : forall v q, load v (p ++ q) = match load v p with Some w => load w q | None => None end.
Proof.
  induction p as [|i p IH]; intros v q; cbn [load app]; [reflexivity|].
  destruct v; try reflexivity; destruct (nth_error l i) as [x|]; try reflexivity; [apply IH|destruct x; apply IH].
Qed.

Lemma store_app p : forall v q w w' x, load v p = Some w -> store w q x = Some w' ->
  store v (p ++ q) x = store v p w'.
Proof.
  induction p as [|i p IH]; intros v q w w' x H E; [cbn [load] in H; injection H as <-; exact E|].
  cbn [load] in H. cbn [store app].
  destruct v as [| | | | | |l|l| |]; try discriminate.
  - destruct (nth_error l i) as [u|]; [|discriminate]. rewrite (IH _ _ _ _ _ H E). reflexivity.
  - destruct (nth_error l i) as [[k u]|]; [|discriminate]. rewrite (IH _ _ _ _ _ H E). reflexivity.
Qed.

Lemma store_same p : forall v w v', load v p = Some w -> store v p w = Some v' -> v' = v.
Proof.
  induction p as [|i p IH]; intros v w v' L S; [cbn in *; congruence|]. cbn [load] in L. cbn [store] in S.
  destruct v as [| | | | | |l|l| |]; try discriminate.
  + destruct (nth_error l i) as [u|] eqn:E; [|discriminate]. destruct (store u p w) as [u1|] eqn:S1; [|discriminate].
    injection S as <-. rewrite (IH _ _ _ L S1). f_equal. apply nth_error_split in E. destruct E as (a & b & -> & <-).
    rewrite firstn_app, firstn_all, Nat.sub_diag. change (firstn 0 (u :: b)) with (@nil value). rewrite app_nil_r. f_equal. f_equal.
    change (skipn (S (length a)) (a ++ u :: b) = b). rewrite skipn_app, skipn_all2 by lia.
    replace (S (length a) - length a)%nat with 1%nat by lia. reflexivity.
  + destruct (nth_error l i) as [[k u]|] eqn:E; [|discriminate]. destruct (store u p w) as [u1|] eqn:S1; [|discriminate].
    injection S as <-. rewrite (IH _ _ _ L S1). f_equal. apply nth_error_split in E. destruct E as (a & b & -> & <-).
    rewrite firstn_app, firstn_all, Nat.sub_diag. change (firstn 0 ((k, u) :: b)) with (@nil (list Z * value)). rewrite app_nil_r. f_equal. f_equal.
    change (skipn (S (length a)) (a ++ (k, u) :: b) = b). rewrite skipn_app, skipn_all2 by lia.
    replace (S (length a) - length a)%nat with 1%nat by lia. reflexivity.
Qed.

Lemma store_last w k x y : cont w -> store (ext w [(k, x)]) [count w] y = Some (ext w [(k, y)]).
Proof.
  intros C. destruct w as [| | | | | |l|l| |]; try contradiction; cbn [ext map snd count].
  - change (store (Arr (l ++ [x])) [length l] y) with
      (match nth_error (l ++ [x]) (length l) with Some w => Some (Arr (firstn (length l) (l ++ [x]) ++ y :: skipn (S (length l)) (l ++ [x]))) | None => None end).
    rewrite nth_error_app2, Nat.sub_diag by lia. cbn [nth_error].
    rewrite firstn_app, firstn_all, Nat.sub_diag. cbn [firstn]. rewrite app_nil_r.
    rewrite skipn_all2 by (rewrite app_length; cbn [List.length]; lia). reflexivity.
  - change (store (Doc (l ++ [(k, x)])) [length l] y) with
      (match nth_error (l ++ [(k, x)]) (length l) with Some (j, w) => Some (Doc (firstn (length l) (l ++ [(k, x)]) ++ (j, y) :: skipn (S (length l)) (l ++ [(k, x)]))) | None => None end).
    rewrite nth_error_app2, Nat.sub_diag by lia. cbn [nth_error].
    rewrite firstn_app, firstn_all, Nat.sub_diag. cbn [firstn]. rewrite app_nil_r.
    rewrite skipn_all2 by (rewrite app_length; cbn [List.length]; lia). reflexivity.
Qed.

Lemma load_last w k x : cont w -> load (ext w [(k, x)]) [count w] = Some x.
Proof.
  intros C. destruct w as [| | | | | |l|l| |]; try contradiction; cbn [ext map snd count load];
    rewrite nth_error_app2, Nat.sub_diag by lia; reflexivity.
Qed.

Lemma ext_ext w a b : ext (ext w a) b = ext w (a ++ b).
Proof. destruct w; cbn [ext]; rewrite ?map_app, ?app_assoc; reflexivity. Qed.

Lemma ext_nil w : ext w [] = w.
Proof. destruct w; cbn [ext map]; rewrite ?app_nil_r; reflexivity. Qed.

Lemma cont_ext w r : cont w -> cont (ext w r).
Proof. destruct w; cbn; auto. Qed.

(** *** Conversion *)

Definition under (p : path) (stack : list rframe) : Prop :=
  Forall (fun f => exists t, p = r_parent f ++ t) stack.

Lemma under_inside p stack : under p stack -> existsb (fun f => RedisModel.inside p (r_parent f)) stack = false.
Proof.
  induction 1 as [|f stack (t & Ht) H IH]; [reflexivity|]. cbn [existsb]. rewrite IH, orb_false_r.
  rewrite Ht. apply RedisProofs.inside_prefix.
Qed.

Lemma under_app p q stack : under p stack -> under (p ++ q) stack.
Proof. apply Forall_impl. intros f (t & ->). exists (t ++ q). rewrite app_assoc. reflexivity. Qed.

Lemma emplace_ok out top w key x stack : load out top = Some w -> cont w -> under top stack ->
  exists out', emplace out top key x stack = Some (out', top ++ [count w])
    /\ store out top (ext w [(key, x)]) = Some out' /\ load out' top = Some (ext w [(key, x)]).
Proof.
  intros L C U. unfold emplace. rewrite (under_inside _ _ U), L.
  destruct (load_store _ _ _ (ext w [(key, x)]) L) as (out' & S & L'). exists out'.
  destruct w as [| | | | | |l|l| |]; try contradiction; cbn [ext map snd count] in *; rewrite S; auto.
Qed.

Lemma rsteps_app n : forall m s, rsteps (n + m) s = match rsteps n s with Some s' => rsteps m s' | None => None end.
Proof. induction n as [|n IH]; intros m s; cbn [rsteps Nat.add]; [reflexivity|]. destruct (rstep s); [apply IH|reflexivity]. Qed.

Definition total (l : list (list Z * bson)) : nat := fold_right (fun kb n => (bweight (snd kb) + n)%nat) O l.

Lemma plain_initial b x : ~ filled b -> means b x -> initial b = x /\ items b = [].
Proof.
  intros N M. destruct M; cbn [initial items]; try (split; reflexivity).
  - destruct l; [inversion H; subst; split; reflexivity|destruct N; exact I].
  - destruct l; [inversion H; subst; split; reflexivity|destruct N; exact I].
Qed.

Lemma flows_steps l r : flows l r -> forall out top stack w, load out top = Some w -> cont w -> under top stack ->
  exists n out' top', (n <= 2 * total l)%nat /\ store out top (ext w r) = Some out'
    /\ rsteps n (out, top, l, stack, false) = Some (out', top', [], stack, false).
Proof.
  assert (Filled : forall k b l0 l r0 r, items b = l0 -> cont (initial b) -> l0 <> [] ->
    (bweight b = S (S (total l0)))%nat ->
    (forall out top stack w, load out top = Some w -> cont w -> under top stack ->
      exists n out' top', (n <= 2 * total l0)%nat /\ store out top (ext w r0) = Some out'
        /\ rsteps n (out, top, l0, stack, false) = Some (out', top', [], stack, false)) ->
    (forall out top stack w, load out top = Some w -> cont w -> under top stack ->
      exists n out' top', (n <= 2 * total l)%nat /\ store out top (ext w r) = Some out'
        /\ rsteps n (out, top, l, stack, false) = Some (out', top', [], stack, false)) ->
    forall out top stack w, load out top = Some w -> cont w -> under top stack ->
      exists n out' top', (n <= 2 * total ((k, b) :: l))%nat
        /\ store out top (ext w [(k, ext (initial b) (r0 ++ r))]) = Some out'
        /\ rsteps n (out, top, (k, b) :: l, stack, false) = Some (out', top', [], stack, false)).
  { intros k b l0 l0' r0 r1 Hi Hc Hn Hw IH0 IH out top stack w L C U.
    destruct (emplace_ok out top w k (initial b) stack L C U) as (out1 & E1 & S1 & L1).
    set (pval := top ++ [count w]) in *.
    assert (Lp : load out1 pval = Some (initial b)).
    { unfold pval. rewrite load_app, L1. apply load_last. exact C. }
    assert (U1 : under pval (mkRframe pval l0' :: stack)).
    { constructor; [exists []; cbn [r_parent]; rewrite app_nil_r; reflexivity|apply under_app; exact U]. }
    destruct (IH0 out1 pval (mkRframe pval l0' :: stack) _ Lp Hc U1) as (n0 & out2 & top2 & Hn0 & S2 & E2).
    destruct (load_store _ _ _ (ext (initial b) r0) Lp) as (out2' & S2' & L2). rewrite S2 in S2'. injection S2' as <-.
    destruct (IH out2 pval stack _ L2 (cont_ext _ _ Hc) (under_app _ _ _ U)) as (n1 & out3 & top3 & Hn1 & S3 & E3).
    exists (1 + n0 + 1 + n1)%nat, out3, top3. split; [|split].
    - unfold total in *. cbn [fold_right snd]. lia.
    - rewrite (store_store _ _ _ _ _ S2), ext_ext in S3. unfold pval in S3.
      rewrite (store_app _ _ _ _ _ _ L1 (store_last w k _ _ C)) in S3.
      rewrite (store_store _ _ _ _ _ S1) in S3. exact S3.
    - rewrite !rsteps_app. cbn [rsteps rstep]. rewrite E1, Hi. destruct l0 as [|x l0]; [contradiction|].
      cbn [rsteps]. rewrite E2. cbn [rsteps rstep r_parent r_iter]. exact E3. }
  induction 1 as [|k b x l r N M _ IH|k l0 l r0 r N _ IH0 _ IH|k l0 l r0 r N _ IH0 _ IH]; intros out top stack w L C U.
  - exists O, out, top. split; [lia|]. split; [|reflexivity]. rewrite ext_nil.
    destruct (load_store _ _ _ w L) as (out' & S & _). rewrite S. f_equal. exact (store_same _ _ _ _ L S).
  - destruct (plain_initial _ _ N M) as [<- Hi].
    destruct (emplace_ok out top w k (initial b) stack L C U) as (out1 & E1 & S1 & L1).
    destruct (IH out1 top stack _ L1 (cont_ext _ _ C) U) as (n & out2 & top2 & Hn & S2 & E2).
    exists (1 + n)%nat, out2, top2. split; [|split].
    + unfold total in *. cbn [fold_right snd]. assert (2 <= bweight b)%nat by (destruct b; cbn; lia). lia.
    + rewrite (store_store _ _ _ _ _ S1), ext_ext in S2. exact S2.
    + rewrite rsteps_app. cbn [rsteps rstep]. rewrite E1, Hi. cbn [rsteps]. exact E2.
  - apply (Filled k (B_array l0) l0 l r0 r eq_refl I N eq_refl IH0 IH out top stack w L C U).
  - apply (Filled k (B_document l0) l0 l r0 r eq_refl I N eq_refl IH0 IH out top stack w L C U).
Qed.

Lemma rsteps_done n out top iter stack : rsteps n (out, top, iter, stack, true) = Some (out, top, iter, stack, true).
Proof. induction n as [|n IH]; [reflexivity|]. cbn [rsteps rstep]. exact IH. Qed.

Lemma fetch_flows l r : flows l r -> fetch l = Some (Doc r).
Proof.
  intros F. destruct (flows_steps l r F (Doc []) [] [] (Doc []) eq_refl I (Forall_nil _)) as (n & out & top & Hn & S & E).
  cbn [store ext app] in S. injection S as <-. unfold fetch.
  replace (2 * bweight (B_document l))%nat with (n + (1 + (2 * bweight (B_document l) - n - 1)))%nat
    by (cbn [bweight]; unfold total in Hn; lia).
  rewrite rsteps_app, E. cbn [rsteps rstep Nat.add]. rewrite rsteps_done. reflexivity.
Qed.

Lemma means_total b : exists x, means b x.
Proof.
  induction b as [b Hb|l IH|l IH] using bson_induct.
  - destruct b; try contradiction; eexists; constructor.
  - assert (C : exists vs, Forall2 (fun kb v => means (snd kb) v) l vs).
    { induction IH as [|kb l (x & Hx) _ (vs & Hv)]; [exists []; constructor|exists (x :: vs); constructor; assumption]. }
    destruct C as (vs & C). exists (Arr vs). constructor. exact C.
  - assert (C : exists vs, Forall2 (fun kb kv => fst kb = fst kv /\ means (snd kb) (snd kv)) l vs).
    { induction IH as [|kb l (x & Hx) _ (vs & Hv)]; [exists []; constructor|exists ((fst kb, x) :: vs); constructor; [split; auto|assumption]]. }
    destruct C as (vs & C). exists (Doc vs). constructor. exact C.
Qed.

Lemma filled_dec b : {filled b} + {~ filled b}.
Proof. destruct b as [| | | | | | |[|]|[|]| | |]; cbn; auto. Qed.

Lemma flows_total b : exists r, flows (items b) r.
Proof.
  assert (L : forall l, Forall (fun kv => exists r, flows (items (snd kv)) r) l -> exists r, flows l r).
  { induction 1 as [|[k c] l (r0 & H0) _ (r & Hr)]; [exists []; constructor|]. cbn [snd] in H0.
    destruct (filled_dec c) as [F|F].
    - destruct c as [| | | | | | |[|x l0]|[|x l0]| | |]; try contradiction; cbn [items] in H0.
      + eexists. apply flows_array; [discriminate|exact H0|exact Hr].
      + eexists. apply flows_document; [discriminate|exact H0|exact Hr].
    - destruct (means_total c) as (x & M). eexists. apply flows_plain; eassumption. }
  induction b as [b Hb|l IH|l IH] using bson_induct; [|apply L; exact IH|apply L; exact IH].
  exists []. destruct b; try contradiction; constructor.
Qed.

Lemma flows_trailing l r : flows l r -> trailing l -> Forall2 (fun kb kv => fst kb = fst kv /\ means (snd kb) (snd kv)) l r.
Proof.
  induction 1 as [|k b x l r N M _ IH|k l0 l r0 r N _ IH0 F IH|k l0 l r0 r N _ IH0 F IH]; intros T; inversion T; subst.
  - constructor.
  - constructor; [split; [reflexivity|exact M]|]. apply IH. constructor.
  - constructor; [split; [reflexivity|exact M]|]. apply IH. assumption.
  - inversion F; subst. constructor; [|constructor]. split; [reflexivity|]. cbn [snd]. rewrite app_nil_r. constructor.
    inversion H0; subst; [|contradiction]. specialize (IH0 H1). clear - IH0.
    induction IH0 as [|kb kv l0 r0 [_ H] _ IH]; cbn [map]; constructor; assumption.
  - destruct l0; [contradiction|]. exfalso. match goal with H : ~ filled _ |- _ => apply H end. exact I.
  - inversion F; subst. constructor; [|constructor]. split; [reflexivity|]. cbn [snd]. rewrite app_nil_r. constructor.
    inversion H0; subst; [|contradiction]. exact (IH0 H1).
  - destruct l0; [contradiction|]. exfalso. match goal with H : ~ filled _ |- _ => apply H end. exact I.
Qed.

Lemma flows_length l r : flows l r -> (length r <= length l)%nat.
Proof. induction 1; cbn [List.length]; lia. Qed.

Lemma flows_shorter l r : flows l r -> forall pre k b x post, l = pre ++ (k, b) :: x :: post -> filled b -> (length r < length l)%nat.
Proof.
  induction 1 as [|k b x l r N M F IH|k l0 l r0 r N _ _ F IH|k l0 l r0 r N _ _ F IH]; intros pre k' b' x' post E Fb.
  - destruct pre; discriminate.
  - destruct pre as [|p pre]; cbn [app] in E; inversion E; subst; [contradiction|].
    cbn [List.length]. pose proof (IH _ _ _ _ _ eq_refl Fb). lia.
  - destruct pre as [|p pre]; cbn [app] in E; inversion E; subst; cbn [List.length]; rewrite ?app_length; cbn [List.length]; lia.
  - destruct pre as [|p pre]; cbn [app] in E; inversion E; subst; cbn [List.length]; rewrite ?app_length; cbn [List.length]; lia.
Qed.
