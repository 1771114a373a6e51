(** Proofs about splitting and joining text. *)
From Coq Require Import ZArith List Lia Bool ZifyBool ZifyNat Arith.
From Verif Require Import Base BaseLemmas UriSpec UriProofs SplitModel SplitSpec.
Import ListNotations.
Open Scope Z_scope.
Ltac Zify.zify_post_hook ::= Z.div_mod_to_equations.

Definition nb (c : Z) : bool := negb (is_blank c).
Definition none (p : Z -> bool) (s : list Z) : Prop := Forall (fun c => p c = false) s.

Lemma is_blank_spec c : is_blank c = true <-> blank c.
Proof. unfold is_blank, blank. lia. Qed.
Lemma nb_false c : nb c = false <-> blank c.
Proof. unfold nb. rewrite negb_false_iff. apply is_blank_spec. Qed.
Lemma nb_true c : nb c = true <-> ~ blank c.
Proof. rewrite <- nb_false. destruct (nb c); split; congruence. Qed.
Lemma none_blank s : none nb s <-> all_blank s.
Proof. unfold none, all_blank. rewrite !Forall_forall. split; intros H c Hc; specialize (H c Hc); apply nb_false; auto. Qed.

(** ** Searching *)
Lemma find_if_hit p a c b : none p a -> p c = true -> forall base, find_if p (a ++ c :: b) base = base + Z.of_nat (length a).
Proof.
  intros Ha Hc. induction Ha as [|x a Hx Ha IH]; intros base; cbn [app find_if length].
  - rewrite Hc. lia.
  - rewrite Hx, IH. lia.
Qed.

Lemma find_if_none p s : none p s -> forall base, find_if p s base = npos.
Proof. induction 1 as [|x s Hx Hs IH]; intros base; cbn [find_if]; [reflexivity|]. now rewrite Hx. Qed.

Lemma rfind_if_none p s : none p s -> forall base, rfind_if p s base = npos.
Proof. induction 1 as [|x s Hx Hs IH]; intros base; cbn [rfind_if]; [reflexivity|]. rewrite IH, Hx. reflexivity. Qed.

Lemma rfind_if_hit p a : forall c b base, p c = true -> none p b -> 0 <= base -> base + Z.of_nat (length a) < npos ->
  rfind_if p (a ++ c :: b) base = base + Z.of_nat (length a).
Proof.
  induction a as [|x a IH]; intros c b base Hc Hb H0 H1; cbn [app rfind_if length] in *.
  - rewrite rfind_if_none by auto. rewrite Hc. cbn. lia.
  - rewrite IH by (auto; lia). cbv zeta. destruct (_ =? npos) eqn:E; lia.
Qed.

Lemma find_at_app p pre s : find_at p (pre ++ s) (Z.of_nat (length pre)) = 
  match s with [] => npos | _ => find_if p s (Z.of_nat (length pre)) end.
Proof.
  unfold find_at. rewrite Nat2Z.id, skipn_app_len, app_length. destruct s; cbn [length].
  - assert (Z.of_nat (length pre) <? Z.of_nat (length pre + 0) = false) as -> by lia. reflexivity.
  - assert (Z.of_nat (length pre) <? Z.of_nat (length pre + S (length s)) = true) as -> by lia. reflexivity.
Qed.

Lemma find_at_hit p pre a c b : none p a -> p c = true ->
  find_at p (pre ++ a ++ c :: b) (Z.of_nat (length pre)) = Z.of_nat (length pre + length a).
Proof.
  intros Ha Hc. rewrite find_at_app. destruct (a ++ c :: b) eqn:E; [destruct a; discriminate|].
  rewrite <- E, find_if_hit by auto. lia.
Qed.

Lemma find_at_none p pre s : none p s -> find_at p (pre ++ s) (Z.of_nat (length pre)) = npos.
Proof. intros H. rewrite find_at_app. destruct s; [reflexivity|]. now apply find_if_none. Qed.

Lemma rfind_at_prefix p u v to : to + 1 = Z.of_nat (length u) -> rfind_at p (u ++ v) to = rfind_if p u 0.
Proof.
  intros H. unfold rfind_at. rewrite app_length, H.
  replace (Z.to_nat (Z.min (Z.of_nat (length u)) (Z.of_nat (length u + length v)))) with (length u) by lia.
  rewrite firstn_app, Nat.sub_diag, firstn_all. cbn [firstn]. now rewrite app_nil_r.
Qed.

Lemma rfind_at_all p u to : Z.of_nat (length u) <= to + 1 -> rfind_at p u to = rfind_if p u 0.
Proof.
  intros H. unfold rfind_at. replace (Z.to_nat _) with (length u) by lia. now rewrite firstn_all.
Qed.

(** ** Trimming *)
Fixpoint drop_blank (s : list Z) : list Z :=
  match s with [] => [] | c :: r => if nb c then s else drop_blank r end.
Definition rtrim (s : list Z) : list Z := rev (drop_blank (rev s)).
Definition trim (s : list Z) : list Z := rtrim (drop_blank s).
Definition blankb (s : list Z) : bool := forallb is_blank s.

Lemma blankb_spec s : blankb s = true <-> all_blank s.
Proof.
  unfold blankb, all_blank. rewrite forallb_forall, Forall_forall. split; intros H c Hc; apply is_blank_spec; auto.
Qed.

Lemma drop_blank_split s : exists a, s = a ++ drop_blank s /\ all_blank a.
Proof.
  induction s as [|c s (a & E & Ha)]; [exists []; split; [reflexivity|constructor]|]. cbn [drop_blank].
  destruct (nb c) eqn:En; [exists []; split; [reflexivity|constructor]|].
  exists (c :: a). cbn [app]. split; [congruence|]. constructor; [now apply nb_false|exact Ha].
Qed.

Lemma drop_blank_head s c r : drop_blank s = c :: r -> ~ blank c.
Proof.
  induction s as [|x s IH]; cbn [drop_blank]; [discriminate|]. destruct (nb x) eqn:E; [|exact IH].
  intros H. injection H as <- <-. now apply nb_true.
Qed.

Lemma drop_blank_nil s : drop_blank s = [] <-> all_blank s.
Proof.
  split.
  - intros H. destruct (drop_blank_split s) as (a & E & Ha). rewrite H, app_nil_r in E. now subst.
  - induction 1 as [|c s Hc Hs IH]; [reflexivity|]. cbn [drop_blank]. apply nb_false in Hc. now rewrite Hc.
Qed.

Lemma rtrim_split s : exists b, s = rtrim s ++ b /\ all_blank b.
Proof.
  destruct (drop_blank_split (rev s)) as (a & E & Ha). exists (rev a). unfold rtrim. split.
  - rewrite <- rev_app_distr, <- E. now rewrite rev_involutive.
  - now apply Forall_rev.
Qed.

Lemma rtrim_last s c r : rtrim s = r ++ [c] -> ~ blank c.
Proof.
  unfold rtrim. intros H. apply (f_equal (@rev Z)) in H. rewrite rev_involutive, rev_app_distr in H. cbn in H.
  eapply drop_blank_head; eauto.
Qed.

Lemma rtrim_nil s : rtrim s = [] <-> all_blank s.
Proof.
  unfold rtrim. split.
  - intros H. apply (f_equal (@rev Z)) in H. rewrite rev_involutive in H. cbn in H. apply drop_blank_nil in H.
    apply Forall_rev in H. now rewrite rev_involutive in H.
  - intros H. assert (E : drop_blank (rev s) = []) by (apply drop_blank_nil; now apply Forall_rev). now rewrite E.
Qed.

Lemma all_blank_app a b : all_blank (a ++ b) <-> all_blank a /\ all_blank b.
Proof. unfold all_blank. apply Forall_app. Qed.

(** A list is either empty or has a last element. *)
Lemma last_case {A} (l : list A) : l = [] \/ exists r c, l = r ++ [c].
Proof. destruct l as [|c r] using rev_ind; [auto|]. right. eauto. Qed.

Lemma trim_spec s : trims_to s (trim s).
Proof.
  destruct (drop_blank_split s) as (a & Ea & Ha). destruct (rtrim_split (drop_blank s)) as (b & Eb & Hb).
  exists a, b. unfold trim. split; [|split; [|split; [|split]]]; auto.
  - congruence.
  - intros c r E. rewrite E in Eb. apply (drop_blank_head s c (r ++ b)). exact Eb.
  - intros c r E. eapply rtrim_last; eauto.
Qed.

Lemma trims_to_unique s t u : trims_to s t -> trims_to s u -> t = u.
Proof.
  intros (a & b & E & Ha & Hb & F & L) (a' & b' & E' & Ha' & Hb' & F' & L').
  assert (N : forall x y (v w : list Z), all_blank x -> all_blank y -> (forall c r, v = c :: r -> ~ blank c) ->
     (forall c r, w = c :: r -> ~ blank c) -> x ++ v = y ++ w -> v = w \/ v = [] \/ w = []).
  { clear. induction x as [|cx x IH]; intros y v w Hx Hy Fv Fw Exy.
    - destruct y as [|cy y]; [auto|]. cbn [app] in Exy. inversion_clear Hy as [|? ? Hc _]. exfalso. eapply Fv; eauto.
    - destruct y as [|cy y].
      + cbn [app] in Exy. inversion_clear Hx as [|? ? Hc _]. exfalso. eapply Fw; eauto.
      + cbn [app] in Exy. injection Exy as -> Exy. inversion_clear Hx. inversion_clear Hy. eauto. }
  assert (Z0 : all_blank s <-> t = []).
  { split.
    - intros H. rewrite E in H. apply all_blank_app in H. destruct H as [_ H]. apply all_blank_app in H. destruct H as [H _].
      destruct t as [|c r]; [reflexivity|]. inversion_clear H as [|? ? Hc _]. exfalso. eapply F; eauto.
    - intros ->. rewrite E. apply all_blank_app. split; [auto|]. exact Hb. }
  assert (Z1 : all_blank s <-> u = []).
  { split.
    - intros H. rewrite E' in H. apply all_blank_app in H. destruct H as [_ H]. apply all_blank_app in H. destruct H as [H _].
      destruct u as [|c r]; [reflexivity|]. inversion_clear H as [|? ? Hc _]. exfalso. eapply F'; eauto.
    - intros ->. rewrite E'. apply all_blank_app. split; [auto|]. exact Hb'. }
  destruct t as [|ct t]; [symmetry; tauto|]. destruct u as [|cu u]; [tauto|].
  assert (E2 : (ct :: t) ++ b = (cu :: u) ++ b').
  { destruct (N a a' ((ct :: t) ++ b) ((cu :: u) ++ b')) as [H|[H|H]]; auto; try discriminate.
    - intros c r H. cbn in H. injection H as <- _. eapply F; eauto.
    - intros c r H. cbn in H. injection H as <- _. eapply F'; eauto.
    - congruence. }
  destruct (N (rev b) (rev b') (rev (ct :: t)) (rev (cu :: u))) as [H|[H|H]].
  - now apply Forall_rev.
  - now apply Forall_rev.
  - intros c r H. apply (L c (rev r)). apply (f_equal (@rev Z)) in H. now rewrite rev_involutive in H.
  - intros c r H. apply (L' c (rev r)). apply (f_equal (@rev Z)) in H. now rewrite rev_involutive in H.
  - now rewrite <- !rev_app_distr, E2.
  - apply (f_equal (@rev Z)) in H. now rewrite !rev_involutive in H.
  - apply (f_equal (@rev Z)) in H. rewrite rev_involutive in H. discriminate.
  - apply (f_equal (@rev Z)) in H. rewrite rev_involutive in H. discriminate.
Qed.

Lemma trim_iff s t : trim s = t <-> trims_to s t.
Proof. split; [intros <-; apply trim_spec|]. intros H. eapply trims_to_unique; eauto. apply trim_spec. Qed.

(** ** Cutting off one field at a time *)
Fixpoint cut (d : Z) (n : nat) (s : list Z) : list (list Z) :=
  match n with
  | O => [s]
  | S n => match split_first d s with
           | (f, Some r) => f :: cut d n r
           | (f, None) => [f]
           end
  end.

Lemma split_first_some d s f r : split_first d s = (f, Some r) -> s = f ++ d :: r /\ ~ In d f.
Proof.
  revert f. induction s as [|c s IH]; intros f H; [discriminate|]. cbn [split_first] in H.
  destruct (c =? d) eqn:E.
  - injection H as <- <-. assert (c = d) as -> by lia. split; [reflexivity|auto].
  - destruct (split_first d s) as [a b]. injection H as <- ->. destruct (IH a eq_refl) as [-> N].
    split; [reflexivity|]. intros [C|C]; [lia|auto].
Qed.

Lemma split_first_none d s f : split_first d s = (f, None) -> f = s /\ ~ In d s.
Proof.
  revert f. induction s as [|c s IH]; intros f H; [injection H as <-; auto|]. cbn [split_first] in H.
  destruct (c =? d) eqn:E; [discriminate|]. destruct (split_first d s) as [a b]. injection H as <- ->.
  destruct (IH a eq_refl) as [-> N]. split; [reflexivity|]. intros [C|C]; [lia|auto].
Qed.

Lemma split_on_ne d s : split_on d s <> [].
Proof. destruct s; cbn [split_on]; [discriminate|]. destruct (z =? d); [discriminate|]. destruct (split_on d s); discriminate. Qed.

Lemma joined_split d s : joined d (split_on d s) = s.
Proof.
  induction s as [|c s IH]; [reflexivity|]. cbn [split_on]. assert (N := split_on_ne d s). destruct (c =? d) eqn:E.
  - assert (c = d) as -> by lia. cbn [joined]. destruct (split_on d s); [congruence|]. cbn [app]. congruence.
  - destruct (split_on d s) as [|p ps]; [congruence|]. cbn [joined] in *. destruct ps; cbn [app] in *; congruence.
Qed.

Lemma cut_split d n : forall s, cut d n s =
  if (length (split_on d s) <=? S n)%nat then split_on d s
  else firstn n (split_on d s) ++ [joined d (skipn n (split_on d s))].
Proof.
  induction n as [|n IH]; intros s; cbn [cut].
  - assert (N := split_on_ne d s). destruct (length (split_on d s) <=? 1)%nat eqn:E.
    + destruct (split_on d s) as [|p [|q ps]] eqn:Es; [congruence| |cbn in E; discriminate].
      assert (J := joined_split d s). rewrite Es in J. cbn in J. now rewrite J.
    + cbn [firstn skipn app]. now rewrite joined_split.
  - destruct (split_first d s) as [f [r|]] eqn:E.
    + apply split_first_some in E. destruct E as [-> N]. rewrite split_on_app by auto. rewrite IH.
      cbn [length firstn skipn app]. change (S (length (split_on d r)) <=? S (S n))%nat with (length (split_on d r) <=? S n)%nat.
      destruct (length (split_on d r) <=? S n)%nat; reflexivity.
    + apply split_first_none in E. destruct E as [-> N]. rewrite split_on_nosep by auto. reflexivity.
Qed.

Lemma cut_fields d limit s : cut d (Z.to_nat (limit - 1)) s = fields d limit s.
Proof.
  rewrite cut_split. unfold fields.
  assert (E : (length (split_on d s) <=? S (Z.to_nat (limit - 1)))%nat = (Z.of_nat (length (split_on d s)) <=? Z.max 1 limit)) by lia.
  rewrite E. reflexivity.
Qed.

(** ** What [explode] makes of the fields *)
Definition push (x : list Z) (o : option (list (list Z))) : option (list (list Z)) :=
  match o with Some l => Some (x :: l) | None => None end.

Fixpoint outcome (first : bool) (text : list Z) (fs : list (list Z)) : option (list (list Z)) :=
  match fs with
  | [] => Some []
  | f :: rest =>
      match rest with
      | [] => if blankb f then Some [] else Some [trim f]
      | _ => if blankb f
             then match f with
                  | [] => push (if first then rtrim text else []) (outcome false text rest)
                  | _ => None
                  end
             else push (trim f) (outcome false text rest)
      end
  end.

Lemma sub_app pre mid post : sub (pre ++ mid ++ post) (Z.of_nat (length pre)) (Z.of_nat (length mid)) = mid.
Proof.
  unfold sub. rewrite !Nat2Z.id, skipn_app_len, firstn_app, Nat.sub_diag, firstn_all. cbn. apply app_nil_r.
Qed.

(** A text with a non-blank: where its trimmed part lies. *)
Lemma trim_parts s : ~ all_blank s -> exists a b c t l,
  s = a ++ (c :: t) ++ b /\ trim s = c :: t /\ all_blank a /\ all_blank b /\ nb c = true
  /\ c :: t = removelast (c :: t) ++ [l] /\ nb l = true.
Proof.
  intros H. destruct (trim_spec s) as (a & b & E & Ha & Hb & F & L).
  destruct (trim s) as [|c t] eqn:Et.
  - exfalso. apply H. rewrite E. apply all_blank_app. split; [auto|]. exact Hb.
  - assert (Hne : c :: t <> []) by discriminate.
    exists a, b, c, t, (last (c :: t) 0). repeat (split; [solve [auto]|]). split; [|split].
    + apply nb_true. eapply F; eauto.
    + now apply app_removelast_last.
    + apply nb_true. eapply L. now apply app_removelast_last.
Qed.

Lemma push_app segs x o : match push x o with Some l => Some (segs ++ l) | None => None end
  = match o with Some l => Some ((segs ++ [x]) ++ l) | None => None end.
Proof. destruct o; cbn; [|reflexivity]. now rewrite <- app_assoc. Qed.

Definition with_segs (segs : list (list Z)) (o : option (list (list Z))) : option (list (list Z)) :=
  match o with Some l => Some (segs ++ l) | None => None end.

Lemma rfind_trim x c t b : all_blank b -> Z.of_nat (length x + length (c :: t)) < npos ->
  (exists l, c :: t = removelast (c :: t) ++ [l] /\ nb l = true) ->
  rfind_if nb (x ++ (c :: t) ++ b) 0 + 1 = Z.of_nat (length x + length (c :: t)).
Proof.
  intros Hb Hl (l & E & Hn).
  assert (El : length (c :: t) = S (length (removelast (c :: t)))) by (rewrite E at 1; rewrite app_length; cbn; lia).
  replace (x ++ (c :: t) ++ b) with ((x ++ removelast (c :: t)) ++ l :: b).
  2:{ rewrite <- !app_assoc. f_equal. rewrite E at 2. rewrite <- app_assoc. reflexivity. }
  rewrite rfind_if_hit; auto.
  - rewrite app_length. lia.
  - now apply none_blank.
  - lia.
  - rewrite app_length. lia.
Qed.

Lemma none_app p a b : none p (a ++ b) <-> none p a /\ none p b.
Proof. apply Forall_app. Qed.

Lemma notin_none d f : ~ In d f -> none (Z.eqb d) f.
Proof. intros H. apply Forall_forall. intros c Hc. apply Z.eqb_neq. intros ->. auto. Qed.

Lemma explode_run d limit : nb d = true -> forall fuel text pre s segs,
  Z.of_nat (length text) < 2 ^ 63 - 1 ->
  text = pre ++ s -> (pre = [] \/ exists q, pre = q ++ [d]) ->
  (length s + 1 < fuel)%nat ->
  explode_loop fuel text d limit segs (find_at nb text (Z.of_nat (length pre)))
  = with_segs segs (outcome (match pre with [] => true | _ => false end) text
                            (cut d (Z.to_nat (limit - 1 - Z.of_nat (length segs))) s)).
Proof.
  change (2 ^ 63) with 9223372036854775808.
  intros Hd. induction fuel as [|fuel IH]; intros text pre s segs Hl Ht Hpre Hf; [lia|].
  assert (Lt : length text = (length pre + length s)%nat) by (rewrite Ht; apply app_length).
  (* the last field *)
  assert (LastBlank : all_blank s -> explode_loop (S fuel) text d limit segs (find_at nb text (Z.of_nat (length pre))) = Some segs).
  { intros Hb. rewrite Ht at 2. rewrite find_at_none by now apply none_blank. cbn [explode_loop].
    assert (npos <? Z.of_nat (length text) = false) as -> by (unfold npos; lia). reflexivity. }
  assert (LastTrim : forall (H : ~ all_blank s),
     (if Z.of_nat (length segs) + 1 <? limit then ~ In d s else True) ->
     explode_loop (S fuel) text d limit segs (find_at nb text (Z.of_nat (length pre))) = Some (segs ++ [trim s])).
  { intros H Hlim. destruct (trim_parts s H) as (a & b & c & t & l & Es & Et & Ha & Hb & Hc & El & Hn).
    assert (Eb : find_at nb text (Z.of_nat (length pre)) = Z.of_nat (length pre + length a)).
    { rewrite Ht, Es. apply (find_at_hit nb pre a c (t ++ b)); [now apply none_blank|auto]. }
    rewrite Eb. cbn [explode_loop]. cbv zeta.
    assert (Ls : length s = (length a + length (c :: t) + length b)%nat) by (rewrite Es, !app_length; lia).
    assert (LE : Z.of_nat (length pre + length a) <? Z.of_nat (length text) = true) by (cbn [length] in Ls; lia).
    rewrite LE.
    assert (Ee : (if Z.of_nat (length segs) + 1 <? limit
                  then find_at (Z.eqb d) text (Z.of_nat (length pre + length a)) * 2 mod two64 / 2 else npos / 2)
                 = 9223372036854775807).
    { destruct (_ <? limit); [|reflexivity].
      assert (E1 : find_at (Z.eqb d) text (Z.of_nat (length pre + length a)) = npos); [|now rewrite E1].
      replace text with ((pre ++ a) ++ (c :: t) ++ b) by (rewrite Ht, Es, <- app_assoc; reflexivity).
      rewrite <- app_length. apply find_at_none. apply notin_none. intros C. apply Hlim. rewrite Es. apply in_or_app. auto. }
    rewrite Ee. change ((9223372036854775807 - 1) mod two64) with 9223372036854775806.
    change (fun c => negb (is_blank c)) with nb.
    rewrite (rfind_at_all nb text) by lia.
    assert (Er : rfind_if nb text 0 + 1 = Z.of_nat (length pre + length a + length (c :: t))).
    { replace text with ((pre ++ a) ++ (c :: t) ++ b) by (rewrite Ht, Es, <- app_assoc; reflexivity).
      rewrite rfind_trim; eauto.
      - rewrite app_length. reflexivity.
      - rewrite app_length. unfold npos. lia. }
    rewrite Er.
    replace (Z.of_nat (length pre + length a + length (c :: t)) - Z.of_nat (length pre + length a)) with (Z.of_nat (length (c :: t))) by lia.
    rewrite Z.mod_small by (unfold two64; lia).
    assert (rfind_if nb text 0 =? npos = false) as -> by (unfold npos; lia).
    assert (Z.of_nat (length text) - Z.of_nat (length pre + length a) <? Z.of_nat (length (c :: t)) = false) as -> by lia.
    cbn [orb]. rewrite Et.
    assert (find_at nb text (9223372036854775807 + 1) = npos) as ->.
    { unfold find_at. assert (9223372036854775807 + 1 <? Z.of_nat (length text) = false) as -> by lia. reflexivity. }
    assert (sub text (Z.of_nat (length pre + length a)) (Z.of_nat (length (c :: t))) = c :: t) as ->.
    { replace text with ((pre ++ a) ++ (c :: t) ++ b) by (rewrite Ht, Es, <- app_assoc; reflexivity).
      rewrite <- app_length. apply sub_app. }
    destruct fuel as [|fuel']; [lia|]. cbn [explode_loop].
    assert (npos <? Z.of_nat (length text) = false) as -> by (unfold npos; lia). reflexivity. }
  assert (Last : forall r, (if Z.of_nat (length segs) + 1 <? limit then ~ In d s else True) ->
     r = [s] -> explode_loop (S fuel) text d limit segs (find_at nb text (Z.of_nat (length pre)))
     = with_segs segs (outcome (match pre with [] => true | _ => false end) text r)).
  { intros r Hlim ->. cbn [outcome]. destruct (blankb s) eqn:E.
    - apply blankb_spec in E. rewrite LastBlank by auto. cbn. now rewrite app_nil_r.
    - rewrite LastTrim; auto. intros C. apply blankb_spec in C. congruence. }
  destruct (Z.to_nat (limit - 1 - Z.of_nat (length segs))) as [|n] eqn:En.
  { apply Last; [|reflexivity]. assert (Z.of_nat (length segs) + 1 <? limit = false) as -> by lia. exact I. }
  assert (Elim : Z.of_nat (length segs) + 1 <? limit = true) by lia.
  cbn [cut]. destruct (split_first d s) as [f [r|]] eqn:Esf.
  2:{ apply split_first_none in Esf. destruct Esf as [-> N]. apply Last; [|reflexivity]. now rewrite Elim. }
  apply split_first_some in Esf. destruct Esf as [Es N]. clear Last LastBlank LastTrim.
  assert (Ls : length s = (length f + S (length r))%nat) by (rewrite Es, app_length; reflexivity).
  (* the recursion *)
  assert (Rec : forall x, explode_loop fuel text d limit (segs ++ [x]) (find_at nb text (Z.of_nat (length pre + length f) + 1))
     = with_segs (segs ++ [x]) (outcome false text (cut d n r))).
  { intros x. specialize (IH text (pre ++ f ++ [d]) r (segs ++ [x]) Hl).
    assert (En' : Z.to_nat (limit - 1 - Z.of_nat (length (segs ++ [x]))) = n) by (rewrite app_length; cbn [length]; lia).
    rewrite En' in IH.
    assert (Lp : length (pre ++ f ++ [d]) = (length pre + length f + 1)%nat) by (rewrite !app_length; cbn; lia).
    rewrite Lp in IH. replace (Z.of_nat (length pre + length f) + 1) with (Z.of_nat (length pre + length f + 1)) by lia.
    rewrite IH.
    - destruct (pre ++ f ++ [d]) eqn:E; [|reflexivity]. apply (f_equal (@length Z)) in E. rewrite !app_length in E. cbn in E. lia.
    - rewrite Ht, Es, <- !app_assoc. reflexivity.
    - right. exists (pre ++ f). now rewrite <- app_assoc.
    - lia. }
  assert (Hout : forall x o, with_segs segs (push x o) = with_segs (segs ++ [x]) o).
  { intros x [o|]; cbn; [|reflexivity]. now rewrite <- app_assoc. }
  assert (Cne : exists c0 cs, cut d n r = c0 :: cs).
  { destruct n; cbn [cut]; [eauto|]. destruct (split_first d r) as [? [?|]]; eauto. }
  destruct Cne as (c0 & cs & Ecut). rewrite Ecut in *. cbn [outcome].
  assert (Find : forall a, none (Z.eqb d) a -> forall x, text = (pre ++ x) ++ a ++ d :: r ->
     find_at (Z.eqb d) text (Z.of_nat (length pre + length x)) * 2 mod two64 / 2 = Z.of_nat (length pre + length x + length a)).
  { intros a Ha x Ex. rewrite Ex at 1. rewrite <- app_length, find_at_hit by (auto; apply Z.eqb_refl).
    assert (length text = (length pre + length x + length a + S (length r))%nat) by (rewrite Ex, !app_length; cbn; lia).
    rewrite !app_length. rewrite Z.mod_small by (unfold two64; lia). rewrite Z.div_mul by lia. lia. }
  destruct (blankb f) eqn:Bf.
  - apply blankb_spec in Bf.
    assert (Eb : find_at nb text (Z.of_nat (length pre)) = Z.of_nat (length pre + length f)).
    { rewrite Ht, Es. apply find_at_hit; [now apply none_blank|exact Hd]. }
    rewrite Eb. cbn [explode_loop]. cbv zeta. rewrite Elim. change (fun c => negb (is_blank c)) with nb.
    assert (Z.of_nat (length pre + length f) <? Z.of_nat (length text) = true) as -> by lia.
    assert (Ex : text = (pre ++ f) ++ [] ++ d :: r) by (rewrite Ht, Es, <- app_assoc; reflexivity).
    rewrite (Find [] ltac:(constructor) f Ex). cbn [length]. rewrite Nat.add_0_r.
    destruct f as [|cf f'].
    + (* an empty field *)
      cbn [length] in *. rewrite Nat.add_0_r in *. cbn [app] in Es. rewrite app_nil_r in Ex. cbn [app] in Ex.
      destruct Hpre as [->|[q ->]].
      * (* the leading delimiter *)
        cbn [length] in *. change ((Z.of_nat 0 - 1) mod two64) with npos. rewrite (rfind_at_all nb text) by (unfold npos; lia).
        assert (NB : ~ all_blank text).
        { intros C. rewrite Ex in C. cbn [app] in C. inversion_clear C as [|? ? Hc _]. apply nb_true in Hd. auto. }
        destruct (rtrim_split text) as (b & Eb2 & Hb2).
        assert (exists q l, rtrim text = q ++ [l]) as (q & l & Eq).
        { destruct (last_case (rtrim text)) as [E0|E0]; [|exact E0]. exfalso. apply NB. now apply rtrim_nil. }
        assert (Hn : nb l = true) by (apply nb_true; eapply rtrim_last; eauto).
        assert (Lq : length text = (length q + 1 + length b)%nat) by (rewrite Eb2, Eq, !app_length; cbn; lia).
        assert (Er : rfind_if nb text 0 = Z.of_nat (length q)).
        { rewrite Eb2, Eq, <- app_assoc. cbn [app]. rewrite rfind_if_hit; auto; [now apply none_blank|lia|unfold npos; lia]. }
        rewrite Er. change (Z.of_nat 0) with 0. rewrite !Z.sub_0_r.
        rewrite Z.mod_small by (unfold two64; lia).
        assert (Z.of_nat (length q) =? npos = false) as -> by (unfold npos; lia).
        assert (Z.of_nat (length text) <? Z.of_nat (length q) + 1 = false) as -> by lia. cbn [orb].
        specialize (Rec (sub text 0 (Z.of_nat (length q) + 1))). cbn [Nat.add] in Rec. change (Z.of_nat 0) with 0 in Rec. rewrite Rec.
        rewrite Hout. repeat f_equal.
        replace (Z.of_nat (length q) + 1) with (Z.of_nat (length (rtrim text))) by (rewrite Eq, app_length; cbn; lia).
        rewrite Eb2 at 1. apply (sub_app [] (rtrim text) b).
      * assert (Lp : length (q ++ [d]) = S (length q)) by (rewrite app_length; cbn; lia). rewrite Lp in *.
        assert (Er : rfind_at nb text ((Z.of_nat (S (length q)) - 1) mod two64) = Z.of_nat (length q)).
        { rewrite Ex. rewrite rfind_at_prefix.
          - rewrite rfind_if_hit; auto; [constructor|lia|unfold npos; lia].
          - rewrite Lp. rewrite Z.mod_small by (unfold two64; lia). lia. }
        rewrite Er. replace (Z.of_nat (length q) + 1 - Z.of_nat (S (length q))) with 0 by lia.
        change (0 mod two64) with 0.
        assert (Z.of_nat (length q) =? npos = false) as -> by (unfold npos; lia).
        assert (Z.of_nat (length text) - Z.of_nat (S (length q)) <? 0 = false) as -> by lia. cbn [orb].
        change (sub text (Z.of_nat (S (length q))) 0) with (@nil Z). rewrite Rec, Hout.
        destruct (q ++ [d]) eqn:E; [discriminate|]. reflexivity.
    + (* a field of blanks *)
      destruct Hpre as [->|[q ->]].
      * cbn [app length Nat.add] in *.
        assert (Er : rfind_at nb text ((Z.of_nat (S (length f')) - 1) mod two64) = npos).
        { rewrite Ex. change (cf :: f' ++ d :: r) with ((cf :: f') ++ d :: r). rewrite rfind_at_prefix.
          - apply rfind_if_none. now apply none_blank.
          - rewrite Z.mod_small by (unfold two64; lia). cbn [length]. lia. }
        rewrite Er. change (npos =? npos) with true. reflexivity.
      * assert (Lp : length (q ++ [d]) = S (length q)) by (rewrite app_length; cbn; lia). rewrite Lp in *.
        assert (Er : rfind_at nb text ((Z.of_nat (S (length q) + length (cf :: f')) - 1) mod two64) = Z.of_nat (length q)).
        { rewrite Ex. rewrite rfind_at_prefix.
          - rewrite <- app_assoc. cbn [app]. rewrite rfind_if_hit; auto; [now apply none_blank|lia|unfold npos; lia].
          - rewrite app_length, Lp. rewrite Z.mod_small by (unfold two64; lia). lia. }
        rewrite Er. cbn [length] in *.
        assert (Em : (Z.of_nat (length q) + 1 - Z.of_nat (S (length q) + S (length f'))) mod two64 = two64 - Z.of_nat (S (length f'))).
        { replace (Z.of_nat (length q) + 1 - Z.of_nat (S (length q) + S (length f'))) with (two64 - Z.of_nat (S (length f')) + (-1) * two64) by lia.
          rewrite Z.mod_add by (unfold two64; lia). apply Z.mod_small. unfold two64. lia. }
        rewrite Em. replace (Z.of_nat (length text) - Z.of_nat (S (length q) + S (length f')) <? two64 - Z.of_nat (S (length f'))) with true
          by (unfold two64; lia).
        rewrite orb_true_r. reflexivity.
  - assert (NB : ~ all_blank f) by (intros C; apply blankb_spec in C; congruence).
    destruct (trim_parts f NB) as (a & b & c & t & l & Ef & Et & Ha & Hb & Hc & El & Hn).
    assert (Lf : length f = (length a + length (c :: t) + length b)%nat) by (rewrite Ef, !app_length; lia).
    assert (Eb : find_at nb text (Z.of_nat (length pre)) = Z.of_nat (length pre + length a)).
    { rewrite Ht, Es, Ef. rewrite <- !app_assoc. cbn [app]. apply find_at_hit; [now apply none_blank|exact Hc]. }
    rewrite Eb. cbn [explode_loop]. cbv zeta. rewrite Elim. change (fun c => negb (is_blank c)) with nb.
    assert (Z.of_nat (length pre + length a) <? Z.of_nat (length text) = true) as -> by (cbn [length] in Lf; lia).
    assert (Ex : text = (pre ++ a) ++ ((c :: t) ++ b) ++ d :: r) by (rewrite Ht, Es, Ef, <- !app_assoc; reflexivity).
    assert (Nd : none (Z.eqb d) ((c :: t) ++ b)).
    { apply notin_none. intros C. apply N. rewrite Ef. apply in_or_app. auto. }
    rewrite (Find _ Nd a Ex). rewrite app_length.
    replace (length pre + length a + (length (c :: t) + length b))%nat with (length pre + length f)%nat by lia.
    assert (Er : rfind_at nb text ((Z.of_nat (length pre + length f) - 1) mod two64) + 1 = Z.of_nat (length pre + length a + length (c :: t))).
    { replace text with (((pre ++ a) ++ (c :: t) ++ b) ++ d :: r) by (rewrite Ex, <- !app_assoc; reflexivity).
      rewrite rfind_at_prefix.
      - rewrite rfind_trim; eauto; rewrite app_length; [reflexivity|unfold npos; lia].
      - rewrite !app_length. rewrite Z.mod_small by (unfold two64; cbn [length] in *; lia). lia. }
    rewrite Er.
    replace (Z.of_nat (length pre + length a + length (c :: t)) - Z.of_nat (length pre + length a)) with (Z.of_nat (length (c :: t))) by lia.
    rewrite (Z.mod_small (Z.of_nat (length (c :: t)))) by (unfold two64; lia).
    assert (rfind_at nb text ((Z.of_nat (length pre + length f) - 1) mod two64) =? npos = false) as -> by (unfold npos; lia).
    assert (Z.of_nat (length text) - Z.of_nat (length pre + length a) <? Z.of_nat (length (c :: t)) = false) as -> by lia.
    cbn [orb]. rewrite Et, Hout.
    assert (sub text (Z.of_nat (length pre + length a)) (Z.of_nat (length (c :: t))) = c :: t) as ->.
    { rewrite Ex, <- !app_assoc, app_assoc, <- app_length. apply sub_app. }
    apply Rec.
Qed.

Lemma explode_outcome text d limit : ~ blank d -> Z.of_nat (length text) < 2 ^ 63 - 1 ->
  explode text d limit = outcome true text (fields d limit text).
Proof.
  intros Hd Hl. unfold explode. change (fun c => negb (is_blank c)) with nb.
  change 0 with (Z.of_nat (length (@nil Z))).
  rewrite (explode_run d limit) with (s := text); auto.
  - cbn [length]. change (Z.of_nat 0) with 0. rewrite Z.sub_0_r, cut_fields.
    unfold with_segs. destruct (outcome _ _ _); reflexivity.
  - now apply nb_true.
  - cbn [app]. lia.
Qed.

(** ** Consequences *)
Lemma outcome_good text : forall init last first,
  Forall (fun f => f = [] \/ ~ all_blank f) init ->
  (first = true -> forall f rest, init = f :: rest -> f <> []) ->
  outcome first text (init ++ [last]) = Some (map trim init ++ (if blankb last then [] else [trim last])).
Proof.
  induction init as [|f init IH]; intros last first Hi Hf.
  - cbn [app outcome map]. destruct (blankb last); reflexivity.
  - inversion_clear Hi as [|? ? H1 H2]. cbn [app outcome].
    destruct (init ++ [last]) eqn:E; [destruct init; discriminate|]. rewrite <- E.
    rewrite (IH last false H2 ltac:(discriminate)). cbn [map app].
    destruct (blankb f) eqn:B.
    + destruct H1 as [->|H1]; [|exfalso; apply H1; now apply blankb_spec].
      destruct first; [exfalso; eapply Hf; eauto|]. reflexivity.
    + reflexivity.
Qed.

Lemma outcome_bad text : forall init last first f, In f init -> f <> [] -> all_blank f ->
  outcome first text (init ++ [last]) = None.
Proof.
  induction init as [|g init IH]; intros last first f Hin Hne Hb; [destruct Hin|]. cbn [app outcome].
  destruct (init ++ [last]) eqn:E; [destruct init; discriminate|]. rewrite <- E. destruct Hin as [->|Hin].
  - apply blankb_spec in Hb. rewrite Hb. destruct f; [congruence|reflexivity].
  - rewrite (IH last false f) by auto. destruct (blankb g); [destruct g|]; reflexivity.
Qed.

Lemma fields_ne d limit text : fields d limit text <> [].
Proof.
  unfold fields. destruct (_ <=? _); [apply split_on_ne|]. cbv zeta. intros C. apply app_eq_nil in C. destruct C. discriminate.
Qed.

Lemma fields_length d limit text : Z.of_nat (length (fields d limit text)) <= Z.max 1 limit.
Proof.
  unfold fields. destruct (Z.of_nat (length (split_on d text)) <=? Z.max 1 limit) eqn:E; [lia|]. cbv zeta.
  rewrite app_length, firstn_length. cbn [length]. lia.
Qed.

Lemma outcome_length text : forall fs first segs, outcome first text fs = Some segs -> (length segs <= length fs)%nat.
Proof.
  induction fs as [|f fs IH]; intros first segs H; [injection H as <-; cbn; lia|]. cbn [outcome] in H.
  destruct fs as [|f2 fs].
  - destruct (blankb f); injection H as <-; cbn; lia.
  - destruct (blankb f); [destruct f; [|discriminate]|];
      destruct (outcome false text (f2 :: fs)) as [l|] eqn:E; try discriminate; cbn [push] in H; injection H as <-;
      cbn [length]; specialize (IH false l E); cbn [length] in IH; lia.
Qed.

Definition slice (text g : list Z) : Prop := exists a b, text = a ++ g ++ b.

Lemma slice_trim text f : slice text f -> slice text (trim f) /\ trims_to (trim f) (trim f).
Proof.
  intros (a & b & E). destruct (trim_spec f) as (x & y & E2 & Hx & Hy & F & L). split.
  - exists (a ++ x), (y ++ b). rewrite E. rewrite E2 at 1. rewrite <- !app_assoc. reflexivity.
  - exists [], []. cbn [app]. rewrite app_nil_r. split; [reflexivity|]. split; [constructor|]. split; [constructor|]. split; auto.
Qed.

Lemma joined_app_slice d fs gs : fs <> [] -> gs <> [] -> joined d (fs ++ gs) = joined d fs ++ [d] ++ joined d gs.
Proof.
  intros Hf Hg. induction fs as [|f fs IH]; [congruence|]. destruct fs as [|f2 fs].
  - cbn [app joined]. destruct gs; [congruence|reflexivity].
  - change ((f :: f2 :: fs) ++ gs) with (f :: (f2 :: fs) ++ gs).
    change (joined d (f :: (f2 :: fs) ++ gs)) with (f ++ [d] ++ joined d ((f2 :: fs) ++ gs)).
    rewrite IH by discriminate. change (joined d (f :: f2 :: fs)) with (f ++ [d] ++ joined d (f2 :: fs)).
    now rewrite <- !app_assoc.
Qed.

Lemma joined_slice d fs f : In f fs -> slice (joined d fs) f.
Proof.
  induction fs as [|g fs IH]; intros H; [destruct H|]. destruct fs as [|h fs].
  - destruct H as [->|[]]. exists [], []. cbn. now rewrite app_nil_r.
  - change (joined d (g :: h :: fs)) with (g ++ [d] ++ joined d (h :: fs)). destruct H as [->|H].
    + exists [], ([d] ++ joined d (h :: fs)). reflexivity.
    + destruct (IH H) as (a & b & E). exists (g ++ [d] ++ a), b. rewrite E, <- !app_assoc. reflexivity.
Qed.

Lemma fields_joined d limit text : joined d (fields d limit text) = text.
Proof.
  unfold fields. destruct (_ <=? _) eqn:E; [apply joined_split|]. cbv zeta.
  destruct (Z.to_nat (limit - 1)) as [|n] eqn:En.
  - cbn [firstn skipn app joined]. apply joined_split.
  - assert (Hl : (S n < length (split_on d text))%nat) by lia.
    rewrite joined_app_slice; [|destruct (split_on d text); cbn in *; [lia|discriminate]|discriminate].
    cbn [joined]. rewrite <- (joined_split d text) at 3.
    rewrite <- (firstn_skipn (S n) (split_on d text)) at 3. symmetry. apply joined_app_slice.
    + destruct (split_on d text); cbn in *; [lia|discriminate].
    + intros C. apply (f_equal (@length (list Z))) in C. rewrite skipn_length in C. cbn in C. lia.
Qed.

Lemma outcome_slices text d : ~ blank d -> forall fs first segs,
  (forall f, In f fs -> slice text f) ->
  (first = true -> forall rest, fs = [] :: rest -> rest <> [] -> exists t, text = d :: t) ->
  outcome first text fs = Some segs ->
  Forall (fun g => slice text g /\ trims_to g g) segs.
Proof.
  intros Hd. induction fs as [|f fs IH]; intros first segs Hs Hf H; [injection H as <-; constructor|]. cbn [outcome] in H.
  assert (Hsf : slice text f) by (apply Hs; now left).
  destruct fs as [|f2 fs].
  - destruct (blankb f); injection H as <-; [constructor|]. constructor; [|constructor]. now apply slice_trim.
  - assert (IH' := fun l => IH false l (fun g Hg => Hs g (or_intror Hg)) ltac:(discriminate)).
    destruct (blankb f).
    + destruct f; [|discriminate]. destruct (outcome false text (f2 :: fs)) as [l|] eqn:E; [|discriminate].
      cbn [push] in H. injection H as <-. constructor; [|now apply IH'].
      destruct first.
      * destruct (Hf eq_refl (f2 :: fs) eq_refl ltac:(discriminate)) as (t & Et).
        destruct (rtrim_split text) as (b & Eb & Hb). split; [exists [], b; exact Eb|].
        exists [], []. cbn [app]. rewrite app_nil_r. split; [reflexivity|]. split; [constructor|]. split; [constructor|]. split.
        -- intros c r Ec. rewrite Ec in Eb. rewrite Et in Eb. cbn in Eb. injection Eb as <- _. exact Hd.
        -- intros c r Ec. eapply rtrim_last; eauto.
      * split; [exact Hsf|]. apply (proj2 (slice_trim text [] Hsf)).
    + destruct (outcome false text (f2 :: fs)) as [l|] eqn:E; [|discriminate].
      cbn [push] in H. injection H as <-. constructor; [|now apply IH']. now apply slice_trim.
Qed.

Lemma explode_slices text d limit segs : ~ blank d -> Z.of_nat (length text) < 2 ^ 63 - 1 ->
  explode text d limit = Some segs ->
  Z.of_nat (length segs) <= Z.max 1 limit /\ Forall (fun g => slice text g /\ trims_to g g) segs.
Proof.
  intros Hd Hl H. rewrite explode_outcome in H by auto. split.
  - apply outcome_length in H. assert (F := fields_length d limit text). lia.
  - eapply (outcome_slices text d); eauto.
    + intros f Hf. rewrite <- (fields_joined d limit text). now apply joined_slice.
    + intros _ rest E Hr. assert (J := fields_joined d limit text). rewrite E in J. cbn [joined] in J.
      destruct rest; [congruence|]. cbn [app] in J. eauto.
Qed.

Lemma split_joined d segs : segs <> [] -> Forall (fun p => ~ In d p) segs -> split_on d (joined d segs) = segs.
Proof.
  intros Hne H. induction H as [|p ps Hp Hps IH]; [congruence|]. destruct ps as [|q ps].
  - cbn [joined]. now apply split_on_nosep.
  - change (joined d (p :: q :: ps)) with (p ++ d :: joined d (q :: ps)). rewrite split_on_app by auto.
    rewrite IH; [reflexivity|discriminate].
Qed.

Lemma implode_joined segs d : implode segs d = joined d segs.
Proof.
  destruct segs as [|s segs]; [reflexivity|]. unfold implode. revert s.
  induction segs as [|s2 segs IH]; intros s; [reflexivity|]. cbn [fold_left]. rewrite IH.
  change (joined d (s :: s2 :: segs)) with (s ++ [d] ++ joined d (s2 :: segs)).
  destruct segs as [|s3 segs].
  - cbn [joined]. now rewrite <- app_assoc.
  - change (joined d (((s ++ [d]) ++ s2) :: s3 :: segs)) with (((s ++ [d]) ++ s2) ++ [d] ++ joined d (s3 :: segs)).
    change (joined d (s2 :: s3 :: segs)) with (s2 ++ [d] ++ joined d (s3 :: segs)). now rewrite <- !app_assoc.
Qed.

Lemma trims_self_nonblank g : trims_to g g -> all_blank g -> g = [].
Proof.
  intros (a & b & E & Ha & Hb & F & L) H. destruct g as [|c r]; [reflexivity|].
  inversion_clear H as [|? ? Hc _]. exfalso. eapply F; eauto.
Qed.

Lemma explode_implode segs d limit : ~ blank d ->
  Z.of_nat (length (implode segs d)) < 2 ^ 63 - 1 ->
  Z.of_nat (length segs) <= limit ->
  Forall (fun g => ~ In d g /\ trims_to g g) segs ->
  (forall g rest, segs = g :: rest -> g <> []) ->
  (forall g rest, segs = rest ++ [g] -> g <> []) ->
  explode (implode segs d) d limit = Some segs.
Proof.
  intros Hd Hl Hlim Hs Hfirst Hlast. rewrite explode_outcome by auto. rewrite implode_joined.
  destruct (last_case segs) as [->|(init & last & ->)].
  { unfold fields. cbn [joined split_on length]. assert (Z.of_nat 1 <=? Z.max 1 limit = true) as -> by lia. reflexivity. }
  assert (Hnd : Forall (fun p => ~ In d p) (init ++ [last])) by (eapply Forall_impl; [|exact Hs]; cbv beta; tauto).
  unfold fields. rewrite split_joined; auto; [|destruct init; discriminate].
  assert (Z.of_nat (length (init ++ [last])) <=? Z.max 1 limit = true) as -> by lia.
  assert (Ht : Forall (fun g => trims_to g g) (init ++ [last])) by (eapply Forall_impl; [|exact Hs]; cbv beta; tauto).
  apply Forall_app in Ht. destruct Ht as [Hi Hla]. inversion_clear Hla as [|? ? Hla' _].
  rewrite outcome_good.
  - f_equal. assert (Em : forall l, Forall (fun g => trims_to g g) l -> map trim l = l).
    { clear. induction 1 as [|g l Hg Hl IH]; [reflexivity|]. cbn [map]. rewrite IH. f_equal. now apply trim_iff. }
    rewrite Em by auto. destruct (blankb last) eqn:B.
    + exfalso. apply blankb_spec in B. apply (Hlast last init eq_refl). now apply trims_self_nonblank.
    + do 2 f_equal. now apply trim_iff.
  - eapply Forall_impl; [|exact Hi]. intros g Hg. cbv beta in Hg. destruct g as [|c r]; [auto|]. right. intros C.
    apply trims_self_nonblank in C; [discriminate|exact Hg].
  - intros _ f rest E. apply (Hfirst f (rest ++ [last])). now rewrite E.
Qed.

(** ** Blank delimiters *)
Lemma find_nb_blank text pre c s : text = pre ++ c :: s -> nb c = false ->
  find_at nb text (Z.of_nat (length pre)) = find_at nb text (Z.of_nat (length (pre ++ [c]))).
Proof.
  intros -> Hc. rewrite find_at_app. replace (pre ++ c :: s) with ((pre ++ [c]) ++ s) by (rewrite <- app_assoc; reflexivity).
  rewrite find_at_app. cbn [find_if]. rewrite Hc. rewrite app_length. cbn [length].
  replace (Z.of_nat (length pre + 1)) with (Z.of_nat (length pre) + 1) by lia. destruct s; reflexivity.
Qed.

Definition nonblank (f : list Z) : bool := negb (blankb f).

Lemma nonblank_true f : nonblank f = true <-> ~ all_blank f.
Proof. unfold nonblank. rewrite <- blankb_spec. destruct (blankb f); cbn; split; congruence. Qed.

Lemma explode_run_blank d limit : nb d = false -> forall fuel text pre s segs,
  Z.of_nat (length text) < 2 ^ 63 - 1 ->
  text = pre ++ s -> (length s + 1 < fuel)%nat ->
  Z.of_nat (length segs) + Z.of_nat (length s) < limit ->
  explode_loop fuel text d limit segs (find_at nb text (Z.of_nat (length pre)))
  = Some (segs ++ map trim (filter nonblank (split_on d s))).
Proof.
  change (2 ^ 63) with 9223372036854775808.
  intros Hd fuel text pre s. revert fuel pre. remember (length s) as N eqn:EN. revert s EN.
  induction N as [N IH] using lt_wf_ind. intros s -> fuel pre segs Hl Ht Hf Hlim.
  assert (Lt : length text = (length pre + length s)%nat) by (rewrite Ht; apply app_length).
  destruct (split_first d s) as [f [r|]] eqn:Esf.
  - apply split_first_some in Esf. destruct Esf as [Es N].
    assert (Ls : length s = (length f + S (length r))%nat) by (rewrite Es, app_length; reflexivity).
    rewrite Es, split_on_app by auto. cbn [filter].
    assert (Lp : length (pre ++ f ++ [d]) = (length pre + length f + 1)%nat) by (rewrite !app_length; cbn; lia).
    assert (Ht' : text = (pre ++ f ++ [d]) ++ r) by (rewrite Ht, Es, <- !app_assoc; reflexivity).
    destruct (nonblank f) eqn:B.
    + apply nonblank_true in B. destruct (trim_parts f B) as (a & b & c & t & l & Ef & Et & Ha & Hb & Hc & El & Hn).
      assert (Lf : length f = (length a + length (c :: t) + length b)%nat) by (rewrite Ef, !app_length; lia).
      destruct fuel as [|fuel]; [lia|].
      assert (Eb : find_at nb text (Z.of_nat (length pre)) = Z.of_nat (length pre + length a)).
      { rewrite Ht, Es, Ef. rewrite <- !app_assoc. cbn [app]. apply find_at_hit; [now apply none_blank|exact Hc]. }
      rewrite Eb. cbn [explode_loop]. cbv zeta.
      assert (Z.of_nat (length segs) + 1 <? limit = true) as -> by lia. change (fun c => negb (is_blank c)) with nb.
      assert (Z.of_nat (length pre + length a) <? Z.of_nat (length text) = true) as -> by (cbn [length] in Lf; lia).
      assert (Ex : text = (pre ++ a) ++ ((c :: t) ++ b) ++ d :: r) by (rewrite Ht, Es, Ef, <- !app_assoc; reflexivity).
      assert (Nd : none (Z.eqb d) ((c :: t) ++ b)).
      { apply notin_none. intros C. apply N. rewrite Ef. apply in_or_app. auto. }
      assert (Fe : find_at (Z.eqb d) text (Z.of_nat (length pre + length a)) * 2 mod two64 / 2 = Z.of_nat (length pre + length f)).
      { rewrite Ex at 1. rewrite <- app_length, find_at_hit by (auto; apply Z.eqb_refl).
        rewrite !app_length. rewrite Z.mod_small by (unfold two64; cbn [length] in *; lia). rewrite Z.div_mul by lia. lia. }
      rewrite Fe.
      assert (Er : rfind_at nb text ((Z.of_nat (length pre + length f) - 1) mod two64) + 1 = Z.of_nat (length pre + length a + length (c :: t))).
      { replace text with (((pre ++ a) ++ (c :: t) ++ b) ++ d :: r) by (rewrite Ex, <- !app_assoc; reflexivity).
        rewrite rfind_at_prefix.
        - rewrite rfind_trim; eauto; rewrite app_length; [reflexivity|unfold npos; lia].
        - rewrite !app_length. rewrite Z.mod_small by (unfold two64; cbn [length] in *; lia). lia. }
      rewrite Er.
      replace (Z.of_nat (length pre + length a + length (c :: t)) - Z.of_nat (length pre + length a)) with (Z.of_nat (length (c :: t))) by lia.
      rewrite (Z.mod_small (Z.of_nat (length (c :: t)))) by (unfold two64; lia).
      assert (rfind_at nb text ((Z.of_nat (length pre + length f) - 1) mod two64) =? npos = false) as -> by (unfold npos; lia).
      assert (Z.of_nat (length text) - Z.of_nat (length pre + length a) <? Z.of_nat (length (c :: t)) = false) as -> by lia.
      cbn [orb map].
      assert (sub text (Z.of_nat (length pre + length a)) (Z.of_nat (length (c :: t))) = c :: t) as ->.
      { rewrite Ex, <- !app_assoc, app_assoc, <- app_length. apply sub_app. }
      replace (Z.of_nat (length pre + length f) + 1) with (Z.of_nat (length (pre ++ f ++ [d]))) by lia.
      rewrite (IH (length r)) with (s := r); auto; try lia.
      * rewrite Et. now rewrite <- app_assoc.
      * rewrite app_length. cbn [length] in *. lia.
    + assert (Bb : all_blank f) by (apply blankb_spec; unfold nonblank in B; now apply negb_false_iff in B).
      assert (Sk : forall g p q, text = p ++ g ++ q -> all_blank g -> find_at nb text (Z.of_nat (length p)) = find_at nb text (Z.of_nat (length (p ++ g)))).
      { clear. induction g as [|c g IHg]; intros p q E Hg; [now rewrite app_nil_r|]. inversion_clear Hg as [|? ? Hc Hg'].
        rewrite (find_nb_blank text p c (g ++ q)) by (auto; now apply nb_false).
        replace (p ++ c :: g) with ((p ++ [c]) ++ g) by (rewrite <- app_assoc; reflexivity).
        apply (IHg (p ++ [c]) q); [rewrite E, <- app_assoc; reflexivity|auto]. }
      rewrite (Sk (f ++ [d]) pre r); [|rewrite Ht, Es, <- !app_assoc; reflexivity|apply all_blank_app; split; [auto|constructor; [now apply nb_false|constructor]]].
      apply (IH (length r)); auto; lia.
  - apply split_first_none in Esf. destruct Esf as [-> N]. rewrite split_on_nosep by auto. cbn [filter].
    destruct fuel as [|fuel]; [lia|].
    destruct (nonblank s) eqn:B.
    + apply nonblank_true in B. destruct (trim_parts s B) as (a & b & c & t & l & Es & Et & Ha & Hb & Hc & El & Hn).
      assert (Eb : find_at nb text (Z.of_nat (length pre)) = Z.of_nat (length pre + length a)).
      { rewrite Ht, Es. apply (find_at_hit nb pre a c (t ++ b)); [now apply none_blank|auto]. }
      rewrite Eb. cbn [explode_loop]. cbv zeta.
      assert (Ls : length s = (length a + length (c :: t) + length b)%nat) by (rewrite Es, !app_length; lia).
      assert (Z.of_nat (length pre + length a) <? Z.of_nat (length text) = true) as -> by (cbn [length] in Ls; lia).
      assert (Ee : (if Z.of_nat (length segs) + 1 <? limit
                    then find_at (Z.eqb d) text (Z.of_nat (length pre + length a)) * 2 mod two64 / 2 else npos / 2)
                   = 9223372036854775807).
      { destruct (_ <? limit); [|reflexivity].
        assert (E1 : find_at (Z.eqb d) text (Z.of_nat (length pre + length a)) = npos); [|now rewrite E1].
        replace text with ((pre ++ a) ++ (c :: t) ++ b) by (rewrite Ht, Es, <- app_assoc; reflexivity).
        rewrite <- app_length. apply find_at_none. apply notin_none. intros C. apply N. rewrite Es. apply in_or_app. auto. }
      rewrite Ee. change ((9223372036854775807 - 1) mod two64) with 9223372036854775806.
      change (fun c => negb (is_blank c)) with nb.
      rewrite (rfind_at_all nb text) by lia.
      assert (Er : rfind_if nb text 0 + 1 = Z.of_nat (length pre + length a + length (c :: t))).
      { replace text with ((pre ++ a) ++ (c :: t) ++ b) by (rewrite Ht, Es, <- app_assoc; reflexivity).
        rewrite rfind_trim; eauto.
        - rewrite app_length. reflexivity.
        - rewrite app_length. unfold npos. lia. }
      rewrite Er.
      replace (Z.of_nat (length pre + length a + length (c :: t)) - Z.of_nat (length pre + length a)) with (Z.of_nat (length (c :: t))) by lia.
      rewrite Z.mod_small by (unfold two64; lia).
      assert (rfind_if nb text 0 =? npos = false) as -> by (unfold npos; lia).
      assert (Z.of_nat (length text) - Z.of_nat (length pre + length a) <? Z.of_nat (length (c :: t)) = false) as -> by lia.
      cbn [orb map]. rewrite Et.
      assert (find_at nb text (9223372036854775807 + 1) = npos) as ->.
      { unfold find_at. assert (9223372036854775807 + 1 <? Z.of_nat (length text) = false) as -> by lia. reflexivity. }
      assert (sub text (Z.of_nat (length pre + length a)) (Z.of_nat (length (c :: t))) = c :: t) as ->.
      { replace text with ((pre ++ a) ++ (c :: t) ++ b) by (rewrite Ht, Es, <- app_assoc; reflexivity).
        rewrite <- app_length. apply sub_app. }
      destruct fuel as [|fuel']; [lia|]. cbn [explode_loop].
      assert (npos <? Z.of_nat (length text) = false) as -> by (unfold npos; lia). reflexivity.
    + assert (Bb : all_blank s) by (apply blankb_spec; unfold nonblank in B; now apply negb_false_iff in B).
      rewrite Ht at 2. rewrite find_at_none by now apply none_blank. cbn [explode_loop map].
      assert (npos <? Z.of_nat (length text) = false) as -> by (unfold npos; lia). now rewrite app_nil_r.
Qed.
