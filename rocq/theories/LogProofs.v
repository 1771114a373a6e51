(** Proofs about the logger. *)
From Coq Require Import ZArith List Lia Bool ZifyBool.
From Verif Require Import Base BaseLemmas LogModel LogSpec.
Import ListNotations.
Open Scope Z_scope.
Ltac Zify.zify_post_hook ::= Z.div_mod_to_equations.

(** * Text *)

Lemma hexd_range v : 0 <= v < 16 -> 48 <= hexd v <= 57 \/ 65 <= hexd v <= 70.
Proof. unfold hexd. destruct (v <? 10) eqn:E; lia. Qed.

(** The three kinds of replacement. *)
Lemma escape_cases c : byte c ->
  (s_escapes c = [c] /\ (c = 9 \/ 32 <= c) /\ c <> 127)
  \/ (c = 10 /\ s_escapes c = nel_ht)
  \/ (exists q, s_escapes c = 92 :: q /\ q <> [] /\ Forall (fun x => 48 <= x < 127 /\ x <> 92) q /\ c <> 10 /\ c <> 9 /\ (control c \/ 192 <= c)).
Proof.
  unfold byte. intros B. unfold s_escapes.
  assert (F1 : forall x, 48 <= x < 127 /\ x <> 92 -> Forall (fun x => 48 <= x < 127 /\ x <> 92) [x]) by (intros; constructor; auto).
  assert (F3 : Forall (fun x => 48 <= x < 127 /\ x <> 92) [120; hexd (c / 16); hexd (c mod 16)]).
  { pose proof (hexd_range (c / 16) ltac:(lia)). pose proof (hexd_range (c mod 16) ltac:(lia)).
    apply Forall_cons; [lia|]. apply Forall_cons; [lia|]. apply Forall_cons; [lia|]. apply Forall_nil. }
  destruct (Z.eqb_spec c 0) as [->|]; [right; right; eexists; split; [reflexivity|]; split; [discriminate|]; split; [apply F1; lia|]; unfold control; lia|].
  destruct (Z.eqb_spec c 7) as [->|]; [right; right; eexists; split; [reflexivity|]; split; [discriminate|]; split; [apply F1; lia|]; unfold control; lia|].
  destruct (Z.eqb_spec c 8) as [->|]; [right; right; eexists; split; [reflexivity|]; split; [discriminate|]; split; [apply F1; lia|]; unfold control; lia|].
  destruct (Z.eqb_spec c 9) as [->|]; [left; split; [reflexivity|lia]|].
  destruct (Z.eqb_spec c 10) as [->|]; [right; left; split; reflexivity|].
  destruct (Z.eqb_spec c 11) as [->|]; [right; right; eexists; split; [reflexivity|]; split; [discriminate|]; split; [apply F1; lia|]; unfold control; lia|].
  destruct (Z.eqb_spec c 12) as [->|]; [right; right; eexists; split; [reflexivity|]; split; [discriminate|]; split; [apply F1; lia|]; unfold control; lia|].
  destruct (Z.eqb_spec c 13) as [->|]; [right; right; eexists; split; [reflexivity|]; split; [discriminate|]; split; [apply F1; lia|]; unfold control; lia|].
  destruct (Z.ltb_spec c 32).
  { right. right. eexists. split; [reflexivity|]. split; [discriminate|]. split; [exact F3|]. unfold control. lia. }
  destruct (Z.eqb_spec c 127) as [->|].
  { right. right. eexists. split; [reflexivity|]. split; [discriminate|]. split; [exact F3|]. unfold control. lia. }
  destruct ((c =? 192) || (c =? 193) || (245 <=? c)) eqn:E.
  { right. right. eexists. split; [reflexivity|]. split; [discriminate|]. split; [exact F3|]. lia. }
  left. split; [reflexivity|]. lia.
Qed.

Lemma put_byte_plain c : byte c -> put_byte [] c = s_escapes c.
Proof.
  intros B. unfold put_byte. destruct (escape_cases c B) as [(-> & _)|[(-> & _)|(q & -> & Hq & _)]].
  - cbn [hd]. destruct (negb _); reflexivity.
  - reflexivity.
  - cbn [hd]. change (negb (92 =? 92)) with false. cbv iota. destruct q; [congruence|]. cbn [do_color app]. now rewrite app_nil_r.
Qed.

Lemma color_no_lf color code : ~ In 10 code -> ~ In 10 (do_color color code).
Proof. unfold do_color. destruct color; [auto|]. cbn. rewrite in_app_iff. cbn. intuition lia. Qed.

Lemma put_byte_no_lf color c : byte c -> ~ In 10 (put_byte color c).
Proof.
  intros B. unfold put_byte. destruct (escape_cases c B) as [(-> & H & _)|[(-> & _)|(q & -> & Hq & F & _)]].
  - cbn [hd]. assert (~ In 10 [c]) by (cbn; intuition lia). destruct (negb _); auto.
  - cbn. intuition lia.
  - cbn [hd]. change (negb (92 =? 92)) with false. cbv iota. destruct q as [|x q]; [congruence|].
    rewrite !in_app_iff. intros [K|[K|K]].
    + revert K. apply color_no_lf. cbn. intuition lia.
    + rewrite Forall_forall in F. destruct K as [K|K]; [lia|]. apply F in K. lia.
    + revert K. apply color_no_lf. cbn. intuition lia.
Qed.
Lemma put_text_no_lf color t : bytes t -> ~ In 10 (put_text color t).
Proof.
  unfold put_text. intros B K. apply in_flat_map in K as (c & Hc & K). revert K. apply put_byte_no_lf.
  unfold bytes in B. rewrite Forall_forall in B. auto.
Qed.

Lemma digits_no_lf w v : 0 <= v -> ~ In 10 (digits w v).
Proof.
  revert v. induction w as [|w IH]; cbn [digits]; intros v Hv; [auto|]. rewrite in_app_iff. cbn [In].
  intros [K|[K|[]]]; [revert K; apply IH; lia|lia].
Qed.

Lemma ltrim_rev_incl l x : In x (ltrim_rev l) -> In x l.
Proof. induction l as [|c l IH]; cbn; auto. destruct (is_space c); auto. Qed.
Lemma rtrim_incl l x : In x (rtrim l) -> In x l.
Proof. unfold rtrim. rewrite <- in_rev. intros H. apply ltrim_rev_incl in H. now apply in_rev in H. Qed.

(** Decoding. *)
Lemma unhex_hexd v : 0 <= v < 16 -> unhex (hexd v) = v.
Proof. unfold unhex, hexd. intros H. destruct (v <? 10) eqn:E; destruct (_ <? 58) eqn:E2; lia. Qed.

Lemma unescape_plain c l : c <> 27 -> c <> 92 -> unescape (c :: l) = c :: unescape l.
Proof.
  intros A B. cbn [unescape].
  repeat match goal with |- context [match ?x with _ => _ end] => is_var x; destruct x; try reflexivity; try congruence end.
Qed.
Lemma unescape_lf l : unescape (nel_ht ++ l) = 10 :: unescape l.
Proof. reflexivity. Qed.

Lemma unescape_hex c l : byte c -> unescape (bs_x c ++ l) = c :: unescape l.
Proof.
  intros B. unfold bs_x. cbn [app unescape]. unfold byte in B. rewrite !unhex_hexd by lia. f_equal. lia.
Qed.

Lemma unescape_one c l : byte c -> c <> 92 -> unescape (s_escapes c ++ l) = c :: unescape l.
Proof.
  intros B N. unfold s_escapes.
  destruct (Z.eqb_spec c 0) as [->|]; [reflexivity|].
  destruct (Z.eqb_spec c 7) as [->|]; [reflexivity|].
  destruct (Z.eqb_spec c 8) as [->|]; [reflexivity|].
  destruct (Z.eqb_spec c 9) as [->|]; [reflexivity|].
  destruct (Z.eqb_spec c 10) as [->|]; [reflexivity|].
  destruct (Z.eqb_spec c 11) as [->|]; [reflexivity|].
  destruct (Z.eqb_spec c 12) as [->|]; [reflexivity|].
  destruct (Z.eqb_spec c 13) as [->|]; [reflexivity|].
  destruct (Z.ltb_spec c 32); [now apply unescape_hex|].
  destruct (Z.eqb_spec c 127) as [->|]; [reflexivity|].
  destruct ((c =? 192) || (c =? 193) || (245 <=? c)); [now apply unescape_hex|].
  apply unescape_plain; lia.
Qed.

Lemma put_text_plain t : bytes t -> put_text [] t = flat_map s_escapes t.
Proof.
  unfold put_text. intros B. induction B as [|c t Hc B IH]; [reflexivity|]. cbn [flat_map]. now rewrite put_byte_plain, IH.
Qed.

Lemma occ_app c a b : occurrences c (a ++ b) = (occurrences c a + occurrences c b)%nat.
Proof. apply count_occ_app. Qed.

Lemma control_app_inv (l1 l2 a : list Z) c b : l1 ++ l2 = a ++ c :: b ->
  (exists b1, l1 = a ++ c :: b1 /\ b = b1 ++ l2) \/ (exists a2, l2 = a2 ++ c :: b /\ a = l1 ++ a2).
Proof.
  revert l1. induction a as [|x a IH]; intros l1 H.
  - destruct l1 as [|y l1]; cbn in H; [right; exists []; auto|]. injection H as -> <-. left. exists l1. auto.
  - destruct l1 as [|y l1]; cbn in H; [right; exists (x :: a); auto|]. injection H as -> H.
    destruct (IH _ H) as [(b1 & -> & ->)|(a2 & -> & ->)]; [left; exists b1|right; exists a2]; auto.
Qed.

(** * Queue *)

Lemma run_app s e1 e2 : run s (e1 ++ e2) = match run s e1 with Some s1 => run s1 e2 | None => None end.
Proof. revert s. induction e1 as [|e e1 IH]; cbn; intros s; auto. destruct (step s e); auto. Qed.

Definition key (m : msg) : nat * list Z := (m_level m, m_text m).
Definition todo (s : st) : list msg := match writing s with Some w => w_todo w | None => [] end.

(** The moment at which a message was taken off the queue. *)
Definition taken_at (c : list level) (es : list event) (k : kind) (n : nat) (cf : list level) (m : msg) : Prop :=
  exists e1 e2 s1, es = e1 ++ (match k with ByLoop => TakeLoop | BySync => TakeSync end) :: e2
    /\ run (init c) e1 = Some s1 /\ length (queue s1) = n /\ conf s1 = cf /\ In m (queue s1).

Record Inv (c : list level) (es : list event) (s : st) : Prop := {
  i_all : map key (map f_msg (done s) ++ todo s ++ queue s) = enqueues es;
  i_no : map m_no (map f_msg (done s) ++ todo s ++ queue s) = seq 0 (enqueued s);
  i_fate : forall x, In x (done s) -> taken_at c es (f_kind x) (f_batch x) (f_conf x) (f_msg x)
     /\ f_out x = decide (mkW (f_kind x) [] (f_batch x) (f_conf x) 0) (f_msg x);
  i_todo : forall w, writing s = Some w -> forall m, In m (w_todo w) -> taken_at c es (w_kind w) (w_batch w) (w_conf w) m;
  i_seen : forall w, writing s = Some w -> w_seen w = (length (done s) + length (w_todo w))%nat;
  i_sync : forall k, In k (synced s) -> (k <= length (done s))%nat }.

Lemma taken_more c es e k n cf m : taken_at c es k n cf m -> taken_at c (es ++ [e]) k n cf m.
Proof. intros (e1 & e2 & s1 & -> & H). exists e1, (e2 ++ [e]), s1. rewrite <- app_assoc. auto. Qed.

Lemma enqueues_app a b : enqueues (a ++ b) = enqueues a ++ enqueues b.
Proof. induction a as [|[] a IH]; cbn; auto. now rewrite IH. Qed.

Lemma inv_len c es s : Inv c es s -> enqueued s = (length (done s) + length (todo s) + length (queue s))%nat.
Proof.
  intros [_ I2 _ _ _ _]. apply (f_equal (@length nat)) in I2. rewrite seq_length, map_length, !app_length, map_length in I2. lia.
Qed.

Lemma inv_step c es s e s' : run (init c) es = Some s -> Inv c es s -> step s e = Some s' -> Inv c (es ++ [e]) s'.
Proof.
  intros Hr I H. pose proof (inv_len _ _ _ I) as Len. destruct I as [I1 I2 I3 I4 I5 I6]. unfold todo in *.
  destruct e as [l t| | | | |cf]; cbn [step] in H.
  - injection H as <-. split; unfold todo; cbn [enqueue queue writing conf done enqueued synced] in *; auto.
    + rewrite enqueues_app, <- I1, !map_app, <- !app_assoc. reflexivity.
    + rewrite seq_S, <- I2, !map_app, <- !app_assoc. reflexivity.
    + intros x Hx. destruct (I3 x Hx). split; auto. now apply taken_more.
    + intros w Hw m Hm. apply taken_more. eauto.
  - unfold take_loop in H. destruct (writing s) eqn:W; [discriminate|]. destruct (queue s) as [|m q] eqn:Q; [discriminate|]. injection H as <-.
    rewrite <- Q in *. split; unfold todo; cbn [queue writing conf done enqueued synced w_todo] in *; auto.
    + rewrite enqueues_app, app_nil_r. cbn [enqueues]. now rewrite app_nil_r.
    + now rewrite app_nil_r.
    + intros x Hx. destruct (I3 x Hx). split; auto. now apply taken_more.
    + intros w [= <-] y Hy. cbn [w_todo w_kind w_batch w_conf] in *. exists es, [], s. rewrite Q. rewrite Q in Hy. auto 10.
    + intros w [= <-]. cbn [w_seen w_todo]. cbn in Len. lia.
  - unfold take_sync in H. destruct (writing s) eqn:W; [discriminate|]. destruct (queue s) as [|m q] eqn:Q; injection H as <-.
    + split; unfold todo; cbn [queue writing conf done enqueued synced w_todo] in *; auto.
      * rewrite enqueues_app. cbn [enqueues]. rewrite ?app_nil_r in *. assumption.
      * intros x Hx. destruct (I3 x Hx). split; auto. now apply taken_more.
      * discriminate.
      * intros k Hk. apply in_app_iff in Hk as [Hk|[<-|[]]]; auto. cbn in Len. lia.
    + rewrite <- Q in *. split; unfold todo; cbn [queue writing conf done enqueued synced w_todo] in *; auto.
      * rewrite enqueues_app, app_nil_r. cbn [enqueues]. now rewrite app_nil_r.
      * now rewrite app_nil_r.
      * intros x Hx. destruct (I3 x Hx). split; auto. now apply taken_more.
      * intros w [= <-] y Hy. cbn [w_todo w_kind w_batch w_conf] in *. exists es, [], s. rewrite Q. rewrite Q in Hy. auto 10.
      * intros w [= <-]. cbn [w_seen w_todo]. cbn in Len. lia.
  - unfold write_one in H. destruct (writing s) as [w|] eqn:W; [|discriminate]. destruct (w_todo w) as [|m rest] eqn:T; [discriminate|]. injection H as <-.
    split; unfold todo; cbn [queue writing conf done enqueued synced w_todo] in *.
    + rewrite enqueues_app. cbn [enqueues]. rewrite app_nil_r, <- I1, !map_app. cbn [map f_msg]. rewrite <- !app_assoc. reflexivity.
    + rewrite <- I2, !map_app. cbn [map f_msg]. rewrite <- !app_assoc. reflexivity.
    + intros x Hx. apply in_app_iff in Hx as [Hx|[<-|[]]].
      * destruct (I3 x Hx). split; auto. now apply taken_more.
      * cbn [f_kind f_batch f_conf f_msg f_out]. split; [|reflexivity]. apply taken_more. apply (I4 w eq_refl). rewrite T. now left.
    + intros w' [= <-] y Hy. cbn [w_todo w_kind w_batch w_conf] in *. apply taken_more. apply (I4 w eq_refl). rewrite T. now right.
    + intros w' [= <-]. cbn [w_seen w_todo]. rewrite (I5 w eq_refl), T, app_length. cbn. lia.
    + intros k Hk. rewrite app_length. specialize (I6 k Hk). lia.
  - unfold finish in H. destruct (writing s) as [w|] eqn:W; [|discriminate]. destruct (w_todo w) as [|m rest] eqn:T; [|discriminate]. injection H as <-.
    split; unfold todo; cbn [queue writing conf done enqueued synced w_todo] in *; auto.
    + rewrite enqueues_app. cbn [enqueues]. rewrite ?app_nil_r in *. assumption.
    + intros x Hx. destruct (I3 x Hx). split; auto. now apply taken_more.
    + discriminate.
    + discriminate.
    + intros k Hk. pose proof (I5 w eq_refl) as S. rewrite T in S. cbn in S. destruct (w_kind w); auto.
      apply in_app_iff in Hk as [Hk|[<-|[]]]; auto. lia.
  - unfold reload in H. destruct (writing s) eqn:W; [discriminate|]. injection H as <-.
    split; unfold todo; cbn [queue writing conf done enqueued synced w_todo] in *; auto.
    + rewrite enqueues_app. cbn [enqueues]. rewrite ?app_nil_r in *. assumption.
    + intros x Hx. destruct (I3 x Hx). split; auto. now apply taken_more.
    + discriminate.
Qed.

Lemma reach c es s : run (init c) es = Some s -> Inv c es s.
Proof.
  revert s. induction es as [|e es IH] using rev_ind; intros s H.
  - injection H as <-. split; cbn; auto; try contradiction; discriminate.
  - pose proof H as H0. rewrite run_app in H. destruct (run (init c) es) as [s1|] eqn:E1; [|discriminate]. cbn in H.
    destruct (step s1 e) as [s2|] eqn:E2; [|discriminate]. injection H as ->. eapply inv_step; eauto.
Qed.

(** Without a reload, the configuration is the initial one. *)
Lemma conf_fixed c es s : run (init c) es = Some s -> (forall x, ~ In (Reload x) es) -> conf s = c.
Proof.
  revert s. induction es as [|e es IH] using rev_ind; intros s H N.
  - injection H as <-. reflexivity.
  - rewrite run_app in H. destruct (run (init c) es) as [s1|] eqn:E1; [|discriminate]. cbn in H.
    destruct (step s1 e) as [s2|] eqn:E2; [|discriminate]. injection H as ->.
    assert (C : conf s1 = c) by (apply IH; auto; intros x Hx; apply (N x), in_app_iff; auto). rewrite <- C.
    destruct e as [l t| | | | |cf]; cbn [step] in E2.
    + injection E2 as <-. reflexivity.
    + unfold take_loop in E2. destruct (writing s1); [discriminate|]. destruct (queue s1); [discriminate|]. injection E2 as <-. reflexivity.
    + unfold take_sync in E2. destruct (writing s1); [discriminate|]. destruct (queue s1); injection E2 as <-; reflexivity.
    + unfold write_one in E2. destruct (writing s1) as [w|]; [|discriminate]. destruct (w_todo w); [discriminate|]. injection E2 as <-. reflexivity.
    + unfold finish in E2. destruct (writing s1) as [w|]; [|discriminate]. destruct (w_todo w); [|discriminate]. injection E2 as <-. reflexivity.
    + destruct (N cf). apply in_app_iff. right. now left.
Qed.
