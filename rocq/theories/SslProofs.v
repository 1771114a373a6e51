(** Proofs about TLS sockets. *)
From Coq Require Import ZArith List Lia Bool.
From Verif Require Import TcpModel SslModel SslSpec.
Import ListNotations.

Lemma prefix_refl : forall a, prefix a a.
Proof. intro a. exists []. now rewrite app_nil_r. Qed.
Lemma prefix_app : forall a b c, prefix a b -> prefix a (b ++ c).
Proof. intros a b c [d ->]. exists (d ++ c). now rewrite app_assoc. Qed.

(** * Repeated writes *)
Fixpoint rule (p : option (list Z)) (t : list item) : Prop :=
  match t with
  | [] => True
  | Write b o :: t =>
      b <> [] /\ match p with Some b1 => prefix b1 b | None => True end
      /\ rule (match o with Again => Some b | _ => None end) t
  | _ :: t => rule p t
  end.
Fixpoint pend (p : option (list Z)) (t : list item) : option (list Z) :=
  match t with
  | [] => p
  | Write b o :: t => pend (match o with Again => Some b | _ => None end) t
  | _ :: t => pend p t
  end.

Lemma rule_app : forall t1 t2 p, rule p (t1 ++ t2) <-> rule p t1 /\ rule (pend p t1) t2.
Proof.
  induction t1 as [|i t1 IH]; intros t2 p; cbn [app rule pend]; [tauto|].
  destruct i; rewrite ?IH; tauto.
Qed.
Lemma pend_app : forall t1 t2 p, pend p (t1 ++ t2) = pend (pend p t1) t2.
Proof. induction t1 as [|i t1 IH]; intros t2 p; cbn [app pend]; [auto|]. destruct i; apply IH. Qed.

Lemma pend_skip : forall m p, existsb is_write m = false -> pend p m = p.
Proof.
  induction m as [|i m IH]; intros p H; cbn [existsb pend] in *; [auto|].
  apply orb_false_iff in H as [A B]. destruct i; cbn in A; [discriminate|..]; auto.
Qed.

Lemma rule_spec : forall t a b1 m b2 o c p, rule p t -> t = a ++ Write b1 Again :: m ++ Write b2 o :: c ->
  existsb is_write m = false -> prefix b1 b2.
Proof.
  intros t a b1 m b2 o c p R -> N. apply rule_app in R as [_ R]. cbn [rule] in R. destruct R as (_ & _ & R).
  apply rule_app in R as [_ R]. rewrite (pend_skip _ _ N) in R. cbn [rule] in R. tauto.
Qed.
Lemma rule_nonempty : forall t p b o, rule p t -> In (Write b o) t -> b <> [].
Proof.
  intros t p b o R I. apply in_split in I as (a & c & ->). apply rule_app in R as [_ R]. cbn [rule] in R. tauto.
Qed.
Lemma pend_spec : forall t a b c, t = a ++ Write b Again :: c -> existsb is_write c = false -> pend None t = Some b.
Proof. intros t a b c -> N. rewrite pend_app. cbn [pend]. now rewrite pend_skip. Qed.

(** * The loops *)
Lemma taken_app : forall a b, taken (a ++ b) = taken a ++ taken b.
Proof. intros. unfold taken. apply flat_map_app. Qed.
Lemma offered_app : forall a b, offered (a ++ b) = offered a ++ offered b.
Proof. intros. unfold offered. apply flat_map_app. Qed.
Lemma accepted_app : forall a b, accepted (a ++ b) = accepted a ++ accepted b.
Proof. intros. unfold accepted. apply flat_map_app. Qed.

Definition only_writes (l : list item) : Prop := forall i, In i l -> is_write i = true.

Lemma only_writes_facts : forall l, only_writes l -> offered l = [] /\ accepted l = [] /\ ~ In Notify l.
Proof.
  induction l as [|i l IH]; intro H; [repeat split; auto|].
  destruct (IH (fun x I => H x (or_intror I))) as (A & B & C). pose proof (H i (or_introl eq_refl)) as W.
  destruct i; try discriminate. repeat split; try assumption. intros [D|D]; [discriminate|auto].
Qed.

Record loop_facts (w rest : list Z) (l : list item) (o : outcome) : Prop := {
  f_writes : only_writes l;
  f_taken : taken l ++ rest = w;
  f_fatal : existsb fatal l = match o with Failed => true | _ => false end;
  f_rule : forall p, (match p with Some b => prefix b w | None => True end) -> rule p l;
  f_pend : forall p, pend p l = match o with Blocked => Some rest | Failed => None | Drained => match w with [] => p | _ => None end end;
  f_rest : match o with Drained => rest = [] | _ => rest <> [] end;
  f_first : w <> [] -> exists o1 l1, l = Write w o1 :: l1 }.

Lemma loop_ok : forall outs w rest l o, loop outs w = Some (rest, l, o) -> loop_facts w rest l o.
Proof.
  induction outs as [|x outs IH]; intros w rest l o H; cbn [loop] in H.
  - destruct w; [|discriminate]. injection H as <- <- <-. constructor; cbn; auto; try tauto. intros i [].
  - destruct w as [|b w]; [discriminate|]. set (w0 := b :: w) in *.
    assert (N : w0 <> []) by discriminate. destruct x as [n| |].
    + destruct (n <=? length w0)%nat eqn:L; [|discriminate].
      destruct (loop outs (skipn n w0)) as [[[r l1] o1]|] eqn:E; [|discriminate]. injection H as <- <- <-.
      destruct (IH _ _ _ _ E) as [F1 F2 F3 F4 F5 F6 F7]. constructor.
      * intros i [<-|I]; [reflexivity|auto].
      * unfold taken in *. cbn [flat_map]. rewrite <- app_assoc, F2. apply firstn_skipn.
      * cbn [existsb fatal orb]. exact F3.
      * intros p P. cbn [rule]. repeat split; auto.
      * intros p. cbn [pend]. rewrite F5. destruct o1; auto. destruct (skipn n w0); auto.
      * exact F6.
      * intros _. eauto.
    + destruct outs; [|discriminate]. injection H as <- <- <-. constructor.
      * intros i [<-|[]]. reflexivity.
      * reflexivity.
      * reflexivity.
      * intros p P. cbn [rule]. repeat split; auto.
      * reflexivity.
      * exact N.
      * intros _. eauto.
    + destruct outs; [|discriminate]. injection H as <- <- <-. constructor.
      * intros i [<-|[]]. reflexivity.
      * reflexivity.
      * reflexivity.
      * intros p P. cbn [rule]. repeat split; auto.
      * reflexivity.
      * exact N.
      * intros _. eauto.
Qed.

Lemma loop_down : forall outs w rest l o, loop outs w = Some (rest, l, o) -> possible true outs = true -> taken l = [].
Proof.
  intros outs w rest l o H P. destruct outs as [|[n| |] [|]]; try discriminate; cbn [loop] in H; destruct w; try discriminate; injection H as <- <- <-; reflexivity.
Qed.

(** * What holds in every state *)
Record Inv (s : st) : Prop := {
  i_rule : rule None (trace s);
  i_pend : match pend None (trace s) with Some b => b <> [] /\ prefix b (wq s) | None => True end;
  i_prefix : prefix (taken (trace s)) (offered (trace s));
  i_all : existsb fatal (trace s) = false -> taken (trace s) ++ wq s = offered (trace s) /\ accepted (trace s) = offered (trace s);
  i_fatal : existsb fatal (trace s) = true -> down s = true /\ state s = Closed;
  i_notify : In Notify (trace s) -> down s = true;
  i_last : forall a b, trace s = a ++ Notify :: b -> taken b = [] /\ (existsb fatal a = false -> taken a = accepted a) }.

Lemma inv_init : Inv init.
Proof.
  constructor; cbn; auto; try tauto; try discriminate.
  - exists []. reflexivity.
  - intros a b H. destruct a; discriminate.
Qed.

(** Steps that make no call of the library and return from no call. *)
Lemma inv_same : forall s s', Inv s -> trace s' = trace s -> wq s' = wq s ->
  (down s = true -> down s' = true) -> (state s = Closed -> state s' = Closed) -> Inv s'.
Proof.
  intros s s' [A B C D E F G] T W X Y. constructor; rewrite ?T, ?W; auto.
  - intro H. destruct (E H). auto.
Qed.

Lemma split_notify : forall (t l a b : list item), t ++ l = a ++ Notify :: b ->
  (exists b0, t = a ++ Notify :: b0 /\ b = b0 ++ l) \/ (exists x, a = t ++ x /\ l = x ++ Notify :: b).
Proof.
  induction t as [|i t IH]; intros l a b H.
  - right. exists a. auto.
  - destruct a as [|j a]; cbn [app] in H; injection H as <- H.
    + left. exists t. split; [reflexivity|auto].
    + destruct (IH _ _ _ H) as [(b0 & -> & ->)|(x & -> & ->)]; [left|right]; eexists; split; cbn; reflexivity.
Qed.

Lemma last_step : forall s l, Inv s -> (down s = true -> taken l = []) -> ~ In Notify l ->
  forall a b, trace s ++ l = a ++ Notify :: b -> taken b = [] /\ (existsb fatal a = false -> taken a = accepted a).
Proof.
  intros s l I T N a b H. apply split_notify in H as [(b0 & E & ->)|(x & -> & ->)].
  - destruct (i_last _ I _ _ E) as [A B]. split; [|exact B]. rewrite taken_app, A, T; [reflexivity|].
    apply (i_notify _ I). rewrite E. apply in_app_iff. right. now left.
  - exfalso. apply N. apply in_app_iff. right. now left.
Qed.

Lemma last_notify : forall s x, Inv s -> (down s = true -> taken x = []) -> ~ In Notify x ->
  (existsb fatal (trace s ++ x) = false -> taken (trace s ++ x) = accepted (trace s ++ x)) ->
  forall a b, trace s ++ x ++ [Notify] = a ++ Notify :: b -> taken b = [] /\ (existsb fatal a = false -> taken a = accepted a).
Proof.
  intros s x I T N F a b H. rewrite app_assoc in H. apply split_notify in H as [(b0 & E & ->)|(y & -> & E)].
  - destruct (last_step s x I T N _ _ E) as [A B]. split; [|exact B]. rewrite taken_app, A. reflexivity.
  - destruct y as [|z y]; cbn [app] in E; injection E.
    + intros <-. rewrite app_nil_r. split; [reflexivity|exact F].
    + intros E1 _. destruct y; discriminate.
Qed.

Ltac notin := let H := fresh in intro H; repeat (apply in_app_iff in H as [H|H]); cbn [In] in H;
  repeat match goal with H : _ \/ _ |- _ => destruct H end; try discriminate; try contradiction; auto.

Lemma prefix_grow : forall a b c, prefix a b -> prefix a (b ++ c).
Proof. exact prefix_app. Qed.

Lemma fatal_app : forall a b, existsb fatal (a ++ b) = existsb fatal a || existsb fatal b.
Proof. intros. apply existsb_app. Qed.

(** A call of [ssl_send] that writes. *)
Lemma inv_direct : forall s d outs rest l o s', Inv s -> wq s = [] -> state s = Established ->
  possible (down s) outs = true -> loop outs d = Some (rest, l, o) ->
  trace s' = trace s ++ l ++ [Ret d (match o with Failed => false | _ => true end)] ->
  wq s' = match o with Blocked => rest | _ => [] end ->
  (match o with Failed => down s' = true /\ state s' = Closed | _ => down s' = down s /\ state s' = state s end) -> Inv s'.
Proof.
  intros s d outs rest l o s' I Q S P L T W X.
  pose proof (loop_ok _ _ _ _ _ L) as [F1 F2 F3 F4 F5 F6 F7]. pose proof (loop_down _ _ _ _ _ L) as LD.
  destruct (only_writes_facts _ F1) as (O1 & O2 & O3).
  assert (NP : pend None (trace s) = None).
  { pose proof (i_pend _ I) as A. destruct (pend None (trace s)) as [b|]; [|reflexivity]. rewrite Q in A.
    destruct A as [A [c E]]. destruct b; [tauto|discriminate]. }
  assert (NF : existsb fatal (trace s) = false).
  { destruct (existsb fatal (trace s)) eqn:E; [|reflexivity]. apply (i_fatal _ I) in E as [_ E]. congruence. }
  assert (TD : down s = true -> taken l = []) by (intro D; apply LD; rewrite D in P; exact P).
  destruct (i_all _ I NF) as [A1 A2]. rewrite Q, app_nil_r in A1.
  set (r := match o with Failed => false | _ => true end) in *.
  constructor; rewrite ?T, ?W.
  - apply rule_app. split; [apply (i_rule _ I)|]. rewrite NP. apply rule_app. split; [apply F4; exact Coq.Init.Logic.I|exact Coq.Init.Logic.I].
  - rewrite !pend_app, NP, F5. cbn [pend]. destruct o; auto; [destruct d; exact Coq.Init.Logic.I|]. split; [exact F6|apply prefix_refl].
  - rewrite !taken_app, !offered_app, O1, A1. change (taken [Ret d r]) with (@nil Z). replace (offered [Ret d r]) with d by (cbn; now rewrite app_nil_r).
    cbn [app]. exists rest. rewrite app_nil_r, <- app_assoc, F2. reflexivity.
  - rewrite !fatal_app, F3. intro H. rewrite !taken_app, !offered_app, !accepted_app, O1, O2, A1, A2.
    subst r. destruct o.
    + rewrite F6, app_nil_r in F2. cbn. rewrite F2, !app_nil_r. auto.
    + cbn. rewrite !app_nil_r, <- app_assoc, F2. auto.
    + rewrite orb_true_r in H. discriminate.
  - rewrite !fatal_app, NF, F3. cbn [existsb fatal orb]. destruct o; try discriminate. intros _. exact X.
  - intro H. assert (IN : In Notify (trace s)).
    { apply in_app_iff in H as [H|H]; [auto|]. apply in_app_iff in H as [H|H]; [contradiction|]. destruct H as [H|[]]; discriminate. }
    pose proof (i_notify _ I IN). destruct o; destruct X as [X _]; rewrite X; auto.
  - apply last_step; auto.
    + intro D. rewrite taken_app, TD by auto. reflexivity.
    + notin.
Qed.

(** The loop of the network thread. *)
Lemma inv_written : forall s outs rest l o s' n, Inv s ->
  possible (down s) outs = true -> loop outs (wq s) = Some (rest, l, o) ->
  trace s' = trace s ++ l ++ n ->
  (n = [] \/ n = [Notify] /\ o = Drained /\ down s' = true) ->
  wq s' = rest -> (down s = true -> down s' = true) -> (state s = Closed -> state s' = Closed) ->
  (o = Failed -> down s' = true /\ state s' = Closed) -> Inv s'.
Proof.
  intros s outs rest l o s' n I P L T NN W Y Z X.
  pose proof (loop_ok _ _ _ _ _ L) as [F1 F2 F3 F4 F5 F6 F7]. pose proof (loop_down _ _ _ _ _ L) as LD.
  destruct (only_writes_facts _ F1) as (O1 & O2 & O3).
  assert (TD : down s = true -> taken l = []) by (intro D; apply LD; rewrite D in P; exact P).
  assert (NF : existsb fatal n = false) by (destruct NN as [->|(-> & _)]; reflexivity).
  assert (NT : taken n = []) by (destruct NN as [->|(-> & _)]; reflexivity).
  assert (NO : offered n = []) by (destruct NN as [->|(-> & _)]; reflexivity).
  assert (NA : accepted n = []) by (destruct NN as [->|(-> & _)]; reflexivity).
  assert (NR : forall p, rule p n) by (intro p; destruct NN as [->|(-> & _)]; exact Coq.Init.Logic.I).
  assert (NP : forall p, pend p n = p) by (intro p; destruct NN as [->|(-> & _)]; reflexivity).
  pose proof (i_pend _ I) as PE.
  assert (ALL : existsb fatal (trace s) = false -> taken (trace s ++ l) ++ rest = offered (trace s ++ l) /\ accepted (trace s ++ l) = offered (trace s ++ l)).
  { intro H. destruct (i_all _ I H) as [A1 A2]. rewrite taken_app, offered_app, accepted_app, O1, O2, !app_nil_r, <- app_assoc, F2. auto. }
  constructor; rewrite ?T, ?W.
  - apply rule_app. split; [apply (i_rule _ I)|]. apply rule_app. split; [|apply NR]. apply F4.
    destruct (pend None (trace s)); tauto.
  - rewrite !pend_app, NP, F5. destruct o; auto.
    + destruct (wq s) eqn:Q; [|exact Coq.Init.Logic.I]. destruct (pend None (trace s)) as [b|]; [|exact Coq.Init.Logic.I].
      destruct PE as [PE [c E]]. destruct b; [tauto|discriminate].
    + split; [exact F6|apply prefix_refl].
  - rewrite !taken_app, !offered_app, O1, NT, NO, !app_nil_r. destruct (existsb fatal (trace s)) eqn:E.
    + destruct (i_fatal _ I E) as [D _]. rewrite (TD D), app_nil_r. apply (i_prefix _ I).
    + destruct (ALL eq_refl) as [A _]. rewrite taken_app, offered_app, O1, app_nil_r in A. exists rest. auto.
  - rewrite !fatal_app, NF, orb_false_r. intro H. apply orb_false_iff in H as [H1 H2]. destruct (ALL H1) as [A1 A2].
    rewrite app_assoc, taken_app, offered_app, accepted_app, NT, NO, NA, !app_nil_r. auto.
  - rewrite !fatal_app, NF, orb_false_r, F3. intro H. apply orb_true_iff in H as [H|H].
    + destruct (i_fatal _ I H). auto.
    + destruct o; try discriminate. auto.
  - intro H. apply in_app_iff in H as [H|H]; [apply Y, (i_notify _ I H)|]. apply in_app_iff in H as [H|H]; [contradiction|].
    destruct NN as [->|(-> & _ & D)]; [contradiction|exact D].
  - destruct NN as [->|(-> & -> & _)].
    + rewrite app_nil_r. now apply last_step.
    + apply last_notify; auto. intro H. rewrite fatal_app in H. apply orb_false_iff in H as [H _]. destruct (ALL H) as [A1 A2].
      rewrite F6, app_nil_r in A1. congruence.
Qed.

(** A call of [ssl_send] that puts its data at the end of the queue. *)
Lemma inv_queued : forall s d s', Inv s -> trace s' = trace s ++ [Ret d true] -> wq s' = wq s ++ d ->
  down s' = down s -> state s' = state s -> Inv s'.
Proof.
  intros s d s' I T W D S. constructor; rewrite ?T, ?W, ?D, ?S.
  - apply rule_app. split; [apply (i_rule _ I)|exact Coq.Init.Logic.I].
  - rewrite pend_app. cbn [pend]. pose proof (i_pend _ I) as A. destruct (pend None (trace s)); [|exact A].
    destruct A. split; [assumption|now apply prefix_app].
  - rewrite taken_app, offered_app. cbn. rewrite !app_nil_r. apply prefix_app, (i_prefix _ I).
  - rewrite fatal_app. cbn [existsb fatal orb]. rewrite orb_false_r. intro H. destruct (i_all _ I H) as [A B].
    rewrite taken_app, offered_app, accepted_app. cbn. rewrite !app_nil_r, app_assoc, A, B. auto.
  - rewrite fatal_app. cbn [existsb fatal orb]. rewrite orb_false_r. apply (i_fatal _ I).
  - intro H. apply in_app_iff in H as [H|[H|[]]]; [|discriminate]. apply (i_notify _ I H).
  - apply last_step; auto. notin.
Qed.

Lemma inv_read : forall s r s', Inv s -> trace s' = trace s ++ [Read r] -> wq s' = wq s ->
  (down s = true -> down s' = true) -> (state s = Closed -> state s' = Closed) ->
  (r = RFatal -> down s' = true /\ state s' = Closed) -> Inv s'.
Proof.
  intros s r s' I T W D S X. constructor; rewrite ?T, ?W.
  - apply rule_app. split; [apply (i_rule _ I)|exact Coq.Init.Logic.I].
  - rewrite pend_app. exact (i_pend _ I).
  - rewrite taken_app, offered_app. cbn. rewrite !app_nil_r. apply (i_prefix _ I).
  - rewrite fatal_app, taken_app, offered_app, accepted_app. cbn. rewrite !app_nil_r. intro H. apply orb_false_iff in H as [H _]. apply (i_all _ I H).
  - rewrite fatal_app. intro H. apply orb_true_iff in H as [H|H].
    + destruct (i_fatal _ I H). auto.
    + destruct r; try discriminate. auto.
  - intro H. apply in_app_iff in H as [H|[H|[]]]; [|discriminate]. apply D, (i_notify _ I H).
  - apply last_step; auto. notin.
Qed.

Lemma closed_test : forall x a b, x = Closed -> a <> Closed -> test_change x a b = Closed.
Proof. intros x a b -> H. destruct a; try reflexivity. congruence. Qed.

Lemma inv_step : forall s e s', Inv s -> step s e = Some s' -> Inv s'.
Proof.
  intros s e s' I H. destruct e as [d|k outs| | | | | | |outs|r t]; cbn [step] in H.
  - injection H as <-. unfold send_begin. destruct (2 <=? rank (state s))%nat; [assumption|]. now apply (inv_same s).
  - unfold send_body in H. destruct (nth_error (flight s) k) as [d|]; [|discriminate].
    destruct (wq s) as [|z q] eqn:Q.
    + destruct (state s) eqn:S; try (destruct outs; [|discriminate]; injection H as <-; apply (inv_queued s d); cbn; rewrite ?Q; auto; fail).
      destruct (possible (down s) outs) eqn:P; [|discriminate].
      destruct (loop outs d) as [[[rest l] o]|] eqn:L; [|discriminate].
      destruct o; injection H as <-; apply (inv_direct s d outs rest l _ _ I Q S P L); cbn; auto.
    + destruct outs; [|destruct (state s); discriminate].
      assert (E : s' = mkS (state s) ((z :: q) ++ d) (down s) (trace s ++ [Ret d true]) (remove_at k (flight s)) (shuts s) (writing s)).
      { destruct (state s); injection H as <-; reflexivity. }
      subst s'. apply (inv_queued s d); cbn; rewrite ?Q; auto.
  - injection H as <-. unfold shut_begin. destruct (2 <=? rank (state s))%nat; [assumption|]. now apply (inv_same s).
  - unfold shut_body in H. destruct (shuts s) as [|n]; [discriminate|]. destruct (wq s) as [|z q] eqn:Q; injection H as <-.
    + apply (inv_written s [] [] [] Drained _ [Notify] I); cbn; auto; try discriminate; try (rewrite Q; reflexivity).
      destruct (down s); reflexivity.
    + apply (inv_same s); cbn; auto. intro E. now rewrite E.
  - injection H as <-. now apply (inv_same s).
  - unfold quick_store in H. destruct (down s) eqn:D; [|discriminate]. injection H as <-. now apply (inv_same s).
  - unfold write_begin in H. destruct (writing s); [discriminate|]. injection H as <-. apply (inv_same s); cbn; auto. intro E. now rewrite E.
  - unfold write_abort in H. destruct (writing s); [|discriminate]. injection H as <-. now apply (inv_same s).
  - unfold write_loop in H. destruct (writing s); [|discriminate]. cbn [andb] in H. destruct (possible (down s) outs) eqn:P; [|discriminate].
    destruct (loop outs (wq s)) as [[[rest l] o]|] eqn:L; [|discriminate].
    pose proof (f_rest _ _ _ _ (loop_ok _ _ _ _ _ L)) as R.
    destruct o.
    + destruct (rank (state s) =? 2)%nat eqn:K; injection H as <-.
      * apply (inv_written s outs rest l Drained _ [Notify] I P L); cbn; auto; discriminate.
      * apply (inv_written s outs rest l Drained _ [] I P L); cbn; rewrite ?app_nil_r; auto; discriminate.
    + injection H as <-. apply (inv_written s outs rest l Blocked _ [] I P L); cbn; rewrite ?app_nil_r; auto; discriminate.
    + injection H as <-. apply (inv_written s outs rest l Failed _ [] I P L); cbn; rewrite ?app_nil_r; auto.
  - injection H as <-. apply (inv_read s r); unfold read_one; destruct r, t; cbn; auto; discriminate.
Qed.

Lemma inv_run : forall es s s', Inv s -> run s es = Some s' -> Inv s'.
Proof.
  induction es as [|e es IH]; intros s s' I H; cbn [run] in H; [injection H as <-; auto|].
  destruct (step s e) as [s1|] eqn:S; [|discriminate]. apply (IH s1); auto. now apply (inv_step s e).
Qed.

Lemma reach : forall es s, run init es = Some s -> Inv s.
Proof. intros es s H. apply (inv_run _ _ _ inv_init H). Qed.

(** * Shutting down undisturbed *)
Definition calm (t : list item) : Prop := forall a b, t = a ++ Notify :: b -> existsb fatal a = false.

Lemma calm_app : forall t l, calm t -> ~ In Notify l -> calm (t ++ l).
Proof.
  intros t l C N a b H. apply split_notify in H as [(b0 & E & ->)|(x & -> & ->)]; [eauto|].
  exfalso. apply N. apply in_app_iff. right. now left.
Qed.
Lemma calm_snoc : forall t x, calm t -> ~ In Notify x -> existsb fatal (t ++ x) = false -> calm (t ++ x ++ [Notify]).
Proof.
  intros t x C N F a b H. rewrite app_assoc in H. apply split_notify in H as [(b0 & E & ->)|(y & -> & E)].
  - apply (calm_app _ _ C N _ _ E).
  - destruct y as [|z y]; cbn [app] in E; injection E; [intros _; now rewrite app_nil_r|]. intros E1 _. destruct y; discriminate.
Qed.

Lemma not_fatal : forall s, Inv s -> state s <> Closed -> existsb fatal (trace s) = false.
Proof. intros s I H. destruct (existsb fatal (trace s)) eqn:E; [|reflexivity]. apply (i_fatal _ I) in E. tauto. Qed.

Lemma calm_step : forall s e s', Inv s -> calm (trace s) -> shuts s = O -> e <> ShutBegin -> step s e = Some s' ->
  calm (trace s') /\ shuts s' = O.
Proof.
  intros s e s' I C Z N H. destruct e as [d|k outs| | | | | | |outs|r t]; cbn [step] in H.
  - injection H as <-. unfold send_begin. destruct (2 <=? rank (state s))%nat; auto.
  - unfold send_body in H. destruct (nth_error (flight s) k) as [d|]; [|discriminate].
    destruct (wq s) as [|z q] eqn:Q.
    + destruct (state s) eqn:S; try (destruct outs; [|discriminate]; injection H as <-; cbn [trace shuts]; split; [apply calm_app; [assumption|notin]|assumption]).
      destruct (possible (down s) outs) eqn:P; [|discriminate].
      destruct (loop outs d) as [[[rest l] o]|] eqn:L; [|discriminate].
      destruct (only_writes_facts _ (f_writes _ _ _ _ (loop_ok _ _ _ _ _ L))) as (_ & _ & O3).
      destruct o; injection H as <-; cbn [trace shuts]; (split; [apply calm_app; [assumption|notin]|assumption]).
    + destruct outs; [|destruct (state s); discriminate].
      assert (E : s' = mkS (state s) ((z :: q) ++ d) (down s) (trace s ++ [Ret d true]) (remove_at k (flight s)) (shuts s) (writing s)).
      { destruct (state s); injection H as <-; reflexivity. }
      subst s'. cbn [trace shuts]. split; [apply calm_app; [assumption|notin]|assumption].
  - congruence.
  - unfold shut_body in H. rewrite Z in H. discriminate.
  - injection H as <-. auto.
  - unfold quick_store in H. destruct (down s) eqn:D; [|discriminate]. injection H as <-. auto.
  - unfold write_begin in H. destruct (writing s); [discriminate|]. injection H as <-. auto.
  - unfold write_abort in H. destruct (writing s); [|discriminate]. injection H as <-. auto.
  - unfold write_loop in H. destruct (writing s); [|discriminate]. cbn [andb] in H. destruct (possible (down s) outs) eqn:P; [|discriminate].
    destruct (loop outs (wq s)) as [[[rest l] o]|] eqn:L; [|discriminate].
    pose proof (loop_ok _ _ _ _ _ L) as F. destruct (only_writes_facts _ (f_writes _ _ _ _ F)) as (_ & _ & O3).
    destruct o.
    + destruct (rank (state s) =? 2)%nat eqn:K; injection H as <-; cbn [trace shuts]; (split; [|assumption]).
      * apply calm_snoc; auto. rewrite fatal_app, (f_fatal _ _ _ _ F), orb_false_r. apply not_fatal; [assumption|].
        intro E. rewrite E in K. discriminate.
      * now apply calm_app.
    + injection H as <-. cbn [trace shuts]. split; [now apply calm_app|assumption].
    + injection H as <-. cbn [trace shuts]. split; [now apply calm_app|assumption].
  - injection H as <-. assert (T : trace (read_one s r t) = trace s ++ [Read r] /\ shuts (read_one s r t) = shuts s) by (unfold read_one; destruct r, t; auto).
    destruct T as [-> ->]. split; [apply calm_app; [assumption|notin]|assumption].
Qed.

Lemma calm_run : forall n es s s', (length es <= n)%nat -> Inv s -> calm (trace s) -> shuts s = O -> undisturbed es = true ->
  run s es = Some s' -> calm (trace s').
Proof.
  induction n as [|n IH]; intros es s s' LN I C Z U H.
  - destruct es; [|cbn in LN; lia]. injection H as <-. assumption.
  - destruct es as [|e es]; [injection H as <-; assumption|]. cbn [length] in LN.
    assert (D : e = ShutBegin \/ e <> ShutBegin) by (destruct e; auto; right; discriminate).
    destruct D as [->|NE].
    + destruct es as [|e2 es]; [discriminate|]. destruct e2; try discriminate. cbn [undisturbed] in U. cbn [length] in LN.
      cbn [run step] in H. unfold shut_begin in H. destruct (2 <=? rank (state s))%nat eqn:R.
      * unfold shut_body in H. rewrite Z in H. discriminate.
      * assert (NC : state s <> Closed) by (intro E; rewrite E in R; discriminate). pose proof (not_fatal _ I NC) as NF.
        set (s1 := mkS (state s) (wq s) (down s) (trace s) (flight s) (S (shuts s)) (writing s)) in *.
        assert (I1 : Inv s1) by (now apply (inv_same s)).
        destruct (shut_body s1) as [s2|] eqn:S2; [|discriminate].
        assert (I2 : Inv s2) by (apply (inv_step s1 ShutBody); assumption).
        unfold shut_body in S2. subst s1. cbn [shuts wq state down trace flight writing] in S2.
        apply (IH es s2); [lia|assumption| | |assumption|assumption]; destruct (wq s) eqn:Q; injection S2 as <-; cbn [trace shuts]; auto.
        apply (calm_snoc _ []); auto. now rewrite app_nil_r.
    + cbn [run] in H. destruct (step s e) as [s1|] eqn:S; [|discriminate].
      destruct (calm_step _ _ _ I C Z NE S) as [C1 Z1]. apply (IH es s1); auto; [lia|now apply (inv_step s e)|].
      destruct e; try exact U; congruence.
Qed.

(** * The error queue *)
Lemma readable_bytes : forall debug cs q k q' k', readable debug cs q k = Some (q', k') ->
  filter (fun x => negb (snd x)) (seen k') = filter (fun x => negb (snd x)) (seen k) ++ filter (fun x => negb (snd x)) (due cs).
Proof.
  induction cs as [|c cs IH]; intros q k q' k' H; cbn [readable] in H; [discriminate|].
  set (q1 := queue q c) in *. unfold due. cbn [flat_map]. fold (due cs). rewrite filter_app.
  destruct (what c) as [b| | | |es] eqn:W; cbn [get_error] in H.
  1: { cbn [filter snd negb]. destruct (throws c).
       - destruct cs; [|discriminate]. injection H as <- <-. cbn [seen]. rewrite filter_app. cbn. reflexivity.
       - rewrite (IH _ _ _ _ H). cbn [seen]. rewrite filter_app, <- app_assoc. reflexivity. }
  all: destruct q1 as [|[|] q2]; destruct cs; try discriminate; injection H as <- <-; cbn [seen]; rewrite ?filter_app; cbn; rewrite ?app_nil_r; reflexivity.
Qed.

Lemma readable_quiet : forall debug cs k q' k', forallb quiet cs = true -> readable debug cs [] k = Some (q', k') ->
  q' = [] /\ seen k' = seen k ++ due cs
  /\ shut k' = shut k || existsb (fun c => match what c with Progress _ => throws c | Waits => false | _ => true end) cs.
Proof.
  induction cs as [|c cs IH]; intros k q' k' Q H; cbn [readable] in H; [discriminate|].
  cbn [forallb] in Q. apply andb_true_iff in Q as [Q1 Q2].
  assert (E : queue [] c = []).
  { unfold queue. unfold quiet in Q1. destruct (what c); try discriminate; destruct (clears c); reflexivity. }
  rewrite E in H. unfold quiet in Q1. unfold due. cbn [flat_map existsb]. fold (due cs).
  destruct (what c) as [b| | | |es] eqn:W; try discriminate; cbn [get_error] in H.
  - destruct (throws c) eqn:T.
    + destruct cs; [|discriminate]. injection H as <- <-. cbn. rewrite orb_true_r. auto.
    + destruct (IH _ _ _ Q2 H) as (A & B & C). cbn [seen shut orb] in *. rewrite B, <- app_assoc. auto.
  - destruct cs; [|discriminate]. injection H as <- <-. cbn. rewrite app_nil_r, orb_false_r. auto.
  - destruct cs; [|discriminate]. injection H as <- <-. cbn. rewrite orb_true_r. auto.
Qed.

Lemma writeable_quiet : forall debug cs k q' k', forallb quiet cs = true -> writeable debug cs [] k = Some (q', k') ->
  q' = [] /\ seen k' = seen k
  /\ shut k' = shut k || existsb (fun c => match what c with Progress _ | Waits => false | _ => true end) cs.
Proof.
  induction cs as [|c cs IH]; intros k q' k' Q H; cbn [writeable] in H.
  - injection H as <- <-. cbn. rewrite orb_false_r. auto.
  - cbn [forallb] in Q. apply andb_true_iff in Q as [Q1 Q2].
    assert (E : queue [] c = []).
    { unfold queue. unfold quiet in Q1. destruct (what c); try discriminate; destruct (clears c); reflexivity. }
    rewrite E in H. unfold quiet in Q1. cbn [existsb].
    destruct (what c) as [b| | | |es] eqn:W; try discriminate; cbn [get_error] in H.
    + apply (IH _ _ _ Q2 H).
    + destruct cs; [|discriminate]. injection H as <- <-. cbn. rewrite orb_false_r. auto.
    + destruct cs; [|discriminate]. injection H as <- <-. cbn. destruct debug; cbn; rewrite orb_true_r; auto.
Qed.

Lemma writeable_seen : forall debug cs q k q' k', writeable debug cs q k = Some (q', k') -> seen k' = seen k.
Proof.
  induction cs as [|c cs IH]; intros q k q' k' H; cbn [writeable] in H; [injection H as <- <-; auto|].
  set (q1 := queue q c) in *.
  destruct (get_error q1 (what c)) as [| | |e|]; try (destruct cs; [|discriminate]; injection H as <- <-; reflexivity).
  apply (IH _ _ _ _ H).
Qed.

Lemma acts_bytes : forall debug os w w' id, acts debug w os = Some w' ->
  filter (fun x => negb (snd x)) (seen (conns w' id)) =
  filter (fun x => negb (snd x)) (seen (conns w id)) ++ filter (fun x => negb (snd x)) (due (reads_of id os)).
Proof.
  induction os as [|o os IH]; intros w w' id H; cbn [acts] in H.
  - injection H as <-. cbn. now rewrite app_nil_r.
  - destruct (act debug w o) as [w1|] eqn:A; [|discriminate]. rewrite (IH _ _ id H).
    unfold reads_of. cbn [flat_map]. fold (reads_of id os). unfold due. rewrite flat_map_app, filter_app, app_assoc. fold (due (reads_of id os)). f_equal.
    destruct o as [i cs|i cs|i es]; cbn [act] in A.
    + destruct (readable debug cs (errors w) (conns w i)) as [[q k]|] eqn:R; [|discriminate]. injection A as <-. cbn [conns].
      rewrite (Nat.eqb_sym i id). destruct (Nat.eqb id i) eqn:E.
      * apply Nat.eqb_eq in E. subst i. apply (readable_bytes _ _ _ _ _ _ R).
      * cbn. now rewrite app_nil_r.
    + destruct (writeable debug cs (errors w) (conns w i)) as [[q k]|] eqn:R; [|discriminate]. injection A as <-. cbn [conns flat_map filter].
      rewrite app_nil_r. destruct (Nat.eqb id i) eqn:E; [|reflexivity].
      apply Nat.eqb_eq in E. subst i. now rewrite (writeable_seen _ _ _ _ _ _ R).
    + injection A as <-. cbn [conns flat_map filter]. rewrite app_nil_r. destruct (Nat.eqb id i) eqn:E; [|reflexivity].
      apply Nat.eqb_eq in E. now subst i.
Qed.

Lemma acts_quiet : forall debug os w w' id, errors w = [] -> forallb quiet (calls_of os) = true -> shut_errors os = [] ->
  acts debug w os = Some w' ->
  errors w' = [] /\ seen (conns w' id) = seen (conns w id) ++ due (reads_of id os)
  /\ shut (conns w' id) = shut (conns w id) || existsb (ends id) os.
Proof.
  induction os as [|o os IH]; intros w w' id E Q SE H; cbn [acts] in H.
  - injection H as <-. cbn. rewrite app_nil_r, orb_false_r. auto.
  - destruct (act debug w o) as [w1|] eqn:A; [|discriminate].
    unfold calls_of in Q. cbn [flat_map] in Q. fold (calls_of os) in Q. rewrite forallb_app in Q. apply andb_true_iff in Q as [Q1 Q2].
    unfold shut_errors in SE. cbn [flat_map] in SE. fold (shut_errors os) in SE. apply app_eq_nil in SE as [SE1 SE2].
    assert (K : errors w1 = [] /\ seen (conns w1 id) = seen (conns w id) ++ due (reads_of id [o]) /\ shut (conns w1 id) = shut (conns w id) || ends id o).
    { unfold reads_of. cbn [flat_map]. rewrite app_nil_r. destruct o as [i cs|i cs|i es]; cbn [act] in A; rewrite ?E in A.
      - destruct (readable debug cs [] (conns w i)) as [[q k]|] eqn:R; [|discriminate]. injection A as <-. cbn [conns errors ends].
        destruct (readable_quiet _ _ _ _ _ Q1 R) as (A1 & A2 & A3). rewrite (Nat.eqb_sym i id). destruct (Nat.eqb id i) eqn:D.
        + apply Nat.eqb_eq in D. subst i. cbn [andb]. auto.
        + cbn. rewrite app_nil_r, orb_false_r. auto.
      - destruct (writeable debug cs [] (conns w i)) as [[q k]|] eqn:R; [|discriminate]. injection A as <-. cbn [conns errors ends].
        destruct (writeable_quiet _ _ _ _ _ Q1 R) as (A1 & A2 & A3). rewrite (Nat.eqb_sym i id). unfold due. cbn [flat_map]. rewrite app_nil_r. destruct (Nat.eqb id i) eqn:D.
        + apply Nat.eqb_eq in D. subst i. cbn [andb]. auto.
        + cbn. rewrite orb_false_r. auto.
      - injection A as <-. subst es. cbn [conns errors ends app]. rewrite (Nat.eqb_sym i id). unfold due. cbn [flat_map]. rewrite app_nil_r. destruct (Nat.eqb id i) eqn:D.
        + apply Nat.eqb_eq in D. subst i. cbn. rewrite orb_true_r. auto.
        + rewrite orb_false_r. auto. }
    destruct K as (K1 & K2 & K3). destruct (IH _ _ id K1 Q2 SE2 H) as (L1 & L2 & L3).
    split; [assumption|]. split.
    + rewrite L2, K2, <- app_assoc. f_equal. unfold reads_of. cbn [flat_map]. rewrite app_nil_r. unfold due. now rewrite flat_map_app.
    + rewrite L3, K3. cbn [existsb]. now rewrite orb_assoc.
Qed.
