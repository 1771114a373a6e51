(** Properties of easy servers and clients. *)
From Coq Require Import List ZArith Bool Lia.
From Verif Require Import EasyModel EasySpec EasyProofs.
Import ListNotations.
Open Scope list_scope.
Open Scope nat_scope.

(** Events of one socket are passed to the callback in the order in which they
    happen, without repetition or omission, whatever happens: at any time those
    that have been passed are the first ones. *)
Theorem easy_order : forall careful xs st s, run careful init xs = Some st ->
  prefix (delivered s (log st)) (occurred s (pushed st)).
Proof.
  intros careful xs st s H. destruct (inv_run careful xs (fun _ => 0) init st (proj1 (inv_init _)) H) as (A & I & _).
  apply (v_prefix _ _ I).
Qed.

(** What has been accepted are events that have happened, in their order; all
    of them, if no exception is thrown and the server is not stopped. *)
Lemma pushed_step careful st x st' : step careful st x = Some st' ->
  pushed st' = pushed st \/ exists s e, x = Push s e /\ pushed st' = pushed st ++ [(s, e)].
Proof.
  intros H. destruct x as [a|s e|s b|s|f|f r|]; cbn [step] in H.
  - destruct (_ || _); [discriminate|]. injection H as <-. auto.
  - destruct (net st s) as [(a, [|])|]; try discriminate. destruct (if expired st then None else table st a) as [q|].
    + right. exists s, e. destruct (fiber_active q); injection H as <-; auto.
    + injection H as <-. auto.
  - destruct (net st s) as [(a, [|])|]; try discriminate. destruct (if expired st then None else table st a) as [q|]; [|discriminate].
    injection H as <-. auto.
  - destruct (net st s) as [(a, [|])|]; try discriminate. injection H as <-. auto.
  - destruct (fibers st f) as [(a, [|? ?])|]; try discriminate. destruct (if expired st then None else table st a) as [q|]; [destruct (events q)|]; injection H as <-; auto.
  - destruct (fibers st f) as [(a, [|? e])|]; try discriminate. destruct e; try (injection H as <-; auto). destruct (table st a); injection H as <-; auto.
  - injection H as <-. auto.
Qed.

Lemma pushed_run careful xs : forall A st st', inv A st -> smooth A st -> stopped st = false -> no_failure xs -> ~ In Stop xs ->
  run careful st xs = Some st' -> pushed st' = pushed st ++ happened xs /\ stopped st' = false.
Proof.
  induction xs as [|x xs IH]; intros A st st' I W S N T H; cbn [run] in H.
  - injection H as <-. cbn. rewrite app_nil_r. auto.
  - destruct (step careful st x) as [st1|] eqn:E; [|discriminate].
    destruct (inv_step careful A st x st1 I E) as (A1 & I1 & _ & W1).
    assert (N1 : no_failure xs) by (intros s b Hin; apply (N s b); right; exact Hin).
    assert (T1 : ~ In Stop xs) by (intros Hin; apply T; right; exact Hin).
    assert (W2 : smooth A1 st1) by (apply W1; [intros s b ->; apply (N s b); left; reflexivity|exact W]).
    assert (Xp : expired st = false) by (unfold expired; rewrite S; reflexivity).
    assert (S1 : stopped st1 = false /\ pushed st1 = pushed st ++ match x with Push s e => [(s, e)] | _ => [] end).
    { clear IH H W1 W2. destruct x as [a|s e|s b|s|f|f r|]; cbn [step] in E; rewrite ?Xp in E; rewrite ?app_nil_r.
      - cbn [orb] in E. destruct (negb _); [discriminate|]. injection E as <-. auto.
      - destruct (net st s) as [(a, [|])|] eqn:Ns; try discriminate. destruct (w_entry _ _ W _ _ Ns) as (q & Tq & _). rewrite Tq in E.
        destruct (fiber_active q); injection E as <-; auto.
      - exfalso. apply (N s b). left. reflexivity.
      - destruct (net st s) as [(a, [|])|]; try discriminate. injection E as <-. auto.
      - destruct (fibers st f) as [(a, [|? ?])|]; try discriminate. destruct (table st a) as [q|]; [destruct (events q)|]; injection E as <-; auto.
      - destruct (fibers st f) as [(a, [|? e])|]; try discriminate. destruct e; try (injection E as <-; auto). destruct (table st a); injection E as <-; auto.
      - exfalso. apply T. left. reflexivity. }
    destruct S1 as (S1 & P1). destruct (IH A1 st1 st' I1 W2 S1 N1 T1 H) as (P2 & S2). split; [|exact S2].
    rewrite P2, P1, <- app_assoc. f_equal. destruct x; reflexivity.
Qed.

(** When all fibers have finished, the callback has been called for all the
    events of every socket, once each and in order, provided that no exception
    has been thrown in the network thread and the server has not been stopped. *)
Theorem easy_complete : forall careful xs st s, run careful init xs = Some st ->
  no_failure xs -> ~ In Stop xs -> quiet st ->
  delivered s (log st) = occurred s (happened xs).
Proof.
  intros careful xs st s H N T Q. destruct (inv_init (fun _ => 0)) as (I0 & W0).
  destruct (pushed_run careful xs _ init st I0 W0 eq_refl N T H) as (P & S). cbn in P. rewrite <- P.
  destruct (inv_run careful xs _ init st I0 H) as (A & I & W). specialize (W N W0).
  destruct (le_lt_dec (next_socket st) s) as [L|L].
  - destruct (v_fresh _ _ I s L) as (-> & ->). reflexivity.
  - destruct (table st (A s)) as [q|] eqn:Tq.
    + destruct (Nat.eq_dec (socket q) s) as [<-|D].
      * rewrite (v_queue _ _ I _ _ Tq). destruct (events q) as [|e es] eqn:Ev; [rewrite app_nil_r; reflexivity|].
        assert (Xp : expired st = false) by (unfold expired; rewrite S; reflexivity).
        destruct (v_some _ _ I Xp _ _ Tq (v_active _ _ I _ _ Tq ltac:(congruence))) as (f & x & F). rewrite Q in F. discriminate.
      * apply (w_done _ _ W s L). intros p Tp. congruence.
    + apply (w_done _ _ W s L). intros p Tp. congruence.
Qed.

(** Until then, while there are events for a socket that have not been passed
    to the callback, there is a fiber for it, which can proceed. *)
Theorem easy_progress : forall careful xs st a q, run careful init xs = Some st ->
  table st a = Some q -> expired st = false ->
  occurred (socket q) (pushed st) <> delivered (socket q) (log st) ->
  exists f x, fibers st f = Some (a, x)
  /\ exists st', step careful st (match x with Top => Pop f | Calling _ _ => Return f 0 end) = Some st'.
Proof.
  intros careful xs st a q H T Xp D. destruct (inv_run careful xs (fun _ => 0) init st (proj1 (inv_init _)) H) as (A & I & _).
  assert (Ev : events q <> []). { intros E. apply D. rewrite (v_queue _ _ I _ _ T), E, app_nil_r. reflexivity. }
  destruct (v_some _ _ I Xp _ _ T (v_active _ _ I _ _ T Ev)) as (f & x & F). exists f, x. split; [exact F|].
  destruct x as [|s e]; cbn [step]; rewrite F.
  - rewrite Xp, T. destruct (events q); eauto.
  - destruct e; eauto. rewrite T. eauto.
Qed.

(** Nothing follows the event that the socket has been closed. *)
Theorem easy_close_last : forall careful xs st s es1 c es2, run careful init xs = Some st ->
  delivered s (log st) = es1 ++ Close c :: es2 -> es2 = [].
Proof.
  intros careful xs st s es1 c es2 H D. destruct (inv_run careful xs (fun _ => 0) init st (proj1 (inv_init _)) H) as (A & I & _).
  destruct (v_prefix _ _ I s) as (r & E). rewrite D, <- app_assoc in E. cbn in E.
  apply (v_last _ _ I) in E. apply app_eq_nil in E. apply E.
Qed.

(** Callbacks for the same socket do not overlap, provided that the memory of a
    socket is not used for another one before the last fiber that has its
    address has finished. What is missing is that the code does not ensure it. *)
Theorem easy_exclusive_partial : forall xs st s, run true init xs = Some st -> one_at_a_time s None (log st).
Proof.
  intros xs st s H. apply c_alone. exact (single_run xs (fun _ => 0) init st (proj1 (inv_init _)) single_init H).
Qed.

(** With the same provision the callback for data gets what the last one has
    left, followed by the new data, so nothing in a stream is lost. *)
Theorem easy_stream_partial : forall xs st s, run true init xs = Some st -> streamed s [] (log st).
Proof.
  intros xs st s H. apply c_stream. exact (single_run xs (fun _ => 0) init st (proj1 (inv_init _)) single_init H).
Qed.

(** These are histories of the program. *)
Theorem easy_careful : forall xs st st', run true st xs = Some st' -> run false st xs = Some st'.
Proof.
  induction xs as [|x xs IH]; intros st st' H; [exact H|]. cbn [run] in *.
  destruct (step true st x) as [st1|] eqn:E; [|discriminate].
  replace (step false st x) with (Some st1); [apply IH, H|]. rewrite <- E. destruct x as [a| | | | | |]; try reflexivity.
  cbn [step] in *. destruct (expired st); [reflexivity|]. cbn [orb] in *. destruct (available true st a) eqn:V; [|discriminate].
  assert (available false st a = true) as ->; [|reflexivity].
  unfold available in *. apply andb_prop in V. destruct V as (V & V3). rewrite V. cbn [andb].
  apply negb_true_iff in V3. apply negb_true_iff, not_true_iff_false. intros C. apply not_true_iff_false in V3. apply V3.
  unfold some_fiber in *. apply existsb_exists in C. destruct C as (f & Hin & C). apply existsb_exists. exists f. split; [exact Hin|].
  destruct (fibers st f) as [(b, y)|]; [|discriminate]. cbn in *. apply andb_prop in C. apply andb_true_iff. split; [apply C|reflexivity].
Qed.

(** The program allows more: a fiber has handled that a socket was closed, but
    has not looked at the table again. Another socket is created at the same
    address, and another fiber is launched for it. Both of them take events of
    this socket, and the callback is called for the second one before the first
    one has returned. *)
Definition reuse : list event :=
  [ Accept 0; Push 0 (Close 0); Pop 0; Return 0 0; Release 0;
    Accept 0; Push 1 (Data [1%Z] false); Push 1 (Data [2%Z] false);
    Pop 0; Pop 1 ].

Lemma reuse_runs : exists st, run false init reuse = Some st /\
  log st = [ Began 0 0 (Close 0) []; Ended 0 0 (Close 0) [];
             Began 0 1 (Data [1%Z] false) [1%Z]; Began 1 1 (Data [2%Z] false) [1%Z; 2%Z] ].
Proof.
  assert (H : option_map log (run false init reuse) = Some [ Began 0 0 (Close 0) []; Ended 0 0 (Close 0) [];
             Began 0 1 (Data [1%Z] false) [1%Z]; Began 1 1 (Data [2%Z] false) [1%Z; 2%Z] ]) by (vm_compute; reflexivity).
  destruct (run false init reuse) as [st|]; [|discriminate]. exists st. injection H as H. auto.
Qed.

Theorem easy_exclusive_refuted : exists xs st s, run false init xs = Some st /\ ~ one_at_a_time s None (log st).
Proof.
  destruct reuse_runs as (st & H & L). exists reuse, st, 1. split; [exact H|]. rewrite L. cbn. intros (_ & X & _). discriminate.
Qed.

(** An exception in the network thread erases the element of the table whose
    data are in use by a callback. *)
Theorem easy_dangling_refuted : exists xs st, run true init xs = Some st /\ dangling st = true.
Proof.
  assert (H : option_map dangling (run true init [Accept 0; Push 0 (Data [1%Z] false); Pop 0; Push_fail 0 false]) = Some true) by (vm_compute; reflexivity).
  destruct (run true init _) as [st|] eqn:E; [|discriminate]. injection H as H. eauto.
Qed.

(** Otherwise this does not happen. *)
Theorem easy_not_dangling : forall careful xs st, run careful init xs = Some st -> no_failure xs -> dangling st = false.
Proof.
  intros careful xs. assert (G : forall st st', run careful st xs = Some st' -> no_failure xs -> dangling st = false -> dangling st' = false).
  2: { intros st H N. exact (G init st H N eq_refl). }
  induction xs as [|x xs IH]; intros st st' H N D; cbn [run] in H; [injection H as <-; exact D|].
  destruct (step careful st x) as [st1|] eqn:E; [|discriminate].
  apply (IH st1 st' H); [intros s b Hin; apply (N s b); right; exact Hin|].
  destruct x as [a|s e|s b|s|f|f r|]; cbn [step] in E.
  - destruct (_ || _); [discriminate|]. injection E as <-. exact D.
  - destruct (net st s) as [(a, [|])|]; try discriminate. destruct (if expired st then None else table st a) as [q|]; [destruct (fiber_active q)|]; injection E as <-; exact D.
  - exfalso. apply (N s b). left. reflexivity.
  - destruct (net st s) as [(a, [|])|]; try discriminate. injection E as <-. exact D.
  - destruct (fibers st f) as [(a, [|? ?])|]; try discriminate. destruct (if expired st then None else table st a) as [q|]; [destruct (events q)|]; injection E as <-; exact D.
  - destruct (fibers st f) as [(a, [|? e])|]; try discriminate. destruct e; try (injection E as <-; exact D). destruct (table st a); injection E as <-; exact D.
  - injection E as <-. exact D.
Qed.

(** After the server has been stopped, and callbacks have returned, no callback
    is called again. *)
Theorem easy_stopped : forall careful xs ys st st', run careful init xs = Some st -> expired st = true ->
  run careful st ys = Some st' -> forall s, delivered s (log st') = delivered s (log st).
Proof.
  intros careful xs ys st st' H0 X. destruct (inv_run careful xs (fun _ => 0) init st (proj1 (inv_init _)) H0) as (A & I & _). clear H0 xs.
  revert A st I X. induction ys as [|y ys IH]; intros A st I X H s; cbn [run] in H; [injection H as <-; reflexivity|].
  destruct (step careful st y) as [st1|] eqn:E; [|discriminate].
  destruct (inv_step careful A st y st1 I E) as (A1 & I1 & _).
  assert (X1 : expired st1 = true). { destruct (expired st1) eqn:X1; [reflexivity|]. rewrite (step_expired careful A st I y st1 E X1) in X. discriminate. }
  rewrite (IH A1 st1 I1 X1 H s). clear IH H.
  destruct y as [a|t e|t b|t|f|f r|]; cbn [step] in E; rewrite ?X in E; cbn [orb] in E; try discriminate.
  - destruct (net st t) as [(a, [|])|]; try discriminate. injection E as <-. reflexivity.
  - destruct (net st t) as [(a, [|])|]; discriminate.
  - destruct (net st t) as [(a, [|])|]; try discriminate. injection E as <-. reflexivity.
  - destruct (fibers st f) as [(a, [|? ?])|]; try discriminate. injection E as <-. reflexivity.
  - destruct (fibers st f) as [(a, [|u e])|] eqn:Fi; try discriminate. exfalso. exact (expired_calling A st I _ _ _ _ X Fi).
  - injection E as <-. reflexivity.
Qed.

(** Two sockets, one of which sends data in two pieces while the first callback
    is running. *)
Definition talk : list event :=
  [ Accept 0; Accept 1; Push 0 Open; Push 1 Open; Pop 0; Push 0 (Data [1; 2]%Z false); Pop 1; Return 0 0; Pop 0;
    Push 0 (Data [3]%Z true); Return 0 1; Pop 0; Return 1 0; Return 0 0; Push 0 (Close 0); Pop 0; Pop 1; Return 0 0; Pop 0 ].

Example talk_runs : option_map (fun st => (delivered 0 (log st), delivered 1 (log st), log st, map (fibers st) [0; 1], map (fun a => match table st a with Some _ => true | None => false end) [0; 1]))
  (run true init talk) =
  Some ([Open; Data [1; 2]%Z false; Data [3]%Z true; Close 0], [Open],
    [ Began 0 0 Open []; Began 1 1 Open []; Ended 0 0 Open []; Began 0 0 (Data [1; 2]%Z false) [1; 2]%Z;
      Ended 0 0 (Data [1; 2]%Z false) [2]%Z; Began 0 0 (Data [3]%Z true) [2; 3]%Z; Ended 1 1 Open [];
      Ended 0 0 (Data [3]%Z true) []; Began 0 0 (Close 0) []; Ended 0 0 (Close 0) [] ], [None; None], [false; true]).
Proof. vm_compute. reflexivity. Qed.

(** It meets the hypotheses of [easy_complete]. *)
Example talk_complete : exists st, run true init talk = Some st /\ no_failure talk /\ ~ In Stop talk /\ quiet st /\ happened talk <> [].
Proof.
  destruct (run true init talk) as [st|] eqn:H.
  - exists st. split; [reflexivity|]. repeat split.
    + intros s b Hin. cbn in Hin. intuition discriminate.
    + cbn. intuition discriminate.
    + intros f. assert (G : option_map (fun st => (map (fibers st) [0; 1], next_fiber st)) (run true init talk) = Some ([None; None], 2)) by (vm_compute; reflexivity).
      rewrite H in G. injection G as G0 G1 G2.
      destruct (inv_run true talk (fun _ => 0) init st (proj1 (inv_init _)) H) as (A & I & _).
      destruct (fibers st f) as [(a, x)|] eqn:F; [|reflexivity]. destruct (v_fib _ _ I _ _ _ F) as (L & _). rewrite G2 in L.
      destruct f as [|[|f]]; [congruence|congruence|lia].
    + discriminate.
  - exfalso. assert (G : option_map next_fiber (run true init talk) = Some 2) by (vm_compute; reflexivity). rewrite H in G. discriminate.
Qed.

(** A server that has been stopped. *)
Example stop_runs : option_map (fun st => (expired st, delivered 0 (log st), occurred 0 (pushed st)))
  (run true init [Accept 0; Push 0 Open; Push 0 (Message 7); Pop 0; Stop; Return 0 0]) = Some (true, [Open], [Open; Message 7]).
Proof. vm_compute. reflexivity. Qed.

Print Assumptions easy_order.
Print Assumptions easy_complete.
Print Assumptions easy_progress.
Print Assumptions easy_close_last.
Print Assumptions easy_exclusive_partial.
Print Assumptions easy_stream_partial.
Print Assumptions easy_careful.
Print Assumptions easy_exclusive_refuted.
Print Assumptions easy_dangling_refuted.
Print Assumptions easy_not_dangling.
Print Assumptions easy_stopped.

(** An event is pending, and there is a fiber that takes it. *)
Example easy_progress_case : exists st q, run true init [Accept 0; Push 0 Open; Push 0 (Data [1%Z] false); Pop 0; Return 0 0] = Some st
  /\ table st 0 = Some q /\ expired st = false /\ occurred (socket q) (pushed st) <> delivered (socket q) (log st).
Proof. eexists. eexists. split; [vm_compute; reflexivity|]. split; [vm_compute; reflexivity|]. split; [reflexivity|]. vm_compute. discriminate. Qed.
