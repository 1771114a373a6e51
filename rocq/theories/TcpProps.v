(** Stream sockets.

    C29: sends are transmitted in order.  C30: graceful shutdown.  C31: received
    data. *)
From Coq Require Import ZArith List Lia Bool Permutation.
From Verif Require Import TcpModel TcpSpec TcpProofs.
Import ListNotations.

(** * C29 *)

(** While the connection is up, what the system has taken, followed by what is
    queued, is all that was accepted, in order. *)
Theorem tcp_order : forall es s, run init es = Some s -> state s <> Closed -> sent s ++ wq s = accepted s.
Proof.
  intros es s H N. destruct (i_data _ (reach _ _ H)) as [[F A]|[X _]]; [|contradiction]. rewrite accepted_offered; auto.
Qed.
Print Assumptions tcp_order.

(** At all times, what the system has taken is a prefix of the data of all
    calls, in the order in which they were carried out; nothing is sent twice, or
    out of order, or left out. *)
Theorem tcp_prefix : forall es s, run init es = Some s -> prefix (sent s) (offered s).
Proof.
  intros es s H. destruct (i_data _ (reach _ _ H)) as [[F A]|[X A]]; [|auto]. exists (wq s). auto.
Qed.
Print Assumptions tcp_prefix.

(** A send that returns [false] has closed the connection. *)
Theorem tcp_false_closed : forall es s d, run init es = Some s -> In (d, false) (log s) -> state s = Closed.
Proof.
  intros es s d H I. destruct (i_data _ (reach _ _ H)) as [[F A]|[X A]]; [|auto]. unfold allok in F. rewrite Forall_forall in F.
  specialize (F _ I). discriminate.
Qed.
Print Assumptions tcp_false_closed.

Lemma remove_at_perm (A : Type) (l : list A) k x : nth_error l k = Some x -> Permutation l (x :: remove_at k l).
Proof.
  revert k. induction l as [|y l IH]; intros [|k] H; cbn in *; try discriminate.
  - injection H as ->. reflexivity.
  - rewrite (IH k H) at 1. apply perm_swap.
Qed.

(** Every call that passes the first test is carried out once, or still waits for
    its turn. *)
Theorem tcp_calls : forall es s, run init es = Some s -> Permutation (map fst (log s) ++ flight s) (begun init es).
Proof.
  assert (G : forall es s0 s, run s0 es = Some s -> Permutation (map fst (log s) ++ flight s) (map fst (log s0) ++ flight s0 ++ begun s0 es)).
  { induction es as [|e es IH]; cbn [run begun]; intros s0 s H.
    - injection H as <-. now rewrite app_nil_r.
    - destruct (step s0 e) as [s1|] eqn:E; [|discriminate]. rewrite (IH _ _ H). clear IH H.
      assert (Same : log s1 = log s0 -> flight s1 = flight s0 ->
        Permutation (map fst (log s1) ++ flight s1 ++ begun s1 es) (map fst (log s0) ++ flight s0 ++ begun s1 es)) by (intros -> ->; reflexivity).
      destruct e as [d|k outs| | | | | | |outs]; cbn [step] in E.
      + injection E as <-. unfold send_begin. destruct (Nat.leb_spec 2 (rank (state s0))) as [R|R].
        * replace (rank (state s0) <? 2)%nat with false; [reflexivity|]. symmetry. apply Nat.ltb_ge. auto.
        * replace (rank (state s0) <? 2)%nat with true; [|symmetry; now apply Nat.ltb_lt]. cbn [log flight]. now rewrite <- app_assoc.
      + unfold send_body in E. destruct (nth_error (flight s0) k) as [d|] eqn:N; [|discriminate]. apply remove_at_perm in N.
        assert (K : exists r, log s1 = log s0 ++ [(d, r)] /\ flight s1 = remove_at k (flight s0)).
        { destruct (wq s0), (state s0); try (destruct outs; [|discriminate]; injection E as <-; eexists; split; reflexivity).
          destruct (possible _ _); [|discriminate]. destruct (loop outs d []) as [[[rest taken] []]|]; try discriminate; injection E as <-; eexists; split; reflexivity. }
        destruct K as (r & -> & ->). rewrite map_app, <- app_assoc. cbn [map app fst]. apply Permutation_app_head.
        symmetry. apply (Permutation_app_tail (begun s1 es)) in N. exact N.
      + injection E as <-. unfold shut_begin. destruct (2 <=? rank (state s0)); reflexivity.
      + apply Same; unfold shut_body in E; destruct (shuts s0); try discriminate; destruct (wq s0); injection E as <-; reflexivity.
      + apply Same; injection E as <-; reflexivity.
      + apply Same; unfold quick_store in E; destruct (down s0); try discriminate; injection E as <-; reflexivity.
      + apply Same; unfold write_begin in E; destruct (writing s0); try discriminate; injection E as <-; reflexivity.
      + apply Same; unfold write_abort in E; destruct (writing s0); try discriminate; injection E as <-; reflexivity.
      + apply Same; unfold write_loop in E; destruct (_ && _) in E; try discriminate;
          destruct (loop outs (wq s0) []) as [[[rest taken] []]|]; try discriminate; injection E as <-; reflexivity. }
  intros es s H. apply (G es init s H).
Qed.
Print Assumptions tcp_calls.

(** Queued data do not get stuck: while the connection is up, a writability
    notification is owed or being processed. *)
Theorem tcp_no_stall : forall es s, run init es = Some s -> wq s <> [] -> state s <> Closed -> armed s = true \/ writing s = true.
Proof. intros es s H. apply (i_armed _ (reach _ _ H)). Qed.
Print Assumptions tcp_no_stall.

(** And a notification that finds the system able to take everything sends it all. *)
Theorem tcp_drains : forall es s, run init es = Some s -> state s <> Closed -> down s = false -> writing s = false ->
  exists s', run s [WriteBegin; WriteLoop (match wq s with [] => [] | _ => [Wrote (length (wq s))] end)] = Some s'
    /\ wq s' = [] /\ sent s' = accepted s /\ (state s = Closing -> state s' = Closed).
Proof.
  intros es s H N D W. pose proof (tcp_order _ _ H N) as O. cbn [run step]. unfold write_begin. rewrite W. cbn [run step].
  unfold write_loop. cbn [writing down wq sent state]. rewrite D. cbn [andb possible].
  assert (L : loop (match wq s with [] => [] | _ => [Wrote (length (wq s))] end) (wq s) [] = Some ([], wq s, Drained)).
  { destruct (wq s) as [|b q]; [reflexivity|]. cbn [loop]. rewrite Nat.leb_refl, skipn_all, firstn_all. reflexivity. }
  rewrite L. eexists. split; [reflexivity|]. cbn [wq sent state]. split; [auto|]. split; [auto|]. intros ->. reflexivity.
Qed.
Print Assumptions tcp_drains.

(** * C30 *)

(** The state of a connection only moves forward. *)
Theorem tcp_forward : forall es s es' s', run init es = Some s -> run s es' = Some s' -> (rank (state s) <= rank (state s'))%nat.
Proof.
  intros es s es' s' _. revert s. induction es' as [|e es' IH]; cbn [run]; intros s H; [injection H as <-; auto|].
  destruct (step s e) as [s1|] eqn:E; [|discriminate]. specialize (IH _ H). enough (rank (state s) <= rank (state s1))%nat by lia.
  clear H IH. destruct e as [d|k outs| | | | | | |outs]; cbn [step] in E.
  - injection E as <-. unfold send_begin. destruct (2 <=? rank (state s)); auto.
  - unfold send_body in E. destruct (nth_error (flight s) k); [|discriminate].
    destruct (wq s), (state s) eqn:X; try (destruct outs; [|discriminate]; injection E as <-; reflexivity).
    destruct (possible _ _); [|discriminate]. destruct (loop outs l []) as [[[rest taken] []]|]; try discriminate; injection E as <-; cbn; lia.
  - injection E as <-. unfold shut_begin. destruct (2 <=? rank (state s)); auto.
  - unfold shut_body in E. destruct (shuts s); [discriminate|]. destruct (wq s); injection E as <-; cbn; destruct (state s); cbn; lia.
  - injection E as <-. reflexivity.
  - unfold quick_store in E. destruct (down s); [|discriminate]. injection E as <-. cbn. destruct (state s); cbn; lia.
  - unfold write_begin in E. destruct (writing s); [discriminate|]. injection E as <-. cbn. destruct (state s); cbn; lia.
  - unfold write_abort in E. destruct (writing s); [|discriminate]. injection E as <-. cbn. destruct (state s); cbn; lia.
  - unfold write_loop in E. destruct (_ && _) in E; [|discriminate].
    destruct (loop outs (wq s) []) as [[[rest taken] []]|]; try discriminate; injection E as <-; cbn; destruct (state s); cbn; lia.
Qed.
Print Assumptions tcp_forward.

(** Calls of [tcp_send] and [tcp_shut_down] which begin after a shutdown request
    are refused, and have no effect. *)
Theorem tcp_refused : forall es s es' s' d, run init es = Some s -> state s = Closing \/ state s = Closed ->
  run s es' = Some s' -> step s' (SendBegin d) = Some s' /\ step s' ShutBegin = Some s'.
Proof.
  intros es s es' s' d H C R. pose proof (tcp_forward _ _ _ _ H R) as F. cbn [step]. unfold send_begin, shut_begin.
  replace (2 <=? rank (state s')) with true; [auto|]. symmetry. apply Nat.leb_le. destruct C as [E|E]; rewrite E in F; cbn in F; lia.
Qed.
Print Assumptions tcp_refused.

(** What [tcp_shut_down] does, while the connection is up: if there is nothing to
    send, it closes the connection, and all that was accepted has been sent;
    otherwise the connection is marked. *)
Theorem tcp_shut : forall es s s', run init es = Some s -> state s <> Closed -> step s ShutBody = Some s' ->
  (state s' = Closed /\ sent s' = accepted s' /\ wq s' = [] /\ wq s = []) \/ (state s' = Closing /\ wq s' <> [] /\ sent s' = sent s).
Proof.
  intros es s s' H N S. pose proof (tcp_order _ _ H N) as O. cbn [step] in S. unfold shut_body in S.
  destruct (shuts s); [discriminate|]. destruct (wq s) as [|b q] eqn:Q; injection S as <-; cbn [state sent wq].
  - left. rewrite app_nil_r in O. auto.
  - right. split; [destruct (state s); auto; congruence|]. split; [discriminate|auto].
Qed.
Print Assumptions tcp_shut.

(** After a graceful shutdown request, the connection is closed once all accepted
    data have been written, and not before, unless it is cut off: by an error from
    the system, a call of [quick_shut_down], or an exception of the callback. *)
Theorem tcp_flush : forall es s e s', run init es = Some s -> state s = Closing -> step s e = Some s' -> state s' = Closed ->
  (wq s' = [] /\ sent s' = accepted s' /\ down s' = true)
  \/ e = QuickStore \/ e = WriteAbort \/ (exists outs, e = WriteLoop outs /\ In Error outs).
Proof.
  intros es s e s' H C S X. pose proof (reach _ _ H) as I. assert (O : sent s ++ wq s = accepted s) by (apply (tcp_order es); congruence).
  pose proof (i_closing _ I C) as Q.
  destruct e as [d|k outs| | | | | | |outs]; cbn [step] in S; auto.
  - injection S as <-. unfold send_begin in X. rewrite C in X. cbn in X. congruence.
  - unfold send_body in S. destruct (nth_error (flight s) k); [|discriminate]. rewrite C in S.
    destruct (wq s); [congruence|]. destruct outs; [|discriminate]. injection S as <-. discriminate.
  - injection S as <-. unfold shut_begin in X. rewrite C in X. cbn in X. congruence.
  - unfold shut_body in S. destruct (shuts s); [discriminate|]. destruct (wq s); [congruence|]. injection S as <-. rewrite C in X. discriminate.
  - injection S as <-. cbn in X. congruence.
  - unfold write_begin in S. destruct (writing s); [discriminate|]. injection S as <-. rewrite C in X. discriminate.
  - unfold write_loop in S. destruct (_ && _) in S; [|discriminate]. destruct (loop outs (wq s) []) as [[[rest taken] o]|] eqn:L; [|discriminate].
    destruct (loop_spec _ _ _ _ _ _ L) as [E K]. cbn [app] in E. destruct o; injection S as <-.
    + left. destruct K as [-> _]. rewrite app_nil_r in E. subst taken. cbn [wq sent down]. rewrite C, orb_true_r. auto.
    + cbn in X. congruence.
    + right. right. right. exists outs. tauto.
Qed.
Print Assumptions tcp_flush.

(** Once closed, nothing more is sent. *)
Theorem tcp_closed_silent : forall es s es' s', run init es = Some s -> state s = Closed -> run s es' = Some s' -> sent s' = sent s.
Proof.
  intros es s es' s' H C. pose proof (reach _ _ H) as I. clear H. revert s I C. induction es' as [|e es' IH]; cbn [run]; intros s I C H; [injection H as <-; auto|].
  destruct (step s e) as [s1|] eqn:E; [|discriminate]. pose proof (inv_step _ _ _ I E) as I1. pose proof (i_closed _ I C) as D.
  assert (state s1 = Closed /\ sent s1 = sent s) as [C1 S1].
  { destruct e as [d|k outs| | | | | | |outs]; cbn [step] in E.
    - injection E as <-. unfold send_begin. destruct (2 <=? rank (state s)); auto.
    - unfold send_body in E. destruct (nth_error (flight s) k); [|discriminate]. rewrite C in E.
      destruct (wq s); (destruct outs; [|discriminate]); injection E as <-; auto.
    - injection E as <-. unfold shut_begin. destruct (2 <=? rank (state s)); auto.
    - unfold shut_body in E. destruct (shuts s); [discriminate|]. destruct (wq s); injection E as <-; rewrite ?C; auto.
    - injection E as <-. auto.
    - unfold quick_store in E. destruct (down s); [|discriminate]. injection E as <-. auto.
    - unfold write_begin in E. destruct (writing s); [discriminate|]. injection E as <-. rewrite C. auto.
    - unfold write_abort in E. destruct (writing s); [|discriminate]. injection E as <-. auto.
    - unfold write_loop in E. rewrite D in E. destruct (writing s && possible true outs) eqn:P; [|discriminate]. apply andb_true_iff in P as [_ P].
      destruct (loop outs (wq s) []) as [[[rest taken] o]|] eqn:L; [|discriminate]. destruct (loop_down _ _ _ _ _ _ P L) as [-> _].
      destruct o; injection E as <-; cbn [state sent]; rewrite ?C, app_nil_r; auto. }
  rewrite <- S1. auto.
Qed.
Print Assumptions tcp_closed_silent.

(** FINDING: a call of [tcp_send] that has passed the first test when another
    thread shuts the connection down still returns [true], although its data can
    never be sent; no error is needed for this. *)
Theorem tcp_late_send_refuted : exists es s d, run init es = Some s /\ In (d, true) (log s) /\ d <> []
  /\ state s = Closed /\ sent s = [] /\ (forall es' s', run s es' = Some s' -> sent s' = [])
  /\ (forall k outs, In (SendBody k outs) es -> ~ In Error outs).
Proof.
  eexists [WriteBegin; WriteLoop []; SendBegin [1%Z]; ShutBegin; ShutBody; SendBody 0 []], _, [1%Z].
  split; [reflexivity|]. split; [now left|]. split; [discriminate|]. split; [reflexivity|]. split; [reflexivity|]. split.
  - intros es' s' R.
    apply (tcp_closed_silent [WriteBegin; WriteLoop []; SendBegin [1%Z]; ShutBegin; ShutBody; SendBody 0 []] _ es' s' eq_refl eq_refl R).
  - cbn. intros k outs K. repeat (destruct K as [K|K]; [try discriminate; injection K as _ <-; auto|]). contradiction.
Qed.
Print Assumptions tcp_late_send_refuted.

(** A connection with sends before and after it is established, partial writes,
    and a graceful shutdown. *)
Example tcp_sample :
  let es := [SendBegin [1; 2; 3]; SendBody 0 []; WriteBegin; SendBegin [4]; SendBody 0 []; WriteLoop [Wrote 2; Again];
             SendBegin [5; 6]; SendBody 0 []; WriteBegin; WriteLoop [Wrote 4]; SendBegin [7; 8]; SendBody 0 [Wrote 1; Again];
             ShutBegin; ShutBody]%Z in
  exists s, run init es = Some s /\ state s = Closing /\ sent s = [1; 2; 3; 4; 5; 6; 7]%Z /\ wq s = [8]%Z /\ armed s = true
    /\ exists s', run s [SendBegin [9]%Z; WriteBegin; WriteLoop [Again]; WriteBegin; WriteLoop [Wrote 1]] = Some s'
       /\ state s' = Closed /\ sent s' = [1; 2; 3; 4; 5; 6; 7; 8]%Z /\ flight s' = [].
Proof. eexists. split; [vm_compute; reflexivity|]. do 4 (split; [reflexivity|]). eexists. split; [vm_compute; reflexivity|]. auto. Qed.

(** * C31 *)

Section Receive.
  Context {U : Type}.
  Variable cb : U -> list Z -> bool -> option (U * list Z).

  Lemma readable_seen rds : forall q u seen q' u' seen' r, readable cb rds q u seen = Some (q', u', seen', r) ->
    exists l, seen' = seen ++ l /\ concat (map fst l) = concat (chunks rds).
  Proof.
    induction rds as [|x rds IH]; cbn [readable]; intros q u seen q' u' seen' r H; [discriminate|]. destruct x as [c| | |].
    - cbn [app] in H. destruct (cb u c false) as [[u1 q1]|].
      + destruct (IH _ _ _ _ _ _ _ H) as (l & -> & E). exists ((c, false) :: l). rewrite <- app_assoc. split; [reflexivity|].
        cbn. now rewrite E.
      + destruct rds; [|discriminate]. injection H as <- <- <- <-. eexists. split; [reflexivity|]. reflexivity.
    - destruct rds; [|discriminate]. destruct (cb u [] true) as [[u1 q1]|]; injection H as <- <- <- <-; eexists; (split; [reflexivity|]); reflexivity.
    - destruct rds; [|discriminate]. injection H as <- <- <- <-. exists []. now rewrite app_nil_r.
    - destruct rds; [|discriminate]. injection H as <- <- <- <-. exists []. now rewrite app_nil_r.
  Qed.

  (** The callback sees every received byte, once and in order. *)
  Theorem tcp_received : forall calls u q' u' seen r, receive cb calls [] u [] = Some (q', u', seen, r) ->
    concat (map fst seen) = concat (chunks (concat calls)).
  Proof.
    assert (G : forall calls q u seen q' u' seen' r, receive cb calls q u seen = Some (q', u', seen', r) ->
      concat (map fst seen') = concat (map fst seen) ++ concat (chunks (concat calls))).
    { induction calls as [|c calls IH]; cbn [receive concat]; intros q u seen q' u' seen' r H.
      - injection H as <- <- <- <-. cbn. now rewrite app_nil_r.
      - destruct (readable cb c q u seen) as [[[[q1 u1] seen1] r1]|] eqn:R; [|discriminate].
        destruct (readable_seen _ _ _ _ _ _ _ _ R) as (l & -> & E).
        assert (K : concat (map fst (seen ++ l)) = concat (map fst seen) ++ concat (chunks c)) by (rewrite map_app, concat_app, E; reflexivity).
        assert (Ch : concat (chunks (c ++ concat calls)) = concat (chunks c) ++ concat (chunks (concat calls))).
        { unfold chunks. rewrite flat_map_app. apply concat_app. }
        destruct r1.
        + rewrite (IH _ _ _ _ _ _ _ H), K, Ch. now rewrite app_assoc.
        + destruct calls; [|discriminate]. injection H as <- <- <- <-. rewrite K, Ch. cbn. now rewrite app_nil_r. }
    intros calls u q' u' seen r H. apply (G _ _ _ _ _ _ _ _ H).
  Qed.

  (** If the callback always removes everything, it is given what the
      documentation promises.  Missing: callbacks which leave something. *)
  Theorem tcp_accumulate_partial : forall calls u q' u' seen r,
    (forall v d f, match cb v d f with Some (_, l) => l = [] | None => False end) ->
    receive cb calls [] u [] = Some (q', u', seen, r) ->
    filter (fun x => negb (snd x)) seen = accumulate cb (chunks (concat calls)) [] u.
  Proof.
    intros calls u q' u' seen r All.
    assert (R1 : forall rds q u seen q' u' seen' r, readable cb rds q u seen = Some (q', u', seen', r) ->
      exists l, seen' = seen ++ l /\ (r = Open -> forall more, filter (fun x => negb (snd x)) l ++ accumulate cb more [] u' = accumulate cb (chunks rds ++ more) [] u)
        /\ filter (fun x => negb (snd x)) l = accumulate cb (chunks rds) [] u).
    { induction rds as [|x rds IH]; cbn [readable]; intros q u0 seen0 q0 u0' seen' r0 H; [discriminate|]. destruct x as [c| | |].
      - cbn [app] in H. pose proof (All u0 c false) as A. destruct (cb u0 c false) as [[u1 q1]|] eqn:C; [subst q1|destruct A].
        destruct (IH _ _ _ _ _ _ _ H) as (l & -> & E1 & E2). exists ((c, false) :: l). rewrite <- app_assoc. split; [reflexivity|].
        change (chunks (Got c :: rds)) with (c :: chunks rds). cbn [app filter negb snd accumulate]. rewrite C. split; [intros O more; rewrite <- (E1 O more); reflexivity|].
        cbn [app]. now rewrite E2.
      - destruct rds; [|discriminate]. destruct (cb u0 [] true) as [[u1 q1]|]; injection H as <- <- <- <-;
          (eexists; split; [reflexivity|]; split; [discriminate|reflexivity]).
      - destruct rds; [|discriminate]. injection H as <- <- <- <-. exists []. rewrite app_nil_r. auto.
      - destruct rds; [|discriminate]. injection H as <- <- <- <-. exists []. rewrite app_nil_r. auto. }
    assert (G : forall cls q u seen q' u' seen' r, receive cb cls q u seen = Some (q', u', seen', r) ->
      filter (fun x => negb (snd x)) seen' = filter (fun x => negb (snd x)) seen ++ accumulate cb (chunks (concat cls)) [] u).
    { induction cls as [|c cs IH]; cbn [receive concat]; intros q u0 seen0 q0 u0' seen' r0 H.
      - injection H as <- <- <- <-. cbn. now rewrite app_nil_r.
      - destruct (readable cb c q u0 seen0) as [[[[q1 u1] seen1] r1]|] eqn:R; [|discriminate].
        destruct (R1 _ _ _ _ _ _ _ _ R) as (l & -> & E1 & E2).
        assert (Ch : chunks (c ++ concat cs) = chunks c ++ chunks (concat cs)) by apply flat_map_app.
        destruct r1.
        + rewrite (IH _ _ _ _ _ _ _ H), filter_app, <- app_assoc, Ch, (E1 eq_refl). reflexivity.
        + destruct cs; [|discriminate]. injection H as <- <- <- <-. rewrite filter_app, Ch. cbn. now rewrite app_nil_r, E2. }
    intros H. apply (G _ _ _ _ _ _ _ _ H).
  Qed.
End Receive.
Print Assumptions tcp_received.
Print Assumptions tcp_accumulate_partial.

(** FINDING: what the callback leaves in the queue is thrown away before the next
    read.  This callback waits until it has two bytes; the first of them is lost. *)
Theorem tcp_accumulate_refuted : exists (cb : unit -> list Z -> bool -> option (unit * list Z)) calls q' seen r,
  (forall d f, exists rest, cb tt d f = Some (tt, rest) /\ exists used, d = used ++ rest)
  /\ receive cb calls [] tt [] = Some (q', tt, seen, r)
  /\ filter (fun x => negb (snd x)) seen <> accumulate cb (chunks (concat calls)) [] tt.
Proof.
  exists (fun _ d _ => Some (tt, if (2 <=? length d)%nat then skipn 2 d else d)), [[Got [1%Z]; RAgain]; [Got [2%Z]; RAgain]].
  eexists _, _, _. split; [|split; [reflexivity|discriminate]].
  intros d _. eexists. split; [reflexivity|]. destruct (2 <=? length d)%nat; [exists (firstn 2 d); now rewrite firstn_skipn|exists []; reflexivity].
Qed.
Print Assumptions tcp_accumulate_refuted.

Example tcp_read_sample :
  let cb := fun (n : nat) (d : list Z) (eof : bool) => Some ((n + length d)%nat, @nil Z) in
  receive cb [[Got [1; 2]%Z; Got [3]%Z; RAgain]; [Got [4]%Z; Eof]] [] 0%nat [] =
    Some ([], 4%nat, [([1; 2]%Z, false); ([3]%Z, false); ([4]%Z, false); ([], true)], Shut)
  /\ forall v d f, match cb v d f with Some (_, l) => l = [] | None => False end.
Proof. split; reflexivity. Qed.

(** A connection that nobody shuts down, on which no call of the system fails and none of whose callbacks throws, stays open, and
    accepts all that is sent. *)
Theorem tcp_stays_open : forall es s, run init es = Some s ->
  ~ In ShutBegin es -> ~ In QuickDown es -> ~ In WriteAbort es ->
  (forall k outs, In (SendBody k outs) es -> ~ In Error outs) -> (forall outs, In (WriteLoop outs) es -> ~ In Error outs) ->
  (state s = Pending \/ state s = Established) /\ down s = false /\ (forall d, ~ In (d, false) (log s)) /\ sent s ++ wq s = accepted s.
Proof.
  assert (LF : forall outs w t r k, loop outs w t = Some (r, k, Failed) -> In Error outs).
  { induction outs as [|o outs IH]; intros w t r k E; destruct w; cbn [loop] in E; try discriminate.
    destruct o; [|destruct outs; discriminate|now left]. destruct (_ <=? _)%nat; [|discriminate]. right. eapply IH, E. }
  assert (G : forall es s0 s, run s0 es = Some s ->
    (state s0 = Pending \/ state s0 = Established) /\ down s0 = false /\ shuts s0 = 0%nat /\ (forall d, ~ In (d, false) (log s0)) ->
    ~ In ShutBegin es -> ~ In QuickDown es -> ~ In WriteAbort es ->
    (forall k outs, In (SendBody k outs) es -> ~ In Error outs) -> (forall outs, In (WriteLoop outs) es -> ~ In Error outs) ->
    (state s = Pending \/ state s = Established) /\ down s = false /\ (forall d, ~ In (d, false) (log s))).
  { induction es as [|e es IH]; intros s0 s R (St & D & Sh & Lg) N1 N2 N3 N4 N5; cbn [run] in R.
    { injection R as <-. auto. }
    destruct (step s0 e) as [s1|] eqn:E; [|discriminate].
    apply (IH s1 s R); try solve [intros C; first [apply N1; now right|apply N2; now right|apply N3; now right]];
      try solve [intros; first [eapply N4; right; eassumption|eapply N5; right; eassumption]].
    destruct e as [d|k outs| | | | | | |outs]; cbn [step] in E.
    - injection E as <-. unfold send_begin. destruct (_ <=? _)%nat; cbn [state down shuts log]; auto.
    - unfold send_body in E. specialize (N4 k outs (or_introl eq_refl)).
      destruct (nth_error (flight s0) k) as [d|]; [|discriminate]. cbv zeta in E.
      assert (LG : forall d', ~ In (d', false) (log s0 ++ [(d, true)])).
      { intros d' C. apply in_app_iff in C. destruct C as [C|[C|[]]]; [now apply Lg in C|discriminate]. }
      assert (Q : forall x q, (x = Pending \/ x = Established) ->
        match outs with [] => Some (mkS x q (down s0) (sent s0) (remove_at k (flight s0)) (shuts s0) (writing s0) (armed s0) (log s0 ++ [(d, true)])) | _ => None end = Some s1 ->
        (state s1 = Pending \/ state s1 = Established) /\ down s1 = false /\ shuts s1 = 0%nat /\ (forall d, ~ In (d, false) (log s1))).
      { intros x q X H. destruct outs; [|discriminate]. injection H as <-. cbn [state down shuts log]. auto. }
      destruct (wq s0) as [|b q]; [|destruct St as [St|St]; rewrite St in E; eapply Q; try exact E; auto].
      destruct St as [St|St]; rewrite St in E; [eapply Q; try exact E; auto|].
      destruct (possible _ _); [|discriminate]. destruct (loop outs d []) as [[[r t] [| |]]|] eqn:L; try discriminate.
      + injection E as <-. cbn [state down shuts log]. auto.
      + injection E as <-. cbn [state down shuts log]. auto.
      + exfalso. apply N4. eapply LF, L.
    - exfalso. apply N1. now left.
    - unfold shut_body in E. rewrite Sh in E. discriminate.
    - exfalso. apply N2. now left.
    - unfold quick_store in E. rewrite D in E. discriminate.
    - unfold write_begin in E. destruct (writing s0); [discriminate|]. injection E as <-. cbn [state down shuts log].
      split; [|auto]. unfold test_change. destruct St as [-> | ->]; cbn; auto.
    - exfalso. apply N3. now left.
    - unfold write_loop in E. specialize (N5 outs (or_introl eq_refl)).
      destruct (_ && _); [|discriminate]. destruct (loop outs (wq s0) []) as [[[r t] [| |]]|] eqn:L; try discriminate.
      + injection E as <-. cbn [state down shuts log]. rewrite D. unfold test_change. destruct St as [-> | ->]; cbn; auto.
      + injection E as <-. cbn [state down shuts log]. auto.
      + exfalso. apply N5. eapply LF, L. }
  intros es s R N1 N2 N3 N4 N5. destruct (G es init s R) as (A & B & C); auto.
  split; [exact A|]. split; [exact B|]. split; [exact C|]. apply (tcp_order es s R). destruct A as [-> | ->]; discriminate.
Qed.
Print Assumptions tcp_stays_open.

Example tcp_stays_open_case : exists s,
  run init [SendBegin [1; 2; 3]%Z; SendBody 0 []; WriteBegin; WriteLoop [Wrote 2; Again]; SendBegin [4]%Z; SendBody 0 []; WriteBegin; WriteLoop [Wrote 1; Wrote 1]] = Some s /\
  state s = Established /\ sent s = [1; 2; 3; 4]%Z.
Proof. eexists. split; [vm_compute; reflexivity|]. split; reflexivity. Qed.
