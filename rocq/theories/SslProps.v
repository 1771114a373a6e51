(** TLS sockets.

    C85: writes are repeated as the TLS library requires, bytes are handed to it in
    order and once, and the closing alert comes last.  C86: calls that have to wait
    are repeated.  C87: connections do not affect each other. *)
From Coq Require Import ZArith List Lia Bool.
From Verif Require Import TcpModel SslModel SslSpec SslProofs.
Import ListNotations.
Open Scope Z_scope.

(** A client that connects, sends [1; 2; 3] of which the library takes one byte,
    sends [4], shuts down, and is called when the socket is writable, twice. *)
Definition story : list event :=
  [WriteBegin; WriteLoop []; SendBegin [1; 2; 3]; SendBody 0 [Wrote 1; Again]; SendBegin [4]; SendBody 0 [];
   ShutBegin; ShutBody; WriteBegin; WriteLoop [Wrote 1; Again]; ReadOne RGot false; ReadOne RWant_read false;
   WriteBegin; WriteLoop [Wrote 2]].

(** ** C85 *)

(** OpenSSL: when [SSL_write_ex] has to be repeated, it has to be passed the same
    bytes, and may be passed more after them.  It is: whatever the calls of users
    and the network thread, and whatever the library returned before. *)
Theorem ssl_write_repeats : forall es s a b1 m b2 o c, run init es = Some s ->
  trace s = a ++ Write b1 Again :: m ++ Write b2 o :: c -> existsb is_write m = false ->
  prefix b1 b2.
Proof. intros es s a b1 m b2 o c H T N. exact (rule_spec _ _ _ _ _ _ _ _ (i_rule _ (reach _ _ H)) T N). Qed.
Print Assumptions ssl_write_repeats.
Example ssl_write_repeats_case : exists s, run init story = Some s
  /\ trace s = [Write [1; 2; 3] (Wrote 1); Write [2; 3] Again; Ret [1; 2; 3] true; Ret [4] true;
                Write [2; 3; 4] (Wrote 1); Write [3; 4] Again; Read RGot; Read RWant_read; Write [3; 4] (Wrote 2); Notify].
Proof. eexists. vm_compute. split; reflexivity. Qed.

(** The library is never asked to write nothing, for which its behaviour is not
    defined. *)
Theorem ssl_write_nonempty : forall es s b o, run init es = Some s -> In (Write b o) (trace s) -> b <> [].
Proof. intros es s b o H I. exact (rule_nonempty _ _ _ _ (i_rule _ (reach _ _ H)) I). Qed.
Print Assumptions ssl_write_nonempty.
Example ssl_write_nonempty_case : exists s, run init [WriteBegin; SendBegin []; SendBody 0 []; WriteLoop []] = Some s /\ trace s = [Ret [] true].
Proof. eexists. vm_compute. split; reflexivity. Qed.

(** The bytes that the library has taken are a beginning of the data of the calls of
    [ssl_send], in order; none is taken twice or left out.  Unless the connection has
    failed, the rest is in the queue. *)
Theorem ssl_in_order : forall es s, run init es = Some s ->
  prefix (taken (trace s)) (offered (trace s))
  /\ (existsb fatal (trace s) = false -> taken (trace s) ++ wq s = accepted (trace s)).
Proof.
  intros es s H. pose proof (reach _ _ H) as I. split; [exact (i_prefix _ I)|].
  intro F. destruct (i_all _ I F). congruence.
Qed.
Print Assumptions ssl_in_order.
Example ssl_in_order_case : exists s, run init (firstn 10 story) = Some s
  /\ taken (trace s) = [1; 2] /\ wq s = [3; 4] /\ accepted (trace s) = [1; 2; 3; 4] /\ existsb fatal (trace s) = false.
Proof. eexists. vm_compute. repeat split. Qed.

(** When [SSL_shutdown] sends the closing alert, everything that [ssl_send] has
    accepted has been taken by the library, unless the connection has failed; and
    nothing is taken afterwards. *)
Theorem ssl_notify_last : forall es s a b, run init es = Some s -> trace s = a ++ Notify :: b ->
  taken b = [] /\ (existsb fatal a = false -> taken a = accepted a).
Proof. intros es s a b H T. exact (i_last _ (reach _ _ H) _ _ T). Qed.
Print Assumptions ssl_notify_last.
Example ssl_notify_last_case : exists s a, run init (story ++ [WriteBegin; WriteLoop []]) = Some s
  /\ trace s = a ++ [Notify] /\ taken a = [1; 2; 3; 4] /\ accepted a = [1; 2; 3; 4] /\ state s = Closed.
Proof.
  eexists. exists [Write [1; 2; 3] (Wrote 1); Write [2; 3] Again; Ret [1; 2; 3] true; Ret [4] true;
                Write [2; 3; 4] (Wrote 1); Write [3; 4] Again; Read RGot; Read RWant_read; Write [3; 4] (Wrote 2)].
  vm_compute. repeat split.
Qed.

(** OpenSSL: [SSL_shutdown] must not be called after a fatal error.  It can be: the
    connection fails after [ssl_shut_down] has tested the state and before it locks
    the socket. *)
Theorem ssl_notify_after_fatal_refuted : exists es s a b c, run init es = Some s
  /\ trace s = a ++ Read RFatal :: b ++ Notify :: c.
Proof.
  exists [WriteBegin; WriteLoop []; ShutBegin; ReadOne RFatal false; ShutBody]. eexists. exists [], [], [].
  split; vm_compute; reflexivity.
Qed.
Print Assumptions ssl_notify_after_fatal_refuted.

(** It is not, if no call of [ssl_shut_down] overlaps with anything else.  (Missing:
    calls that overlap; see above.) *)
Theorem ssl_notify_after_fatal_partial : forall es s a b, undisturbed es = true -> run init es = Some s ->
  trace s = a ++ Notify :: b -> existsb fatal a = false.
Proof.
  intros es s a b U H T. refine (calm_run (length es) es init s (le_n _) inv_init _ eq_refl U H a b T).
  intros x y E. destruct x; discriminate.
Qed.
Print Assumptions ssl_notify_after_fatal_partial.
Example ssl_notify_after_fatal_case : undisturbed story = true
  /\ undisturbed [WriteBegin; WriteLoop []; ReadOne RFatal false; ShutBegin] = false
  /\ (exists s, run init (story ++ [ReadOne RFatal false]) = Some s /\ last (trace s) Notify = Read RFatal).
Proof. repeat split. eexists. vm_compute. split; reflexivity. Qed.

(** ** C86 *)

(** A write that has to wait is repeated the next time that the network thread finds
    the socket writable. *)
Theorem ssl_write_resumed : forall es s a b c outs s', run init es = Some s ->
  trace s = a ++ Write b Again :: c -> existsb is_write c = false ->
  step s (WriteLoop outs) = Some s' ->
  exists b' o l, trace s' = trace s ++ Write b' o :: l /\ prefix b b'.
Proof.
  intros es s a b c outs s' H T N S. pose proof (reach _ _ H) as I. pose proof (i_pend _ I) as P.
  rewrite (pend_spec _ _ _ _ T N) in P. destruct P as [NE PR].
  assert (Q : wq s <> []) by (destruct PR as [d E]; rewrite E; destruct b; [tauto|discriminate]).
  cbn [step] in S. unfold write_loop in S. destruct (writing s && possible (down s) outs); [|discriminate].
  destruct (loop outs (wq s)) as [[[rest l] o]|] eqn:L; [|discriminate].
  destruct (f_first _ _ _ _ (loop_ok _ _ _ _ _ L) Q) as (o1 & l1 & ->).
  destruct o; [destruct (rank (state s) =? 2)%nat|..]; injection S as <-; cbn [trace]; eexists _, _, _; (split; [reflexivity|exact PR]).
Qed.
Print Assumptions ssl_write_resumed.
Example ssl_write_resumed_case : exists s s', run init (firstn 9 story) = Some s
  /\ trace s = [Write [1; 2; 3] (Wrote 1); Write [2; 3] Again; Ret [1; 2; 3] true; Ret [4] true]
  /\ step s (WriteLoop [Wrote 3]) = Some s' /\ trace s' = trace s ++ [Write [2; 3; 4] (Wrote 3); Notify].
Proof. eexists. eexists. vm_compute. repeat split. Qed.

Definition notification (e : event) : bool := match e with WriteBegin | WriteLoop _ => true | _ => false end.

Lemma nothing_queued : forall es s s', wq s = [] -> state s = Established -> forallb notification es = true ->
  run s es = Some s' -> trace s' = trace s /\ wq s' = [] /\ state s' = Established.
Proof.
  induction es as [|e es IH]; intros s s' Q S N H; cbn [run] in H; [injection H as <-; auto|].
  cbn [forallb] in N. apply andb_true_iff in N as [N1 N2]. destruct (step s e) as [s1|] eqn:E; [|discriminate].
  assert (K : trace s1 = trace s /\ wq s1 = [] /\ state s1 = Established).
  { destruct e; try discriminate; cbn [step] in E.
    - unfold write_begin in E. destruct (writing s); [discriminate|]. injection E as <-. cbn. rewrite S. auto.
    - unfold write_loop in E. rewrite Q, S in E. destruct (writing s && possible (down s) outs); [|discriminate].
      destruct outs; [|discriminate]. cbn in E. injection E as <-. cbn. rewrite app_nil_r. auto. }
  destruct K as (K1 & K2 & K3). destruct (IH s1 s' K2 K3 N2 H) as (A & B & C). rewrite A, K1. auto.
Qed.

(** A read that waits for the socket to be writable, as when a handshake sends more
    than the system can buffer, is not repeated when it is: however often the network
    thread is told that the socket is writable, it does not call the library. *)
Theorem ssl_read_resumed_refuted : exists es s a, run init es = Some s
  /\ trace s = a ++ [Read RWant_write] /\ state s = Established /\ down s = false
  /\ (forall n, exists s', run s (concat (repeat [WriteBegin; WriteLoop []] n)) = Some s')
  /\ (forall es' s', forallb notification es' = true -> run s es' = Some s' -> trace s' = trace s).
Proof.
  exists [WriteBegin; WriteLoop []; ReadOne RWant_write false]. eexists. exists [].
  split; [vm_compute; reflexivity|]. do 3 (split; [reflexivity|]). split.
  - induction n as [|n [s' IH]]; [eexists; reflexivity|]. exists s'. exact IH.
  - intros es' s' N H. apply (nothing_queued es' _ s'); auto.
Qed.
Print Assumptions ssl_read_resumed_refuted.

(** A client that is connected and has nothing to send does not begin the handshake,
    even though the user has been told that it is connected. *)
Theorem ssl_client_begins_refuted : exists es s, run init es = Some s
  /\ In WriteBegin es /\ state s = Established /\ trace s = []
  /\ (forall es' s', forallb notification es' = true -> run s es' = Some s' -> trace s' = []).
Proof.
  exists [WriteBegin; WriteLoop []]. eexists. split; [vm_compute; reflexivity|].
  split; [now left|]. do 2 (split; [reflexivity|]). intros es' s' N H.
  apply nothing_queued in H as [-> _]; auto.
Qed.
Print Assumptions ssl_client_begins_refuted.

(** ** C87 *)

(** The library leaves errors in a queue that belongs to the thread, and an entry
    that was left makes the next call that has to wait look like a failure.  The peer
    of connection 1 closes it without the alert; connection 2, whose peer is sending
    and has not closed anything, is then reported to have ended, and is shut down.
    This is so with every level of logging. *)
Theorem ssl_isolated_refuted : forall debug, exists os w, acts debug new_world os = Some w
  /\ forallb (fun c => match what c with Progress _ | Waits => true | _ => false end) (reads_of 2 os) = true
  /\ (forall o, In o os -> ends 2 o = false)
  /\ seen (conns w 2) = [([7; 8], false); ([], true)] /\ shut (conns w 2) = true.
Proof.
  intro debug. exists [On_readable 1 [mkC Truncated false false]; On_readable 2 [mkC (Progress [7; 8]) false false; mkC Waits false false]].
  destruct debug; eexists; (split; [vm_compute; reflexivity|]); (split; [reflexivity|]);
    (split; [intros o [<-|[<-|[]]]; reflexivity|split; reflexivity]).
Qed.
Print Assumptions ssl_isolated_refuted.

(** So it is when the user shuts down a connection whose handshake is not over:
    another connection, which has something to send, is broken. *)
Theorem ssl_isolated_shut_refuted : forall debug, exists os w, acts debug new_world os = Some w
  /\ calls_of os = [mkC (Progress []) false false; mkC Waits false false]
  /\ (forall o, In o os -> ends 2 o = false) /\ shut (conns w 2) = true.
Proof.
  intro debug. exists [Shut_down 1 [Other]; On_writeable 2 [mkC (Progress []) false false; mkC Waits false false]].
  destruct debug; eexists; (split; [vm_compute; reflexivity|]); (split; [reflexivity|]);
    (split; [intros o [<-|[<-|[]]]; reflexivity|reflexivity]).
Qed.
Print Assumptions ssl_isolated_shut_refuted.

(** As long as no call leaves an error, every connection is given all the bytes and
    the end that are its own, and is shut down exactly if something that happened to it
    requires that.  (Missing: histories with errors; see above.) *)
Theorem ssl_isolated_partial : forall debug os w id, acts debug new_world os = Some w ->
  forallb quiet (calls_of os) = true -> shut_errors os = [] ->
  seen (conns w id) = due (reads_of id os) /\ shut (conns w id) = existsb (ends id) os.
Proof.
  intros debug os w id H Q S. destruct (acts_quiet debug os new_world w id eq_refl Q S H) as (_ & A & B). auto.
Qed.
Print Assumptions ssl_isolated_partial.
Definition three : list op :=
  [On_readable 1 [mkC (Progress [1]) true false; mkC Waits false false]; On_writeable 2 [mkC (Progress []) false false; mkC Waits true false];
   On_readable 2 [mkC (Progress [2]) false false; mkC Alert false false]; Shut_down 3 []; On_readable 1 [mkC (Progress [3; 4]) false true]].
Example ssl_isolated_case : exists w, acts false new_world three = Some w
  /\ seen (conns w 1) = [([1], false); ([3; 4], false)] /\ shut (conns w 1) = true
  /\ seen (conns w 2) = [([2], false); ([], true)] /\ shut (conns w 2) = true
  /\ forallb quiet (calls_of three) = true /\ shut_errors three = [].
Proof. eexists. vm_compute. repeat split. Qed.

(** In every history, errors or not, the bytes that a connection is given are those
    that the library has read from it, in order. *)
Theorem ssl_bytes_own : forall debug os w id, acts debug new_world os = Some w ->
  filter (fun x => negb (snd x)) (seen (conns w id)) = filter (fun x => negb (snd x)) (due (reads_of id os)).
Proof. intros debug os w id H. exact (acts_bytes debug os new_world w id H). Qed.
Print Assumptions ssl_bytes_own.
Example ssl_bytes_own_case : exists w, acts true new_world (On_readable 1 [mkC (Failure [Other; Other]) false false] :: three) = Some w
  /\ seen (conns w 1) = [([1], false); ([3; 4], false)].
Proof. eexists. vm_compute. repeat split. Qed.
