(** C69, C70: the callbacks of a connection, and throttling. *)
From Coq Require Import ZArith List Lia Bool.
From Verif Require Import TcpModel TcpSpec TcpProofs TcpProps NetModel NetSpec NetProofs.
Import ListNotations.

(** A history: the connection is established, the user sends from the callback more
    than the system takes, 5 bytes arrive, the peer ends, the connection is closed. *)
Definition on_out := mkEv false true false false.
Definition on_in := mkEv false false true false.
Definition on_hup := mkEv false true true true.
Definition story : list nstep :=
  [Arrive [1; 2; 3]%Z; Poll (mkEv false true true false); GoOut; User (SendBegin [7; 8; 9]%Z); GoConnected false; User (SendBody 0 [Wrote 1; Again]); GoWrite [Again];
   GoRecv (NGot [1; 2]%Z); Arrive [4; 5]%Z; GoStream false; GoRecv (NGot [3; 4; 5]%Z); GoStream false; GoRecv NAgain; GoHup; GoEnd 1;
   PeerFin; Poll on_out; GoOut; GoWrite [Wrote 2]; GoHup; GoEnd 1;
   Poll on_in; GoRecv NEof; GoStream false; GoHup; GoEnd 1].
Definition story_end : list nstep := [Poll on_hup; GoOut; GoWrite []; GoRecv NEof; GoStream true; GoHup; GoOver false; GoEnd 1].

Example story_told : exists n, nrun ninit (story ++ story_end) = Some n
  /\ told n = [Connected; Stream [1; 2]%Z false; Stream [3; 4; 5]%Z false; Stream [] true; Stream [] true; Over]
  /\ registered n = false /\ sent (sock n) = [7; 8; 9]%Z /\ pl n = Idle.
Proof. eexists. vm_compute. repeat split. Qed.

(** Whatever the network thread does with a socket is a history of the model of the
    socket alone, so the theorems about sending and closing hold here too. *)
Theorem net_refines : forall ss n, nrun ninit ss = Some n -> exists es, run init es = Some (sock n).
Proof. exact reach_tcp. Qed.
Print Assumptions net_refines.

(** The user is told of the connection at most once. *)
Theorem net_connected_once : forall ss n a b c, nrun ninit ss = Some n -> told n = a ++ Connected :: b ++ Connected :: c -> False.
Proof.
  intros ss n a b c H T. pose proof (v_once _ (nreach _ _ H)) as O. rewrite T in O.
  rewrite map_app, count_occ_app in O. cbn [map count_occ] in O. rewrite map_app, count_occ_app in O. cbn [map count_occ] in O.
  destruct (Bool.bool_dec true true); [lia|congruence].
Qed.
Print Assumptions net_connected_once.

(** The notification of closure is the last thing that the user is told. *)
Theorem net_over_last : forall ss n a b, nrun ninit ss = Some n -> told n = a ++ Over :: b -> b = [] /\ ~ In Over a.
Proof.
  intros ss n a b H T. pose proof (v_over _ (nreach _ _ H)) as O.
  assert (I : In Over (told n)) by (rewrite T; apply in_app_iff; right; now left).
  destruct (over_place n); [|contradiction]. destruct O as [(a' & E & N)|N]; [|contradiction]. rewrite T in E. clear - E N.
  destruct b as [|x b] using rev_ind.
  - apply app_inj_tail in E as [-> _]. auto.
  - exfalso. rewrite app_comm_cons, app_assoc in E. apply app_inj_tail in E as [E _]. apply N. rewrite <- E. apply in_app_iff. right. now left.
Qed.
Print Assumptions net_over_last.

(** When the system reports an error or a hang-up, then, unless memory is
    exhausted, at the end of the turn the user has been told of the closure and the
    socket is out of the set, whichever exceptions the callbacks have thrown. *)
Theorem net_over_told : forall ss e ss' n, nrun ninit (ss ++ Poll e :: ss') = Some n -> ev_err e = true \/ ev_hup e = true ->
  pl n = Idle -> ~ In (GoRecv NNoMemory) (ss ++ Poll e :: ss') ->
  registered n = false /\ (exists a, told n = a ++ [Over]) /\ state (sock n) = Closed.
Proof.
  intros ss e ss' n H E P NM. pose proof (over_told _ _ _ ninv_init H NM) as OT.
  assert (D : doomed n).
  { rewrite nrun_app in H. destruct (nrun ninit ss) as [n1|]; [|discriminate]. cbn [nrun nstep1] in H. destruct (poll n1 e) as [n2|] eqn:S; [|discriminate].
    apply (doomed_run _ _ _ H). now apply (poll_doomed n1 e). }
  unfold doomed in D. rewrite P in D. split; [auto|].
  assert (O : exists a, told n = a ++ [Over]) by (apply OT; [discriminate|]; unfold over_place; now rewrite P, D).
  split; [auto|]. destruct O as [a T].
  destruct (told_at _ _ _ _ _ _ H T (Nat.le_0_l _)) as (ss1 & s & ss2 & n1 & n2 & _ & _ & S & R & T1 & T2).
  pose proof (step_grow _ _ _ S) as G. assert (C : state (sock n2) = Closed).
  { inversion G; subst; try congruence; match goal with X : told n2 = _ |- _ => rewrite X in T2 end.
    - exfalso. rewrite <- (app_nil_r (told n1)) in T2 at 1. apply app_inv_head in T2. discriminate.
    - exfalso. rewrite <- (app_nil_r (told n1)) in T2 at 1. apply app_inv_head in T2. discriminate.
    - exfalso. rewrite <- (app_nil_r (told n1)) in T2 at 1. apply app_inv_head in T2. discriminate.
    - apply app_inv_head in T2. discriminate.
    - apply app_inv_head in T2. discriminate.
    - apply app_inv_head in T2. discriminate. }
  destruct (nrun_tcp _ _ _ R) as [es Q]. apply rank_run in Q. rewrite C in Q. destruct (state (sock n)); cbn in Q; auto; lia.
Qed.
Print Assumptions net_over_told.

(** The user is given exactly the bytes that have arrived, in order; what has not
    been given is still with the system. *)
Theorem net_bytes : forall ss n, nrun ninit ss = Some n -> delivered (told n) ++ unread n = arrived ss.
Proof. intros ss n H. rewrite (nrun_bytes _ _ _ H). reflexivity. Qed.
Print Assumptions net_bytes.
Example net_bytes_case : exists n, nrun ninit story = Some n /\ delivered (told n) = [1; 2; 3; 4; 5]%Z /\ arrived story = [1; 2; 3; 4; 5]%Z.
Proof. eexists. vm_compute. repeat split. Qed.

(** An end of the stream comes with no bytes and after all the bytes, if the peer
    has ended or this side has shut down; and when its callback has returned or
    thrown, the connection is closed. *)
Theorem net_eof : forall ss n a d b, nrun ninit ss = Some n -> told n = a ++ Stream d true :: b ->
  d = [] /\ delivered a = arrived ss /\ delivered b = []
  /\ (fin n = true \/ down (sock n) = true)
  /\ ((exists e, pl n = InStream e true) \/ state (sock n) = Closed).
Proof.
  intros ss n a d b H T.
  destruct (told_at _ _ _ _ _ _ H T (Nat.le_0_l _)) as (ss1 & s & ss2 & n1 & n2 & -> & R1 & S & R2 & T1 & T2).
  pose proof (step_grow _ _ _ S) as G.
  assert (NL : forall (l : list call) x, l = l ++ [x] -> False).
  { intros l x X. rewrite <- (app_nil_r l) in X at 1. apply app_inv_head in X. discriminate. }
  assert (Q : d = [] /\ unread n2 = [] /\ (fin n2 = true \/ down (sock n2) = true) /\ exists e, pl n2 = InStream e true).
  { inversion G; subst; match goal with X : told n2 = _ |- _ => rewrite X in T2 end; try (apply NL in T2; contradiction);
      apply app_inv_head in T2; try discriminate. injection T2 as <-. split; [auto|]. split; [auto|].
    split; [|eauto]. destruct H4 as [X|X]; [left; congruence|right; now apply (down_nstep _ _ _ S)]. }
  destruct Q as (-> & U2 & F2 & e & P2). destruct (eof_stays _ _ _ R2 U2 F2) as ((U & F) & b' & B & DB).
  split; [auto|]. pose proof (net_bytes _ _ H) as Y. rewrite U, app_nil_r in Y.
  assert (b' = b). { rewrite B, T2, <- app_assoc in T. cbn in T. apply app_inv_head in T. congruence. } subst b'.
  split; [|split; [auto|split; [auto|]]].
  - rewrite <- Y, T, delivered_app. change (delivered (Stream [] true :: b)) with ([] ++ delivered b). rewrite DB. now rewrite app_nil_r.
  - clear - R2 P2. assert (X : (exists e, pl n2 = InStream e true) \/ state (sock n2) = Closed) by eauto. clear P2. revert n2 R2 X.
    induction ss2 as [|s ss2 IH]; cbn [nrun]; intros m R X; [injection R as <-; auto|].
    destruct (nstep1 m s) as [m1|] eqn:S; [|discriminate]. apply (IH m1); [auto|].
    destruct X as [(e0 & X)|X].
    + destruct s as [e1|d| |e1| |t|outs|r|t| |t|l]; cbn [nstep1] in S;
        unfold poll, go_out, go_connected, go_write, go_recv, go_stream, go_hup, go_over, go_end in S; rewrite ?X in S; try discriminate.
      * destruct (by_user e1); [|discriminate]. destruct (step (sock m) e1); cbn [option_map] in S; [|discriminate]. injection S as <-. left. now exists e0.
      * destruct (_ && _); [|discriminate]. injection S as <-. left. now exists e0.
      * destruct (negb _); [|discriminate]. injection S as <-. left. now exists e0.
      * right. destruct t; injection S as <-; reflexivity.
    + right. pose proof (rank_nstep _ _ _ S) as RK. rewrite X in RK. destruct (state (sock m1)); cbn in RK; auto; lia.
Qed.
Print Assumptions net_eof.

(** Bytes and ends are told only to users who have been told of the connection, if
    the first event that the system reports says that the socket can be written to
    (or is an error), and the user has not shut the connection down before. *)
Theorem net_connected_first : forall ss n a d eof b, nrun ninit ss = Some n -> connect_first ss ->
  ~ In (User ShutBody) ss -> ~ In (User QuickStore) ss ->
  told n = a ++ Stream d eof :: b -> exists a', a = Connected :: a'.
Proof.
  intros ss n a d eof b H CF N1 N2 T.
  assert (F : fresh ninit) by (repeat split).
  destruct (fresh_run _ _ _ ninv_init H) as [(X & _)|L]; auto.
  - intros x I [->| ->]; contradiction.
  - rewrite T in X. destruct a; discriminate.
  - inversion L as [m e X|m X|m c X]; subst m.
    + rewrite T in X. destruct a; discriminate.
    + rewrite T in X. unfold streams in X. rewrite filter_app in X. cbn in X. destruct (filter _ a); discriminate.
    + rewrite T in X. destruct a as [|y a]; [discriminate|]. injection X as -> _. eauto.
Qed.
Print Assumptions net_connected_first.
Example net_connected_first_case : connect_first story /\ ~ In (User ShutBody) story /\ ~ In (User QuickStore) story.
Proof. split; [left; reflexivity|]. split; intros H; unfold story in H; cbn [In] in H; repeat (destruct H as [H|H]; [discriminate|]); contradiction. Qed.

(** The end of the stream is told twice when the peer ends first: the socket shuts
    the connection down, which the system reports with one more [EPOLLIN]. *)
Theorem net_eof_once_refuted : exists ss n, nrun ninit ss = Some n
  /\ told n = [Connected; Stream [] true; Stream [] true; Over]
  /\ (forall e, ~ In (User e) ss) /\ ~ In (GoConnected true) ss /\ ~ In (GoStream true) ss /\ ~ In (GoOver true) ss.
Proof.
  exists [Poll on_out; GoOut; GoConnected false; GoWrite []; GoHup; GoEnd 9; PeerFin; Poll on_in; GoRecv NEof; GoStream false; GoHup; GoEnd 9;
          Poll on_hup; GoOut; GoWrite []; GoRecv NEof; GoStream false; GoHup; GoOver false; GoEnd 9].
  eexists. split; [vm_compute; reflexivity|]. split; [reflexivity|].
  split; [intros e H|split; [intros H|split; intros H]]; cbn [In] in H; repeat (destruct H as [H|H]; [discriminate|]); contradiction.
Qed.
Print Assumptions net_eof_once_refuted.

(** A user who shuts the connection down before it is established is told of an end
    of the stream, and of bytes which have arrived, without having been told of the
    connection. *)
Theorem net_connected_first_refuted : exists ss n, nrun ninit ss = Some n /\ connect_first ss
  /\ told n = [Stream [1]%Z false; Stream [] true; Over].
Proof.
  exists [Arrive [1]%Z; User ShutBegin; User ShutBody; Poll on_hup; GoOut; GoWrite []; GoRecv (NGot [1]%Z); GoStream false; GoRecv NEof; GoStream false; GoHup; GoOver false; GoEnd 9].
  eexists. split; [vm_compute; reflexivity|]. split; [left; reflexivity|reflexivity].
Qed.
Print Assumptions net_connected_first_refuted.

(** When memory is exhausted in the network thread, the socket leaves the set
    although the user has not been told of the closure; nothing will be told. *)
Theorem net_over_told_refuted : exists ss n, nrun ninit ss = Some n /\ pl n = Idle /\ registered n = false /\ state (sock n) = Closed
  /\ told n = [Connected] /\ (forall ss' n', nrun n ss' = Some n' -> told n' = [Connected]).
Proof.
  exists [Arrive [1]%Z; Poll (mkEv false true true false); GoOut; GoConnected false; GoWrite []; GoRecv NNoMemory; GoEnd 9].
  eexists. split; [vm_compute; reflexivity|]. repeat (split; [reflexivity|]).
  intros ss'. match goal with |- forall n', nrun ?n ss' = _ -> _ => assert (X : pl n = Idle /\ registered n = false /\ told n = [Connected]) by auto; revert X; generalize n end.
  induction ss' as [|a ss' IH]; cbn [nrun]; intros n (P & R & T) n' H; [injection H as <-; auto|].
  destruct (nstep1 n a) as [n1|] eqn:S; [|discriminate]. apply (IH n1); [|auto]. clear - P R T S.
  destruct a as [e1|d| |e1| |t|outs|r|t| |t|l]; cbn [nstep1] in S;
    unfold poll, go_out, go_connected, go_write, go_recv, go_stream, go_hup, go_over, go_end in S; rewrite ?P, ?R in S; try discriminate.
  - destruct (by_user e1); [|discriminate]. destruct (step (sock n) e1); cbn [option_map] in S; [|discriminate]. injection S as <-. auto.
  - destruct (_ && _); [|discriminate]. injection S as <-. auto.
  - destruct (negb _); [|discriminate]. injection S as <-. auto.
Qed.
Print Assumptions net_over_told_refuted.

(** * Throttling *)

(** If at the end of a turn there are more bytes to send than the limit, the user is
    given nothing more until the end of another turn. *)
Theorem net_paused : forall ss n limit n1 ss' n', nrun ninit ss = Some n -> go_end n limit = Some n1 -> registered n1 = true ->
  (limit < length (wq (sock n)))%nat -> nrun n1 ss' = Some n' -> (forall l, ~ In (GoEnd l) ss') -> streams (told n') = streams (told n).
Proof.
  intros ss n limit n1 ss' n' H E R L H' NE. pose proof (nreach _ _ H) as V.
  assert (V1 : NInv n1) by (apply (ninv_step n (GoEnd limit)); auto).
  assert (T1 : throttled n1 = true /\ told n1 = told n).
  { unfold go_end in E. destruct (pl n) eqn:P; try discriminate. destruct (ev_err e || ev_hup e); [injection E as <-; discriminate|].
    apply Nat.ltb_lt in L. rewrite L in E. destruct (throttled n) eqn:TN; cbn [Bool.eqb] in E; injection E as <-; auto. }
  destruct T1 as [T1 <-]. clear - V1 T1 H' NE. revert n1 V1 T1 H'. induction ss' as [|a ss' IH]; cbn [nrun]; intros n V T H; [injection H as <-; auto|].
  destruct (nstep1 n a) as [n1|] eqn:S; [|discriminate].
  assert (Q : throttled n1 = true /\ streams (told n1) = streams (told n)).
  { pose proof (v_read _ V) as VR. pose proof (step_grow _ _ _ S) as G. split.
    - destruct a as [e1|d| |e1| |t|outs|r|t| |t|l]; cbn [nstep1] in S.
      + destruct (by_user e1); [|discriminate]. destruct (step (sock n) e1); cbn [option_map] in S; [|discriminate]. injection S as <-. auto.
      + destruct (_ && _); [|discriminate]. injection S as <-. auto.
      + destruct (negb _); [|discriminate]. injection S as <-. auto.
      + unfold poll in S. destruct (pl n); try discriminate. destruct (_ && _); [|discriminate]. destruct (ev_err e1); injection S as <-; auto.
      + unfold go_out in S. destruct (pl n); try discriminate. destruct (write_begin (sock n)); [|discriminate]. destruct (_ =? _)%nat; injection S as <-; auto.
      + unfold go_connected in S. destruct (pl n); try discriminate. destruct t; [|injection S as <-; auto].
        destruct (write_abort (sock n)); cbn [option_map] in S; [|discriminate]. injection S as <-. auto.
      + unfold go_write in S. destruct (pl n); try discriminate. destruct (write_loop (sock n) outs); cbn [option_map] in S; [|discriminate]. injection S as <-. auto.
      + unfold go_recv in S. destruct (pl n); try discriminate. rewrite (VR eq_refl) in T. discriminate.
      + unfold go_stream in S. destruct (pl n); try discriminate. rewrite (VR eq_refl) in T. discriminate.
      + unfold go_hup in S. destruct (pl n); try discriminate. destruct (ev_hup e); injection S as <-; auto.
      + unfold go_over in S. destruct (pl n); try discriminate. destruct t; injection S as <-; auto.
      + exfalso. apply (NE l). now left.
    - inversion G; subst; match goal with X : told n1 = _ |- _ => rewrite X end; auto; unfold streams; rewrite ?filter_app; cbn; rewrite ?app_nil_r; auto.
      + exfalso. rewrite H4 in VR. rewrite (VR eq_refl) in T. discriminate.
      + exfalso. rewrite H5 in VR. rewrite (VR eq_refl) in T. discriminate. }
  destruct Q as [TQ SQ]. rewrite <- SQ. apply (IH ltac:(intros l X; apply (NE l); now right)); auto. apply (ninv_step n a); auto.
Qed.
Print Assumptions net_paused.

(** Nothing that arrives is forgotten: whenever the network thread is not busy with
    an open connection and there is something to receive, the system is going to
    report it, or receiving is suspended and the system owes a notification that
    something can be sent. *)
Theorem net_input_owed : forall ss n, nrun ninit ss = Some n -> pl n = Idle -> registered n = true -> state (sock n) <> Closed ->
  unread n <> [] \/ fin n = true ->
  edge n = true \/ (throttled n = true /\ wq (sock n) <> [] /\ armed (sock n) = true).
Proof.
  intros ss n H P R C U. pose proof (nreach _ _ H) as V. destruct (v_edge _ V R C U) as [E|[T|W]]; [auto| |rewrite P in W; discriminate].
  right. pose proof (v_throttle _ V P R T) as Q. split; [auto|]. split; [auto|]. destruct (net_refines _ _ H) as [es E].
  destruct (tcp_no_stall _ _ E Q C) as [A|A]; [auto|]. rewrite (v_writing _ V), P in A. discriminate.
Qed.
Print Assumptions net_input_owed.

(** And that notification, if the system then takes everything, puts an end to the
    suspension: the system is going to report what there is to receive. *)
Definition drain (n : net) (limit : nat) : list nstep :=
  [Poll on_out; GoOut] ++ (if (rank (state (sock n)) =? 0)%nat then [GoConnected false] else []) ++ [GoWrite [Wrote (length (wq (sock n)))]; GoHup; GoEnd limit].

Theorem net_resumes : forall ss n limit, nrun ninit ss = Some n -> pl n = Idle -> registered n = true -> throttled n = true -> down (sock n) = false ->
  exists n', nrun n (drain n limit) = Some n' /\ throttled n' = false /\ registered n' = true /\ pl n' = Idle
    /\ wq (sock n') = [] /\ (edge n' = true <-> unread n' <> [] \/ fin n' = true)
    /\ unread n' = unread n /\ fin n' = fin n /\ streams (told n') = streams (told n).
Proof.
  intros ss n limit H P R T D. pose proof (nreach _ _ H) as V. pose proof (v_throttle _ V P R T) as Q. pose proof (v_writing _ V) as W. rewrite P in W. cbn in W.
  assert (E : forall m : net, nonempty (unread n) || fin n = true <-> unread n <> [] \/ fin n = true).
  { intros _. rewrite orb_true_iff, nonempty_spec. tauto. }
  destruct n as [s rg th ed un fi p to]. cbn [sock registered throttled edge unread fin pl told] in *. subst p rg th.
  destruct s as [x q dn se fl sh wr ar lg]. cbn [state wq down sent flight shuts writing armed log] in *. subst dn wr.
  assert (L : loop [Wrote (length q)] q [] = Some ([], q, Drained)).
  { destruct q as [|b q']; [congruence|]. cbn [loop]. rewrite Nat.leb_refl, skipn_all, firstn_all. reflexivity. }
  unfold drain. cbn [sock state wq]. destruct x; cbn [rank Nat.eqb app]; eexists; (split; [cbn [nrun nstep1 poll pl registered throttled negb andb on_out ev_in ev_err ev_out];
    cbn [goto nrun nstep1 go_out pl sock write_begin writing state rank Nat.eqb test_change tell go_connected];
    cbn [goto nrun nstep1 go_write pl sock option_map write_loop writing down possible andb wq];
    rewrite L; cbn; reflexivity|]); cbn; rewrite ?app_nil_r; repeat split; auto; try apply (E ninit); unfold streams; rewrite ?filter_app; cbn; now rewrite ?app_nil_r.
Qed.
Print Assumptions net_resumes.
Example net_resumes_case : exists n, nrun ninit (firstn 16 story) = Some n /\ pl n = Idle /\ registered n = true /\ throttled n = true /\ down (sock n) = false
  /\ fin n = true /\ edge n = false.
Proof. eexists. vm_compute. repeat split. Qed.
