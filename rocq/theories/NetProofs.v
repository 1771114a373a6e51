(** Proofs about the network thread. *)
From Coq Require Import ZArith List Lia Bool.
From Verif Require Import TcpModel TcpSpec TcpProofs TcpProps NetModel NetSpec.
Import ListNotations.

Lemma nrun_app n a b : nrun n (a ++ b) = match nrun n a with Some n1 => nrun n1 b | None => None end.
Proof. revert n. induction a as [|x a IH]; cbn [nrun app]; intros n; [auto|]. destruct (nstep1 n x); auto. Qed.

(** * Every step is a sequence of steps of the model of the socket *)

Lemma kill_run s : run s [QuickDown; QuickStore] = Some (kill s).
Proof. reflexivity. Qed.

Definition tcp_events (n : net) (a : nstep) : list event :=
  match a with
  | User e => [e]
  | Poll e => if ev_err e then [QuickDown; QuickStore] else []
  | GoOut => [WriteBegin]
  | GoConnected t => if t then [WriteAbort] else []
  | GoWrite outs => [WriteLoop outs]
  | GoRecv NError | GoRecv NNoMemory => [QuickDown; QuickStore]
  | GoStream t => match pl n with InStream _ eof => if t || eof then [QuickDown; QuickStore] else [] | _ => [] end
  | GoHup => match pl n with AtHup e => if ev_hup e then [QuickDown; QuickStore] else [] | _ => [] end
  | GoOver t => if t then [QuickDown; QuickStore] else []
  | _ => []
  end.

Ltac open_step H :=
  repeat first
    [ match type of H with context [match ?x with _ => _ end] =>
        lazymatch x with
        | context [match _ with _ => _ end] => fail
        | _ => destruct x eqn:?; try discriminate
        end
      end
    | match type of H with context [option_map _ ?x] => destruct x eqn:?; cbn [option_map] in H; try discriminate end ].

Lemma step_tcp n a n' : nstep1 n a = Some n' -> run (sock n) (tcp_events n a) = Some (sock n').
Proof.
  intros H. destruct a as [e|d| |e| |t|outs|r|t| |t|l]; cbn [nstep1 tcp_events] in *;
    unfold poll, go_out, go_connected, go_write, go_recv, go_stream, go_hup, go_over, go_end in H.
  - destruct (by_user e); [|discriminate]. cbn [run]. destruct (step (sock n) e); cbn [option_map] in H; [|discriminate]. now injection H as <-.
  - destruct (_ && _); [|discriminate]. now injection H as <-.
  - destruct (negb _); [|discriminate]. now injection H as <-.
  - destruct (pl n); try discriminate. destruct (_ && _); [|discriminate]. destruct (ev_err e); injection H as <-; reflexivity.
  - destruct (pl n); try discriminate. cbn [run step]. destruct (write_begin (sock n)); [|discriminate]. destruct (_ =? _)%nat; injection H as <-; reflexivity.
  - destruct (pl n); try discriminate. destruct t; [|now injection H as <-]. cbn [run step]. destruct (write_abort (sock n)); [|discriminate].
    now injection H as <-.
  - destruct (pl n); try discriminate. cbn [run step]. destruct (write_loop (sock n) outs); [|discriminate]. now injection H as <-.
  - destruct (pl n); try discriminate. destruct r; try (destruct (_ && _); [|discriminate]); injection H as <-; reflexivity.
  - destruct (pl n); try discriminate. destruct t; cbn [orb]; [now injection H as <-|]. destruct eof; injection H as <-; reflexivity.
  - destruct (pl n); try discriminate. destruct (ev_hup e); injection H as <-; reflexivity.
  - destruct (pl n); try discriminate. destruct t; injection H as <-; reflexivity.
  - destruct (pl n); try discriminate. destruct (ev_err e || ev_hup e); [now injection H as <-|]. destruct (Bool.eqb _ _); [now injection H as <-|].
    destruct (_ <? _)%nat; now injection H as <-.
Qed.

Lemma nrun_tcp ss : forall n n', nrun n ss = Some n' -> exists es, run (sock n) es = Some (sock n').
Proof.
  induction ss as [|a ss IH]; cbn [nrun]; intros n n' H.
  - injection H as <-. now exists [].
  - destruct (nstep1 n a) as [n1|] eqn:S; [|discriminate]. destruct (IH _ _ H) as [es E]. exists (tcp_events n a ++ es).
    rewrite run_app, (step_tcp _ _ _ S). auto.
Qed.

Lemma reach_tcp ss n : nrun ninit ss = Some n -> exists es, run init es = Some (sock n).
Proof. apply (nrun_tcp ss ninit). Qed.

Lemma rank_step s e s' : step s e = Some s' -> (rank (state s) <= rank (state s'))%nat.
Proof.
  intros E. destruct e as [d|k outs| | | | | | |outs]; cbn [step] in E.
  - injection E as <-. unfold send_begin. destruct (2 <=? rank (state s)); auto.
  - unfold send_body in E. destruct (nth_error (flight s) k); [|discriminate].
    destruct (wq s), (state s) eqn:X; try (destruct outs; [injection E as <-; cbn [state]; rewrite ?X; auto|discriminate]).
    destruct (possible _ _); [|discriminate]. destruct (loop _ _ _) as [[[? ?] []]|]; [| | |discriminate]; injection E as <-; cbn [state rank]; lia.
  - injection E as <-. unfold shut_begin. destruct (2 <=? rank (state s)); auto.
  - unfold shut_body in E. destruct (shuts s); [discriminate|]. destruct (wq s); injection E as <-; cbn [state]; destruct (state s); cbn; lia.
  - injection E as <-. auto.
  - unfold quick_store in E. destruct (down s); [|discriminate]. injection E as <-. cbn [state]. destruct (state s); cbn; lia.
  - unfold write_begin in E. destruct (writing s); [discriminate|]. injection E as <-. cbn [state]. destruct (state s); cbn; lia.
  - unfold write_abort in E. destruct (writing s); [|discriminate]. injection E as <-. cbn [state]. destruct (state s); cbn; lia.
  - unfold write_loop in E. destruct (_ && _); [|discriminate]. destruct (loop _ _ _) as [[[? ?] []]|]; [| | |discriminate]; injection E as <-;
      cbn [state]; destruct (state s); cbn; lia.
Qed.

Lemma down_step s e s' : step s e = Some s' -> down s = true -> down s' = true.
Proof.
  intros E D. destruct e as [d|k outs| | | | | | |outs]; cbn [step] in E.
  - injection E as <-. unfold send_begin. destruct (2 <=? rank (state s)); auto.
  - unfold send_body in E. destruct (nth_error (flight s) k); [|discriminate].
    destruct (wq s), (state s) eqn:X; try (destruct outs; [injection E as <-; auto|discriminate]).
    destruct (possible _ _); [|discriminate]. destruct (loop _ _ _) as [[[? ?] []]|]; [| | |discriminate]; injection E as <-; auto.
  - injection E as <-. unfold shut_begin. destruct (2 <=? rank (state s)); auto.
  - unfold shut_body in E. destruct (shuts s); [discriminate|]. destruct (wq s); injection E as <-; auto.
  - injection E as <-. auto.
  - unfold quick_store in E. destruct (down s); [|discriminate]. injection E as <-. auto.
  - unfold write_begin in E. destruct (writing s); [discriminate|]. injection E as <-. auto.
  - unfold write_abort in E. destruct (writing s); [|discriminate]. injection E as <-. auto.
  - unfold write_loop in E. destruct (_ && _); [|discriminate]. destruct (loop _ _ _) as [[[? ?] []]|]; [| | |discriminate]; injection E as <-;
      cbn [down]; rewrite ?D; auto.
Qed.

Lemma rank_run es : forall s s', run s es = Some s' -> (rank (state s) <= rank (state s'))%nat.
Proof.
  induction es as [|e es IH]; cbn [run]; intros s s' H; [injection H as <-; auto|]. destruct (step s e) as [s1|] eqn:E; [|discriminate].
  pose proof (rank_step _ _ _ E). specialize (IH _ _ H). lia.
Qed.
Lemma down_run es : forall s s', run s es = Some s' -> down s = true -> down s' = true.
Proof.
  induction es as [|e es IH]; cbn [run]; intros s s' H; [injection H as <-; auto|]. destruct (step s e) as [s1|] eqn:E; [|discriminate].
  intros D. apply (IH _ _ H). now apply (down_step _ _ _ E).
Qed.

Lemma rank_nstep n a n' : nstep1 n a = Some n' -> (rank (state (sock n)) <= rank (state (sock n')))%nat.
Proof. intros H. exact (rank_run _ _ _ (step_tcp _ _ _ H)). Qed.
Lemma down_nstep n a n' : nstep1 n a = Some n' -> down (sock n) = true -> down (sock n') = true.
Proof. intros H. exact (down_run _ _ _ (step_tcp _ _ _ H)). Qed.

Lemma closed_stays n a n' : nstep1 n a = Some n' -> state (sock n') <> Closed -> state (sock n) <> Closed.
Proof. intros H N X. apply N. pose proof (rank_nstep _ _ _ H) as R. rewrite X in R. destruct (state (sock n')); cbn in R; try lia. auto. Qed.

(** User calls neither empty a queue nor leave a state, unless they shut down. *)
Lemma user_wq s e s' : by_user e = true -> step s e = Some s' -> wq s <> [] -> wq s' <> [].
Proof.
  intros U E N. destruct e as [d|k outs| | | | | | |outs]; cbn [step by_user] in *; try discriminate.
  - injection E as <-. unfold send_begin. destruct (2 <=? rank (state s)); auto.
  - unfold send_body in E. destruct (nth_error (flight s) k); [|discriminate]. destruct (wq s) as [|x w]; [congruence|].
    destruct (state s); (destruct outs; [injection E as <-; cbn [wq]; discriminate|discriminate]).
  - injection E as <-. unfold shut_begin. destruct (2 <=? rank (state s)); auto.
  - unfold shut_body in E. destruct (shuts s); [discriminate|]. destruct (wq s); [congruence|]. injection E as <-. discriminate.
  - injection E as <-. auto.
  - unfold quick_store in E. destruct (down s); [|discriminate]. injection E as <-. auto.
Qed.

Lemma user_pending s e s' : by_user e = true -> step s e = Some s' -> e <> ShutBody -> e <> QuickStore -> state s = Pending -> state s' = Pending.
Proof.
  intros U E N1 N2 P. destruct e as [d|k outs| | | | | | |outs]; cbn [step by_user] in *; try discriminate; try congruence.
  - injection E as <-. unfold send_begin. destruct (2 <=? rank (state s)); auto.
  - unfold send_body in E. destruct (nth_error (flight s) k); [|discriminate]. rewrite P in E.
    destruct (wq s); (destruct outs; [injection E as <-; reflexivity|discriminate]).
  - injection E as <-. unfold shut_begin. destruct (2 <=? rank (state s)); auto.
  - injection E as <-. auto.
Qed.

(** * What every step does to the calls told *)

Inductive grow : net -> nstep -> net -> Prop :=
| grow_none n a n' : told n' = told n -> unread n' = unread n -> (fin n' = fin n) -> (forall d, a <> Arrive d) -> grow n a n'
| grow_arrive n d n' : told n' = told n -> unread n' = unread n ++ d -> fin n' = fin n -> d <> [] -> fin n = false -> down (sock n) = false -> grow n (Arrive d) n'
| grow_fin n n' : told n' = told n -> unread n' = unread n -> fin n' = true -> grow n PeerFin n'
| grow_connected n n' : told n' = told n ++ [Connected] -> unread n' = unread n -> fin n' = fin n -> state (sock n) = Pending ->
    state (sock n') = Established -> (exists e, pl n = AtOut e) -> grow n GoOut n'
| grow_stream n c n' e : told n' = told n ++ [Stream c false] -> unread n = c ++ unread n' -> fin n' = fin n -> c <> [] -> pl n = AtIn e -> pl n' = InStream e false ->
    grow n (GoRecv (NGot c)) n'
| grow_eof n n' e : told n' = told n ++ [Stream [] true] -> unread n = [] -> unread n' = [] -> fin n' = fin n -> fin n = true \/ down (sock n) = true ->
    pl n = AtIn e -> pl n' = InStream e true -> grow n (GoRecv NEof) n'
| grow_over n a n' : told n' = told n ++ [Over] -> unread n' = unread n -> fin n' = fin n -> state (sock n') = Closed ->
    (exists e, pl n' = InOver e /\ (ev_err e = true \/ ev_hup e = true)) ->
    ((exists e, a = Poll e /\ pl n = Idle /\ registered n = true) \/ (a = GoHup /\ exists e, pl n = AtHup e)) -> grow n a n'.

Lemma nonempty_spec l : nonempty l = true <-> l <> [].
Proof. destruct l; cbn; split; congruence. Qed.
Lemma nonempty_false l : nonempty l = false <-> l = [].
Proof. destruct l; cbn; split; congruence. Qed.

Lemma step_grow n a n' : nstep1 n a = Some n' -> grow n a n'.
Proof.
  intros H. destruct a as [e|d| |e| |t|outs|r|t| |t|l]; cbn [nstep1] in H.
  - destruct (by_user e); [|discriminate]. destruct (step (sock n) e); cbn [option_map] in H; [|discriminate]. injection H as <-. apply grow_none; auto; discriminate.
  - destruct (nonempty d) eqn:D; [|discriminate]. destruct (fin n) eqn:F; [discriminate|]. destruct (down (sock n)) eqn:W; [discriminate|]. cbn [andb negb] in H.
    injection H as <-. apply grow_arrive; auto. now apply nonempty_spec.
  - destruct (negb (fin n)); [|discriminate]. injection H as <-. apply grow_fin; auto.
  - unfold poll in H. destruct (pl n) eqn:P; try discriminate. destruct (registered n) eqn:RG; [|discriminate]. cbn [andb] in H.
    destruct (if throttled n then _ else _); [|discriminate]. destruct (ev_err e) eqn:EE; injection H as <-.
    + apply grow_over; cbn; auto. exists e; auto. left. exists e. auto.
    + apply grow_none; auto; discriminate.
  - unfold go_out in H. destruct (pl n) eqn:P; try discriminate. destruct (write_begin (sock n)) as [s'|] eqn:W; [|discriminate].
    unfold write_begin in W. destruct (writing (sock n)); [discriminate|]. injection W as <-.
    destruct (rank (state (sock n)) =? 0)%nat eqn:K; injection H as <-.
    + apply Nat.eqb_eq in K. assert (state (sock n) = Pending) by (destruct (state (sock n)); cbn in K; congruence).
      apply grow_connected; cbn; auto. rewrite H. reflexivity. now exists e.
    + apply grow_none; auto; discriminate.
  - unfold go_connected in H. destruct (pl n) eqn:P; try discriminate. destruct t.
    + destruct (write_abort (sock n)); cbn [option_map] in H; [|discriminate]. injection H as <-. apply grow_none; auto; discriminate.
    + injection H as <-. apply grow_none; auto; discriminate.
  - unfold go_write in H. destruct (pl n) eqn:P; try discriminate. destruct (write_loop (sock n) outs); cbn [option_map] in H; [|discriminate].
    injection H as <-. apply grow_none; auto; discriminate.
  - unfold go_recv in H. destruct (pl n) eqn:P; try discriminate. destruct r.
    + destruct (nonempty chunk) eqn:C; [|discriminate]. destruct (length chunk <=? length (unread n))%nat; [|discriminate].
      destruct (list_eq_dec _ _ _) as [Q|]; [|discriminate]. cbn [andb] in H. injection H as <-.
      apply (grow_stream _ _ _ e); cbn; auto; [|now apply nonempty_spec]. rewrite Q at 1. symmetry. apply firstn_skipn.
    + destruct (nonempty (unread n)) eqn:C; [discriminate|]. destruct (fin n || down (sock n)) eqn:F; [|discriminate]. cbn [andb negb] in H. injection H as <-.
      apply nonempty_false in C. apply (grow_eof _ _ e); cbn; auto. now apply orb_true_iff in F.
    + destruct (_ && _); [|discriminate]. injection H as <-. apply grow_none; auto; discriminate.
    + injection H as <-. apply grow_none; auto; discriminate.
    + injection H as <-. apply grow_none; auto; discriminate.
  - unfold go_stream in H. destruct (pl n) eqn:P; try discriminate. destruct t; [|destruct eof]; injection H as <-; apply grow_none; auto; discriminate.
  - unfold go_hup in H. destruct (pl n) eqn:P; try discriminate. destruct (ev_hup e) eqn:EH; injection H as <-.
    + apply grow_over; cbn; auto. exists e; auto. right. split; auto. now exists e.
    + apply grow_none; auto; discriminate.
  - unfold go_over in H. destruct (pl n) eqn:P; try discriminate. destruct t; injection H as <-; apply grow_none; auto; discriminate.
  - unfold go_end in H. destruct (pl n) eqn:P; try discriminate. destruct (_ || _); [injection H as <-; apply grow_none; auto; discriminate|].
    destruct (Bool.eqb _ _); [injection H as <-; apply grow_none; auto; discriminate|]. destruct (_ <? _)%nat; injection H as <-; apply grow_none; auto; discriminate.
Qed.

(** * Delivery *)

Lemma delivered_app a b : delivered (a ++ b) = delivered a ++ delivered b.
Proof. unfold delivered. now rewrite map_app, concat_app. Qed.

Lemma nrun_bytes ss : forall n n', nrun n ss = Some n' -> delivered (told n') ++ unread n' = delivered (told n) ++ unread n ++ arrived ss.
Proof.
  induction ss as [|a ss IH]; cbn [nrun]; intros n n' H.
  - injection H as <-. unfold arrived. cbn. now rewrite app_nil_r.
  - destruct (nstep1 n a) as [n1|] eqn:S; [|discriminate]. rewrite (IH _ _ H). clear IH H. change (arrived (a :: ss)) with (match a with Arrive d => d | _ => [] end ++ arrived ss).
    apply step_grow in S. inversion S; subst; repeat match goal with X : told n1 = _ |- _ => rewrite X | X : unread n1 = _ |- _ => rewrite X end.
    + destruct a; auto. exfalso. now apply (H2 data).
    + now rewrite <- !app_assoc.
    + auto.
    + rewrite delivered_app. cbn. now rewrite app_nil_r.
    + rewrite delivered_app, H0. cbn. now rewrite app_nil_r, <- !app_assoc.
    + rewrite delivered_app, H0. cbn. now rewrite app_nil_r.
    + rewrite delivered_app. cbn. rewrite app_nil_r.
      destruct H4 as [[e0 [-> _]]|[-> _]]; auto.
Qed.

(** * The end of the stream *)

Definition eofs (cs : list call) : Prop := exists d, In (Stream d true) cs.

Lemma eof_stays ss : forall n n', nrun n ss = Some n' -> unread n = [] -> fin n = true \/ down (sock n) = true ->
  (unread n' = [] /\ (fin n' = true \/ down (sock n') = true)) /\ exists b, told n' = told n ++ b /\ delivered b = [].
Proof.
  induction ss as [|a ss IH]; cbn [nrun]; intros n n' H U F.
  - injection H as <-. split; [auto|]. exists []. now rewrite app_nil_r.
  - destruct (nstep1 n a) as [n1|] eqn:S; [|discriminate]. pose proof (down_nstep _ _ _ S) as D. apply step_grow in S.
    assert (unread n1 = [] /\ (fin n1 = true \/ down (sock n1) = true) /\ exists b, told n1 = told n ++ b /\ delivered b = []) as (U1 & F1 & b1 & T1 & E1).
    { inversion S; subst.
      - split; [congruence|]. split; [destruct F; [left; congruence|auto]|]. exists []. now rewrite app_nil_r.
      - exfalso. destruct F; congruence.
      - split; [congruence|]. split; [auto|]. exists []. now rewrite app_nil_r.
      - split; [congruence|]. split; [destruct F; [left; congruence|auto]|]. eexists. split; eauto.
      - exfalso. rewrite U in H1. destruct c; [congruence|discriminate].
      - split; [congruence|]. split; [destruct F; [left; congruence|auto]|]. eexists. split; eauto.
      - split; [congruence|]. split; [destruct F; [left; congruence|auto]|]. eexists. split; eauto. }
    destruct (IH _ _ H U1 F1) as (X & b2 & T2 & E2). split; [auto|]. exists (b1 ++ b2). rewrite T2, T1, app_assoc. split; [auto|]. now rewrite delivered_app, E1, E2.
Qed.

Lemma told_app ss : forall n n', nrun n ss = Some n' -> exists b, told n' = told n ++ b.
Proof.
  induction ss as [|a ss IH]; cbn [nrun]; intros n n' H.
  - injection H as <-. exists []. now rewrite app_nil_r.
  - destruct (nstep1 n a) as [n1|] eqn:S; [|discriminate]. destruct (IH _ _ H) as [b ->]. apply step_grow in S.
    assert (exists b1, told n1 = told n ++ b1) as [b1 ->]; [|exists (b1 ++ b); now rewrite app_assoc].
    inversion S; subst; eauto; exists []; now rewrite app_nil_r.
Qed.

(** The step at which a call was made *)
Lemma told_at ss : forall n n' a c b, nrun n ss = Some n' -> told n' = a ++ c :: b -> (length (told n) <= length a)%nat ->
  exists ss1 s ss2 n1 n2, ss = ss1 ++ s :: ss2 /\ nrun n ss1 = Some n1 /\ nstep1 n1 s = Some n2 /\ nrun n2 ss2 = Some n' /\ told n1 = a /\ told n2 = a ++ [c].
Proof.
  induction ss as [|s ss IH]; cbn [nrun]; intros n n' a c b H T L.
  - injection H as <-. rewrite T, app_length in L. cbn in L. lia.
  - destruct (nstep1 n s) as [n1|] eqn:S; [|discriminate].
    destruct (Nat.le_gt_cases (length (told n1)) (length a)) as [L1|L1].
    + destruct (IH _ _ _ _ _ H T L1) as (ss1 & s1 & ss2 & m1 & m2 & -> & R1 & S1 & R2 & T1 & T2).
      exists (s :: ss1), s1, ss2, m1, m2. split; [reflexivity|]. split; [cbn [nrun]; now rewrite S|]. auto.
    + exists [], s, ss, n, n1. split; [reflexivity|]. split; [reflexivity|]. split; [auto|]. split; [auto|].
      destruct (told_app _ _ _ H) as [b1 B]. pose proof (step_grow _ _ _ S) as G.
      assert (exists x, told n1 = told n ++ [x]) as [x X].
      { inversion G; subst; eauto; exfalso; rewrite H0 in L1; lia. }
      rewrite X, app_length in L1. cbn in L1. assert (LE : length (told n) = length a) by lia.
      rewrite X in B. rewrite T in B. rewrite <- app_assoc in B. cbn in B.
      assert (E : told n = a /\ x :: b1 = c :: b).
      { clear - B LE. revert LE B. generalize (told n) as l. revert a. induction a as [|y a IHa]; destruct l as [|z l]; cbn; intros L E; try discriminate; auto.
        injection E as E1 E2. destruct (IHa l) as [-> ->]; auto. split; congruence. }
      destruct E as [E1 E2]. split; [auto|]. rewrite X, E1. congruence.
Qed.

(** * The order of the calls *)

(** The places at which nothing more is told *)
Definition over_place (n : net) : bool :=
  match pl n with
  | InOver _ => true
  | AtEnd e => ev_err e || ev_hup e
  | Idle => negb (registered n)
  | _ => false
  end.

(** No error has been reported where the others are. *)
Definition calm_place (p : place) : Prop :=
  match p with
  | AtOut e | InConnected e | AtWrite e | AtIn e | InStream e _ | AtHup e => ev_err e = false
  | InOver e => ev_err e = true \/ ev_hup e = true
  | _ => True
  end.

Definition will_read (p : place) : bool :=
  match p with
  | AtOut e | InConnected e | AtWrite e => ev_in e
  | AtIn _ | InStream _ _ => true
  | _ => false
  end.

Definition is_writing (p : place) : bool := match p with InConnected _ | AtWrite _ => true | _ => false end.

Record NInv (n : net) : Prop := {
  v_calm : calm_place (pl n);
  v_reg : pl n <> Idle -> registered n = true;
  v_over : if over_place n then (exists a, told n = a ++ [Over] /\ ~ In Over a) \/ ~ In Over (told n) else ~ In Over (told n);
  v_conn : state (sock n) = Pending -> ~ In Connected (told n);
  v_once : (count_occ Bool.bool_dec (map (fun c => match c with Connected => true | _ => false end) (told n)) true <= 1)%nat;
  v_read : will_read (pl n) = true -> throttled n = false;
  v_throttle : pl n = Idle -> registered n = true -> throttled n = true -> wq (sock n) <> [];
  v_writing : writing (sock n) = is_writing (pl n);
  v_edge : registered n = true -> state (sock n) <> Closed -> unread n <> [] \/ fin n = true ->
    edge n = true \/ throttled n = true \/ will_read (pl n) = true }.

Lemma ninv_init : NInv ninit.
Proof.
  split; cbn; auto; try discriminate; try congruence. intros _ _ [X|X]; congruence.
Qed.

Lemma user_writing s e s' : by_user e = true -> step s e = Some s' -> writing s' = writing s.
Proof.
  intros U E. destruct e as [d|k outs| | | | | | |outs]; cbn [step by_user] in *; try discriminate.
  - injection E as <-. unfold send_begin. destruct (2 <=? rank (state s)); auto.
  - unfold send_body in E. destruct (nth_error (flight s) k); [|discriminate].
    destruct (wq s), (state s) eqn:X; try (destruct outs; [injection E as <-; auto|discriminate]).
    destruct (possible _ _); [|discriminate]. destruct (loop _ _ _) as [[[? ?] []]|]; [| | |discriminate]; injection E as <-; auto.
  - injection E as <-. unfold shut_begin. destruct (2 <=? rank (state s)); auto.
  - unfold shut_body in E. destruct (shuts s); [discriminate|]. destruct (wq s); injection E as <-; auto.
  - injection E as <-. auto.
  - unfold quick_store in E. destruct (down s); [|discriminate]. injection E as <-. auto.
Qed.

Lemma pending_back s e s' : step s e = Some s' -> state s' = Pending -> state s = Pending.
Proof. intros H P. apply rank_step in H. rewrite P in H. destruct (state s); cbn in H; auto; lia. Qed.

Lemma after_out_calm e : ev_err e = false -> calm_place (after_out e).
Proof. unfold after_out. destruct (ev_in e); auto. Qed.
Lemma after_out_reg e : after_out e <> Idle.
Proof. unfold after_out. destruct (ev_in e); discriminate. Qed.
Lemma after_out_over n e : pl n = after_out e -> over_place n = false.
Proof. unfold over_place, after_out. intros ->. destruct (ev_in e); auto. Qed.
Lemma after_out_read e : will_read (after_out e) = ev_in e.
Proof. unfold after_out. destruct (ev_in e) eqn:E; cbn; auto. Qed.
Lemma after_out_writing e : is_writing (after_out e) = false.
Proof. unfold after_out. destruct (ev_in e); auto. Qed.

Lemma not_over_snoc l c : c <> Over -> ~ In Over l -> ~ In Over (l ++ [c]).
Proof. intros C N H. apply in_app_iff in H as [H|[H|[]]]; congruence. Qed.
Lemma not_conn_snoc l c : c <> Connected -> ~ In Connected l -> ~ In Connected (l ++ [c]).
Proof. intros C N H. apply in_app_iff in H as [H|[H|[]]]; congruence. Qed.

Lemma once_snoc l c : (count_occ Bool.bool_dec (map (fun c => match c with Connected => true | _ => false end) l) true <= 1)%nat ->
  (c = Connected -> ~ In Connected l) ->
  (count_occ Bool.bool_dec (map (fun c => match c with Connected => true | _ => false end) (l ++ [c])) true <= 1)%nat.
Proof.
  intros L N. rewrite map_app, count_occ_app. cbn [map count_occ]. destruct c; cbn; try lia.
  replace (count_occ _ _ _) with 0%nat; [cbn; lia|]. symmetry. apply count_occ_not_In. intros X. apply in_map_iff in X as (y & Y & I).
  destruct y; try discriminate. now apply N.
Qed.

Ltac proj := cbn [sock registered throttled edge unread fin pl told goto tell with_sock calm_place over_place will_read is_writing] in *.

Lemma ninv_step n a n' : NInv n -> nstep1 n a = Some n' -> NInv n'.
Proof.
  intros V H. pose proof (closed_stays _ _ _ H) as CS. pose proof (rank_nstep _ _ _ H) as RK.
  assert (PB : state (sock n') = Pending -> state (sock n) = Pending).
  { intros P. rewrite P in RK. destruct (state (sock n)); cbn in RK; auto; lia. }
  destruct V as [VC VR VO VN V1 VD VT VW VE]. unfold over_place in VO.
  destruct a as [e|d| |e| |t|outs|r|t| |t|l]; cbn [nstep1] in H.
  - (* User *)
    destruct (by_user e) eqn:U; [|discriminate]. destruct (step (sock n) e) as [s'|] eqn:S; cbn [option_map] in H; [|discriminate]. injection H as <-.
    proj. split; unfold over_place; proj; auto.
    + intros P R T. exact (user_wq _ _ _ U S (VT P R T)).
    + rewrite (user_writing _ _ _ U S). auto.
  - (* Arrive *)
    destruct (nonempty d && negb (fin n) && negb (down (sock n))); [|discriminate]. injection H as <-. proj. split; unfold over_place; proj; auto.
    intros R C X. destruct (throttled n); auto.
  - (* PeerFin *)
    destruct (negb (fin n)); [|discriminate]. injection H as <-. proj. split; unfold over_place; proj; auto.
    intros R C X. destruct (throttled n); auto.
  - (* Poll *)
    unfold poll in H. destruct (pl n) eqn:P; try discriminate. destruct (registered n) eqn:RG; [|discriminate]. cbn [andb negb] in *.
    destruct (throttled n) eqn:T; [destruct (ev_in e) eqn:EI; [discriminate|]|destruct (implb (edge n) (ev_in e)) eqn:EI; [|discriminate]]; cbn [negb] in H.
    + destruct (ev_err e) eqn:EE; injection H as <-; proj.
      * split; unfold over_place; proj; auto; try discriminate.
        -- left. now exists (told n).
        -- now apply once_snoc.
      * destruct (ev_out e); [|unfold after_out; rewrite EI]; split; unfold over_place; proj; auto; try discriminate; congruence.
    + destruct (ev_err e) eqn:EE; injection H as <-; proj.
      * split; unfold over_place; proj; auto; try discriminate.
        -- left. now exists (told n).
        -- now apply once_snoc.
      * assert (G : registered n = true -> state (sock n) <> Closed -> unread n <> [] \/ fin n = true -> edge n && negb (ev_in e) = true \/ false = true \/ ev_in e = true).
        { intros R C X. destruct (VE eq_refl C X) as [X1|[X1|X1]]; [|discriminate|discriminate]. rewrite X1 in EI. cbn in EI. auto. }
        destruct (ev_out e); [|destruct (ev_in e) eqn:EIN; unfold after_out; rewrite EIN]; split; unfold over_place; proj; auto; try discriminate.
  - (* GoOut *)
    unfold go_out in H. destruct (pl n) eqn:P; try discriminate. destruct (write_begin (sock n)) as [s'|] eqn:W; [|discriminate].
    unfold write_begin in W. destruct (writing (sock n)); [discriminate|]. injection W as <-.
    destruct (rank (state (sock n)) =? 0)%nat eqn:K; injection H as <-; proj.
    + apply Nat.eqb_eq in K. assert (PE : state (sock n) = Pending) by (destruct (state (sock n)); cbn in K; congruence).
      rewrite PE in *. cbn in *. split; unfold over_place; proj; auto; try discriminate.
      * intros _. apply VR. discriminate.
      * apply not_over_snoc; [discriminate|auto].
      * apply once_snoc; auto.
    + split; unfold over_place; proj; auto; try discriminate. intros _. apply VR. discriminate.
  - (* GoConnected *)
    unfold go_connected in H. destruct (pl n) eqn:P; try discriminate. assert (R : registered n = true) by (apply VR; discriminate). proj. destruct t.
    + destruct (write_abort (sock n)) as [s'|] eqn:W; cbn [option_map] in H; [|discriminate]. unfold write_abort in W.
      destruct (writing (sock n)); [|discriminate]. injection W as <-. injection H as <-. unfold after_out. proj.
      destruct (ev_in e) eqn:EI; split; unfold over_place; proj; auto; try discriminate; try (cbn; congruence).
    + injection H as <-. proj. split; unfold over_place; proj; auto; try discriminate.
  - (* GoWrite *)
    unfold go_write in H. destruct (pl n) eqn:P; try discriminate. assert (R : registered n = true) by (apply VR; discriminate). proj.
    destruct (write_loop (sock n) outs) as [s'|] eqn:W; cbn [option_map] in H; [|discriminate]. injection H as <-.
    assert (WS : writing s' = false).
    { unfold write_loop in W. destruct (_ && _); [|discriminate]. destruct (loop _ _ _) as [[[? ?] []]|]; [| | |discriminate]; now injection W as <-. }
    proj. destruct (ev_in e) eqn:EI; unfold after_out in *; rewrite EI in *; split; unfold over_place; proj; auto; try discriminate.
  - (* GoRecv *)
    unfold go_recv in H. destruct (pl n) eqn:P; try discriminate. assert (R : registered n = true) by (apply VR; discriminate). proj.
    destruct r.
    + destruct (nonempty chunk && _ && _); [|discriminate]. injection H as <-. proj. split; unfold over_place; proj; auto; try discriminate.
      * apply not_over_snoc; [discriminate|auto].
      * intros X. apply not_conn_snoc; [discriminate|auto].
      * apply once_snoc; [auto|discriminate].
    + destruct (negb _ && _); [|discriminate]. injection H as <-. proj. split; unfold over_place; proj; auto; try discriminate.
      * apply not_over_snoc; [discriminate|auto].
      * intros X. apply not_conn_snoc; [discriminate|auto].
      * apply once_snoc; [auto|discriminate].
    + destruct (nonempty (unread n)) eqn:U; [discriminate|]. destruct (fin n || down (sock n)) eqn:F; [discriminate|]. cbn [negb andb] in H. injection H as <-.
      apply nonempty_false in U. apply orb_false_iff in F as [F _]. proj. split; unfold over_place; proj; auto; try discriminate.
      intros _ _ [X|X]; congruence.
    + injection H as <-. proj. split; unfold over_place; proj; auto; try discriminate.
    + injection H as <-. proj. split; unfold over_place; proj; auto; try discriminate; cbn; auto.
  - (* GoStream *)
    unfold go_stream in H. destruct (pl n) eqn:P; try discriminate. assert (R : registered n = true) by (apply VR; discriminate). proj.
    destruct t; [|destruct eof]; injection H as <-; proj; split; unfold over_place; proj; auto; try discriminate; cbn; try congruence.
  - (* GoHup *)
    unfold go_hup in H. destruct (pl n) eqn:P; try discriminate. assert (R : registered n = true) by (apply VR; discriminate). proj.
    destruct (ev_hup e) eqn:EH; injection H as <-; proj; split; unfold over_place; proj; auto; try discriminate; cbn; try congruence.
    + left. now exists (told n).
    + now apply once_snoc.
    + rewrite VC, EH. cbn. auto.
  - (* GoOver *)
    unfold go_over in H. destruct (pl n) eqn:P; try discriminate. assert (R : registered n = true) by (apply VR; discriminate). proj.
    destruct t; injection H as <-; proj; split; unfold over_place; proj; auto; try discriminate; cbn; try congruence.
    replace (ev_err e || ev_hup e) with true; [auto|]. symmetry. apply orb_true_iff. auto.
  - (* GoEnd *)
    unfold go_end in H. destruct (pl n) eqn:P; try discriminate. assert (R : registered n = true) by (apply VR; discriminate). proj.
    destruct (ev_err e || ev_hup e) eqn:EX.
    + injection H as <-. proj. split; unfold over_place; proj; auto; try discriminate.
    + destruct (Bool.eqb (throttled n) _) eqn:Q.
      * apply eqb_prop in Q. injection H as <-. proj. split; unfold over_place; proj; auto; try discriminate; try (rewrite R; cbn; auto).
        intros _ _ T. rewrite T in Q. symmetry in Q. apply Nat.ltb_lt in Q. intros W. rewrite W in Q. cbn in Q. lia.
      * destruct (l <? length (wq (sock n)))%nat eqn:L; injection H as <-; proj; split; unfold over_place; proj; auto; try discriminate; try (rewrite R; cbn; auto).
        -- intros _ _ _ W. apply Nat.ltb_lt in L. rewrite W in L. cbn in L. lia.
        -- intros _ C [X|X]; [left|left]; [apply nonempty_spec in X|]; rewrite X; auto. apply orb_true_r.
Qed.

Lemma ninv_run ss : forall n n', NInv n -> nrun n ss = Some n' -> NInv n'.
Proof.
  induction ss as [|a ss IH]; cbn [nrun]; intros n n' V H; [injection H as <-; auto|].
  destruct (nstep1 n a) as [n1|] eqn:S; [|discriminate]. apply (IH n1); auto. now apply (ninv_step n a).
Qed.
Lemma nreach ss n : nrun ninit ss = Some n -> NInv n.
Proof. apply ninv_run, ninv_init. Qed.

(** * Closure *)

Lemma over_told_step n a n' : NInv n -> nstep1 n a = Some n' -> a <> GoRecv NNoMemory ->
  (over_place n = true -> exists b, told n = b ++ [Over]) -> over_place n' = true -> exists b, told n' = b ++ [Over].
Proof.
  intros V H NM IH. pose proof (v_calm _ V) as VC. unfold over_place in *. destruct a as [e|d| |e| |t|outs|r|t| |t|l]; cbn [nstep1] in H.
  - destruct (by_user e); [|discriminate]. destruct (step (sock n) e); cbn [option_map] in H; [|discriminate]. injection H as <-. proj. auto.
  - destruct (_ && _); [|discriminate]. injection H as <-. auto.
  - destruct (negb _); [|discriminate]. injection H as <-. auto.
  - unfold poll in H. destruct (pl n) eqn:P; try discriminate. destruct (registered n) eqn:RG; [|discriminate]. cbn [andb] in H.
    destruct (if throttled n then _ else _); [|discriminate]. destruct (ev_err e) eqn:EE; injection H as <-; proj; [eauto|].
    destruct (ev_out e); [discriminate|]. unfold after_out. destruct (ev_in e); discriminate.
  - unfold go_out in H. destruct (pl n) eqn:P; try discriminate. destruct (write_begin (sock n)) as [s'|] eqn:W; [|discriminate].
    destruct (_ =? _)%nat; injection H as <-; proj; discriminate.
  - unfold go_connected in H. destruct (pl n) eqn:P; try discriminate. destruct t.
    + destruct (write_abort (sock n)); cbn [option_map] in H; [|discriminate]. injection H as <-. unfold after_out. proj. destruct (ev_in e); discriminate.
    + injection H as <-. discriminate.
  - unfold go_write in H. destruct (pl n) eqn:P; try discriminate. destruct (write_loop (sock n) outs); cbn [option_map] in H; [|discriminate].
    injection H as <-. unfold after_out. proj. destruct (ev_in e); discriminate.
  - unfold go_recv in H. destruct (pl n) eqn:P; try discriminate. destruct r; try congruence.
    + destruct (nonempty chunk && _ && _); [|discriminate]. injection H as <-. discriminate.
    + destruct (negb _ && _); [|discriminate]. injection H as <-. discriminate.
    + destruct (negb _ && _); [|discriminate]. injection H as <-. discriminate.
    + injection H as <-. discriminate.
  - unfold go_stream in H. destruct (pl n) eqn:P; try discriminate. destruct t; [|destruct eof]; injection H as <-; discriminate.
  - unfold go_hup in H. destruct (pl n) eqn:P; try discriminate. proj. destruct (ev_hup e) eqn:EH; injection H as <-; proj; [eauto|].
    rewrite VC, EH. discriminate.
  - unfold go_over in H. destruct (pl n) eqn:P; try discriminate. proj. destruct t; injection H as <-; proj; auto.
  - unfold go_end in H. destruct (pl n) eqn:P; try discriminate. assert (R : registered n = true) by (apply (v_reg _ V); rewrite P; discriminate).
    destruct (ev_err e || ev_hup e) eqn:EX; [injection H as <-; auto|].
    destruct (Bool.eqb _ _); [injection H as <-; proj; rewrite R; discriminate|]. destruct (_ <? _)%nat; injection H as <-; proj; rewrite R; discriminate.
Qed.

Lemma over_told ss : forall n n', NInv n -> nrun n ss = Some n' -> ~ In (GoRecv NNoMemory) ss ->
  (over_place n = true -> exists b, told n = b ++ [Over]) -> over_place n' = true -> exists b, told n' = b ++ [Over].
Proof.
  induction ss as [|a ss IH]; cbn [nrun]; intros n n' V H NM B; [injection H as <-; auto|].
  destruct (nstep1 n a) as [n1|] eqn:S; [|discriminate]. apply (IH n1); auto.
  - now apply (ninv_step n a).
  - intros X. apply NM. now right.
  - apply (over_told_step n a); auto. intros ->. apply NM. now left.
Qed.

(** A turn that has begun with an error or a hang-up ends with the socket removed. *)
Definition doomed (n : net) : Prop :=
  match pl n with
  | Idle => registered n = false
  | AtOut e | InConnected e | AtWrite e | AtIn e | InStream e _ | AtHup e | InOver e | AtEnd e => ev_err e || ev_hup e = true
  end.

Lemma doomed_step n a n' : nstep1 n a = Some n' -> doomed n -> doomed n'.
Proof.
  intros H D. unfold doomed in *. destruct a as [e|d| |e| |t|outs|r|t| |t|l]; cbn [nstep1] in H.
  - destruct (by_user e); [|discriminate]. destruct (step (sock n) e); cbn [option_map] in H; [|discriminate]. injection H as <-. auto.
  - destruct (_ && _); [|discriminate]. injection H as <-. auto.
  - destruct (negb _); [|discriminate]. injection H as <-. auto.
  - unfold poll in H. destruct (pl n); try discriminate. rewrite D in H. discriminate.
  - unfold go_out in H. destruct (pl n); try discriminate. destruct (write_begin (sock n)); [|discriminate]. destruct (_ =? _)%nat; injection H as <-; proj; auto.
  - unfold go_connected in H. destruct (pl n); try discriminate. destruct t.
    + destruct (write_abort (sock n)); cbn [option_map] in H; [|discriminate]. injection H as <-. unfold after_out. proj. destruct (ev_in e); auto.
    + injection H as <-. auto.
  - unfold go_write in H. destruct (pl n); try discriminate. destruct (write_loop (sock n) outs); cbn [option_map] in H; [|discriminate].
    injection H as <-. unfold after_out. proj. destruct (ev_in e); auto.
  - unfold go_recv in H. destruct (pl n); try discriminate. destruct r; try (destruct (_ && _); [|discriminate]); injection H as <-; proj; auto.
  - unfold go_stream in H. destruct (pl n); try discriminate. destruct t; [|destruct eof]; injection H as <-; proj; auto.
  - unfold go_hup in H. destruct (pl n); try discriminate. destruct (ev_hup e) eqn:EH; injection H as <-; proj; rewrite ?EH in *; auto.
  - unfold go_over in H. destruct (pl n); try discriminate. destruct t; injection H as <-; proj; auto.
  - unfold go_end in H. destruct (pl n); try discriminate. rewrite D in H. injection H as <-. reflexivity.
Qed.

Lemma doomed_run ss : forall n n', nrun n ss = Some n' -> doomed n -> doomed n'.
Proof.
  induction ss as [|a ss IH]; cbn [nrun]; intros n n' H D; [injection H as <-; auto|].
  destruct (nstep1 n a) as [n1|] eqn:S; [|discriminate]. apply (IH n1); auto. now apply (doomed_step n a).
Qed.

Lemma poll_doomed n e n' : poll n e = Some n' -> ev_err e = true \/ ev_hup e = true -> doomed n'.
Proof.
  intros H X. apply orb_true_iff in X. unfold poll in H. destruct (pl n) eqn:P; try discriminate. destruct (_ && _); [|discriminate].
  destruct (ev_err e) eqn:EE; injection H as <-; unfold doomed; proj; [now rewrite EE|].
  destruct (ev_out e); [now rewrite EE|]. unfold after_out. destruct (ev_in e); now rewrite EE.
Qed.

(** * The connection comes first *)

Definition fresh (n : net) : Prop := told n = [] /\ pl n = Idle /\ registered n = true /\ state (sock n) = Pending.

Inductive late : net -> Prop :=
| late_out n e : told n = [] -> pl n = AtOut e -> state (sock n) = Pending -> late n
| late_over n : streams (told n) = [] -> over_place n = true -> late n
| late_conn n b : told n = Connected :: b -> late n.

Definition shut_by_user (a : nstep) : Prop := a = User ShutBody \/ a = User QuickStore.

Lemma fresh_step n a n' : nstep1 n a = Some n' -> ~ shut_by_user a -> fresh n ->
  match a with Poll e => ev_out e = true \/ ev_err e = true -> late n' | _ => fresh n' end.
Proof.
  intros H NU (T & P & R & S). destruct a as [e|d| |e| |t|outs|r|t| |t|l]; cbn [nstep1] in H;
      unfold go_out, go_connected, go_write, go_recv, go_stream, go_hup, go_over, go_end in H; try (rewrite P in H; discriminate).
  - destruct (by_user e) eqn:U; [|discriminate]. destruct (step (sock n) e) eqn:X; cbn [option_map] in H; [|discriminate]. injection H as <-.
    repeat split; proj; auto. apply (user_pending _ _ _ U X); auto; intros ->; apply NU; [left|right]; reflexivity.
  - destruct (_ && _); [|discriminate]. injection H as <-. repeat split; auto.
  - destruct (negb _); [|discriminate]. injection H as <-. repeat split; auto.
  - intros CF. unfold poll in H. rewrite P, R in H. cbn [andb] in H. destruct (if throttled n then _ else _); [|discriminate].
    destruct (ev_err e) eqn:EE; injection H as <-.
    + apply late_over; proj; [now rewrite T|reflexivity].
    + destruct CF as [CF|]; [|discriminate]. rewrite CF. now apply (late_out _ e).
Qed.

Lemma late_step n a n' : NInv n -> nstep1 n a = Some n' -> ~ shut_by_user a -> late n -> late n'.
Proof.
  intros V H NU E. inversion E as [m e P T S|m T O|m b T]; subst m.
  - destruct a as [e0|d| |e0| |t|outs|r|t| |t|l]; cbn [nstep1] in H;
      unfold poll, go_connected, go_write, go_recv, go_stream, go_hup, go_over, go_end in H; try (rewrite T in H; discriminate).
    + destruct (by_user e0) eqn:U; [|discriminate]. destruct (step (sock n) e0) eqn:X; cbn [option_map] in H; [|discriminate]. injection H as <-.
      apply (late_out _ e); proj; auto. apply (user_pending _ _ _ U X); auto; intros ->; apply NU; [left|right]; reflexivity.
    + destruct (_ && _); [|discriminate]. injection H as <-. now apply (late_out _ e).
    + destruct (negb _); [|discriminate]. injection H as <-. now apply (late_out _ e).
    + unfold go_out in H. rewrite T in H. destruct (write_begin (sock n)); [|discriminate]. rewrite S in H. cbn in H. injection H as <-.
      apply (late_conn _ []). proj. now rewrite P.
  - destruct a as [e0|d| |e0| |t|outs|r|t| |t|l]; cbn [nstep1] in H; unfold over_place in *.
    + destruct (by_user e0) eqn:U; [|discriminate]. destruct (step (sock n) e0) eqn:X; cbn [option_map] in H; [|discriminate]. injection H as <-. now apply late_over.
    + destruct (_ && _); [|discriminate]. injection H as <-. now apply late_over.
    + destruct (negb _); [|discriminate]. injection H as <-. now apply late_over.
    + unfold poll in H. destruct (pl n); try discriminate. apply negb_true_iff in O. rewrite O in H. discriminate.
    + unfold go_out in H. destruct (pl n); discriminate.
    + unfold go_connected in H. destruct (pl n); discriminate.
    + unfold go_write in H. destruct (pl n); discriminate.
    + unfold go_recv in H. destruct (pl n); discriminate.
    + unfold go_stream in H. destruct (pl n); discriminate.
    + unfold go_hup in H. destruct (pl n); discriminate.
    + unfold go_over in H. pose proof (v_calm _ V) as VC. destruct (pl n) eqn:P; try discriminate. proj.
      destruct t; injection H as <-; apply late_over; auto; unfold over_place; proj; auto. now apply orb_true_iff.
    + unfold go_end in H. destruct (pl n) eqn:P; try discriminate. rewrite O in H. injection H as <-. apply late_over; auto.
  - destruct (told_app [a] n n') as [x X]; [cbn [nrun]; now rewrite H|]. rewrite T in X. apply (late_conn _ (b ++ x)). auto.
Qed.

Lemma late_run ss : forall n n', NInv n -> nrun n ss = Some n' -> (forall a, In a ss -> ~ shut_by_user a) -> late n -> late n'.
Proof.
  induction ss as [|a ss IH]; cbn [nrun]; intros n n' V H NU E; [injection H as <-; auto|].
  destruct (nstep1 n a) as [n1|] eqn:S; [|discriminate]. apply (IH n1); auto.
  - now apply (ninv_step n a).
  - intros x X. apply NU. now right.
  - apply (late_step n a); auto. apply NU. now left.
Qed.

Lemma fresh_run ss : forall n n', NInv n -> nrun n ss = Some n' -> (forall a, In a ss -> ~ shut_by_user a) -> connect_first ss -> fresh n -> fresh n' \/ late n'.
Proof.
  induction ss as [|a ss IH]; cbn [nrun]; intros n n' V H NU CF F; [injection H as <-; auto|].
  destruct (nstep1 n a) as [n1|] eqn:S; [|discriminate]. pose proof (fresh_step _ _ _ S (NU _ (or_introl eq_refl)) F) as X.
  assert (V1 : NInv n1) by now apply (ninv_step n a). assert (NU1 : forall a, In a ss -> ~ shut_by_user a) by (intros y Y; apply NU; now right).
  destruct a; cbn [connect_first] in CF; try (apply (IH n1); auto; fail). right. apply (late_run ss n1); auto.
Qed.
