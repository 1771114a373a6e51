(** Proofs about the events of easy WebSocket servers and clients *)
From Coq Require Import ZArith List Bool String Lia.
From Verif Require Import Base Text EsModel EsSpec EsProofs PoolProofs.
From Verif Require WsModel WsSpec WsSessionProofs WsMoreProofs WshModel WshProps.
Import ListNotations.
Open Scope list_scope.
Open Scope Z_scope.
Notation length := List.length.

(** ** Frames *)
Lemma monitor_closed evs c : WsSessionProofs.monitor true evs = Some c -> flat_map frame_told evs = [] /\ c = true.
Proof.
  revert c. induction evs as [|e evs IH]; intros c H; cbn [WsSessionProofs.monitor] in H; [injection H as <-; auto|].
  destruct e; try discriminate; apply IH in H; exact H.
Qed.
(** Messages, and then the connection may be closed. *)
Lemma monitor_told evs c : WsSessionProofs.monitor false evs = Some c ->
  exists ms cl, flat_map frame_told evs = ms ++ cl /\ forallb is_message ms = true /\ forallb is_ws_close cl = true /\ length cl = (if c then 1 else 0)%nat.
Proof.
  revert c. induction evs as [|e evs IH]; intros c H; cbn [WsSessionProofs.monitor] in H; [injection H as <-; now exists [], []|].
  assert (MS : forall d, forallb is_message d = true -> (exists ms cl, flat_map frame_told evs = ms ++ cl /\ forallb is_message ms = true /\ forallb is_ws_close cl = true /\ length cl = (if c then 1 else 0)%nat) ->
     exists ms cl, d ++ flat_map frame_told evs = ms ++ cl /\ forallb is_message ms = true /\ forallb is_ws_close cl = true /\ length cl = (if c then 1 else 0)%nat).
  { intros d D (ms & cl & -> & M & C). exists (d ++ ms), cl. split; [now rewrite app_assoc|]. split; [rewrite forallb_app; now rewrite D|exact C]. }
  destruct e; cbn [flat_map]; try (apply MS; [reflexivity|now apply IH]).
  - apply MS; [|now apply IH]. cbn [frame_told]. destruct (opcode =? 1); [reflexivity|]. destruct (opcode =? 2); [reflexivity|]. now destruct (opcode =? 10).
  - apply monitor_closed in H as [-> ->]. now exists [], [Ws_close status (Some reason)].
  - apply monitor_closed in H as [-> ->]. now exists [], [Ws_close status None].
Qed.

(** ** The two halves *)
Definition ready (s : WshModel.session) : bool := existsb (fun e => match e with WshModel.On_ready _ => true | _ => false end) (WshModel.trace s).
Definition no_close (es : list ws_event) : bool := negb (existsb is_ws_close es).

Section Joint.
  Variables (zst : Type) (inflate : zst -> list Z -> option (zst * list Z)) (addr_of : list Z -> Z).
  Variables (Op : Type) (hstep : WshModel.session -> Op -> WshModel.session) (socket_closed : Op -> bool) (also : WshModel.session -> Op -> list ws_event).
  Variables (role : WsModel.wshs) (maxlen : Z) (z0 : option zst).
  (** What is known of the first half *)
  Variables (good : WshModel.session -> Prop) (fine_op : Op -> Prop).
  Hypothesis good_step : forall s o, good s -> fine_op o -> good (hstep s o).
  Definition short (d : list WshModel.event) (s s' : WshModel.session) : Prop :=
    match flat_map handshake_told d with
    | [] => WshModel.notified s' = false /\ ready s' = ready s
    | [Ws_open _] => WshModel.notified s' = false /\ ready s = false /\ ready s' = true
    | [Ws_close _ _] => WshModel.notified s' = true
    | _ => False
    end.
  Hypothesis step_told : forall s o, good s -> fine_op o -> exists d, WshModel.trace (hstep s o) = WshModel.trace s ++ d /\ (WshModel.notified s = false -> short d s (hstep s o)).
  Hypothesis switch_ready : forall s, good s -> WshModel.ack s = true -> WshModel.notified s = false -> ready s = true.
  Hypothesis closed_told : forall s o, good s -> fine_op o -> socket_closed o = true -> WshModel.notified (hstep s o) = true.
  Hypothesis also_plain : forall s o, forallb is_plain (also s o) = true.
  Hypothesis also_before : forall s o, good s -> ready s = true -> WshModel.ack s = false \/ WshModel.gone s = true -> also s o = [].

  Notation joint := (joint zst).
  Notation jstep := (jstep zst inflate addr_of Op hstep socket_closed also role maxlen z0).
  Notation jrun := (jrun zst inflate addr_of Op hstep socket_closed also role maxlen z0).

  Definition jinv (j : joint) : Prop :=
    good (hs zst j) /\
    ((existsb is_ws_close (told zst j) = true /\ ws_conversation (upto is_ws_close (told zst j)))
     \/ exists plain opened messages, told zst j = plain ++ opened ++ messages
          /\ forallb is_plain plain = true /\ forallb is_open opened = true /\ forallb is_message messages = true /\ (length opened <= 1)%nat
          /\ match frames zst j with
             | Some w => opened <> [] /\ WsModel.s_closed zst w = false
             | None => WshModel.notified (hs zst j) = false /\ messages = [] /\ (opened <> [] <-> ready (hs zst j) = true)
                       /\ (WshModel.ack (hs zst j) = false \/ WshModel.gone (hs zst j) = true)
             end).
  Lemma no_close_open l : forallb is_open l = true -> existsb is_ws_close l = false.
  Proof. induction l as [|[] l IH]; intros H; try discriminate; [reflexivity|]. exact (IH H). Qed.
  Lemma no_close_plain l : forallb is_plain l = true -> existsb is_ws_close l = false.
  Proof. induction l as [|[] l IH]; intros H; try discriminate; try reflexivity; exact (IH H). Qed.
  Lemma no_close_message l : forallb is_message l = true -> existsb is_ws_close l = false.
  Proof. induction l as [|[] l IH]; intros H; try discriminate; try reflexivity; exact (IH H). Qed.

  Lemma closed_more a b : existsb is_ws_close a = true -> existsb is_ws_close (a ++ b) = true /\ upto is_ws_close (a ++ b) = upto is_ws_close a.
  Proof. intros H. split; [rewrite existsb_app; now rewrite H|]. now rewrite upto_app, H, app_nil_r. Qed.
  Lemma cut plain opened messages cl : forallb is_plain plain = true -> forallb is_open opened = true -> forallb is_message messages = true -> (length opened <= 1)%nat -> (messages = [] \/ opened <> []) ->
    forallb is_ws_close cl = true -> length cl = 1%nat ->
    existsb is_ws_close (plain ++ opened ++ messages ++ cl) = true /\ ws_conversation (upto is_ws_close (plain ++ opened ++ messages ++ cl)).
  Proof.
    intros H1 H2 H3 H4 H5 H6 H7. destruct cl as [|c [|]]; try discriminate. cbn [forallb] in H6. rewrite andb_true_r in H6.
    assert (N : existsb is_ws_close (plain ++ opened ++ messages) = false) by (rewrite !existsb_app, no_close_plain, no_close_open, no_close_message by assumption; reflexivity).
    replace (plain ++ opened ++ messages ++ [c]) with ((plain ++ opened ++ messages) ++ [c]) by now rewrite <- !app_assoc. split.
    - rewrite existsb_app. cbn [existsb]. rewrite H6. now rewrite orb_true_r.
    - rewrite upto_app, N, (upto_none _ _ N). cbn [upto]. rewrite H6. exists plain, opened, messages, [c]. rewrite <- !app_assoc. repeat (split; [assumption || reflexivity|]). split; [cbn [forallb]; now rewrite H6|]. split; [exact H4|]. split; [cbn; lia|exact H5].
  Qed.

  Lemma frames_inv j w op : jinv j -> frames zst j = Some w ->
    jinv (match WsModel.life_step zst inflate addr_of w op with
      | Some (w, evs) => mkJ zst (hs zst j) (Some w) (told zst j ++ flat_map frame_told evs)
      | None => j
      end).
  Proof.
    intros I F. destruct (WsModel.life_step zst inflate addr_of w op) as [[w' evs]|] eqn:E; [|exact I]. destruct I as [G I]. split; [exact G|]. cbn [told frames].
    destruct I as [[C1 C2]|(pl & op' & ms & T & H1 & H2 & H3 & H4 & H5)].
    - left. destruct (closed_more (told zst j) (flat_map frame_told evs) C1) as [-> ->]. auto.
    - rewrite F in H5. destruct H5 as [H5 H6].
      assert (M : WsSessionProofs.monitor (WsModel.s_closed zst w) evs = Some (WsModel.s_closed zst w')).
      { apply (WsSessionProofs.life_monitor zst inflate addr_of [op]). cbn [WsModel.life]. rewrite E. now rewrite app_nil_r. }
      rewrite H6 in M. destruct (monitor_told _ _ M) as (ms' & cl & -> & M1 & M2 & M3).
      assert (M4 : forallb is_message (ms ++ ms') = true) by (rewrite forallb_app, H3; exact M1).
      destruct (WsModel.s_closed zst w') eqn:SC.
      + left. rewrite T. replace ((pl ++ op' ++ ms) ++ ms' ++ cl) with (pl ++ op' ++ (ms ++ ms') ++ cl) by now rewrite <- !app_assoc. apply cut; auto.
      + right. exists pl, op', (ms ++ ms'). destruct cl; [|discriminate]. rewrite app_nil_r, T. split; [now rewrite <- !app_assoc|]. repeat (split; [assumption|]). first [exact SC|reflexivity].
  Qed.

  Lemma jstep_inv j o : jinv j -> (forall x, o = Handshake Op x -> fine_op x) -> jinv (jstep j o).
  Proof.
    intros I OK. unfold EsModel.jstep. destruct o as [o|d].
    - destruct (frames zst j) as [w|] eqn:F; [destruct (socket_closed o); [now apply frames_inv|exact I]|].
      specialize (OK o eq_refl). destruct I as [G I]. pose proof (good_step _ _ G OK) as G'. destruct (step_told _ _ G OK) as (d & TR & SH). cbv zeta. rewrite TR.
      assert (SK : skipn (length (WshModel.trace (hs zst j))) (WshModel.trace (hs zst j) ++ d) = d) by (rewrite skipn_app, skipn_all, Nat.sub_diag; reflexivity). rewrite SK. clear SK.
      split; [exact G'|]. cbn [hs told frames].
      destruct I as [[C1 C2]|(pl & op & ms & T & H1 & H2 & H3 & H4 & H5)].
      + left. destruct (closed_more (told zst j) (also (hs zst j) o ++ flat_map handshake_told d) C1) as [-> ->]. auto.
      + rewrite F in H5. destruct H5 as (H5 & -> & H6 & H7). specialize (SH H5). unfold short in SH.
        assert (RC : (ready (hs zst j) = true /\ op <> [] /\ also (hs zst j) o = []) \/ (ready (hs zst j) = false /\ op = [])).
        { destruct (ready (hs zst j)) eqn:R; [left|right]; (split; [reflexivity|]); [split; [now apply H6|now apply also_before]|]. destruct op as [|x op]; [reflexivity|]. assert (true = false) by (symmetry; apply H6; discriminate). discriminate. }
        assert (PA : forallb is_plain (pl ++ also (hs zst j) o) = true) by (rewrite forallb_app, H1; apply also_plain).
        assert (SW : forall u : unit, switch zst role maxlen z0 (hstep (hs zst j) o) = None -> WshModel.ack (hstep (hs zst j) o) = false \/ WshModel.gone (hstep (hs zst j) o) = true).
        { intros _ S. unfold switch in S. destruct (WshModel.ack (hstep (hs zst j) o)); [|now left]. destruct (WshModel.gone (hstep (hs zst j) o)); [now right|discriminate]. }
        assert (SA : forall w, switch zst role maxlen z0 (hstep (hs zst j) o) = Some w -> WshModel.ack (hstep (hs zst j) o) = true /\ WsModel.s_closed zst w = WshModel.notified (hstep (hs zst j) o)).
        { intros w S. unfold switch in S. destruct (WshModel.ack (hstep (hs zst j) o)); [|discriminate]. destruct (WshModel.gone (hstep (hs zst j) o)); [discriminate|]. injection S as <-. auto. }
        (* the state after operations that do not close *)
        assert (KEEP : WshModel.notified (hstep (hs zst j) o) = false -> forall pl' op', forallb is_plain pl' = true -> forallb is_open op' = true -> (length op' <= 1)%nat -> (op' <> [] <-> ready (hstep (hs zst j) o) = true) ->
            told zst j ++ also (hs zst j) o ++ flat_map handshake_told d = pl' ++ op' ->
          exists plain opened messages, told zst j ++ also (hs zst j) o ++ flat_map handshake_told d = plain ++ opened ++ messages
          /\ forallb is_plain plain = true /\ forallb is_open opened = true /\ forallb is_message messages = true /\ (length opened <= 1)%nat
          /\ match switch zst role maxlen z0 (hstep (hs zst j) o) with
             | Some w => opened <> [] /\ WsModel.s_closed zst w = false
             | None => WshModel.notified (hstep (hs zst j) o) = false /\ messages = [] /\ (opened <> [] <-> ready (hstep (hs zst j) o) = true)
                       /\ (WshModel.ack (hstep (hs zst j) o) = false \/ WshModel.gone (hstep (hs zst j) o) = true)
             end).
        { intros N pl' op' P1 P2 P3 P4 P5. exists pl', op', []. rewrite app_nil_r. repeat (split; [assumption || reflexivity|]).
          destruct (switch zst role maxlen z0 (hstep (hs zst j) o)) as [w|] eqn:S; [|auto using SW, tt]. destruct (SA w eq_refl) as [A ->]. split; [|exact N]. apply P4. now apply switch_ready. }
        rewrite app_nil_r in T.
        destruct (flat_map handshake_told d) as [|e [|e' es]] eqn:FD.
        * right. destruct SH as [SH1 SH2]. destruct RC as [(R1 & R2 & R3)|(R1 & ->)].
          -- apply (KEEP SH1 pl op); auto; [now rewrite SH2|]. rewrite R3, T, !app_nil_r. reflexivity.
          -- apply (KEEP SH1 (pl ++ also (hs zst j) o) []); auto; [rewrite SH2, R1; split; [intros X; now destruct X|discriminate]|]. rewrite T, !app_nil_r. reflexivity.
        * destruct e as [u| | | |st rs| |]; try (destruct SH; fail).
          -- destruct SH as (SH1 & SH2 & SH3). right. destruct RC as [(R1 & _)|(_ & ->)]; [congruence|]. apply (KEEP SH1 (pl ++ also (hs zst j) o) [Ws_open u]); auto; [split; [auto|discriminate]|]. rewrite T, app_nil_r, <- app_assoc. reflexivity.
          -- left. destruct RC as [(R1 & R2 & R3)|(R1 & ->)].
             ++ rewrite R3, T. cbn [app]. replace ((pl ++ op) ++ [Ws_close st rs]) with (pl ++ op ++ [] ++ [Ws_close st rs]) by now rewrite <- app_assoc. apply cut; auto.
             ++ rewrite T, app_nil_r, app_assoc. change ([Ws_close st rs]) with ([] ++ [] ++ [Ws_close st rs]). apply cut; auto.
        * exfalso. destruct e; destruct SH.
    - destruct (frames zst j) as [w|] eqn:F; [|exact I]. now apply frames_inv.
  Qed.

  Definition ops_fine (os : list (jop Op)) : Prop := Forall (fun o => match o with Handshake _ x => fine_op x | Frames _ _ => True end) os.
  Lemma jrun_inv os : forall j, jinv j -> ops_fine os -> jinv (jrun j os).
  Proof.
    induction os as [|o os IH]; intros j I OK; [exact I|]. inversion OK as [|? ? O1 O2]; subst. cbn [EsModel.jrun fold_left]. apply IH; [|exact O2]. apply jstep_inv; [exact I|]. intros x ->. exact O1.
  Qed.
  Lemma jstart_inv s : good s -> WshModel.notified s = false -> ready s = false -> WshModel.ack s = false -> jinv (mkJ zst s None []).
  Proof using Type.
    intros G N R A. split; [exact G|]. right. exists [], [], []. cbn [told frames hs]. do 4 (split; [reflexivity|]). split; [apply Nat.le_0_l|]. split; [exact N|]. split; [reflexivity|]. split; [rewrite R; split; [intros X; now destruct X|discriminate]|now left].
  Qed.
  Lemma jinv_conversation j : jinv j -> ws_conversation (upto is_ws_close (told zst j)).
  Proof.
    intros [_ [[_ H]|(pl & op & ms & T & H1 & H2 & H3 & H4 & H5)]]; [exact H|].
    assert (N : existsb is_ws_close (told zst j) = false) by (rewrite T, !existsb_app, no_close_plain, no_close_open, no_close_message by assumption; reflexivity).
    rewrite (upto_none _ _ N), T. exists pl, op, ms, []. rewrite app_nil_r. repeat (split; [assumption || reflexivity || (cbn; lia)|]). destruct (frames zst j); [now right|left; tauto].
  Qed.

  (** The closure is told when the socket is closed. *)
  Lemma told_grows j o : exists d, told zst (jstep j o) = told zst j ++ d.
  Proof.
    unfold EsModel.jstep. destruct o as [o|d], (frames zst j) as [w|]; cbv zeta.
    - destruct (socket_closed o); [|exists []; now rewrite app_nil_r]. destruct (WsModel.life_step zst inflate addr_of w WsModel.OpSocketClosed) as [[w' evs]|]; [eexists; reflexivity|exists []; now rewrite app_nil_r].
    - eexists. reflexivity.
    - destruct (WsModel.life_step zst inflate addr_of w (WsModel.OpStream d)) as [[w' evs]|]; [eexists; reflexivity|exists []; now rewrite app_nil_r].
    - exists []. now rewrite app_nil_r.
  Qed.
  Lemma grows os : forall j, exists d, told zst (jrun j os) = told zst j ++ d.
  Proof.
    induction os as [|o os IH]; intros j; [exists []; now rewrite app_nil_r|]. cbn [EsModel.jrun fold_left]. destruct (IH (jstep j o)) as [d D]. destruct (told_grows j o) as [d' D']. exists (d' ++ d). unfold EsModel.jrun in D. rewrite D, D'. now rewrite app_assoc.
  Qed.
  Lemma closes_now j o : jinv j -> fine_op o -> socket_closed o = true -> existsb is_ws_close (told zst (jstep j (Handshake Op o))) = true.
  Proof.
    intros I OK SC. pose proof I as [G I']. unfold EsModel.jstep. destruct (frames zst j) as [w|] eqn:F.
    - rewrite SC. cbn [WsModel.life_step WsModel.close_once]. unfold WsModel.close_once. destruct I' as [[C _]|(pl & op & ms & T & H1 & H2 & H3 & H4 & H5)].
      + destruct (WsModel.s_closed zst w); cbn [told]; now apply closed_more.
      + try rewrite F in H5. destruct H5 as [_ ->]. cbn [told flat_map frame_told app]. rewrite existsb_app. cbn [existsb is_ws_close]. now rewrite orb_true_r.
    - cbv zeta. cbn [told]. destruct I' as [[C _]|(pl & op & ms & T & H1 & H2 & H3 & H4 & H5)]; [now apply closed_more|]. try rewrite F in H5. destruct H5 as (H5 & _).
      destruct (step_told _ _ G OK) as (d & TR & SH). specialize (SH H5). rewrite TR. rewrite skipn_app, skipn_all, Nat.sub_diag. cbn [app skipn]. pose proof (closed_told _ _ G OK SC) as N. unfold short in SH. rewrite N in SH.
      destruct (flat_map handshake_told d) as [|e [|e' es]]; [destruct SH; discriminate| |exfalso; destruct e; destruct SH]. destruct e; try (destruct SH; discriminate); try (now destruct SH).
      rewrite !existsb_app. cbn [existsb is_ws_close]. now rewrite !orb_true_r.
  Qed.
  Lemma run_closes os : forall j, jinv j -> ops_fine os -> Exists (fun o => match o with Handshake _ x => socket_closed x = true | Frames _ _ => False end) os -> existsb is_ws_close (told zst (jrun j os)) = true.
  Proof.
    induction os as [|o os IH]; intros j I OK X; [inversion X|]. inversion OK as [|? ? O1 O2]; subst. cbn [EsModel.jrun fold_left].
    assert (I1 : jinv (jstep j o)) by (apply jstep_inv; [exact I|intros x ->; exact O1]). inversion X as [? ? X1|? ? X1]; subst; [|exact (IH _ I1 O2 X1)].
    destruct o as [o|d]; [|destruct X1]. destruct (grows os (jstep j (Handshake Op o))) as [d D]. unfold EsModel.jrun in D. rewrite D. apply closed_more. now apply closes_now.
  Qed.
End Joint.

(** ** Servers *)
Import WshModel WshProps.
Open Scope list_scope.
Open Scope Z_scope.

Lemma handshake_told_app a b : flat_map handshake_told (a ++ b) = flat_map handshake_told a ++ flat_map handshake_told b.
Proof. apply flat_map_app. Qed.
Lemma ready_app s s' d : trace s' = trace s ++ d -> ready s' = ready s || existsb (fun e => match e with On_ready _ => true | _ => false end) d.
Proof. intros E. unfold ready. now rewrite E, existsb_app. Qed.
Lemma told_none d : flat_map handshake_told d = [] -> existsb (fun e => match e with On_ready _ => true | _ => false end) d = false.
Proof. induction d as [|e d IH]; [reflexivity|]. destruct e; cbn [flat_map handshake_told app existsb]; try discriminate; exact IH. Qed.
Lemma told_close d st : flat_map handshake_told d = [Ws_close st None] -> existsb (fun e => match e with On_ready _ => true | _ => false end) d = false.
Proof. induction d as [|e d IH]; [reflexivity|]. destruct e; cbn [flat_map handshake_told app existsb orb]; try discriminate; try exact IH. intros H. injection H as _ H. now apply told_none. Qed.

(** What is added, in a step that does not open the connection *)
Definition adds (s s' : session) : Prop :=
  exists d, trace s' = trace s ++ d /\ (notified s = true -> notified s' = true) /\
    if negb (notified s) && notified s' then exists st, flat_map handshake_told d = [Ws_close st None] else flat_map handshake_told d = [].
Lemma adds_refl s s' : trace s' = trace s -> notified s' = notified s -> adds s s'.
Proof. intros E N. exists []. rewrite app_nil_r, N. split; [exact E|]. split; [auto|]. now destruct (notified s). Qed.
Lemma adds_one s s' e : trace s' = trace s ++ [e] -> notified s' = notified s -> handshake_told e = [] -> adds s s'.
Proof. intros E N H. exists [e]. split; [exact E|]. rewrite N. split; [auto|]. destruct (notified s); cbn [negb andb flat_map]; now rewrite H. Qed.
Lemma adds_close s st : adds s (call_close s st) /\ notified (call_close s st) = true /\ con (call_close s st) = con s /\ ack (call_close s st) = ack s /\ gone (call_close s st) = gone s.
Proof.
  unfold call_close. destruct (notified s) eqn:N; [split; [now apply adds_refl|auto]|]. cbv zeta. destruct (negb _ || _); unfold shut, add; cbn [trace notified con ack gone]; (split; [|auto]).
  - exists [On_close st]. cbn [trace notified flat_map handshake_told app]. rewrite N. split; [reflexivity|]. split; [auto|]. now exists st.
  - exists [On_close st; Close_frame]. cbn [trace notified flat_map handshake_told app]. rewrite N, <- app_assoc. split; [reflexivity|]. split; [auto|]. now exists st.
Qed.
Lemma adds_trans a b c : adds a b -> adds b c -> adds a c.
Proof.
  intros (d1 & E1 & N1 & F1) (d2 & E2 & N2 & F2). exists (d1 ++ d2). split; [now rewrite E2, E1, app_assoc|]. split; [auto|].
  rewrite handshake_told_app. destruct (notified a); cbn [negb andb] in *.
  - rewrite F1. rewrite (N1 eq_refl) in F2. exact F2.
  - destruct (notified b) eqn:NB; cbn [negb andb] in *.
    + rewrite (N2 eq_refl). destruct F1 as [st ->]. rewrite F2. now exists st.
    + rewrite F1. exact F2.
Qed.
Lemma adds_respond s st fs c : adds s (respond s st fs c) /\ notified (respond s st fs c) = notified s /\ con (respond s st fs c) = con s /\ ack (respond s st fs c) = ((st =? 101) || ack s) /\ gone (respond s st fs c) = gone s.
Proof. unfold respond. cbv zeta. destruct (st =? 101), c; cbn [shut add con ack notified gone trace orb]; (split; [eapply adds_one; cbn; reflexivity|auto]). Qed.
Lemma adds_fail s e : handshake_told e = [] -> adds s (fail s e).
Proof. intros H. eapply adds_one; [cbn; reflexivity|reflexivity|exact H]. Qed.
Lemma adds_error s st : st <> 101 -> adds s (request_error s st) /\ con (request_error s st) = con s /\ ack (request_error s st) = ack s.
Proof.
  intros NS. unfold request_error. destruct (ack s) eqn:A; [split; [now apply adds_fail|auto]|]. set (fs := _ ++ _). destruct (adds_respond s st fs true) as (R1 & R2 & R3 & R4 & R5).
  destruct (adds_close (respond s st fs true) 1006) as (C1 & C2 & C3 & C4 & C5). split; [now apply (adds_trans _ (respond s st fs true))|]. rewrite C3, C4, R3, R4, A. replace (st =? 101) with false by lia. auto.
Qed.
Lemma adds_ready s s' : adds s s' -> ready s' = ready s.
Proof.
  intros (d & E & _ & F). rewrite (ready_app _ _ _ E). destruct (negb (notified s) && notified s'); [destruct F as [st F]; rewrite (told_close _ _ F)|rewrite (told_none _ F)]; apply orb_false_r.
Qed.
Lemma adds_short s s' : adds s s' -> exists d, trace s' = trace s ++ d /\ (notified s = false -> short d s s').
Proof.
  intros A. pose proof (adds_ready _ _ A) as R. destruct A as (d & E & N & F). exists d. split; [exact E|]. intros NS. unfold short. rewrite NS in F. cbn [negb andb] in F.
  destruct (notified s') eqn:N'; [destruct F as [st ->]; reflexivity|]. rewrite F. auto.
Qed.

Section Server.
  Variables (mktime : DateModel.tm -> Z) (integer : list Z -> Z) (sha1 : list Z -> list Z) (default : Z).
  Hypothesis D : 0 <= default <= 9.
  Hypothesis B : forall x, bytes (sha1 x).

  Lemma accept_cases now c0 m fs0 c st fs : wshs c0 = pending -> accept_handshake_request mktime integer sha1 default now c0 m fs0 = Reply c st fs ->
    (st = 101 /\ wshs c = s_accepted /\ list_eqb m (txt "OPTIONS") = false) \/ (st <> 101 /\ wshs c = pending).
  Proof.
    intros W E. destruct (Z.eq_dec st 101) as [->|NS].
    - left. destruct (server_accepts_any mktime integer sha1 default now c0 m fs0 c fs D B E) as (k & v & AK & LK & PK & _ & WC & _). split; [reflexivity|]. split; [exact WC|].
      destruct (list_eqb m (txt "OPTIONS")) eqn:M; [|reflexivity]. apply list_eqb_spec in M. rewrite M in E. unfold accept_handshake_request in E. rewrite W in E. discriminate E.
    - right. split; [exact NS|]. unfold accept_handshake_request in E. rewrite W in E. cbv zeta in E. destruct (list_eqb m (txt "OPTIONS")); [injection E as <- _ _; exact W|].
      destruct (headers (request_header mktime integer default) fs0 no_scan) as [sc| |]; [|injection E as <- _ _; exact W|discriminate].
      destruct (negb (upgrade_ok sc) || negb (version_ok sc) || (hd 0 (digest sc) =? 0)); [injection E as <- _ _; exact W|]. injection E as _ E _. congruence.
  Qed.

  Definition server_good (s : session) : Prop :=
    (ack s = false -> wshs (con s) = pending) /\ (ack s = true -> notified s = true \/ ready s = true) /\ (ready s = true -> ack s = true).
  Lemma good_adds s s' : server_good s -> adds s s' -> wshs (con s') = wshs (con s) -> ack s' = ack s -> server_good s'.
  Proof.
    intros (G1 & G2 & G3) A W K. pose proof (adds_ready _ _ A) as R. destruct A as (d & E & N & F). unfold server_good. rewrite W, K, R. split; [exact G1|]. split; [|exact G3]. intros X. destruct (G2 X); auto.
  Qed.
  Definition outcome (s s' : session) : Prop := server_good s' /\ exists d, trace s' = trace s ++ d /\ (notified s = false -> short d s s').
  Lemma outcome_adds s s' : server_good s -> adds s s' -> wshs (con s') = wshs (con s) -> ack s' = ack s -> outcome s s'.
  Proof. intros G A W K. split; [now apply (good_adds s)|now apply adds_short]. Qed.
  Lemma error_outcome s st : server_good s -> st <> 101 -> outcome s (request_error s st).
  Proof. intros G N. destruct (adds_error s st N) as (A & C & K). apply outcome_adds; auto. now rewrite C. Qed.

  Lemma complete_outcome now s q eot : server_good s -> outcome s (complete_handshake mktime integer sha1 default now s q eot).
  Proof.
    intros G. unfold complete_handshake. destruct (is_proxy q); [apply error_outcome; [exact G|lia]|].
    destruct (accept_handshake_request mktime integer sha1 default now (con s) (method q) (q_fields q)) as [c st fs| |] eqn:E;
      [|apply outcome_adds; auto; now apply adds_fail|apply outcome_adds; auto; now apply adds_fail].
    cbv zeta. cbn [set_con ack]. destruct (ack s) eqn:A.
    { pose proof (adds_fail (set_con s c) Exception eq_refl) as X. split.
      - destruct G as (G1 & G2 & G3). split; [cbn; congruence|]. split; [|exact (fun _ => A)]. intros _. destruct (G2 A) as [N|R]; [now left|right]. unfold ready, fail, set_con. cbn [trace]. rewrite existsb_app. unfold ready in R. now rewrite R.
      - destruct (adds_short _ _ X) as (d & E1 & E2). exists d. split; [exact E1|]. intros N. exact (E2 N). }
    pose proof (accept_cases _ _ _ _ _ _ _ (proj1 G A) E) as AC.
    destruct (adds_respond (set_con s c) st fs (negb (st =? 101))) as (R1 & R2 & R3 & R4 & R5). cbn [set_con notified con ack gone] in R2, R3, R4, R5. rewrite A, orb_false_r in R4.
    assert (S0 : adds s (set_con s c)) by (now apply adds_refl). pose proof (adds_trans _ _ _ S0 R1) as SR. set (s1 := respond (set_con s c) st fs (negb (st =? 101))) in *.
    assert (NR : ready s = false) by (destruct (ready s) eqn:Q; [|reflexivity]; rewrite (proj2 (proj2 G) Q) in A; discriminate).
    destruct AC as [(-> & WC & ->)|(NS & WC)].
    - change (101 =? 101) with true in R4. rewrite WC. destruct eot.
      + destruct (adds_close s1 1002) as (C1 & C2 & C3 & C4 & C5). pose proof (adds_trans _ _ _ SR C1) as SC. split; [|now apply adds_short].
        split; [rewrite C4, R4; discriminate|]. split; [intros _; now left|]. rewrite (adds_ready _ _ SC), NR. discriminate.
      + pose proof (adds_ready _ _ SR) as RR. destruct SR as (d & E1 & N1 & F1). split.
        * split; [unfold add; cbn [ack]; rewrite R4; discriminate|]. split; [intros _; right; unfold ready, add; cbn [trace]; rewrite existsb_app; cbn [existsb]; now rewrite orb_true_r|]. intros _. exact R4.
        * exists (d ++ [On_ready (raw_host q ++ raw_path q ++ [63] ++ raw_query q)]). split; [unfold add; cbn [trace]; rewrite E1; symmetry; apply app_assoc|]. intros N. rewrite R2, N in F1. cbn [negb andb] in F1.
          unfold short. rewrite handshake_told_app, F1. cbn [flat_map handshake_told app notified]. split; [unfold add; cbn [notified]; rewrite R2; exact N|]. split; [exact NR|]. unfold ready, add. cbn [trace]. rewrite existsb_app. cbn [existsb]. now rewrite orb_true_r.
    - replace (st =? 101) with false in R4 by lia. assert (W : wshs (con s) = pending) by (now apply G).
      destruct (list_eqb (method q) (txt "OPTIONS")); [apply outcome_adds; auto; congruence|].
      destruct (adds_close s1 1002) as (C1 & C2 & C3 & C4 & C5). pose proof (adds_trans _ _ _ SR C1) as SC.
      assert (X : outcome s (call_close s1 1002)) by (apply outcome_adds; auto; [rewrite C3, R3; congruence|congruence]).
      rewrite WC. destruct eot; exact X.
  Qed.
  Lemma server_outcome s o : server_good s -> errors_ok o -> outcome s (server_step mktime integer sha1 default s o).
  Proof.
    intros G OK. destruct o as [now q eot|st|]; cbn [server_step].
    - destruct (gone s); [apply outcome_adds; auto; now apply adds_refl|]. now apply complete_outcome.
    - destruct (gone s); [apply outcome_adds; auto; now apply adds_refl|]. now apply error_outcome.
    - destruct (adds_close s 1006) as (C1 & C2 & C3 & C4 & C5). apply outcome_adds; auto; [|cbn [con]; now rewrite C3].
      destruct C1 as (d & E & N & F). exists d. cbn [trace notified]. rewrite C2 in F. auto.
  Qed.
  Lemma kill_outcome s s' k : outcome s s' -> outcome s (mkSess (con s') (ack s') (closing s' || k) (notified s') (trace s') (gone s')).
  Proof. intros [G H]. split; [exact G|exact H]. Qed.
  Lemma hws_outcome s o : server_good s -> errors_ok o -> outcome s (hws_step mktime integer sha1 default s o).
  Proof.
    intros G OK. destruct o as [now q eot|st|]; [|now apply (server_outcome s (Request_error st))|now apply (server_outcome s Closed)].
    cbn [hws_step]. destruct (gone s) eqn:GN; [apply outcome_adds; auto; now apply adds_refl|]. unfold hws_route.
    assert (H1 : outcome s (ws_server_step mktime integer sha1 default s (Request now q eot))) by (now apply server_outcome).
    assert (H2 : outcome s s) by (apply outcome_adds; auto; now apply adds_refl).
    destruct (is_proxy q); [apply kill_outcome, error_outcome; [exact G|lia]|].
    destruct (is_method q (txt "OPTIONS")); [exact H1|]. destruct (is_method q (txt "GET")).
    - destruct (existsb _ (q_fields q)); [exact H1|exact H2].
    - destruct (is_method q (txt "HEAD")); [exact H2|]. apply kill_outcome, error_outcome; [exact G|lia].
  Qed.
  Lemma closed_notified s o : server_closed o = true -> notified (server_step mktime integer sha1 default s o) = true.
  Proof. destruct o; intros H; try discriminate. reflexivity. Qed.
  Lemma hws_closed_notified s o : server_closed o = true -> notified (hws_step mktime integer sha1 default s o) = true.
  Proof. destruct o; intros H; try discriminate. reflexivity. Qed.
  Lemma hws_also_plain s o : forallb is_plain (hws_also s o) = true.
  Proof.
    destruct o as [now q eot|st|]; try reflexivity. cbn [hws_also]. destruct (gone s); [reflexivity|]. unfold hws_route. destruct (is_proxy q); [reflexivity|]. destruct (is_method q (txt "OPTIONS")); [reflexivity|].
    destruct (is_method q (txt "GET")); [destruct (existsb _ (q_fields q)); reflexivity|]. destruct (is_method q (txt "HEAD")); reflexivity.
  Qed.
  Lemma hws_also_before s o : server_good s -> ready s = true -> ack s = false \/ gone s = true -> hws_also s o = [].
  Proof. intros (_ & _ & G) R [A|A]; [rewrite (G R) in A; discriminate|]. destruct o; try reflexivity. cbn [hws_also]. now rewrite A. Qed.
  Lemma start_good : server_good server_start.
  Proof. split; [reflexivity|]. split; [discriminate|intros H; discriminate H]. Qed.
  Lemma good_switch s : server_good s -> ack s = true -> notified s = false -> ready s = true.
  Proof. intros (_ & G & _) A N. destruct (G A); congruence. Qed.
End Server.

(** ** Clients *)
Section Client.
  Variables (mktime : DateModel.tm -> Z) (integer : list Z -> Z) (sha1 : list Z -> list Z) (default pid self : Z).
  Hypothesis D : 0 <= default <= 9.
  Hypothesis B : forall x, bytes (sha1 x) /\ length (sha1 x) = 20%nat.

  Definition client_closed_op (o : client_op) : bool := match o with Closed_c => true | _ => false end.
  (** [wshs] says whether the connection has been opened; without a closure, the protocol is not switched before. *)
  Definition client_good (s : session) : Prop :=
    (wshs (con s) = req_sent /\ ready s = false /\ (ack s = true -> notified s = true)) \/ (wshs (con s) = c_accepted /\ ready s = true).
  Lemma finish_outcome s fs : client_good s -> (wshs (con s) = req_sent -> ack s = false) ->
    let s' := finish_response mktime integer sha1 default pid self s fs in
    ack s' = ack s /\ (exists d, trace s' = trace s ++ d /\ (notified s = false -> short d s s'))
    /\ ((wshs (con s') = req_sent /\ ready s' = false /\ (gone s' = true \/ notified s' = true)) \/ (wshs (con s') = c_accepted /\ ready s' = true)).
  Proof.
    intros G NA. cbv zeta. unfold finish_response.
    assert (FL : forall e, handshake_told e = [] -> ack (fail s e) = ack s /\ (exists d, trace (fail s e) = trace s ++ d /\ (notified s = false -> short d s (fail s e)))
       /\ ((wshs (con (fail s e)) = req_sent /\ ready (fail s e) = false /\ (gone (fail s e) = true \/ notified (fail s e) = true)) \/ (wshs (con (fail s e)) = c_accepted /\ ready (fail s e) = true))).
    { intros e H. pose proof (adds_fail s e H) as A. split; [reflexivity|]. split; [now apply adds_short|]. rewrite (adds_ready _ _ A). destruct G as [(W & R & _)|(W & R)]; [left|right]; cbn [fail con gone]; auto. }
    destruct (accept_handshake_response mktime integer sha1 default pid self (con s) fs) as [c| |] eqn:E; [|now apply FL|now apply FL]. cbv zeta.
    assert (WS : wshs (con s) = req_sent) by (unfold accept_handshake_response in E; destruct (wshs (con s)); try discriminate; reflexivity).
    assert (WC : wshs c = c_accepted \/ wshs c = req_sent).
    { unfold accept_handshake_response in E. rewrite WS in E. destruct (headers (response_header mktime integer default) fs no_scan) as [sc| |]; try discriminate; [|injection E as <-; now right].
      destruct (negb (upgrade_ok sc) || (hd 0 (digest sc) =? 0)); [injection E as <-; now right|]. destruct (negb (list_eqb _ _)); [injection E as <-; now right|]. injection E as <-. now left. }
    destruct G as [(_ & R & _)|(W & _)]; [|congruence].
    assert (S0 : adds s (set_con s c)) by (now apply adds_refl).
    destruct WC as [WC|WC]; rewrite WC.
    - split; [reflexivity|]. split.
      + exists [On_ready []]. split; [reflexivity|]. intros N. unfold short. cbn [flat_map handshake_told app add set_con notified]. split; [exact N|]. split; [exact R|]. unfold ready, add, set_con. cbn [trace]. rewrite existsb_app. cbn [existsb]. now rewrite orb_true_r.
      + right. cbn [add set_con con]. split; [exact WC|]. unfold ready, add, set_con. cbn [trace]. rewrite existsb_app. cbn [existsb]. now rewrite orb_true_r.
    - destruct (adds_close (set_con s c) 1002) as (C1 & C2 & C3 & C4 & C5). pose proof (adds_trans _ _ _ S0 C1) as A. split; [now rewrite C4|]. split; [now apply adds_short|]. left. rewrite C3, (adds_ready _ _ A). auto.
  Qed.
  Lemma client_outcome s o : client_good s ->
    client_good (client_step mktime integer sha1 default pid self s o) /\ exists d, trace (client_step mktime integer sha1 default pid self s o) = trace s ++ d /\ (notified s = false -> short d s (client_step mktime integer sha1 default pid self s o)).
  Proof.
    intros G. destruct o as [st fs|]; cbn [client_step].
    - destruct (gone s || ack s) eqn:GA; [split; [exact G|]; apply adds_short; now apply adds_refl|]. apply orb_false_iff in GA as [GN A]. cbv zeta.
      destruct (finish_outcome s fs G (fun _ => A)) as (K & SH & W). set (s' := finish_response mktime integer sha1 default pid self s fs) in *.
      assert (G' : client_good s') by (destruct W as [(W1 & W2 & _)|W]; [left; split; [exact W1|]; split; [exact W2|]; rewrite K, A; discriminate|now right]).
      destruct ((st =? 101) && negb (gone s')) eqn:SW; [|split; [exact G'|exact SH]]. split; [|exact SH].
      apply andb_true_iff in SW as [_ SW]. destruct W as [(W1 & W2 & [W3|W3])|W]; [rewrite W3 in SW; discriminate|left|right; exact W]. split; [exact W1|]. split; [exact W2|]. intros _. exact W3.
    - destruct (adds_close s 1006) as (C1 & C2 & C3 & C4 & C5).
      assert (A : adds s (mkSess (con (call_close s 1006)) (ack s) true true (trace (call_close s 1006)) true)) by (destruct C1 as (d & E & N & F); exists d; cbn [trace notified]; rewrite C2 in F; auto).
      split; [|now apply adds_short]. unfold client_good. rewrite (adds_ready _ _ A). cbn [con]. rewrite C3. destruct G as [(W & R & _)|(W & R)]; [left|right]; auto.
  Qed.
  Lemma client_closed_notified s o : client_closed_op o = true -> notified (client_step mktime integer sha1 default pid self s o) = true.
  Proof. destruct o; intros H; try discriminate. reflexivity. Qed.
  Lemma client_start_good : client_good (client_start sha1 pid self) /\ notified (client_start sha1 pid self) = false /\ ready (client_start sha1 pid self) = false /\ ack (client_start sha1 pid self) = false.
  Proof. unfold client_start. cbn. split; [left; split; [reflexivity|]; split; [reflexivity|discriminate]|auto]. Qed.
  Lemma client_switch s : client_good s -> ack s = true -> notified s = false -> ready s = true.
  Proof. intros [(_ & _ & G)|(_ & G)] A N; [rewrite (G A) in N; discriminate|exact G]. Qed.
End Client.

(** ** Messages *)
Section Frames.
  Import WsModel WsSpec WsSessionProofs WsMoreProofs.
  Variables (zst : Type) (inflate : zst -> list Z -> option (zst * list Z)) (addr_of : list Z -> Z).
  Lemma closed_life s cs : s_closed zst s = true -> life zst inflate addr_of s (map OpStream cs) = Some (s, []).
  Proof. intros C. induction cs as [|c cs IH]; [reflexivity|]. cbn [map life life_step]. unfold on_stream. cbn [stream_loop]. rewrite C, orb_true_r, IH. reflexivity. Qed.
  Lemma life_receive srv mx b gs cs : Forall2 wires gs cs ->
    forall s open, Rel zst srv mx b s open -> Forall (Forall frame_ok) gs ->
    Forall (Forall (fun f => f_rsv1 f = false)) gs -> fits mx (olen open) (List.concat gs) ->
    exists s' evs, life zst inflate addr_of s (map OpStream cs) = Some (s', evs) /\
      app_view evs = receive srv (negb (b =? 0)) open (List.concat gs).
  Proof.
    induction 1 as [|fs w gs cs Hw Hws IH]; intros s open HR Hok Hr1 Hfit; [exists s, []; split; reflexivity|].
    inversion_clear Hok. inversion_clear Hr1. cbn [List.concat] in *.
    assert (Hfit1 : fits mx (olen open) fs).
    { clear -Hfit. revert Hfit. generalize (olen open). induction fs as [|f fs IH]; intros n Hf; [exact Logic.I|]. cbn [app fits] in *.
      destruct Hf as [Hf1 Hf2]. split; [exact Hf1|]. destruct (is_data _); [auto|]. destruct (f_opcode f =? 0); [|auto]. destruct Hf2; split; auto. }
    destruct (stream_frames zst inflate addr_of srv mx b fs w Hw s open (S (S (length w))) HR H H1 Hfit1 ltac:(lia)) as (s' & evs & ST & HD).
    cbn [map life life_step]. unfold on_stream. rewrite ST. destruct HD as [(Hc & Hv)|(open' & HR' & Hv & Hf)].
    - rewrite closed_life by auto. exists s', evs. rewrite app_nil_r. split; [reflexivity|]. now rewrite Hv.
    - destruct (IH s' open' HR' H0 H2 (Hf _ Hfit)) as (s2 & evs2 & ST2 & Hv2). rewrite ST2. exists s2, (evs ++ evs2). split; [reflexivity|]. rewrite app_view_app, Hv2, Hv. reflexivity.
  Qed.
  Lemma told_delivered ms : forall evs, Forall sendable ms -> app_view evs = map delivered ms -> flat_map frame_told evs = flat_map message_told ms.
  Proof.
    intros evs. revert ms. induction evs as [|e evs IH]; intros ms S V.
    - destruct ms as [|m ms]; [reflexivity|discriminate].
    - unfold app_view in V. cbn [flat_map] in V. destruct e as [op d|op d|st rs|st er|raw|st]; cbn [view app frame_told flat_map] in *; try (now apply IH).
      + destruct ms as [|m ms]; [discriminate|]. inversion_clear S. cbn [map] in V. injection V as V1 V2. cbn [flat_map]. rewrite (IH ms H0 V2). f_equal. unfold message_told, delivered in *. pose proof (sendable_opcode m H) as SO.
        destruct (op =? 9) eqn:O9; [destruct (fst m =? 9) eqn:M9; [|destruct (fst m =? 10); discriminate]; injection V1 as ->; replace (op) with 9 by lia; replace (fst m) with 9 by lia; reflexivity|].
        destruct (op =? 10) eqn:O10; [destruct (fst m =? 9) eqn:M9; [discriminate|]; destruct (fst m =? 10) eqn:M10; [|discriminate]; injection V1 as ->; replace op with 10 by lia; replace (fst m) with 10 by lia; reflexivity|].
        destruct (fst m =? 9) eqn:M9; [discriminate|]. destruct (fst m =? 10) eqn:M10; [discriminate|]. injection V1 as -> ->. reflexivity.
      + destruct ms as [|m ms]; [discriminate|]. cbn [map] in V. injection V as V1 _. unfold delivered in V1. destruct (fst m =? 9); [discriminate|]. destruct (fst m =? 10); discriminate.
      + destruct ms as [|m ms]; [discriminate|]. cbn [map] in V. injection V as V1 _. unfold delivered in V1. destruct (fst m =? 9); [discriminate|]. destruct (fst m =? 10); discriminate.
  Qed.
  Lemma life_messages (srv : bool) mx bits z (mask : Z * list Z -> option Z) (raw : Z * list Z -> Z -> list Z -> list Z) segments chunks :
    (srv = true -> forall m, mask m <> None) ->
    (forall m x d, 0 <= x < 256 -> bytes d -> u64 (Z.of_nat (length d)) -> wire (frame_of x (mask m) d) (raw m x d)) ->
    0 <= mx < two32 -> Forall (Forall sendable) segments -> Forall (Forall (fun m => Z.of_nat (length (snd m)) <= mx)) segments ->
    Forall2 (fun ms w => exists ws, Forall2 (fun m o => ws_send (raw m) (fst m) (snd m) = Ret o) ms ws /\ w = List.concat ws) segments chunks ->
    exists s' evs, life zst inflate addr_of (session_new zst (if srv then wshs_s_accepted else wshs_c_accepted) mx bits z) (map OpStream chunks) = Some (s', evs)
      /\ flat_map frame_told evs = flat_map message_told (List.concat segments).
  Proof.
    intros Hm Hraw Hmx Hs Hl Hw. set (fr := fun m : Z * list Z => frame_of (Z.lor 128 (fst m)) (mask m) (snd m)).
    destruct (life_receive srv mx bits (map (map fr) segments) chunks) with (s := session_new zst (if srv then wshs_s_accepted else wshs_c_accepted) mx bits z) (open := @None (Z * list Z)) as (s' & evs & H1 & H2).
    - revert Hs Hl. induction Hw as [|ms w segs ws Hmw Hw IH]; intros Hs Hl; [constructor|].
      inversion_clear Hs. inversion_clear Hl. cbn [map]. constructor; [|auto].
      destruct Hmw as (os & Hos & ->). clear IH Hw.
      revert H H1. induction Hos as [|m o ms os Ho Hos IH]; intros Hs Hl; [constructor|].
      inversion_clear Hs. inversion_clear Hl. cbn [map List.concat]. constructor; [|auto].
      assert (Ho' : o = raw m (Z.lor 128 (fst m)) (snd m)).
      { unfold ws_send in Ho. destruct (_ || _); [now injection Ho|]. destruct (_ || _); [|discriminate]. destruct (125 <? _); [discriminate|]. now injection Ho. }
      subst o. apply Hraw.
      + destruct (sendable_opcode m H) as [->|[->|[->| ->]]]; cbn; lia.
      + apply H.
      + unfold u64, two64, two32 in *. lia.
    - apply session_new_Rel.
    - apply Forall_map. eapply Forall_impl; [|exact Hs]. intros ms Hms. apply Forall_map. eapply Forall_impl; [|exact Hms]. intros m Hsm.
      pose proof (sendable_opcode m Hsm) as Hop. unfold fr. rewrite frame_of_fin by auto. repeat split; cbn [f_opcode f_payload]; try lia. apply Hsm.
    - apply Forall_map. eapply Forall_impl; [|exact Hs]. intros ms Hms. apply Forall_map. eapply Forall_impl; [|exact Hms]. intros m Hsm.
      pose proof (sendable_opcode m Hsm) as Hop. unfold fr. rewrite frame_of_fin by auto. reflexivity.
    - rewrite <- concat_map. apply send_fits.
      + clear -Hl. induction Hl; cbn [List.concat]; [constructor|]. apply Forall_app; auto.
      + clear -Hs. induction Hs; cbn [List.concat]; [constructor|]. apply Forall_app; auto.
    - assert (Hc : Forall sendable (List.concat segments)) by (clear -Hs; induction Hs; cbn [List.concat]; [constructor|]; apply Forall_app; auto).
      exists s', evs. split; [exact H1|]. apply told_delivered; [exact Hc|]. rewrite H2, <- concat_map. now apply send_events.
  Qed.

  Lemma jrun_frames Op hstep socket_closed also role maxlen z0 cs : forall (j : joint zst) w s' evs, frames zst j = Some w -> life zst inflate addr_of w (map OpStream cs) = Some (s', evs) ->
    jrun zst inflate addr_of Op hstep socket_closed also role maxlen z0 j (map (Frames Op) cs) = mkJ zst (hs zst j) (Some s') (told zst j ++ flat_map frame_told evs).
  Proof.
    induction cs as [|c cs IH]; intros j w s' evs F H; cbn [map life] in H.
    - injection H as <- <-. cbn. rewrite app_nil_r, <- F. now destruct j.
    - destruct (life_step zst inflate addr_of w (OpStream c)) as [[w1 evs1]|] eqn:L; [|discriminate]. destruct (life zst inflate addr_of w1 (map OpStream cs)) as [[w2 evs2]|] eqn:L2; [|discriminate]. injection H as <- <-.
      cbn [map jrun fold_left]. unfold jstep at 2. rewrite F. cbv zeta. rewrite L.
      specialize (IH (mkJ zst (hs zst j) (Some w1) (told zst j ++ flat_map frame_told evs1)) w1 _ _ eq_refl L2). unfold jrun in IH. rewrite IH. cbn [hs told]. now rewrite flat_map_app, app_assoc.
  Qed.
End Frames.

Lemma forallb_firstn {A} (p : A -> bool) n l : forallb p l = true -> forallb p (firstn n l) = true.
Proof. revert n. induction l as [|x l IH]; intros n H; [now rewrite firstn_nil|]. destruct n; [reflexivity|]. cbn [firstn forallb] in *. apply andb_true_iff in H as [-> H]. now apply IH. Qed.
Lemma conversation_prefix es n : ws_conversation es -> ws_conversation (firstn n es).
Proof.
  intros (pl & op & ms & cl & -> & H1 & H2 & H3 & H4 & H5 & H6 & H7).
  exists (firstn n pl), (firstn (n - length pl) op), (firstn (n - length pl - length op) ms), (firstn (n - length pl - length op - length ms) cl).
  rewrite !firstn_app. repeat (split; [reflexivity || now apply forallb_firstn|]). rewrite !firstn_length.
  split; [lia|]. split; [lia|]. destruct H7 as [->|H7]; [left; apply firstn_nil|]. destruct op as [|x [|]]; [congruence| |cbn in H5; lia]. cbn [length]. destruct (n - length pl)%nat; [left; reflexivity|right; discriminate].
Qed.
