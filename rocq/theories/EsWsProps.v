(** C77: easy WebSocket servers and clients. *)
From Coq Require Import ZArith List Bool String Lia.
From Verif Require Import Base Text EsModel EsSpec EsProofs EsWsProofs EsProps.
From Verif Require WsModel WsSpec WsSessionProofs WsMoreProofs WsProps WshModel WshProps.
Import ListNotations.
Open Scope list_scope.
Open Scope Z_scope.
Notation length := List.length.

Section Any.
  Variables (zst : Type) (inflate : zst -> list Z -> option (zst * list Z)) (addr_of : list Z -> Z).
  Variables (mktime : DateModel.tm -> Z) (integer : list Z -> Z) (sha1 : list Z -> list Z) (default maxlen pid self : Z) (z0 : option zst).

  (** The three kinds of sessions, in any history: requests or responses, frames, errors, and the closure of the socket *)
  Definition ws_server_history := jrun zst inflate addr_of WshModel.server_op (ws_server_step mktime integer sha1 default) server_closed (fun _ _ => [])
    WsModel.wshs_s_accepted maxlen z0 (mkJ zst WshModel.server_start None []).
  Definition hws_server_history := jrun zst inflate addr_of WshModel.server_op (hws_step mktime integer sha1 default) server_closed hws_also
    WsModel.wshs_s_accepted maxlen z0 (mkJ zst WshModel.server_start None []).
  Definition ws_client_history := jrun zst inflate addr_of WshModel.client_op (WshModel.client_step mktime integer sha1 default pid self) client_closed_op (fun _ _ => [])
    WsModel.wshs_c_accepted maxlen z0 (mkJ zst (WshModel.client_start sha1 pid self) None []).
  (** Statuses of errors are not 101. *)
  Definition errors_fine (os : list (jop WshModel.server_op)) : Prop := ops_fine WshModel.server_op WshProps.errors_ok os.
  Definition server_socket_closed (os : list (jop WshModel.server_op)) : Prop := In (Handshake _ WshModel.Closed) os.
  Definition client_socket_closed (os : list (jop WshModel.client_op)) : Prop := In (Handshake _ WshModel.Closed_c) os.

  (** What the callback is told in any schedule, [told] being what has happened *)
  Definition converses (told : list ws_event) (closed : Prop) : Prop :=
    forall xs st, pushes xs = told -> run ws_kind init xs = Some st ->
    exists ts now,
      takes_turns ws_kind (log st) ts now
      /\ prefix_of (events_of ts now) (upto is_ws_close told)
      /\ ws_conversation (events_of ts now)
      /\ done_to (log st) = flat_map (fun t => t_user t ++ t_own t) ts ++ match now with Some t => t_user t | None => [] end
      /\ Forall (fun t => t_own t = [] \/ t_own t = [Ws_shut 1011]) ts
      /\ (undisturbed xs -> quiet st -> now = None /\ events_of ts now = upto is_ws_close told
          /\ (closed -> exists before st reason, events_of ts now = before ++ [Ws_close st reason])).

  Lemma upto_closed es : existsb is_ws_close es = true -> exists before st reason, upto is_ws_close es = before ++ [Ws_close st reason].
  Proof.
    induction es as [|e es IH]; intros H; [discriminate|]. cbn [upto]. destruct (is_ws_close e) eqn:C.
    - destruct e; try discriminate. now exists [], status, reason.
    - cbn [existsb] in H. rewrite C in H. destruct (IH H) as (b & s & r & ->). now exists (e :: b), s, r.
  Qed.
  Lemma conversing told (closed : Prop) : ws_conversation (upto is_ws_close told) -> (closed -> existsb is_ws_close told = true) -> converses told closed.
  Proof.
    intros C D xs st P R. destruct (events_in_turn ws_kind xs st R) as (ts & now & Tu & Pr & Do & Qu). change (closes ws_kind) with is_ws_close in Pr, Qu. rewrite P in Pr, Qu. exists ts, now.
    split; [exact Tu|]. split; [exact Pr|]. split.
    { destruct Pr as [c Pr]. rewrite Pr in C. apply (conversation_prefix _ (length (events_of ts now))) in C. now rewrite firstn_app, firstn_all, Nat.sub_diag, app_nil_r in C. }
    split; [exact Do|]. split; [destruct Tu as (_ & Pp & _); eapply Forall_impl; [|exact Pp]; intros t [_ [threw ->]]; cbn [finish ws_kind]; destruct threw; auto|].
    intros U Q. destruct (Qu U Q) as [N A]. split; [exact N|]. split; [exact A|]. intros CL. rewrite A. now apply upto_closed, D.
  Qed.
  Lemma socket_exists {Op} (sc : Op -> bool) o (os : list (jop Op)) : sc o = true -> In (Handshake Op o) os -> Exists (fun o => match o with Handshake _ x => sc x = true | Frames _ _ => False end) os.
  Proof. intros S I. apply Exists_exists. exists (Handshake Op o). auto. Qed.

  (** ** A WebSocket server, a server of both protocols and a client
      Whatever arrives and in whatever schedule: the callback is told of plain requests, if the server takes them; then at most once that
      the connection has been opened; then of messages, which it is never told of otherwise; and of the closure once, if the
      socket has been closed, after which it is told of nothing.  It is told of one thing at a time, in the order in
      which things have happened.  If the callback throws an exception, the connection is shut down with the status 1011. *)
  Hypothesis D : 0 <= default <= 9.
  Hypothesis B : forall x, bytes (sha1 x).
  Theorem ws_server_conversation os : errors_fine os ->
    converses (told zst (ws_server_history os)) (server_socket_closed os).
  Proof.
    intros OK.
    assert (S : forall s o, server_good s -> WshProps.errors_ok o -> outcome s (ws_server_step mktime integer sha1 default s o)) by (intros s o G O'; now apply server_outcome).
    assert (I : jinv zst server_good (mkJ zst WshModel.server_start None [])) by (apply jstart_inv; [apply start_good|reflexivity|reflexivity|reflexivity]).
    assert (H1 := fun s o G O' => proj1 (S s o G O')). assert (H2 := fun s o G O' => proj2 (S s o G O')).
    assert (H3 := fun s (o : WshModel.server_op) (_ : server_good s) (_ : WshProps.errors_ok o) => closed_notified mktime integer sha1 default s o).
    apply conversing.
    - apply (jinv_conversation zst server_good), (jrun_inv zst inflate addr_of WshModel.server_op (ws_server_step mktime integer sha1 default) server_closed (fun _ _ => []) WsModel.wshs_s_accepted maxlen z0 server_good WshProps.errors_ok); auto using good_switch.
    - intros CL. apply (run_closes zst inflate addr_of WshModel.server_op (ws_server_step mktime integer sha1 default) server_closed (fun _ _ => []) WsModel.wshs_s_accepted maxlen z0 server_good WshProps.errors_ok); auto using good_switch.
      now apply (socket_exists server_closed WshModel.Closed).
  Qed.
  Theorem hws_server_conversation os : errors_fine os ->
    converses (told zst (hws_server_history os)) (server_socket_closed os).
  Proof.
    intros OK.
    assert (S : forall s o, server_good s -> WshProps.errors_ok o -> outcome s (hws_step mktime integer sha1 default s o)) by (intros s o G O'; now apply hws_outcome).
    assert (I : jinv zst server_good (mkJ zst WshModel.server_start None [])) by (apply jstart_inv; [apply start_good|reflexivity|reflexivity|reflexivity]).
    assert (H1 := fun s o G O' => proj1 (S s o G O')). assert (H2 := fun s o G O' => proj2 (S s o G O')).
    assert (H3 := fun s (o : WshModel.server_op) (_ : server_good s) (_ : WshProps.errors_ok o) => hws_closed_notified mktime integer sha1 default s o).
    apply conversing.
    - apply (jinv_conversation zst server_good), (jrun_inv zst inflate addr_of WshModel.server_op (hws_step mktime integer sha1 default) server_closed hws_also WsModel.wshs_s_accepted maxlen z0 server_good WshProps.errors_ok); auto using good_switch, hws_also_plain, hws_also_before.
    - intros CL. apply (run_closes zst inflate addr_of WshModel.server_op (hws_step mktime integer sha1 default) server_closed hws_also WsModel.wshs_s_accepted maxlen z0 server_good WshProps.errors_ok); auto using good_switch, hws_also_plain, hws_also_before.
      now apply (socket_exists server_closed WshModel.Closed).
  Qed.
  Theorem ws_client_conversation os :
    converses (told zst (ws_client_history os)) (client_socket_closed os).
  Proof.
    assert (S : forall s o, client_good s -> True -> client_good (WshModel.client_step mktime integer sha1 default pid self s o) /\ exists d, WshModel.trace (WshModel.client_step mktime integer sha1 default pid self s o) = WshModel.trace s ++ d /\ (WshModel.notified s = false -> short d s (WshModel.client_step mktime integer sha1 default pid self s o)))
      by (intros s o G _; now apply client_outcome).
    assert (I : jinv zst client_good (mkJ zst (WshModel.client_start sha1 pid self) None [])) by (destruct (client_start_good sha1 pid self) as (C1 & C2 & C3 & C4); now apply jstart_inv).
    assert (H1 := fun s o G O' => proj1 (S s o G O')). assert (H2 := fun s o G O' => proj2 (S s o G O')).
    assert (H3 := fun s (o : WshModel.client_op) (_ : client_good s) (_ : True) => client_closed_notified mktime integer sha1 default pid self s o).
    assert (OK : ops_fine WshModel.client_op (fun _ => True) os) by (apply Forall_forall; intros [] _; exact Logic.I).
    apply conversing.
    - apply (jinv_conversation zst client_good), (jrun_inv zst inflate addr_of WshModel.client_op (WshModel.client_step mktime integer sha1 default pid self) client_closed_op (fun _ _ => []) WsModel.wshs_c_accepted maxlen z0 client_good (fun _ => True)); auto using client_switch.
    - intros CL. apply (run_closes zst inflate addr_of WshModel.client_op (WshModel.client_step mktime integer sha1 default pid self) client_closed_op (fun _ _ => []) WsModel.wshs_c_accepted maxlen z0 client_good (fun _ => True)); auto using client_switch.
      now apply (socket_exists client_closed_op WshModel.Closed_c).
  Qed.

  (** ** Messages of the peer reach the callback
      The handshake has just been completed; the other side sends messages by [ws_send], without compression, and the stream is
      cut between frames. *)
  Theorem ws_server_hears_partial os bits (key addr : Z * list Z -> Z) segments chunks :
    frames zst (ws_server_history os) = Some (WsModel.session_new zst WsModel.wshs_s_accepted maxlen bits z0) ->
    (forall m, u32 (key m)) -> 0 <= maxlen < two32 ->
    Forall (Forall WsMoreProofs.sendable) segments -> Forall (Forall (fun m => Z.of_nat (length (snd m)) <= maxlen)) segments ->
    Forall2 (fun ms w => exists ws, Forall2 (fun m o => WsModel.ws_send (WsModel.raw_frame_client (key m) (addr m)) (fst m) (snd m) = WsModel.Ret o) ms ws /\ w = List.concat ws) segments chunks ->
    told zst (ws_server_history (os ++ map (Frames _) chunks)) = told zst (ws_server_history os) ++ flat_map message_told (List.concat segments).
  Proof.
    intros F K M S1 S2 W. unfold ws_server_history, jrun. rewrite fold_left_app.
    destruct (life_messages zst inflate addr_of true maxlen bits z0 (fun m => Some (key m)) (fun m => WsModel.raw_frame_client (key m) (addr m)) segments chunks) as (s' & evs & L & T); auto; [discriminate|intros; now apply WsSessionProofs.raw_frame_client_wire|].
    pose proof (jrun_frames zst inflate addr_of WshModel.server_op (ws_server_step mktime integer sha1 default) server_closed (fun _ _ => []) WsModel.wshs_s_accepted maxlen z0 chunks _ _ _ _ F L) as J. unfold jrun in J at 1. unfold ws_server_history, jrun in J. rewrite J. cbn [told]. now rewrite T.
  Qed.
  Theorem ws_client_hears_partial os bits segments chunks :
    frames zst (ws_client_history os) = Some (WsModel.session_new zst WsModel.wshs_c_accepted maxlen bits z0) ->
    0 <= maxlen < two32 ->
    Forall (Forall WsMoreProofs.sendable) segments -> Forall (Forall (fun m => Z.of_nat (length (snd m)) <= maxlen)) segments ->
    Forall2 (fun ms w => exists ws, Forall2 (fun m o => WsModel.ws_send WsModel.raw_frame (fst m) (snd m) = WsModel.Ret o) ms ws /\ w = List.concat ws) segments chunks ->
    told zst (ws_client_history (os ++ map (Frames _) chunks)) = told zst (ws_client_history os) ++ flat_map message_told (List.concat segments).
  Proof.
    intros F M S1 S2 W. unfold ws_client_history, jrun. rewrite fold_left_app.
    destruct (life_messages zst inflate addr_of false maxlen bits z0 (fun m => None) (fun m => WsModel.raw_frame) segments chunks) as (s' & evs & L & T); auto; [discriminate|intros; now apply WsSessionProofs.raw_frame_wire|].
    pose proof (jrun_frames zst inflate addr_of WshModel.client_op (WshModel.client_step mktime integer sha1 default pid self) client_closed_op (fun _ _ => []) WsModel.wshs_c_accepted maxlen z0 chunks _ _ _ _ F L) as J. unfold jrun in J at 1. unfold ws_client_history, jrun in J. rewrite J. cbn [told]. now rewrite T.
  Qed.
End Any.
Print Assumptions ws_server_conversation.
Print Assumptions hws_server_conversation.
Print Assumptions ws_client_conversation.
Print Assumptions ws_server_hears_partial.
Print Assumptions ws_client_hears_partial.

(** A handshake, a text in two frames, a binary message, and the socket is closed; before, a plain request *)
Definition ex_inflate (z : unit) (d : list Z) : option (unit * list Z) := None.
Definition ex_get : WshModel.request := WshModel.mkQ (txt "GET") false (txt "h") (txt "/p") (txt "q") [].
Definition ex_ops : list (jop WshModel.server_op) :=
  [Handshake _ (WshModel.Request (txt "now") ex_get false); Handshake _ (WshModel.Request (txt "now") WshProps.ex_q false); Frames _ [1; 130; 0; 0; 0; 0; 97; 98; 128; 129; 0; 0; 0; 0; 99]; Frames _ [130; 129; 0; 0; 0; 0; 7]; Handshake _ WshModel.Closed; Handshake _ WshModel.Closed].
Definition ex_told := told unit (hws_server_history unit ex_inflate (fun _ => 0) (fun _ => 0) WshProps.ex_int WshProps.ex_sha1 6 1000 None ex_ops).
Example ws_conversation_case :
  errors_fine ex_ops /\ server_socket_closed ex_ops
  /\ ex_told = [Ws_get (txt "h/p?q"); Ws_open (txt "h/p?q"); Ws_text [97; 98; 99]; Ws_binary [7]; Ws_close 1006 (Some WsModel.no_close_frame_reason)]
  /\ exists xs st, pushes xs = ex_told /\ undisturbed xs /\ run ws_kind init xs = Some st /\ quiet st /\ done_to (log st) = [Ws_reply 1; Ws_shut 1011].
Proof.
  split; [repeat constructor|]. split; [cbn; auto 10|]. split; [vm_compute; reflexivity|].
  exists (map (fun e => Push e Fine) ex_told ++ [Pop 0; Act 0 (Ws_reply 1); Return 0 false; Pop 0; Return 0 false; Pop 0; Return 0 true; Pop 0; Return 0 false; Pop 0; Return 0 false; Pop 0]).
  eexists. split; [vm_compute; reflexivity|]. split; [vm_compute; repeat constructor|]. split; [vm_compute; reflexivity|]. split; [vm_compute; repeat constructor|vm_compute; reflexivity].
Qed.
Example ws_client_case :
  told unit (ws_client_history unit ex_inflate (fun _ => 0) (fun _ => 0) WshProps.ex_int WshProps.ex_sha1 9 1000 1000 4096 None
    [Handshake _ (WshModel.Response 101 WshProps.ex_resp); Frames _ [129; 1; 97]; Frames _ [136; 2; 3; 232]; Handshake _ WshModel.Closed_c]) = [Ws_open []; Ws_text [97]; Ws_close 1000 (Some [])].
Proof. vm_compute. reflexivity. Qed.
Example ws_hears_case :
  frames unit (ws_server_history unit ex_inflate (fun _ => 0) (fun _ => 0) WshProps.ex_int WshProps.ex_sha1 6 1000 None [Handshake _ (WshModel.Request (txt "now") WshProps.ex_q false)])
    = Some (WsModel.session_new unit WsModel.wshs_s_accepted 1000 10 None)
  /\ WsMoreProofs.sendable (1, [97; 98]) /\ WsModel.ws_send (WsModel.raw_frame_client 128 0) 1 [97; 98] = WsModel.Ret [129; 130; 0; 0; 0; 128; 97; 98].
Proof. split; [vm_compute; reflexivity|]. split; [split; [now left|]|vm_compute; reflexivity]. repeat (constructor; [unfold byte; lia|]). constructor. Qed.

(** Errors are answered in the network thread and not by the fiber (http_server_session.cpp, easy_hws_server.cpp:156-160,193-200):
    of two requests that a client has sent, the second may be answered before the first, and the connection is shut down then. *)
Theorem hws_replies_in_order_refuted :
  exists os j xs st, j = hws_server_history unit ex_inflate (fun _ => 0) (fun _ => 0) WshProps.ex_int WshProps.ex_sha1 6 1000 None os
    /\ os = [Handshake _ (WshModel.Request [] ex_get false); Handshake _ (WshModel.Request [] (WshModel.mkQ (txt "POST") false (txt "h") (txt "/p") [] []) false)]
    /\ (exists fs, In (WshModel.Replied 405 fs true) (WshModel.trace (hs unit j)))
    /\ pushes xs = told unit j /\ undisturbed xs /\ run ws_kind init xs = Some st
    /\ exists a b c, log st = a ++ Network (Ws_response 405 true) :: b ++ User 0 (Ws_reply 1) :: c /\ In (Began 0 (Ws_get (txt "h/p?q"))) (b ++ c).
Proof.
  eexists _, _, [Push (Ws_get (txt "h/p?q")) Fine; Send (Ws_response 405 true); Push (Ws_close 1006 None) Fine; Pop 0; Act 0 (Ws_reply 1)], _.
  split; [reflexivity|]. split; [reflexivity|]. split; [eexists; vm_compute; left; reflexivity|]. split; [vm_compute; reflexivity|]. split; [repeat constructor|]. split; [vm_compute; reflexivity|].
  exists [], [Began 0%nat (Ws_get (txt "h/p?q"))], []. split; [reflexivity|now left].
Qed.
Print Assumptions hws_replies_in_order_refuted.
