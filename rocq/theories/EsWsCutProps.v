(** C77: what the callback of an easy WebSocket server or client is told when the transport cuts the stream of frames anywhere. *)
From Coq Require Import ZArith List Bool String Lia.
From Verif Require Import Base Text EsModel EsSpec EsProofs EsWsProofs EsProps EsWsProps.
From Verif Require WsModel WsSpec WsCutSpec WsCutProps WsSessionProofs WsMoreProofs WsProps WshModel WshProps.
Import ListNotations.
Open Scope list_scope.
Open Scope Z_scope.
Notation length := List.length.

(** ** What the application is told of what arrives *)
Definition arrival_told (e : WsSpec.app_event) : list ws_event :=
  match e with
  | WsSpec.Message op d => if op =? 1 then [Ws_text d] else if op =? 2 then [Ws_binary d] else []
  | WsSpec.Pong d => [Ws_pong d]
  | _ => []
  end.

Section Cut.
  Variables (zst : Type) (inflate : zst -> list Z -> option (zst * list Z)) (addr_of : list Z -> Z).

  (** The contents of the receive buffer at each call of the stream callback, if the pieces [chunks] arrive one after another: what
      the previous call has left, followed by the piece. *)
  Fixpoint buffers (s : WsModel.session zst) (left_over : list Z) (chunks : list (list Z)) : list (list Z) :=
    match chunks with
    | [] => []
    | c :: cs =>
        (left_over ++ c) ::
        match WsModel.on_stream zst inflate addr_of s (left_over ++ c) with
        | WsModel.SRet _ s' rest _ => buffers s' rest cs
        | _ => []
        end
    end.

  Local Lemma buffers_life chunks : forall s rest s' rest' evs, WsModel.on_chunks zst inflate addr_of s rest chunks = WsModel.SRet zst s' rest' evs ->
    WsModel.life zst inflate addr_of s (map (@WsModel.OpStream) (buffers s rest chunks)) = Some (s', evs).
  Proof.
    induction chunks as [|c cs IH]; intros s rest s' rest' evs H; cbn [WsModel.on_chunks] in H.
    - injection H as <- _ <-. reflexivity.
    - cbn [buffers map WsModel.life WsModel.life_step]. destruct (WsModel.on_stream zst inflate addr_of s (rest ++ c)) as [s1 r1 e1|s1 e1|] eqn:E; try discriminate.
      destruct (WsModel.on_chunks zst inflate addr_of s1 r1 cs) as [s2 r2 e2|s2 e2|] eqn:E2; cbn in H; try discriminate.
      injection H as <- _ <-. now rewrite (IH _ _ _ _ _ E2).
  Qed.

  Local Definition quiet_event (e : WsSpec.app_event) : Prop := match e with WsSpec.Message _ _ | WsSpec.Ping _ | WsSpec.Pong _ => True | _ => False end.
  Local Lemma told_view evs : Forall quiet_event (WsSessionProofs.app_view evs) -> flat_map frame_told evs = flat_map arrival_told (WsSessionProofs.app_view evs).
  Proof.
    induction evs as [|e evs IH]; intros Q; [reflexivity|]. unfold WsSessionProofs.app_view in *. cbn [flat_map] in *. apply Forall_app in Q as [Q1 Q2].
    rewrite flat_map_app, (IH Q2). f_equal. destruct e as [op d|op d|st rs|st er|raw|st]; cbn [WsSessionProofs.view frame_told flat_map app] in *; try reflexivity; try (inversion Q1; contradiction).
    destruct (op =? 9) eqn:O9; [replace op with 9 by lia; reflexivity|]. destruct (op =? 10) eqn:O10; [replace op with 10 by lia; reflexivity|].
    cbn [flat_map arrival_told app]. now rewrite app_nil_r.
  Qed.
  Local Lemma arrives_quiet ms : forall base ps ws, Forall quiet_event (WsCutSpec.arrives base ps ms ws).
  Proof.
    induction ms as [|[op d] ms IH]; intros base ps ws; [constructor|]. destruct ws as [|w ws]; [constructor|]. cbn [WsCutSpec.arrives]. constructor; [|apply IH].
    destruct (op =? 9); [exact I|]. destruct (op =? 10); exact I.
  Qed.

  Variables (mktime : DateModel.tm -> Z) (integer : list Z -> Z) (sha1 : list Z -> list Z) (default maxlen pid self : Z) (z0 : option zst).

  (** The messages [ms] have been sent by [ws_send], as the frames [ws]; the transport cuts these anywhere, into [chunks]. *)
  Theorem ws_server_hears_any_pieces os bits (key addr : Z * list Z -> Z) ms ws chunks s0 :
    s0 = WsModel.session_new zst WsModel.wshs_s_accepted maxlen bits z0 ->
    let history := ws_server_history zst inflate addr_of mktime integer sha1 default maxlen z0 in
    frames zst (history os) = Some s0 ->
    (forall m, u32 (key m)) -> 0 <= maxlen < two32 ->
    Forall WsMoreProofs.sendable ms -> Forall (fun m => Z.of_nat (length (snd m)) <= maxlen) ms ->
    Forall2 (fun m o => WsModel.ws_send (WsModel.raw_frame_client (key m) (addr m)) (fst m) (snd m) = WsModel.Ret o) ms ws ->
    List.concat chunks = List.concat ws ->
    let told_now := told zst (history (os ++ map (Frames _) (buffers s0 [] chunks))) in
    told_now = told zst (history os) ++ flat_map arrival_told (WsCutSpec.arrives 0 (WsCutSpec.cuts 0 chunks) ms ws)
    /\ (WsCutSpec.whole_payloads 0 (WsCutSpec.cuts 0 chunks) ms ws -> told_now = told zst (history os) ++ flat_map message_told ms).
  Proof.
    intros -> history F K M S1 S2 W C.
    destruct (WsCutProps.ws_client_to_server_any_pieces zst inflate addr_of maxlen bits z0 key addr ms ws chunks K M S1 S2 W C) as (s' & evs & L & V & V').
    apply buffers_life in L.
    assert (J : told zst (history (os ++ map (Frames _) (buffers (WsModel.session_new zst WsModel.wshs_s_accepted maxlen bits z0) [] chunks))) = told zst (history os) ++ flat_map frame_told evs).
    { unfold history, ws_server_history, jrun. rewrite fold_left_app.
      pose proof (jrun_frames zst inflate addr_of WshModel.server_op (ws_server_step mktime integer sha1 default) server_closed (fun _ _ => []) WsModel.wshs_s_accepted maxlen z0 _ _ _ _ _ F L) as J.
      unfold jrun in J at 1. unfold history, ws_server_history, jrun in J. rewrite J. reflexivity. }
    cbv zeta. rewrite J. split.
    - rewrite told_view, V; [reflexivity|]. rewrite V. apply arrives_quiet.
    - intros WP. now rewrite (told_delivered ms evs S1 (V' WP)).
  Qed.
  Theorem ws_client_hears_any_pieces os bits ms ws chunks s0 :
    s0 = WsModel.session_new zst WsModel.wshs_c_accepted maxlen bits z0 ->
    let history := ws_client_history zst inflate addr_of mktime integer sha1 default maxlen pid self z0 in
    frames zst (history os) = Some s0 ->
    0 <= maxlen < two32 ->
    Forall WsMoreProofs.sendable ms -> Forall (fun m => Z.of_nat (length (snd m)) <= maxlen) ms ->
    Forall2 (fun m o => WsModel.ws_send WsModel.raw_frame (fst m) (snd m) = WsModel.Ret o) ms ws ->
    List.concat chunks = List.concat ws ->
    let told_now := told zst (history (os ++ map (Frames _) (buffers s0 [] chunks))) in
    told_now = told zst (history os) ++ flat_map arrival_told (WsCutSpec.arrives 0 (WsCutSpec.cuts 0 chunks) ms ws)
    /\ (WsCutSpec.whole_payloads 0 (WsCutSpec.cuts 0 chunks) ms ws -> told_now = told zst (history os) ++ flat_map message_told ms).
  Proof.
    intros -> history F M S1 S2 W C.
    destruct (WsCutProps.ws_server_to_client_any_pieces zst inflate addr_of maxlen bits z0 ms ws chunks M S1 S2 W C) as (s' & evs & L & V & V').
    apply buffers_life in L.
    assert (J : told zst (history (os ++ map (Frames _) (buffers (WsModel.session_new zst WsModel.wshs_c_accepted maxlen bits z0) [] chunks))) = told zst (history os) ++ flat_map frame_told evs).
    { unfold history, ws_client_history, jrun. rewrite fold_left_app.
      pose proof (jrun_frames zst inflate addr_of WshModel.client_op (WshModel.client_step mktime integer sha1 default pid self) client_closed_op (fun _ _ => []) WsModel.wshs_c_accepted maxlen z0 _ _ _ _ _ F L) as J.
      unfold jrun in J at 1. unfold history, ws_client_history, jrun in J. rewrite J. reflexivity. }
    cbv zeta. rewrite J. split.
    - rewrite told_view, V; [reflexivity|]. rewrite V. apply arrives_quiet.
    - intros WP. now rewrite (told_delivered ms evs S1 (V' WP)).
  Qed.
End Cut.
Print Assumptions ws_server_hears_any_pieces.
Print Assumptions ws_client_hears_any_pieces.

(** Two messages, cut inside the header of the first and inside the payload of the second, whose first byte is lost *)
Example ws_hears_any_pieces_case :
  let s0 := WsModel.session_new unit WsModel.wshs_s_accepted 1000 10 None in
  let history := ws_server_history unit ex_inflate (fun _ => 0) (fun _ => 0) WshProps.ex_int WshProps.ex_sha1 6 1000 None in
  let os := [Handshake _ (WshModel.Request (txt "now") WshProps.ex_q false)] in
  let ms := [(1, [97; 98]); (2, [99; 100])] in
  let ws := [[129; 130; 0; 0; 0; 128; 97; 98]; [130; 130; 0; 0; 0; 128; 99; 100]] in
  let chunks := [[129; 130; 0]; [0; 0; 128; 97; 98; 130; 130; 0; 0; 0; 128; 99]; [100]] in
  frames unit (history os) = Some s0
  /\ List.concat chunks = List.concat ws
  /\ Forall2 (fun m o => WsModel.ws_send (WsModel.raw_frame_client 128 0) (fst m) (snd m) = WsModel.Ret o) ms ws
  /\ WsCutSpec.arrives 0 (WsCutSpec.cuts 0 chunks) ms ws = [WsSpec.Message 1 [97; 98]; WsSpec.Message 2 [100]]
  /\ told unit (history (os ++ map (Frames _) (buffers unit ex_inflate (fun _ => 0) s0 [] chunks))) = [Ws_open (txt "h/p?q"); Ws_text [97; 98]; Ws_binary [100]].
Proof. cbv zeta. split; [vm_compute; reflexivity|]. split; [reflexivity|]. split; [repeat constructor|]. split; vm_compute; reflexivity. Qed.
