(** * C05, C49: WebSocket frames that arrive in arbitrary pieces *)
From Coq Require Import ZArith List Bool Lia.
From Verif Require Import Base WsModel WsSpec WsCutSpec WsSessionProofs WsMoreProofs WsCutProofs.
Import ListNotations.
Open Scope Z_scope.

(** What uncompressed frames within the length limit give the application when
    the transport cuts the stream anywhere: exactly what [receive_cut] says.
    [fws] are the frames, each with its form on the wire. *)
Theorem ws_receive_any_pieces :
  forall zst inflate addr_of (srv : bool) maxlen bits z fws chunks,
  Forall (fun fw => wire (fst fw) (snd fw)) fws ->
  Forall frame_ok (map fst fws) ->
  Forall (fun f => f_rsv1 f = false) (map fst fws) ->
  fits maxlen 0 (map fst fws) ->
  concat chunks = concat (map snd fws) ->
  exists s' evs,
    on_chunks zst inflate addr_of
      (session_new zst (if srv then wshs_s_accepted else wshs_c_accepted) maxlen bits z) [] chunks
    = SRet zst s' [] evs /\
    app_view evs = receive_cut srv (negb (bits =? 0)) None 0 (cuts 0 chunks) fws.
Proof.
  intros zst inflate addr_of srv maxlen bits z fws chunks H1 H2 H3 H4 H5.
  apply (chunks_receive_cut zst inflate addr_of srv maxlen bits fws H1 H2 H3 chunks _ None 0
           (session_new_Between zst srv maxlen bits z) H4 H5).
Qed.

(** Hence, if no cut tears the header of a frame that starts or ends a message of
    several frames, and none falls inside the payload of a TEXT or BINARY frame,
    then the messages are whole. *)
Theorem ws_receive_harmless_partial :
  forall zst inflate addr_of (srv : bool) maxlen bits z fws chunks,
  Forall (fun fw => wire (fst fw) (snd fw)) fws ->
  Forall frame_ok (map fst fws) ->
  Forall (fun f => f_rsv1 f = false) (map fst fws) ->
  fits maxlen 0 (map fst fws) ->
  concat chunks = concat (map snd fws) ->
  harmless 0 (cuts 0 chunks) fws ->
  exists s' evs,
    on_chunks zst inflate addr_of
      (session_new zst (if srv then wshs_s_accepted else wshs_c_accepted) maxlen bits z) [] chunks
    = SRet zst s' [] evs /\
    app_view evs = receive srv (negb (bits =? 0)) None (map fst fws).
Proof.
  intros zst inflate addr_of srv maxlen bits z fws chunks H1 H2 H3 H4 H5 H6.
  destruct (ws_receive_any_pieces zst inflate addr_of srv maxlen bits z fws chunks H1 H2 H3 H4 H5)
    as (s' & evs & E & Hv).
  exists s', evs. split; [exact E|]. rewrite Hv. apply harmless_receive; [exact H6|].
  clear -H1 H2. induction fws as [|[f w] r IH]; [constructor|].
  inversion_clear H1. cbn [map fst snd] in *. inversion_clear H2.
  constructor; [|auto]. cbn [fst snd].
  destruct (wire_parts f w H H1) as (ext & key & body & -> & _ & _ & _ & _ & Lb & _).
  cbn [length]. rewrite !app_length. lia.
Qed.

(** A fragmented masked message "abcde" with a PING in between. *)
Definition cut_frames : list (frame * list Z) :=
  [(mkFrame false false false false 1 (Some 0) [97; 98], [1; 130; 0; 0; 0; 0; 97; 98]);
   (mkFrame true false false false 9 (Some 0) [112; 113], [137; 130; 0; 0; 0; 0; 112; 113]);
   (mkFrame true false false false 0 (Some 0) [99; 100; 101], [128; 131; 0; 0; 0; 0; 99; 100; 101])].

Definition cut_at (ns : list nat) : list (list Z) :=
  let fix go (ns : list nat) (s : list Z) :=
    match ns with [] => [s] | n :: r => firstn n s :: go r (skipn n s) end in
  go ns (concat (map snd cut_frames)).

Definition cut_run (chunks : list (list Z)) : list app_event :=
  app_view (events_of unit (on_chunks unit (fun _ d => Some (tt, d)) (fun _ => 0)
    (session_new unit wshs_s_accepted 1000 0 None) [] chunks)).

Example cut_frames_meet :
  Forall (fun fw => wire (fst fw) (snd fw)) cut_frames /\
  Forall frame_ok (map fst cut_frames) /\
  Forall (fun f => f_rsv1 f = false) (map fst cut_frames) /\
  fits 1000 0 (map fst cut_frames).
Proof.
  split; [|split; [|split]].
  - unfold cut_frames.
    repeat (apply Forall_cons; [cbn [fst snd]|]); [| | |apply Forall_nil].
    + exists [130], [0; 0; 0; 0], [97; 98]. split; [reflexivity|]. split; [left; split; [cbn; lia|reflexivity]|].
      cbn [f_mask f_payload]. split; [reflexivity|]. split; [repeat constructor; unfold byte; lia|].
      split; [reflexivity|]. split; [reflexivity|].
      intros [|[|i]] Hi; [reflexivity|reflexivity|cbn in Hi; lia].
    + exists [130], [0; 0; 0; 0], [112; 113]. split; [reflexivity|]. split; [left; split; [cbn; lia|reflexivity]|].
      cbn [f_mask f_payload]. split; [reflexivity|]. split; [repeat constructor; unfold byte; lia|].
      split; [reflexivity|]. split; [reflexivity|].
      intros [|[|i]] Hi; [reflexivity|reflexivity|cbn in Hi; lia].
    + exists [131], [0; 0; 0; 0], [99; 100; 101]. split; [reflexivity|]. split; [left; split; [cbn; lia|reflexivity]|].
      cbn [f_mask f_payload]. split; [reflexivity|]. split; [repeat constructor; unfold byte; lia|].
      split; [reflexivity|]. split; [reflexivity|].
      intros [|[|[|i]]] Hi; [reflexivity|reflexivity|reflexivity|cbn in Hi; lia].
  - unfold cut_frames. cbn [map fst].
    repeat (apply Forall_cons; [split; [cbn; lia|]; split; [cbn [f_payload]; repeat constructor; unfold byte; lia|]; cbn; lia|]).
    apply Forall_nil.
  - repeat constructor.
  - cbn. lia.
Qed.

(** Cuts after the first byte, at the end of a header, inside the header of the
    PING, inside its payload, and inside the payload of the last frame do no
    harm. *)
Example cut_harmless :
  harmless 0 (cuts 0 (cut_at [1; 5; 5; 4; 8; 1]%nat)) cut_frames /\
  cut_run (cut_at [1; 5; 5; 4; 8; 1]%nat) = [Ping [112; 113]; Message 1 [97; 98; 99; 100; 101]].
Proof.
  split; [|vm_compute; reflexivity].
  cbn [harmless cut_frames].
  split; [|split; [|split; [|exact I]]]; intros p Hp Hr;
    vm_compute in Hp; vm_compute in Hr; cbn [f_fin f_opcode];
    unfold header_size; cbn [f_payload length Nat.sub Nat.add];
    unfold resumable, is_data; cbn [Z.eqb Pos.eqb orb negb];
    repeat (destruct Hp as [<-|Hp]; [lia|]); destruct Hp.
Qed.

(** A cut inside the payload of the first frame loses what precedes it, and one
    inside the header of the first frame makes the connection fail. *)
Example cut_harmful :
  cut_run (cut_at [7]%nat) = [Ping [112; 113]; Message 1 [98; 99; 100; 101]] /\
  cut_run (cut_at [3]%nat) = [ProtocolError] /\
  receive_cut true false None 0 (cuts 0 (cut_at [7]%nat)) cut_frames
  = [Ping [112; 113]; Message 1 [98; 99; 100; 101]] /\
  receive_cut true false None 0 (cuts 0 (cut_at [3]%nat)) cut_frames = [ProtocolError].
Proof. repeat split; vm_compute; reflexivity. Qed.

(** ** End to end *)

(** Messages that one endpoint sends and that arrive in any pieces: the pings and
    pongs are whole, and so is what follows the last cut in each message. *)
Theorem ws_client_to_server_any_pieces :
  forall zst inflate addr_of maxlen bits z (key addr : Z * list Z -> Z) ms ws chunks,
  (forall m, u32 (key m)) -> 0 <= maxlen < two32 ->
  Forall sendable ms ->
  Forall (fun m => Z.of_nat (length (snd m)) <= maxlen) ms ->
  Forall2 (fun m o => ws_send (raw_frame_client (key m) (addr m)) (fst m) (snd m) = Ret o) ms ws ->
  concat chunks = concat ws ->
  exists s' evs,
    on_chunks zst inflate addr_of (session_new zst wshs_s_accepted maxlen bits z) [] chunks
    = SRet zst s' [] evs /\
    app_view evs = arrives 0 (cuts 0 chunks) ms ws /\
    (whole_payloads 0 (cuts 0 chunks) ms ws -> app_view evs = map delivered ms).
Proof.
  intros zst inflate addr_of maxlen bits z key addr ms ws chunks Hk Hm H1 H2 H3 H4.
  destruct (end_to_end_cut zst inflate addr_of true maxlen bits z
              (fun m => raw_frame_client (key m) (addr m)) (fun m => Some (key m)) ms ws chunks)
    as ((s' & evs & E & Hv) & HL); try assumption.
  - discriminate.
  - intros m x d Hx Hd Hl. apply raw_frame_client_wire; auto.
  - exists s', evs. split; [exact E|]. split; [exact Hv|].
    intros HW. rewrite Hv. apply arrives_whole; assumption.
Qed.

Theorem ws_server_to_client_any_pieces :
  forall zst inflate addr_of maxlen bits z ms ws chunks,
  0 <= maxlen < two32 ->
  Forall sendable ms ->
  Forall (fun m => Z.of_nat (length (snd m)) <= maxlen) ms ->
  Forall2 (fun m o => ws_send raw_frame (fst m) (snd m) = Ret o) ms ws ->
  concat chunks = concat ws ->
  exists s' evs,
    on_chunks zst inflate addr_of (session_new zst wshs_c_accepted maxlen bits z) [] chunks
    = SRet zst s' [] evs /\
    app_view evs = arrives 0 (cuts 0 chunks) ms ws /\
    (whole_payloads 0 (cuts 0 chunks) ms ws -> app_view evs = map delivered ms).
Proof.
  intros zst inflate addr_of maxlen bits z ms ws chunks Hm H1 H2 H3 H4.
  destruct (end_to_end_cut zst inflate addr_of false maxlen bits z
              (fun _ => raw_frame) (fun _ => None) ms ws chunks)
    as ((s' & evs & E & Hv) & HL); try assumption.
  - discriminate.
  - intros m x d Hx Hd Hl. apply raw_frame_wire; auto.
  - exists s', evs. split; [exact E|]. split; [exact Hv|].
    intros HW. rewrite Hv. apply arrives_whole; assumption.
Qed.

(** "hi" and a ping in one stream: cut inside the header and the ping, the
    message is whole; cut inside the message, only "i" arrives. *)
Example ws_pieces_case :
  let ms := [(1, [104; 105]); (9, [112; 113])] in
  let ws := [[129; 2; 104; 105]; [137; 2; 112; 113]] in
  Forall sendable ms /\
  Forall2 (fun m o => ws_send raw_frame (fst m) (snd m) = Ret o) ms ws /\
  whole_payloads 0 (cuts 0 [[129]; [2]; [104; 105; 137; 2; 112]; [113]]) ms ws /\
  arrives 0 (cuts 0 [[129; 2; 104]; [105; 137; 2; 112]; [113]]) ms ws
  = [Message 1 [105]; Ping [112; 113]].
Proof.
  cbv zeta. split; [|split; [|split]].
  - apply Forall_cons; [split; [left; reflexivity|]|apply Forall_cons; [split; [right|]|apply Forall_nil]].
    + cbn [snd]; repeat constructor; unfold byte; lia.
    + split; [left; reflexivity|cbn; lia].
    + cbn [snd]; repeat constructor; unfold byte; lia.
  - apply Forall2_cons; [reflexivity|]. apply Forall2_cons; [reflexivity|]. apply Forall2_nil.
  - cbn [whole_payloads]. split; [|split; [discriminate|exact I]].
    intros _ p Hp. cbn [cuts length Nat.add In] in Hp. cbn [length Nat.add Nat.sub]. lia.
  - reflexivity.
Qed.

Print Assumptions ws_receive_any_pieces.
Print Assumptions ws_receive_harmless_partial.
Print Assumptions ws_client_to_server_any_pieces.
Print Assumptions ws_server_to_client_any_pieces.
