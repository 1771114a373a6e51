(** The WebSocket properties C01-C07 and C49. *)
From Coq Require Import ZArith List Bool Lia.
From Verif Require Import Base WsModel WsSpec WsMaskProofs WsParseProofs WsSplitProofs
  WsSessionProofs WsMoreProofs.
Import ListNotations.
Open Scope Z_scope.

(** * C01: header wire round trip *)

(** The encoder writes the RFC 6455 layout with the shortest length form. *)
Theorem ws_encode_layout : forall h, hdr_ok h ->
  exists lf, rfc_length_field (h_masked h) (h_len h) lf /\
  encode h = rfc_octet0 (h_fin h) (h_rsv1 h) (h_rsv2 h) (h_rsv3 h) (h_opcode h)
             :: lf ++ (if h_masked h
                       then map (rfc_key_octet (h_key h)) [0; 1; 2; 3]%nat else []).
Proof. exact encode_rfc. Qed.

Theorem ws_header_round_trip : forall p h rest,
  between_frames p -> hdr_ok h ->
  allowed (is_server p) (negb (p_send_bits p =? 0)) (open_of p) (h_fin h) (h_rsv1 h) (h_rsv2 h)
          (h_rsv3 h) (h_opcode h) (h_masked h) (len7_of (h_len h)) = true ->
  exists p', parse_header p (encode h ++ rest) = Ret (p', rest) /\
    header_complete p' = true /\ in_error p' = false /\
    h_fin (p_hdr p') = h_fin h /\ h_rsv1 (p_hdr p') = h_rsv1 h /\ h_rsv2 (p_hdr p') = h_rsv2 h /\
    h_rsv3 (p_hdr p') = h_rsv3 h /\ h_opcode (p_hdr p') = h_opcode h /\
    h_masked (p_hdr p') = h_masked h /\ h_len (p_hdr p') = h_len h /\
    (h_masked h = true -> h_key (p_hdr p') = h_key h).
Proof. exact header_round_trip. Qed.

(** A masked, non-final BINARY header with a 64-bit length, for a fresh server. *)
Definition c01_header : hdr := mkHdr false false false false 2 true 0 287454020 70000.
Example ws_header_round_trip_ex :
  between_frames (parser_accepted wshs_s_accepted 100000 0) /\ hdr_ok c01_header /\
  allowed true false None false false false false 2 true (len7_of 70000) = true /\
  encode c01_header ++ [7; 7] = [2; 255; 0; 0; 0; 0; 0; 1; 17; 112; 17; 34; 51; 68; 7; 7].
Proof. repeat split; try (vm_compute; congruence); try discriminate. Qed.

(** * C02: masking *)

Theorem ws_mask_is_xor : forall addr h s out h',
  bytes s -> u32 (h_key h) -> h_masked h = true ->
  mask_payload addr h s = (out, h') ->
  rfc_masked (h_key h) s out.
Proof. exact mask_payload_rfc. Qed.

Theorem ws_mask_pieces : forall pieces addr h,
  Forall (fun x => bytes (snd x)) pieces -> u32 (h_key h) ->
  mask_pieces h pieces = fst (mask_payload addr h (concat (map snd pieces))).
Proof. exact mask_pieces_whole. Qed.

Theorem ws_mask_involutive : forall addr1 addr2 h s,
  bytes s -> u32 (h_key h) ->
  fst (mask_payload addr2 h (fst (mask_payload addr1 h s))) = s.
Proof. exact mask_payload_involutive. Qed.

(** RFC 6455, 5.7: "Hello" masked with 37 fa 21 3d, in three pieces at odd
    addresses. *)
Example ws_mask_ex :
  mask_pieces (mkHdr true false false false 1 true 0 939139389 5)
              [(3, [72]); (1, [101; 108; 108]); (2, [111])] = [127; 159; 77; 81; 88].
Proof. vm_compute. reflexivity. Qed.

(** * C03: delivery of a header in pieces *)

(** The full property is false: a whole header is accepted in one piece, but
    refused when cut after its second octet. *)
Theorem ws_header_split_refuted : exists p header,
  between_frames p /\
  (exists p', feed p [] [header] = Ret (p', []) /\ in_error p' = false /\ header_complete p' = true) /\
  (exists p' d, feed p [] [firstn 2 header; skipn 2 header] = Ret (p', d) /\ in_error p' = true).
Proof.
  exists (parser_accepted wshs_s_accepted 1000 0), [1; 129; 1; 2; 3; 4].
  split; [|split].
  - repeat split; try discriminate.
  - eexists. split; [vm_compute; reflexivity|]. split; reflexivity.
  - do 2 eexists. split; [vm_compute; reflexivity|]. reflexivity.
Qed.

(** What holds: headers of control frames, of unfragmented messages and of
    middle fragments, cut anywhere into any number of pieces, with any data
    after them. *)
Theorem ws_header_split_partial : forall p fin r1 r2 r3 op m len7 ext key rest,
  between_frames p ->
  0 <= op < 16 -> 0 <= len7 < 128 ->
  length ext = ext_len len7 -> length key = key_len m ->
  resumable fin op = true ->
  allowed (is_server p) (negb (p_send_bits p =? 0)) (open_of p) fin r1 r2 r3 op m len7 = true ->
  let header := rfc_octet0 fin r1 r2 r3 op :: octet1 m len7 :: ext ++ key in
  forall pieces, concat pieces = header ++ rest ->
  feed p [] pieces = parse_header p (header ++ rest).
Proof.
  intros p fin r1 r2 r3 op m len7 ext key rest (H1 & H2 & H3 & H4) **.
  exact (feed_resumable p fin r1 r2 r3 op m len7 ext key rest H1 H2 H3 H4 H H0 H5 H6 H7 H8 pieces H9).
Qed.

Example ws_header_split_partial_ex :
  exists p', feed (parser_accepted wshs_s_accepted 1000 0) []
                  [[129]; [254]; [1; 0; 1]; []; [2; 3; 4; 99]] = Ret (p', [99]) /\
             header_complete p' = true /\ in_error p' = false.
Proof. eexists. split; [vm_compute; reflexivity|]. split; reflexivity. Qed.

(** Refused headers are refused with the same error however they are cut. *)
Theorem ws_header_split_errors : forall p fin r1 r2 r3 op m len7 rest,
  between_frames p -> 0 <= op < 16 -> 0 <= len7 < 128 ->
  allowed (is_server p) (negb (p_send_bits p =? 0)) (open_of p) fin r1 r2 r3 op m len7 = false ->
  forall pieces, concat pieces = [rfc_octet0 fin r1 r2 r3 op; octet1 m len7] ++ rest ->
  exists p' d, feed p [] pieces = Ret (p', d) /\ in_error p' = true /\
    p_err p' = Some (err_of (is_server p) (negb (p_send_bits p =? 0)) (open_of p)
                            fin r1 r2 r3 op m len7).
Proof.
  intros p fin r1 r2 r3 op m len7 rest (H1 & H2 & H3 & H4) Ho Hn Hal pieces Hc.
  exact (feed_error_stuck p fin r1 r2 r3 op m len7 rest H1 H2 H3 Ho Hn Hal pieces Hc).
Qed.

(** The exact extent of the defect: every other header, which starts or ends a
    fragmented message, is refused wherever it is cut after its second octet. *)
Theorem ws_header_split_breaks : forall p fin r1 r2 r3 op m len7 ext key rest n,
  between_frames p ->
  0 <= op < 16 -> 0 <= len7 < 128 ->
  length ext = ext_len len7 -> length key = key_len m ->
  resumable fin op = false ->
  allowed (is_server p) (negb (p_send_bits p =? 0)) (open_of p) fin r1 r2 r3 op m len7 = true ->
  let header := rfc_octet0 fin r1 r2 r3 op :: octet1 m len7 :: ext ++ key in
  (2 <= n < length header)%nat ->
  exists p' d, feed p [] [firstn n header; skipn n header ++ rest] = Ret (p', d) /\ in_error p' = true.
Proof.
  intros p fin r1 r2 r3 op m len7 ext key rest n (H1 & H2 & H3 & H4) **.
  exact (feed_not_resumable p fin r1 r2 r3 op m len7 ext key rest n H1 H2 H3 H H0 H5 H6 H7 H8 H9).
Qed.

(** * C04: acceptance *)

Theorem ws_frame_acceptance :
  forall p (fin r1 r2 r3 : bool) op (m : bool) len7 (ext key rest : list Z),
  between_frames p ->
  0 <= op < 16 -> 0 <= len7 < 128 ->
  length ext = (if (len7 <=? 125)%Z then 0 else if (len7 =? 126)%Z then 2 else 8)%nat ->
  length key = (if m then 4 else 0)%nat ->
  exists p' rest',
    parse_header p (rfc_octet0 fin r1 r2 r3 op :: (128 * b2z m + len7) :: ext ++ key ++ rest)
    = Ret (p', rest') /\
    if allowed (is_server p) (negb (p_send_bits p =? 0)) (open_of p) fin r1 r2 r3 op m len7
    then in_error p' = false /\ header_complete p' = true /\ rest' = rest /\
         open_of p' = open_after (open_of p) fin op
    else in_error p' = true.
Proof. exact frame_acceptance. Qed.

(** The two leading octets above are all pairs of octets. *)
Theorem ws_all_octets : forall b, byte b ->
  (exists fin r1 r2 r3 op, 0 <= op < 16 /\ b = rfc_octet0 fin r1 r2 r3 op) /\
  (exists m n, 0 <= n < 128 /\ b = 128 * b2z m + n).
Proof. exact (fun b H => conj (octet0_surj b H) (octet1_surj b H)). Qed.

Example ws_frame_acceptance_ex : exists p,
  between_frames p /\ open_of p = Some 1 /\ is_server p = true.
Proof.
  exists (set_msg (parser_accepted wshs_s_accepted 1000 0) 1 false false false false).
  repeat split; discriminate.
Qed.

(** * C05: message reassembly *)

(** The full property is false.  A TEXT frame "abc" (masked with a zero key)
    whose payload arrives in two pieces is delivered as "c". *)
Theorem ws_split_payload_refuted :
  let wire := [129; 131; 0; 0; 0; 0; 97; 98; 99] in
  let run chunks := events_of unit
        (on_chunks unit (fun _ d => Some (tt, d)) (fun _ => 0)
           (session_new unit wshs_s_accepted 1000 0 None) [] chunks) in
  app_view (run [wire]) = [Message 1 [97; 98; 99]] /\
  app_view (run [firstn 8 wire; skipn 8 wire]) = [Message 1 [99]].
Proof. split; vm_compute; reflexivity. Qed.

(** With permessage-deflate a fragmented message is corrupted even if all
    frames arrive whole; the decompressor here is the identity function. *)
Theorem ws_fragmented_compressed_refuted :
  let run := events_of unit
        (on_chunks unit (fun _ d => Some (tt, if list_eq_dec Z.eq_dec d [0; 0; 255; 255] then [] else d))
           (fun _ => 0)
           (session_new unit wshs_s_accepted 1000 15 (Some tt)) []
           [[65; 129; 0; 0; 0; 0; 97]; [128; 129; 0; 0; 0; 0; 98]]) in
  app_view run = [Message 1 [97; 97; 98]].
Proof. vm_compute. reflexivity. Qed.

(** What holds: frames that arrive whole (any number of them at a time),
    uncompressed, within the length limit, in either role, for any address of
    the receive buffer, give the application exactly what the specification of
    reception gives. *)
Theorem ws_receive_partial :
  forall zst inflate addr_of (srv : bool) maxlen bits z groups chunks,
  Forall2 wires groups chunks ->
  Forall (Forall frame_ok) groups ->
  Forall (Forall (fun f => f_rsv1 f = false)) groups ->
  fits maxlen 0 (concat groups) ->
  exists s' evs,
    on_chunks zst inflate addr_of
      (session_new zst (if srv then wshs_s_accepted else wshs_c_accepted) maxlen bits z) [] chunks
    = SRet zst s' [] evs /\
    app_view evs = receive srv (negb (bits =? 0)) None (concat groups).
Proof.
  exact (fun zst inflate addr_of srv maxlen bits z groups chunks H1 H2 H3 H4 =>
    chunks_receive zst inflate addr_of srv maxlen bits groups chunks H1 _ None
      (session_new_Rel zst srv maxlen bits z) H2 H3 H4).
Qed.

(** A fragmented masked message with a PING in between, in two chunks. *)
Example ws_receive_ex :
  let f1 := mkFrame false false false false 1 (Some 0) [97; 98] in
  let f2 := mkFrame true false false false 9 (Some 0) [112] in
  let f3 := mkFrame true false false false 0 (Some 0) [99] in
  Forall2 wires [[f1]; [f2; f3]]
    [[1; 130; 0; 0; 0; 0; 97; 98]; [137; 129; 0; 0; 0; 0; 112; 128; 129; 0; 0; 0; 0; 99]] /\
  fits 1000 0 [f1; f2; f3] /\
  receive true false None [f1; f2; f3] = [Ping [112]; Message 1 [97; 98; 99]].
Proof.
  cbv zeta. split; [|split; [|reflexivity]].
  2:{ repeat split; vm_compute; congruence. }
  assert (W1 : wire (mkFrame false false false false 1 (Some 0) [97; 98])
                    [1; 130; 0; 0; 0; 0; 97; 98]).
  { exists [130], [0; 0; 0; 0], [97; 98]. repeat split.
    - left. split; [vm_compute; congruence|reflexivity].
    - repeat constructor; vm_compute; congruence.
    - intros [|[|i]] Hi; try reflexivity. cbn in Hi. exfalso; lia. }
  assert (W2 : wire (mkFrame true false false false 9 (Some 0) [112])
                    [137; 129; 0; 0; 0; 0; 112]).
  { exists [129], [0; 0; 0; 0], [112]. repeat split.
    - left. split; [vm_compute; congruence|reflexivity].
    - repeat constructor; vm_compute; congruence.
    - intros [|i] Hi; try reflexivity. cbn in Hi. exfalso; lia. }
  assert (W3 : wire (mkFrame true false false false 0 (Some 0) [99])
                    [128; 129; 0; 0; 0; 0; 99]).
  { exists [129], [0; 0; 0; 0], [99]. repeat split.
    - left. split; [vm_compute; congruence|reflexivity].
    - repeat constructor; vm_compute; congruence.
    - intros [|i] Hi; try reflexivity. cbn in Hi. exfalso; lia. }
  repeat constructor.
  - exact (wires_cons _ [] _ [] W1 wires_nil).
  - exact (wires_cons _ [_] _ _ W2 (wires_cons _ [] _ [] W3 wires_nil)).
Qed.

(** A CLOSE frame whose body is a single octet [b] is reported with the made-up
    status [256 b + 237]. *)
Theorem ws_close_one_octet : forall b, byte b -> close_status [b] = 256 * b + 237.
Proof. intros b _. unfold close_status. cbn [firstn length skipn app load_be fold_left]. ring. Qed.

(** * C06: close notification *)

(** A history is any sequence of calls of the stream callback with arbitrary
    buffers, and of socket-closure notifications. *)
Definition closures (evs : list ev) : nat :=
  length (filter (fun e => match e with EvClose _ _ | EvCloseError _ _ => true | _ => false end) evs).

Theorem ws_close_once : forall zst inflate addr_of role maxlen bits z ops,
  exists s' evs,
    life zst inflate addr_of (session_new zst role maxlen bits z) ops = Some (s', evs) /\
    (closures evs <= 1)%nat /\
    (In OpSocketClosed ops -> closures evs = 1%nat) /\
    (forall a e b, evs = a ++ e :: b ->
       match e with EvClose _ _ | EvCloseError _ _ => True | _ => False end ->
       app_view b = [] /\ forall op d, ~ In (EvData op d) b).
Proof.
  intros zst inflate addr_of role maxlen bits z ops.
  destruct (life_total zst inflate addr_of ops (session_new zst role maxlen bits z)) as [[s' evs] E].
  exists s', evs. split; [exact E|].
  pose proof (life_monitor zst inflate addr_of _ _ _ _ E) as M. cbn [session_new s_closed] in M.
  pose proof (monitor_count zst inflate addr_of _ _ _ M) as (C1 & C2 & _).
  split; [exact C1|]. split.
  - intros Hin. destruct (C2 (life_closed zst inflate addr_of _ _ _ _ E Hin)) as [C|C]; [discriminate|exact C].
  - intros a e b Eb He. pose proof (monitor_last _ _ _ _ _ M Eb He) as Q.
    clear -Q. split.
    + induction Q as [|x b Hx Q IH]; [reflexivity|]. unfold app_view in *. cbn [flat_map].
      rewrite IH. destruct x; try contradiction; reflexivity.
    + intros op d Hin. rewrite Forall_forall in Q. exact (Q _ Hin).
Qed.

Example ws_close_once_ex :
  exists s', life unit (fun _ d => Some (tt, d)) (fun _ => 0)
       (session_new unit wshs_s_accepted 1000 0 None)
       [OpStream [129; 129; 0; 0; 0; 0; 97]; OpStream [136; 130; 0; 0; 0; 0; 3; 232]; OpSocketClosed]
     = Some (s', [EvData 1 [97]; EvFinish 1 [97]; EvClose 1000 []]).
Proof. eexists. vm_compute. reflexivity. Qed.

(** * C07: close frame *)

(** The frame written by a shutdown request, for every [int] status and every
    reason, as a server or as a client. *)
Theorem ws_shut_down_server : forall st reason, bytes reason ->
  exists f, wire f (shut_down_frame raw_frame st reason) /\
    f_fin f = true /\ f_rsv1 f = false /\ f_rsv2 f = false /\ f_rsv3 f = false /\ f_opcode f = 8 /\
    f_mask f = None /\ (length (f_payload f) <= 125)%nat /\
    close_info (f_payload f) = PeerClosed (real_status st) (firstn 123 reason).
Proof. exact shut_down_server. Qed.

Theorem ws_shut_down_client : forall key addr st reason, bytes reason -> u32 key ->
  exists f, wire f (shut_down_frame (raw_frame_client key addr) st reason) /\
    f_fin f = true /\ f_rsv1 f = false /\ f_rsv2 f = false /\ f_rsv3 f = false /\ f_opcode f = 8 /\
    f_mask f = Some key /\ (length (f_payload f) <= 125)%nat /\
    close_info (f_payload f) = PeerClosed (real_status st) (firstn 123 reason).
Proof. exact shut_down_client. Qed.

Theorem ws_shut_down_status : forall st, 1000 <= real_status st <= 4999 /\
  (1000 <= st <= 4999 -> real_status st = st).
Proof.
  exact (fun st => conj (real_status_range st)
    (fun H => match H with conj a b =>
       eq_trans (f_equal (fun c : bool => if c then st else 1008)
         (proj2 (andb_true_iff _ _) (conj (proj2 (Z.leb_le _ _) a) (proj2 (Z.leb_le _ _) b))))
       (eq_refl st) end)).
Qed.

Example ws_shut_down_ex : shut_down_frame raw_frame 99 [98; 121; 101] = [136; 5; 3; 240; 98; 121; 101].
Proof. reflexivity. Qed.

(** * C49: end to end *)

(** Messages sent by one endpoint arrive at the other: same opcodes, same
    contents, same order, provided frames are not cut by the transport, nothing
    is compressed, and the messages respect the receiver's limit. *)
Theorem ws_client_to_server_partial :
  forall zst inflate addr_of maxlen bits z (key addr : Z * list Z -> Z) segments chunks,
  (forall m, u32 (key m)) -> 0 <= maxlen < two32 ->
  Forall (Forall sendable) segments ->
  Forall (Forall (fun m => Z.of_nat (length (snd m)) <= maxlen)) segments ->
  Forall2 (fun ms w => exists ws,
     Forall2 (fun m o => ws_send (raw_frame_client (key m) (addr m)) (fst m) (snd m) = Ret o) ms ws
     /\ w = concat ws) segments chunks ->
  exists s' evs,
    on_chunks zst inflate addr_of (session_new zst wshs_s_accepted maxlen bits z) [] chunks
    = SRet zst s' [] evs /\
    app_view evs = map delivered (concat segments).
Proof.
  intros zst inflate addr_of maxlen bits z key addr segments chunks Hk Hm H1 H2 H3.
  apply (end_to_end zst inflate addr_of true maxlen bits z
           (fun m => raw_frame_client (key m) (addr m)) (fun m => Some (key m)) segments chunks);
    try assumption.
  - discriminate.
  - intros m x d Hx Hd Hl. apply raw_frame_client_wire; auto.
Qed.

Theorem ws_server_to_client_partial :
  forall zst inflate addr_of maxlen bits z segments chunks,
  0 <= maxlen < two32 ->
  Forall (Forall sendable) segments ->
  Forall (Forall (fun m => Z.of_nat (length (snd m)) <= maxlen)) segments ->
  Forall2 (fun ms w => exists ws,
     Forall2 (fun m o => ws_send raw_frame (fst m) (snd m) = Ret o) ms ws
     /\ w = concat ws) segments chunks ->
  exists s' evs,
    on_chunks zst inflate addr_of (session_new zst wshs_c_accepted maxlen bits z) [] chunks
    = SRet zst s' [] evs /\
    app_view evs = map delivered (concat segments).
Proof.
  intros zst inflate addr_of maxlen bits z segments chunks Hm H1 H2 H3.
  apply (end_to_end zst inflate addr_of false maxlen bits z
           (fun _ => raw_frame) (fun _ => None) segments chunks); try assumption.
  - discriminate.
  - intros m x d Hx Hd Hl. apply raw_frame_wire; auto.
Qed.

Example ws_client_to_server_ex :
  Forall sendable [(1, [104; 105]); (9, []); (2, [0; 255])] /\
  ws_send (raw_frame_client 2309737967 5) 1 [104; 105]
  = Ret [129; 130; 137; 171; 205; 239; 225; 194].
Proof.
  split; [|reflexivity].
  repeat (apply Forall_cons || apply Forall_nil);
    (split; [|repeat constructor; vm_compute; congruence]).
  - left; reflexivity.
  - right. split; [left; reflexivity|repeat constructor].
  - left; reflexivity.
Qed.

Print Assumptions ws_encode_layout.
Print Assumptions ws_header_round_trip.
Print Assumptions ws_mask_is_xor.
Print Assumptions ws_mask_pieces.
Print Assumptions ws_mask_involutive.
Print Assumptions ws_header_split_refuted.
Print Assumptions ws_header_split_partial.
Print Assumptions ws_header_split_errors.
Print Assumptions ws_header_split_breaks.
Print Assumptions ws_frame_acceptance.
Print Assumptions ws_split_payload_refuted.
Print Assumptions ws_fragmented_compressed_refuted.
Print Assumptions ws_receive_partial.
Print Assumptions ws_close_once.
Print Assumptions ws_shut_down_server.
Print Assumptions ws_shut_down_client.
Print Assumptions ws_client_to_server_partial.
Print Assumptions ws_server_to_client_partial.
