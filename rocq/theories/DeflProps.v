(** * C74, C75: compression of WebSocket messages; deflators and inflators

    zlib itself is not modelled: the theorems hold for every [deflate] and
    [inflate] that obey the contracts of [DeflSpec], which are the sentences of
    zlib.h that are quoted there.  [DeflCodec] has a codec that obeys all of them,
    and the examples run it. *)
From Coq Require Import ZArith List Lia Bool ZifyBool ZifyNat Arith.
From Verif Require Import Base BaseLemmas WsModel WsSpec WsMaskProofs WsSessionProofs WsMoreProofs.
From Verif Require Import DeflModel DeflSpec DeflProofs DeflCodec DeflAbsProofs.
From Verif Require DeflWsProofs.
Import ListNotations.
Open Scope Z_scope.
Notation length := List.length.

(** ** C74 *)

(** Whatever passes through the two loops of the sender and the two of the
    receiver comes out as it was, with its opcode, for all sizes of buffers, with
    and without context takeover, and whether or not a message has been
    compressed, also after failures of the deflator.  [nct]: the sender must
    forget the context before each message. *)
Theorem ws_compressed_exact :
  forall dst ist deflate reset inflate decode flushed dsane fed made dbound isane eaten got ibound,
  language decode flushed ->
  deflate_contract dst deflate reset decode flushed dsane fed made dbound ->
  inflate_contract ist inflate decode isane eaten got ibound ->
  forall nct maxlen ms zs s r l,
  Forall (fun m => fst m = 1 \/ fst m = 2) ms ->
  dsane s -> fed s = [] -> made s = [] -> isane r -> eaten r = [] -> got r = [] ->
  exchange dst ist (send_data dst deflate reset nct) (restore ist inflate maxlen) s r ms zs = Done l ->
  l = ms.
Proof.
  intros * LG DC IC * FM S F M R E G X.
  eapply (exchange_safe dst ist deflate reset inflate decode flushed dsane fed made dbound isane eaten got ibound LG DC IC nct maxlen ms zs s r l FM); [|exact X].
  destruct (lang_nil _ _ LG) as [N1 N2].
  split; [exact S|]. split; [exact R|]. rewrite F, M, E, G. split; [exact N1|]. split; [exact N2|]. exists [], []. auto.
Qed.

(** With enough buffers, no matter how large, and an inflator that does not run
    out of memory, every message within the limit does pass. *)
Theorem ws_compressed_delivered :
  forall dst ist deflate reset inflate decode flushed dsane fed made dbound isane eaten got ibound,
  language decode flushed ->
  deflate_contract dst deflate reset decode flushed dsane fed made dbound ->
  inflate_contract ist inflate decode isane eaten got ibound ->
  inflate_never_fails ist inflate decode isane eaten ->
  forall nct maxlen ms s r,
  Forall (fun m => fst m = 1 \/ fst m = 2) ms ->
  Forall (fun m => Z.of_nat (length (snd m)) <= maxlen) ms ->
  dsane s -> fed s = [] -> made s = [] -> isane r -> eaten r = [] -> got r = [] ->
  exists N, forall zs, length zs = length ms -> Forall (long_enough N) zs ->
  exchange dst ist (send_data dst deflate reset nct) (restore ist inflate maxlen) s r ms zs = Done ms.
Proof.
  intros * LG DC IC NF * FM FL S F M R E G.
  destruct (exchange_live dst ist deflate reset inflate decode flushed dsane fed made dbound isane eaten got ibound LG DC IC nct maxlen NF ms 0 0) as [N H].
  exists N. intros zs LZ EN. destruct (lang_nil _ _ LG) as [N1 N2]. apply H; auto.
  - split; [exact S|]. split; [exact R|]. rewrite F, M, E, G. split; [exact N1|]. split; [exact N2|]. exists [], []. auto.
  - rewrite F. apply Nat.le_refl.
  - rewrite E. apply Nat.le_refl.
Qed.

Definition toy_sizes : sizes := (repeat 3%nat 20, repeat 0%nat 60, repeat 5%nat 20, repeat 1%nat 60).
Definition long_message : list Z := map (fun i => Z.of_nat i mod 256) (seq 200 100).
(* three messages, the second too short for compression *)
Example ws_compressed_exact_ex :
  exchange writer reader (send_data writer toy_deflate toy_reset false) (restore reader toy_inflate 100) toy_new toy_reader
    [(1, firstn 64 long_message); (2, [7; 8]); (2, long_message)] [toy_sizes; toy_sizes; toy_sizes]
  = Done [(1, firstn 64 long_message); (2, [7; 8]); (2, long_message)] /\
  send_data writer toy_deflate toy_reset false toy_new 2 [7; 8] [] [] = Done (toy_new, (130, [7; 8])) /\
  (exists s p, send_data writer toy_deflate toy_reset false toy_new 2 long_message (repeat 3%nat 20) (repeat 0%nat 60) = Done (s, (194, p)) /\ p <> long_message) /\
  language toy_decode toy_flushed /\
  deflate_contract writer toy_deflate toy_reset toy_decode toy_flushed toy_open w_fed w_made toy_bound /\
  inflate_contract reader toy_inflate toy_decode toy_isane r_eaten r_got toy_bound /\
  inflate_never_fails reader toy_inflate toy_decode toy_isane r_eaten /\
  toy_open toy_new /\ toy_isane toy_reader.
Proof.
  split; [vm_compute; reflexivity|]. split; [vm_compute; reflexivity|]. split.
  { eexists _, _. split; [vm_compute; reflexivity|]. discriminate. }
  split; [exact toy_language|]. split; [exact toy_deflate_contract|]. split; [exact toy_inflate_contract|].
  split; [exact toy_never_fails|]. split; [|reflexivity].
  apply (d_reset _ _ _ _ _ _ _ _ _ toy_deflate_contract toy_new).
Qed.

(** From [ws_send] at one end to the messages at the other, in frames that are not
    cut by the transport, masked by the client or not by the server, with pings
    and pongs in between, if the peers have agreed on compression.  Here inflation
    of a payload yields all that it contains at once ([stream_decoder]). *)
Lemma raw_frame_length x d : (length d <= length (raw_frame x d))%nat.
Proof. unfold raw_frame. rewrite app_length. lia. Qed.
Lemma raw_frame_client_length key addr x d : u32 key -> bytes d -> (length d <= length (raw_frame_client key addr x d))%nat.
Proof.
  intros Hk B. unfold raw_frame_client. rewrite app_length. set (h := mkHdr _ _ _ _ _ _ _ _ _).
  destruct (of_oct_koct key Hk) as (a & b & c & e & Ha & Hb & Hc & He & Hk' & _).
  rewrite (mask_payload_spec addr h d a b c e) by auto. cbn [fst]. rewrite mask_spec_length. lia.
Qed.

Theorem ws_compressed_client_to_server :
  forall dst deflate reset decode flushed dsane fed made bound zst inflate seen,
  language decode flushed -> prefixes decode ->
  deflate_contract dst deflate reset decode flushed dsane fed made bound ->
  stream_decoder zst inflate decode seen ->
  forall addr_of maxlen bits nct s z (ms : list ((Z * Z) * (Z * list Z))) zs frames,
  bits <> 0 -> 0 <= maxlen < two32 ->
  dsane s -> fed s = [] -> made s = [] -> seen z = [] ->
  Forall (fun m => sendable (snd m) /\ u32 (fst (fst m))) ms ->
  Forall (fun m => Z.of_nat (length (snd (snd m))) <= maxlen) ms ->
  send_all dst _ (fun s m xs ys =>
      ws_send_deflated dst deflate reset (raw_frame_client (fst (fst m)) (snd (fst m))) nct s (fst (snd m)) (snd (snd m)) xs ys)
    s ms zs = Done (concat frames) ->
  Forall (fun w => Z.of_nat (length w) <= maxlen) (concat frames) ->
  exists s' evs,
    on_chunks zst inflate addr_of (session_new zst wshs_s_accepted maxlen bits (Some z)) [] (map (fun g => concat g) frames)
    = SRet zst s' [] evs /\
    app_view evs = map (fun m => delivered (snd m)) ms.
Proof.
  intros * LG PX DC SD * HB HM S F M SZ FS FL E FW.
  apply (DeflWsProofs.compressed_end_to_end dst deflate reset decode flushed dsane fed made bound LG PX DC zst inflate seen SD
           addr_of true maxlen bits (Z * Z) (fun k => u32 (fst k)) (fun k => raw_frame_client (fst k) (snd k)) (fun k => Some (fst k)) HB HM
           (fun _ k => ltac:(discriminate))
           (fun k x d G X B L => raw_frame_client_wire (fst k) (snd k) x d X B L G)
           (fun k x d G B => raw_frame_client_length (fst k) (snd k) x d G B)
           nct frames s z ms zs S F M SZ FS FL E FW).
Qed.

Theorem ws_compressed_server_to_client :
  forall dst deflate reset decode flushed dsane fed made bound zst inflate seen,
  language decode flushed -> prefixes decode ->
  deflate_contract dst deflate reset decode flushed dsane fed made bound ->
  stream_decoder zst inflate decode seen ->
  forall addr_of maxlen bits nct s z (ms : list (Z * list Z)) zs frames,
  bits <> 0 -> 0 <= maxlen < two32 ->
  dsane s -> fed s = [] -> made s = [] -> seen z = [] ->
  Forall sendable ms ->
  Forall (fun m => Z.of_nat (length (snd m)) <= maxlen) ms ->
  send_all dst _ (fun s m xs ys => ws_send_deflated dst deflate reset raw_frame nct s (fst m) (snd m) xs ys)
    s ms zs = Done (concat frames) ->
  Forall (fun w => Z.of_nat (length w) <= maxlen) (concat frames) ->
  exists s' evs,
    on_chunks zst inflate addr_of (session_new zst wshs_c_accepted maxlen bits (Some z)) [] (map (fun g => concat g) frames)
    = SRet zst s' [] evs /\
    app_view evs = map delivered ms.
Proof.
  intros * LG PX DC SD * HB HM S F M SZ FS FL E FW.
  pose proof (DeflWsProofs.compressed_end_to_end dst deflate reset decode flushed dsane fed made bound LG PX DC zst inflate seen SD
           addr_of false maxlen bits unit (fun _ => True) (fun _ => raw_frame) (fun _ => None) HB HM
           (fun Q => ltac:(discriminate Q))
           (fun k x d G X B L => raw_frame_wire x d X B L)
           (fun k x d G B => raw_frame_length x d)
           nct frames s z (map (fun m => (tt, m)) ms) zs S F M SZ) as H.
  rewrite map_map in H. cbn [snd] in H. rewrite (map_ext (fun x => delivered x) delivered) in H by reflexivity. apply H.
  - apply Forall_map. eapply Forall_impl; [|exact FS]. cbn [snd]. auto.
  - apply Forall_map. exact FL.
  - rewrite <- E. clear. revert s zs. induction ms as [|m ms IH]; intros s zs; [reflexivity|].
    cbn [map send_all]. destruct zs as [|[a b] zs]; [reflexivity|]. cbn [fst snd].
    destruct (ws_send_deflated _ _ _ _ _ _ _ _ _ _) as [[s1 w]| |]; [|reflexivity|reflexivity]. rewrite IH. reflexivity.
  - exact FW.
Qed.

Definition toy_frames (ms : list (Z * list Z)) : outcome (list (list Z)) :=
  send_all writer _ (fun s m xs ys => ws_send_deflated writer toy_deflate toy_reset raw_frame false s (fst m) (snd m) xs ys)
    toy_new ms (repeat (repeat 3%nat 20, repeat 0%nat 60) (length ms)).
Definition frames_of (o : outcome (list (list Z))) : list (list Z) := match o with Done l => l | _ => [] end.

Example ws_compressed_end_to_end_ex :
  let ms := [(1, firstn 64 long_message); (9, [1; 2]); (2, [7; 8]); (2, firstn 70 long_message)] in
  toy_frames ms = Done (frames_of (toy_frames ms)) /\
  Forall (fun w => Z.of_nat (length w) <= 2000) (frames_of (toy_frames ms)) /\
  nth 0 (nth 0 (frames_of (toy_frames ms)) []) 0 = 193 /\
  nth 0 (nth 2 (frames_of (toy_frames ms)) []) 0 = 130 /\
  prefixes toy_decode /\ stream_decoder (list Z) toy_session_inflate toy_decode (fun s => s) /\
  app_view (events_of _ (on_chunks (list Z) toy_session_inflate (fun _ => 0)
     (session_new _ wshs_c_accepted 2000 15 (Some [])) [] (map (fun w => w) (frames_of (toy_frames ms)))))
  = map delivered ms.
Proof.
  cbv zeta. split; [vm_compute; reflexivity|]. split; [vm_compute; repeat constructor; discriminate|].
  split; [vm_compute; reflexivity|]. split; [vm_compute; reflexivity|].
  split; [exact toy_prefixes|]. split; [exact toy_stream_decoder|]. vm_compute; reflexivity.
Qed.

(** RFC 7692, 7.2.3.4 allows a sender to end a message with a final block; then
    the inflator says that the stream has ended, and the message is refused. *)
Theorem ws_compressed_final_block_refuted :
  (forall ist inflate maxlen st payload xs ys extra st' n out,
    payload <> [] -> inflate st (clamped (1024 + extra)) (window payload) = (st', n, out, Z_stream_end) ->
    restore ist inflate maxlen st true payload (extra :: xs) ys = Threw) /\
  exists payload, toy_whole payload [104; 105] /\
    restore reader toy_inflate 1000 toy_reader true payload [0; 0]%nat (repeat 0 9)%nat = Threw.
Proof.
  split.
  - intros * N E. unfold restore, inflate_message_stream. destruct payload as [|c r]; [congruence|].
    cbn [is_nil inflate_loop]. rewrite E. reflexivity.
  - exists (stored 104 ++ stored 105 ++ final_block). split; vm_compute; reflexivity.
Qed.

(** A message that its receiver would accept may be longer after compression, and
    is refused then: the sender does not compare the two. *)
Theorem ws_compressed_growth_refuted :
  exists m, Z.of_nat (length (snd m)) <= 100 /\ sendable m /\
    (exists s' evs, on_chunks (list Z) toy_session_inflate (fun _ => 0)
       (session_new _ wshs_c_accepted 100 15 (Some [])) [] (frames_of (toy_frames [m])) = SThrow _ s' evs) /\
    exists w s' evs, ws_send raw_frame (fst m) (snd m) = Ret w /\
      on_chunks (list Z) toy_session_inflate (fun _ => 0) (session_new _ wshs_c_accepted 100 15 (Some [])) [] [w] = SRet _ s' [] evs /\
      app_view evs = [delivered m].
Proof.
  exists (2, firstn 64 long_message). split; [vm_compute; discriminate|]. split.
  { split; [left; reflexivity|]. vm_compute. repeat constructor; discriminate. }
  split.
  - do 2 eexists. vm_compute. reflexivity.
  - do 3 eexists. split; [vm_compute; reflexivity|]. split; vm_compute; reflexivity.
Qed.

(** ** C75 *)

(** What has been put into a deflator, in any pieces and with any flushes in
    between, comes out of an inflator that is given the output, in any pieces.
    All octets of both buffers have been written; everything has been taken. *)
Theorem deflator_round_trip :
  forall dst ist deflate inflate whole dsane fed made dbound isane eaten got ibound,
  prefix_free whole ->
  finish_contract dst deflate whole dsane fed made dbound ->
  whole_contract ist inflate whole isane eaten got ibound ->
  forall s os s1 b1 vs gs s2 b2 ok,
  dsane s -> fed s = [] -> made s = [] ->
  use dst (abs_deflate dst deflate) (abs_flush dst deflate Sync_flush) (abs_flush dst deflate Full_flush) s [] os = Done (s1, b1, vs) ->
  abs_finish dst deflate s1 b1 gs = Done (s2, b2, ok) ->
  ok = true /\ vs = all_well os /\ exists z, b2 = map Some z /\
  forall sync full r ds r1 c1 ws hs r2 c2 ok',
  isane r -> eaten r = [] -> got r = [] -> concat (map fst ds) = z ->
  use ist (abs_inflate ist inflate) sync full r [] (pieces ds) = Done (r1, c1, ws) ->
  abs_inflate_finish ist inflate r1 c1 hs = Done (r2, c2, ok') ->
  ok' = true /\ ws = all_well (pieces ds) /\ c2 = map Some (concat (map (fun o => data_of (fst o)) os)).
Proof.
  intros * PF FC WC * S F M U FI.
  destruct (use_deflate dst deflate dsane fed made dbound (put_of_finish _ _ _ _ _ _ _ FC) _ _ _ _ _ _ S U) as (S1 & -> & F1 & o & -> & M1).
  destruct (abs_finish_safe dst deflate whole dsane fed made dbound FC _ _ _ _ _ _ S1 FI) as (S2 & -> & F2 & W & o2 & -> & M2).
  split; [reflexivity|]. split; [reflexivity|]. exists (o ++ o2). split; [rewrite map_app; reflexivity|].
  intros * R E G EZ UI FI'.
  assert (W' : whole (o ++ o2) (concat (map (fun o => data_of (fst o)) os))).
  { rewrite M2, M1, F2, F1, F, M in W. cbn [app] in W. exact W. }
  destruct (inflate_whole ist inflate whole isane eaten got ibound WC PF sync full _ _ _ _ _ _ _ _ _ _ _ W' R E G EZ UI FI') as (A & B & C).
  auto.
Qed.

(** After a flush the peer can have everything that has been put so far. *)
Theorem deflator_flush :
  forall dst deflate reset decode flushed sane fed made bound,
  deflate_contract dst deflate reset decode flushed sane fed made bound ->
  forall m s os s1 b1 vs gs s2 b2 ok,
  m = Sync_flush \/ m = Full_flush ->
  sane s -> fed s = [] -> made s = [] ->
  use dst (abs_deflate dst deflate) (abs_flush dst deflate Sync_flush) (abs_flush dst deflate Full_flush) s [] os = Done (s1, b1, vs) ->
  abs_flush dst deflate m s1 b1 gs = Done (s2, b2, ok) ->
  ok = true /\ vs = all_well os /\
  exists z, b2 = map Some z /\ flushed z /\ decode z = Some (concat (map (fun o => data_of (fst o)) os)).
Proof.
  intros * DC * Hm S F M U FI.
  destruct (use_deflate dst deflate sane fed made bound (put_of_deflate _ _ _ _ _ _ _ _ _ DC) _ _ _ _ _ _ S U) as (S1 & -> & F1 & o & -> & M1).
  destruct (abs_flush_decodes dst deflate reset decode flushed sane fed made bound DC m _ Hm _ _ _ _ _ S1 FI) as (S2 & -> & F2 & FL & D & o2 & -> & M2).
  rewrite M2, M1, M in FL, D. rewrite F2, F1, F in D. cbn [app] in FL, D.
  split; [reflexivity|]. split; [reflexivity|]. exists (o ++ o2). split; [rewrite map_app; reflexivity|]. auto.
Qed.

(** Nothing after the end of a stream is taken: the caller learns how much was. *)
Theorem inflator_stops :
  forall ist inflate whole sane eaten got bound,
  prefix_free whole -> whole_contract ist inflate whole sane eaten got bound ->
  forall z x t r b gs r' b' k,
  whole z x -> t <> [] -> sane r -> eaten r = [] -> got r = [] ->
  abs_inflate ist inflate r b (z ++ t) gs = Done (r', b', k) ->
  k = length z /\ b' = b ++ map Some x.
Proof.
  intros * PF WC * W NT S E G H.
  apply (inflate_stops ist inflate whole sane eaten got bound WC PF (fun _ _ _ => Threw) (fun _ _ _ => Threw) z x t r b gs r' b' k W S E G NT H).
Qed.

(** A stream that has been cut off, anywhere, is told from a whole one. *)
Theorem inflator_cut :
  forall ist inflate whole sane eaten got bound,
  prefix_free whole -> whole_contract ist inflate whole sane eaten got bound ->
  forall sync full z x t ds r r1 b1 vs gs r2 b2 ok,
  whole z x -> concat (map fst ds) ++ t = z -> t <> [] -> sane r -> eaten r = [] ->
  use ist (abs_inflate ist inflate) sync full r [] (pieces ds) = Done (r1, b1, vs) ->
  abs_inflate_finish ist inflate r1 b1 gs = Done (r2, b2, ok) ->
  ok = false /\ vs = all_well (pieces ds).
Proof.
  intros * PF WC * W EZ NT S E U FI.
  destruct (inflate_cut ist inflate whole sane eaten got bound WC PF sync full z x t ds r r1 b1 vs gs r2 b2 ok W S E EZ NT U FI). auto.
Qed.

(** Every call comes to an end: after so many buffers there is a result, or an
    exception. *)
Theorem deflator_calls_end :
  forall dst ist deflate inflate whole dsane fed made dbound isane eaten got ibound,
  finish_contract dst deflate whole dsane fed made dbound ->
  whole_contract ist inflate whole isane eaten got ibound ->
  (forall s b data gs, dsane s -> (length data + dbound (length (fed s) + length data) < length gs)%nat ->
     abs_deflate dst deflate s b data gs <> Hungry) /\
  (forall m s b gs, m = Sync_flush \/ m = Full_flush -> dsane s -> (dbound (length (fed s)) < length gs)%nat ->
     abs_flush dst deflate m s b gs <> Hungry) /\
  (forall s b gs, dsane s -> (dbound (length (fed s)) < length gs)%nat -> abs_finish dst deflate s b gs <> Hungry) /\
  (forall r b data gs, isane r -> (length data + ibound (length (eaten r) + length data) < length gs)%nat ->
     abs_inflate ist inflate r b data gs <> Hungry) /\
  (forall r b gs, isane r -> (ibound (length (eaten r)) < length gs)%nat -> abs_inflate_finish ist inflate r b gs <> Hungry).
Proof.
  intros * FC WC. pose proof (put_of_finish _ _ _ _ _ _ _ FC) as PC.
  split; [|split; [|split; [|split]]].
  - intros s b data gs S L. unfold abs_deflate. destruct (is_nil data) eqn:EN; [discriminate|].
    eapply (abs_deflate_loop_ends dst deflate dsane fed made dbound PC); [exact S| |apply Nat.le_refl|lia].
    intros Q. rewrite Q in EN. discriminate.
  - intros m s b gs Hm S L. eapply (abs_flush_ends dst deflate dsane fed made dbound PC m gs Hm); [exact S|apply Nat.le_refl|lia].
  - intros s b gs S L. eapply (abs_finish_ends dst deflate whole dsane fed made dbound FC); [exact S|apply Nat.le_refl|lia].
  - intros r b data gs S L. unfold abs_inflate. destruct (is_nil data) eqn:EN; [discriminate|].
    eapply (abs_inflate_loop_ends ist inflate whole isane eaten got ibound WC); [exact S| |apply Nat.le_refl|lia].
    intros Q. rewrite Q in EN. discriminate.
  - intros r b gs S L. eapply (abs_inflate_finish_ends ist inflate whole isane eaten got ibound WC); [exact S|apply Nat.le_refl|lia].
Qed.

(** A derived class that supplies less than what it is asked for makes the call
    throw, before zlib has anything to write to. *)
Theorem deflator_small_buffers :
  forall dst ist deflate inflate s r b c data g gs m, data <> [] ->
  ((g < 128)%nat -> abs_deflate dst deflate s b data (g :: gs) = Threw /\ abs_inflate ist inflate r c data (g :: gs) = Threw) /\
  ((g < 16)%nat -> abs_flush dst deflate m s b (g :: gs) = Threw /\ abs_finish dst deflate s b (g :: gs) = Threw /\
     abs_inflate_finish ist inflate r c (g :: gs) = Threw).
Proof.
  intros * N. split; intros H.
  - unfold abs_deflate, abs_inflate. destruct data; [congruence|]. cbn [is_nil abs_deflate_loop abs_inflate_loop].
    rewrite !turn_small by exact H. auto.
  - cbn [abs_flush abs_finish abs_inflate_finish]. rewrite !turn_small by exact H. auto.
Qed.

(** [abstract_deflator.hpp] says that [deflate] returns zero after [finish]. It
    throws: zlib does not allow the call. *)
Theorem deflator_after_finish_refuted :
  (forall dst deflate s b data g gs s' n out,
    deflate s No_flush (clamped g) (window data) = (s', n, out, Z_error) -> data <> [] ->
    abs_deflate dst deflate s b data (g :: gs) = Threw) /\
  exists s b, abs_finish writer toy_deflate toy_new [] [16; 16]%nat = Done (s, b, true) /\
    abs_deflate writer toy_deflate s b [1] [128]%nat = Threw.
Proof.
  split.
  - intros * E N. unfold abs_deflate. destruct data as [|c r] eqn:ED; [congruence|]. cbn [is_nil abs_deflate_loop].
    unfold turn. destruct (g <? 128)%nat; [reflexivity|]. cbv zeta. rewrite E. reflexivity.
  - do 2 eexists. split; vm_compute; reflexivity.
Qed.

Definition toy_use := use writer (abs_deflate writer toy_deflate) (abs_flush writer toy_deflate Sync_flush) (abs_flush writer toy_deflate Full_flush).
Definition some_pieces : list (op * list nat) :=
  [(Put (firstn 50 long_message), repeat 130%nat 60); (Sync_call, repeat 16%nat 60); (Put [], []); (Put (skipn 90 long_message), repeat 128%nat 20);
   (Full_call, repeat 17%nat 20)].
Definition cut (n : nat) (z : list Z) : list (list Z * list nat) :=
  [(firstn n z, repeat 128%nat 60); ([], []); (skipn n z, repeat 200%nat 60)].
Definition octets_of (b : room) : list Z := map (fun o => match o with Some x => x | None => -1 end) b.

Example deflator_round_trip_ex :
  exists s1 b1 s2 b2 r1 c1 ws r2,
    toy_use toy_new [] some_pieces = Done (s1, b1, all_well some_pieces) /\
    abs_finish writer toy_deflate s1 b1 (repeat 16 10)%nat = Done (s2, b2, true) /\
    use reader (abs_inflate reader toy_inflate) (fun _ _ _ => Threw) (fun _ _ _ => Threw) toy_reader [] (pieces (cut 77 (octets_of b2))) = Done (r1, c1, ws) /\
    abs_inflate_finish reader toy_inflate r1 c1 (repeat 16 10)%nat
      = Done (r2, map Some (firstn 50 long_message ++ skipn 90 long_message), true) /\
    prefix_free toy_whole /\
    finish_contract writer toy_deflate toy_whole toy_dsane w_fed w_made toy_bound /\
    whole_contract reader toy_inflate toy_whole toy_isane r_eaten r_got toy_bound /\ toy_dsane toy_new.
Proof.
  do 8 eexists. split; [vm_compute; reflexivity|]. split; [vm_compute; reflexivity|]. split; [vm_compute; reflexivity|].
  split; [vm_compute; reflexivity|]. split; [exact toy_prefix_free|]. split; [exact toy_finish_contract|].
  split; [exact toy_whole_contract|]. apply (d_reset _ _ _ _ _ _ _ _ _ toy_deflate_contract toy_new).
Qed.

Example inflator_ex :
  let z := stored 104 ++ stored 105 ++ final_block in
  toy_whole z [104; 105] /\
  (exists r, abs_inflate reader toy_inflate toy_reader [Some 1] (z ++ [9; 9]) [128; 128]%nat = Done (r, [Some 1; Some 104; Some 105], 17%nat)) /\
  exists r1 b1 k r2 b2, abs_inflate reader toy_inflate toy_reader [] (firstn 9 z) [128; 128]%nat = Done (r1, b1, k) /\
    abs_inflate_finish reader toy_inflate r1 b1 [16; 16]%nat = Done (r2, b2, false).
Proof.
  cbv zeta. split; [vm_compute; reflexivity|]. split; [eexists; vm_compute; reflexivity|].
  do 5 eexists. split; vm_compute; reflexivity.
Qed.

Print Assumptions ws_compressed_exact.
Print Assumptions ws_compressed_delivered.
Print Assumptions ws_compressed_client_to_server.
Print Assumptions ws_compressed_server_to_client.
Print Assumptions ws_compressed_final_block_refuted.
Print Assumptions ws_compressed_growth_refuted.
Print Assumptions deflator_round_trip.
Print Assumptions deflator_flush.
Print Assumptions inflator_stops.
Print Assumptions inflator_cut.
Print Assumptions deflator_calls_end.
Print Assumptions deflator_small_buffers.
Print Assumptions deflator_after_finish_refuted.

(** A compressed message that arrives in two pieces is corrupted or refused, wherever the cut is after the header: the end of the message is
    fed to zlib after each piece (ws_server_session.cpp:127-128 asks whether the frame is the last one, not whether it is complete). *)
Theorem ws_compressed_cut_refuted :
  exists m w, sendable m /\ toy_frames [m] = Done [w] /\ length w = 389%nat /\
    (exists s' evs, on_chunks (list Z) toy_session_inflate (fun _ => 0) (session_new _ wshs_c_accepted 2000 15 (Some [])) [] [w] = SRet _ s' [] evs /\
      app_view evs = [delivered m]) /\
    (exists s' evs, on_chunks (list Z) toy_session_inflate (fun _ => 0) (session_new _ wshs_c_accepted 2000 15 (Some [])) [] [firstn 4 w; skipn 4 w] = SRet _ s' [] evs /\
      app_view evs <> [delivered m]) /\
    (exists s' evs, on_chunks (list Z) toy_session_inflate (fun _ => 0) (session_new _ wshs_c_accepted 2000 15 (Some [])) [] [firstn 5 w; skipn 5 w] = SThrow _ s' evs).
Proof.
  exists (1, firstn 64 long_message). eexists. split.
  { split; [left; reflexivity|]. vm_compute. repeat constructor; discriminate. }
  split; [vm_compute; reflexivity|]. split; [reflexivity|]. split; [do 2 eexists; split; vm_compute; reflexivity|]. split.
  - do 2 eexists. split; [vm_compute; reflexivity|]. vm_compute. discriminate.
  - do 2 eexists. vm_compute. reflexivity.
Qed.
Print Assumptions ws_compressed_cut_refuted.
