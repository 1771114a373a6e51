(** Derived facts used by [WsProps]. *)
From Coq Require Import ZArith List Lia Bool ZifyBool ZifyNat Arith.
From Verif Require Import Base BaseLemmas WsModel WsSpec WsMaskProofs WsParseProofs WsSplitProofs
  WsSessionProofs.
Import ListNotations.
Open Scope Z_scope.
Ltac Zify.zify_post_hook ::= Z.div_mod_to_equations.

(** A parser that has just finished a frame or the handshake.  The opcode of
    the message under way is 0 if there is none. *)
Definition between_frames (p : parser) : Prop :=
  accepted p = true /\ p_wsf p = wsf_new /\ open_of p <> Some 0 /\ clean' p.

(** ** C01 *)
Lemma encode_header h : hdr_ok h ->
  exists ext key,
    encode h = rfc_octet0 (h_fin h) (h_rsv1 h) (h_rsv2 h) (h_rsv3 h) (h_opcode h)
               :: octet1 (h_masked h) (len7_of (h_len h)) :: ext ++ key /\
    length ext = ext_len (len7_of (h_len h)) /\ length key = key_len (h_masked h) /\
    payload_len_of (len7_of (h_len h)) ext = h_len h /\ 0 <= len7_of (h_len h) < 128 /\
    (h_masked h = true -> load_be key = h_key h).
Proof.
  intros Hok. assert (Hok' := Hok). destruct Hok' as (Hop & Hk & Hl).
  destruct (encode_rfc h Hok) as (lf & Hlf & ->).
  destruct (length_field_cases _ _ _ (proj1 Hl) Hlf) as (ext & -> & Le & Hr & Hp).
  eexists ext, _. split; [reflexivity|]. split; [exact Le|].
  split; [destruct (h_masked h); reflexivity|]. split; [exact Hp|]. split; [exact Hr|].
  intros ->. rewrite <- be_value_load. apply key_octets_bytes. exact Hk.
Qed.

Theorem header_round_trip p h rest :
  between_frames p -> hdr_ok h ->
  allowed (is_server p) (negb (p_send_bits p =? 0)) (open_of p) (h_fin h) (h_rsv1 h) (h_rsv2 h)
          (h_rsv3 h) (h_opcode h) (h_masked h) (len7_of (h_len h)) = true ->
  exists p', parse_header p (encode h ++ rest) = Ret (p', rest) /\
    header_complete p' = true /\ in_error p' = false /\
    h_fin (p_hdr p') = h_fin h /\ h_rsv1 (p_hdr p') = h_rsv1 h /\ h_rsv2 (p_hdr p') = h_rsv2 h /\
    h_rsv3 (p_hdr p') = h_rsv3 h /\ h_opcode (p_hdr p') = h_opcode h /\
    h_masked (p_hdr p') = h_masked h /\ h_len (p_hdr p') = h_len h /\
    (h_masked h = true -> h_key (p_hdr p') = h_key h).
Proof.
  intros (Ha & Hw & Ho & _) Hok Hal.
  destruct (encode_header h Hok) as (ext & key & -> & Le & Lk & Hp & Hr & Hk).
  pose proof (parse_header_complete p (h_fin h) (h_rsv1 h) (h_rsv2 h) (h_rsv3 h) (h_opcode h)
    (h_masked h) (len7_of (h_len h)) ext key rest Ha Hw Ho (proj1 Hok) Hr Le Lk) as HP.
  cbv zeta in HP. rewrite Hal in HP. cbn [app]. rewrite <- app_assoc, HP.
  eexists. split; [reflexivity|]. repeat split; auto.
  intros Hm. cbn. rewrite Hm. auto.
Qed.

(** ** C02 *)
(** Masking piece by piece: buffer addresses and contents of the pieces. *)
Fixpoint mask_pieces (h : hdr) (pieces : list (Z * list Z)) : list Z :=
  match pieces with
  | [] => []
  | (addr, s) :: r => let '(o, h') := mask_payload addr h s in o ++ mask_pieces h' r
  end.

Lemma mask_payload_key addr h s o h' :
  bytes s -> u32 (h_key h) -> mask_payload addr h s = (o, h') ->
  u32 (h_key h') /\ h_masked h' = h_masked h.
Proof.
  intros Hs Hk E. destruct (h_masked h) eqn:Hm.
  - destruct (of_oct_koct (h_key h) Hk) as (a & b & c & d & Ha & Hb & Hc & Hd & Hk' & _).
    rewrite (mask_payload_spec addr h s a b c d) in E by auto. injection E as _ <-.
    cbn [h_key h_masked set_key]. split; [|exact Hm].
    destruct (rot4 (length s) (a, b, c, d)) as [[[a1 b1] c1] d1] eqn:Er.
    destruct (rot4_bytes _ _ _ _ _ _ _ _ _ Ha Hb Hc Hd Er) as (Ha1 & Hb1 & Hc1 & Hd1).
    cbn [ofk]. now apply of_oct_range.
  - unfold mask_payload in E. rewrite Hm in E. cbn in E. injection E as _ <-. auto.
Qed.

Theorem mask_pieces_whole pieces : forall addr h,
  Forall (fun x => bytes (snd x)) pieces -> u32 (h_key h) ->
  mask_pieces h pieces = fst (mask_payload addr h (concat (map snd pieces))).
Proof.
  induction pieces as [|[a s] r IH]; intros addr h Hb Hk; cbn [mask_pieces map concat snd].
  - unfold mask_payload. destruct (negb (h_masked h) || (h_key h =? 0)); reflexivity.
  - inversion_clear Hb. cbn [snd] in H.
    assert (Hr : bytes (concat (map snd r))).
    { clear -H0. induction H0; cbn [map concat]; [constructor|]. apply bytes_app; auto. }
    rewrite (mask_payload_split addr a addr h s _ H Hr Hk).
    destruct (mask_payload a h s) as [o h'] eqn:E.
    destruct (mask_payload_key _ _ _ _ _ H Hk E) as [Hk' _].
    rewrite (IH addr h' H0 Hk').
    destruct (mask_payload addr h' (concat (map snd r))). reflexivity.
Qed.

(** ** C04 *)
Lemma parsed_open p fin r1 r2 r3 op m len7 len key srv pm :
  open_of p <> Some 0 ->
  allowed srv pm (open_of p) fin r1 r2 r3 op m len7 = true ->
  open_of (parsed p fin r1 r2 r3 op m len7 len key) = open_after (open_of p) fin op.
Proof.
  intros Ho Hal. apply andb_true_iff in Hal. destruct Hal as [_ Hal].
  unfold parsed, open_after. destruct (is_data op) eqn:Ed.
  - unfold open_of at 1. cbn [p_fin p_opcode set_wsf set_payload set_hdr set_msg].
    rewrite is_data_not0 by auto. reflexivity.
  - destruct (op =? 0) eqn:E0.
    + destruct fin; cbn [andb].
      * reflexivity.
      * rewrite (open_of_forget p). unfold open_of.
        cbn [p_fin p_opcode set_wsf set_payload set_hdr set_msg]. reflexivity.
    + cbn [andb]. rewrite (open_of_forget p). reflexivity.
Qed.

Theorem frame_acceptance p (fin r1 r2 r3 : bool) op (m : bool) len7 (ext key rest : list Z) :
  between_frames p ->
  0 <= op < 16 -> 0 <= len7 < 128 ->
  length ext = (if (len7 <=? 125)%Z then 0 else if (len7 =? 126)%Z then 2 else 8)%nat ->
  length key = (if m then 4 else 0)%nat ->
  exists p' rest',
    parse_header p (rfc_octet0 fin r1 r2 r3 op :: (128 * b2z m + len7) :: ext ++ key ++ rest)
    = Ret (p', rest') /\
    if allowed (is_server p) (negb (p_send_bits p =? 0)) (open_of p) fin r1 r2 r3 op m len7
    then in_error p' = false /\ header_complete p' = true /\ rest' = rest /\
         open_of p' = open_after (open_of p) fin op
    else in_error p' = true.
Proof.
  intros (Ha & Hw & Ho & _) Hop Hn Le Lk.
  pose proof (parse_header_complete p fin r1 r2 r3 op m len7 ext key rest Ha Hw Ho Hop Hn Le Lk) as HP.
  cbv zeta in HP. unfold octet1 in HP.
  destruct (allowed _ _ _ _ _ _ _ _ _ _) eqn:Hal.
  - rewrite HP. do 2 eexists. split; [reflexivity|]. repeat split; auto.
    eapply parsed_open; eauto.
  - destruct HP as (p' & HP & He & _). rewrite HP. do 2 eexists. split; [reflexivity|]. exact He.
Qed.

(** ** End to end *)
Definition sendable (m : Z * list Z) : Prop :=
  (is_data (fst m) = true \/ (fst m = 9 \/ fst m = 10) /\ (length (snd m) <= 125)%nat) /\
  bytes (snd m).

Definition delivered (m : Z * list Z) : app_event :=
  if fst m =? 9 then Ping (snd m) else if fst m =? 10 then Pong (snd m) else Message (fst m) (snd m).

Lemma sendable_opcode m : sendable m -> fst m = 1 \/ fst m = 2 \/ fst m = 9 \/ fst m = 10.
Proof. intros [[H|[H _]] _]; [unfold is_data in H|]; lia. Qed.

Lemma frame_of_fin op mask d : op = 1 \/ op = 2 \/ op = 9 \/ op = 10 ->
  frame_of (Z.lor 128 op) mask d = mkFrame true false false false op mask d.
Proof. intros [->|[->|[->| ->]]]; reflexivity. Qed.

Lemma send_events ms : forall srv pm mask,
  (srv = true -> forall m, mask m <> None) ->
  Forall sendable ms ->
  receive srv pm None (map (fun m => frame_of (Z.lor 128 (fst m)) (mask m) (snd m)) ms)
  = map delivered ms.
Proof.
  induction ms as [|m ms IH]; intros srv pm mask Hm Hs; [reflexivity|].
  inversion_clear Hs. cbn [map]. pose proof (sendable_opcode m H) as Hop.
  rewrite frame_of_fin by auto.
  assert (Hal : frame_allowed srv pm None (mkFrame true false false false (fst m) (mask m) (snd m)) = true).
  { unfold frame_allowed, allowed. cbn [f_fin f_rsv1 f_rsv2 f_rsv3 f_opcode f_mask f_payload].
    assert (negb srv || match mask m with Some _ => true | None => false end = true) as ->.
    { destruct srv; auto. destruct (mask m) eqn:E; auto. destruct (Hm eq_refl m). exact E. }
    destruct H as [[Hd|[Hc Hl]] _].
    - rewrite Hd. reflexivity.
    - assert (is_data (fst m) = false) as -> by (unfold is_data; lia).
      assert (fst m =? 0 = false) as -> by lia.
      assert (is_control (fst m) = true) as -> by (unfold is_control; lia).
      cbn [negb andb]. unfold len7_of. destruct (Z.leb_spec (Z.of_nat (length (snd m))) 125); lia. }
  cbn [receive option_map]. rewrite Hal. cbn [negb f_opcode f_payload f_fin].
  assert (fst m =? 8 = false) as -> by lia.
  unfold delivered at 1. destruct (fst m =? 9); [now rewrite IH|].
  destruct (fst m =? 10); [now rewrite IH|]. cbn [app]. now rewrite IH.
Qed.

Lemma send_fits ms mx mask : Forall (fun m => Z.of_nat (length (snd m)) <= mx) ms ->
  Forall sendable ms ->
  fits mx 0 (map (fun m : Z * list Z => frame_of (Z.lor 128 (fst m)) (mask m) (snd m)) ms).
Proof.
  induction 1; intros Hs; [exact I|]. inversion_clear Hs. cbn [map].
  pose proof (sendable_opcode _ H1) as Hop. rewrite frame_of_fin by auto.
  cbn [fits f_payload f_opcode f_fin]. split; [auto|].
  destruct (is_data (fst x)); [auto|].
  assert (fst x =? 0 = false) as -> by lia. auto.
Qed.

Section EndToEnd.
  Variable zst : Type.
  Variable inflate : zst -> list Z -> option (zst * list Z).
  Variable addr_of : list Z -> Z.

  (** [ms]: what the application sent, by TCP segment; [raw]: the frame writer. *)
  Theorem end_to_end (srv : bool) mx bits z (raw : Z * list Z -> Z -> list Z -> list Z)
          (mask : Z * list Z -> option Z) (segments : list (list (Z * list Z))) (wires_ : list (list Z)) :
    (srv = true -> forall m, mask m <> None) ->
    (forall m x d, 0 <= x < 256 -> bytes d -> u64 (Z.of_nat (length d)) ->
        wire (frame_of x (mask m) d) (raw m x d)) ->
    0 <= mx < two32 ->
    Forall (Forall sendable) segments ->
    Forall (Forall (fun m => Z.of_nat (length (snd m)) <= mx)) segments ->
    Forall2 (fun ms w => exists ws, Forall2 (fun m o => ws_send (raw m) (fst m) (snd m) = Ret o) ms ws
                               /\ w = concat ws) segments wires_ ->
    exists s' evs,
      on_chunks zst inflate addr_of
        (session_new zst (if srv then wshs_s_accepted else wshs_c_accepted) mx bits z) [] wires_
      = SRet zst s' [] evs /\
      app_view evs = map delivered (concat segments).
  Proof.
    intros Hm Hraw Hmx Hs Hl Hw.
    set (fr := fun m : Z * list Z => frame_of (Z.lor 128 (fst m)) (mask m) (snd m)).
    destruct (chunks_receive zst inflate addr_of srv mx bits (map (map fr) segments) wires_)
      with (s := session_new zst (if srv then wshs_s_accepted else wshs_c_accepted) mx bits z)
           (open := @None (Z * list Z)) as (s' & evs & H1 & H2).
    - revert Hs Hl. induction Hw as [|ms w segs ws Hmw Hw IH]; intros Hs Hl; [constructor|].
      inversion_clear Hs. inversion_clear Hl. cbn [map]. constructor; [|auto].
      destruct Hmw as (os & Hos & ->). clear IH Hw.
      revert H H1. induction Hos as [|m o ms os Ho Hos IH]; intros Hs Hl; [constructor|].
      inversion_clear Hs. inversion_clear Hl. cbn [map concat]. constructor; [|auto].
      assert (Ho' : o = raw m (Z.lor 128 (fst m)) (snd m)).
      { unfold ws_send in Ho. destruct (_ || _); [now injection Ho|].
        destruct (_ || _); [|discriminate]. destruct (125 <? _); [discriminate|]. now injection Ho. }
      subst o. apply Hraw.
      + destruct (sendable_opcode m H) as [->|[->|[->| ->]]]; cbn; lia.
      + apply H.
      + unfold u64, two64, two32 in *. lia.
    - apply session_new_Rel.
    - apply Forall_map. eapply Forall_impl; [|exact Hs]. intros ms Hms.
      apply Forall_map. eapply Forall_impl; [|exact Hms]. intros m Hsm.
      pose proof (sendable_opcode m Hsm) as Hop. unfold fr. rewrite frame_of_fin by auto.
      repeat split; cbn [f_opcode f_payload]; try lia. apply Hsm.
    - apply Forall_map. eapply Forall_impl; [|exact Hs]. intros ms Hms.
      apply Forall_map. eapply Forall_impl; [|exact Hms]. intros m Hsm.
      pose proof (sendable_opcode m Hsm) as Hop. unfold fr. rewrite frame_of_fin by auto. reflexivity.
    - rewrite <- concat_map. apply send_fits.
      + clear -Hl. induction Hl; cbn [concat]; [constructor|]. apply Forall_app; auto.
      + clear -Hs. induction Hs; cbn [concat]; [constructor|]. apply Forall_app; auto.
    - exists s', evs. split; [exact H1|]. rewrite H2, <- concat_map. apply send_events; auto.
      clear -Hs. induction Hs; cbn [concat]; [constructor|]. apply Forall_app; auto.
  Qed.
End EndToEnd.

(** ** C07 *)
Lemma firstn_min_bytes n (s : list Z) : bytes s -> bytes (firstn n s).
Proof. apply bytes_firstn. Qed.

Lemma close_payload_length st r : (length (close_payload st r) <= 125)%nat.
Proof.
  unfold close_payload. rewrite app_length, store_be_length.
  pose proof (firstn_le_length (Nat.min (length r) (125 - 2)) r).
  rewrite firstn_length in *. lia.
Qed.

Lemma close_payload_bytes st r : bytes r -> bytes (close_payload st r).
Proof. intros H. apply bytes_app. split; [apply store_be_bytes|]. now apply bytes_firstn. Qed.

Lemma real_status_range st : 1000 <= real_status st <= 4999.
Proof. unfold real_status. destruct (_ && _) eqn:E; lia. Qed.

Lemma close_payload_info st reason : 
  close_info (close_payload (real_status st) reason)
  = PeerClosed (real_status st) (firstn 123 reason).
Proof.
  pose proof (real_status_range st) as R. unfold close_payload.
  rewrite Z.mod_small by (unfold two16; lia).
  assert (E : firstn (Nat.min (length reason) (125 - 2)) reason = firstn 123 reason).
  { change (125 - 2)%nat with 123%nat. destruct (Nat.le_ge_cases (length reason) 123).
    - rewrite Nat.min_l by auto. rewrite !firstn_all2; auto.
    - now rewrite Nat.min_r. }
  rewrite E. cbn [store_be app close_info].
  change (8 * Z.of_nat 1) with 8. change (8 * Z.of_nat 0) with 0.
  change (2 ^ 8) with 256. change (2 ^ 0) with 1. f_equal. lia.
Qed.

Theorem shut_down_server st reason : bytes reason ->
  exists f, wire f (shut_down_frame raw_frame st reason) /\
    f_fin f = true /\ f_rsv1 f = false /\ f_rsv2 f = false /\ f_rsv3 f = false /\ f_opcode f = 8 /\
    f_mask f = None /\ (length (f_payload f) <= 125)%nat /\
    close_info (f_payload f) = PeerClosed (real_status st) (firstn 123 reason).
Proof.
  intros Hr. unfold shut_down_frame, close_frame.
  eexists. split; [apply raw_frame_wire|].
  - cbn; lia.
  - now apply close_payload_bytes.
  - pose proof (close_payload_length (real_status st) reason). unfold u64, two64. lia.
  - repeat split. apply close_payload_length. apply close_payload_info.
Qed.

Theorem shut_down_client key addr st reason : bytes reason -> u32 key ->
  exists f, wire f (shut_down_frame (raw_frame_client key addr) st reason) /\
    f_fin f = true /\ f_rsv1 f = false /\ f_rsv2 f = false /\ f_rsv3 f = false /\ f_opcode f = 8 /\
    f_mask f = Some key /\ (length (f_payload f) <= 125)%nat /\
    close_info (f_payload f) = PeerClosed (real_status st) (firstn 123 reason).
Proof.
  intros Hr Hk. unfold shut_down_frame, close_frame.
  eexists. split; [apply raw_frame_client_wire; auto|].
  - cbn; lia.
  - now apply close_payload_bytes.
  - pose proof (close_payload_length (real_status st) reason). unfold u64, two64. lia.
  - repeat split. apply close_payload_length. apply close_payload_info.
Qed.
