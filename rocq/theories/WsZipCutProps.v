(** * C74: what a compressed message becomes if the transport cuts it *)
From Coq Require Import ZArith List Lia Bool ZifyBool ZifyNat Arith.
From Verif Require Import Base BaseLemmas WsModel WsSpec WsMaskProofs WsParseProofs WsSessionProofs WsMoreProofs.
From Verif Require Import DeflModel DeflSpec DeflProofs DeflCodec DeflAbsProofs DeflProps.
Import ListNotations.
Open Scope Z_scope.
Notation length := List.length.

(** ** What zlib is given

    Each piece of the payload is given to zlib on its own, and the four octets that RFC 7692 (section 7.2.2) wants at the end of a
    message are given after each of them.  [outs]: what zlib makes of each piece and the octets after it. *)
Inductive inflated (zst : Type) (inflate : zst -> list Z -> option (zst * list Z)) : zst -> list (list Z) -> list (list Z) -> zst -> Prop :=
  | inflated_none z : inflated zst inflate z [] [] z
  | inflated_piece z p a z1 b z2 ps outs z' :
      (p = [] /\ a = [] /\ z1 = z) \/ (p <> [] /\ inflate z p = Some (z1, a)) ->
      inflate z1 [0; 0; 255; 255] = Some (z2, b) ->
      inflated zst inflate z2 ps outs z' ->
      inflated zst inflate z (p :: ps) ((a ++ b) :: outs) z'.

Section Zip.
  Context (zst : Type) (inflate : zst -> list Z -> option (zst * list Z)) (addr_of : list Z -> Z).
  Notation session := (session zst).
  Notation stream_loop := (stream_loop zst inflate addr_of).
  Notation on_stream := (on_stream zst inflate addr_of).
  Notation on_chunks := (on_chunks zst inflate addr_of).

  (** In the middle of a compressed frame of [rem] more octets. *)
  Local Definition mid (mx op : Z) (s : session) (z : zst) (rem : Z) : Prop :=
    let p := s_parser _ s in
    accepted p = true /\ p_wsf p = wsf_header_done /\ p_max p = mx /\ p_payload p = [] /\ p_rem p = rem /\
    h_masked (p_hdr p) = false /\ h_opcode (p_hdr p) = op /\ h_fin (p_hdr p) = true /\
    p_opcode p = op /\ p_rsv1 p = true /\ p_fin p = true /\ s_closed _ s = false /\
    exists o, s_pmce _ s = Some (mkPmce _ z o).

  Local Lemma mid_step mx op s z rem c a z1 b z2 fuel :
    mid mx op s z rem -> op = 1 \/ op = 2 -> 0 < rem -> Z.of_nat (length c) <= rem -> rem <= mx ->
    (c = [] /\ a = [] /\ z1 = z) \/ (c <> [] /\ inflate z c = Some (z1, a)) ->
    inflate z1 [0; 0; 255; 255] = Some (z2, b) -> Z.of_nat (length (a ++ b)) <= mx ->
    (Z.of_nat (length c) < rem ->
      exists s', stream_loop (S fuel) s c = SRet _ s' [] [EvData op (a ++ b)] /\ mid mx op s' z2 (rem - Z.of_nat (length c))) /\
    (Z.of_nat (length c) = rem ->
      exists s', stream_loop (S (S fuel)) s c = SRet _ s' [] [EvData op (a ++ b); EvFinish op (a ++ b)]).
  Proof.
    intros (Ha & Hw & Hm & Hp & Hr & Hk & Ho & Hf & Hpo & H1 & Hpf & Hc & o & Hz) Op R0 Rc Rm I1 I2 L.
    assert (La : Z.of_nat (length a) <= mx) by (rewrite app_length in L; lia).
    assert (PP : exists q, parse_payload (addr_of c) (s_parser _ s) c = Ret (q, []) /\ p_payload q = c /\ p_rem q = rem - Z.of_nat (length c) /\
      p_wsf q = (if rem - Z.of_nat (length c) =? 0 then wsf_payload_done else wsf_header_done) /\ p_wshs q = p_wshs (s_parser _ s) /\ p_max q = mx /\
      h_masked (p_hdr q) = false /\ h_opcode (p_hdr q) = op /\ h_fin (p_hdr q) = true /\ p_opcode q = op /\ p_rsv1 q = true /\ p_fin q = true).
    { unfold parse_payload, payload_complete, header_complete. rewrite Ha, Hw. cbn [negb]. cbv zeta. rewrite Hr.
      replace (Z.min _ _) with (Z.of_nat (length c)) by lia.
      destruct (Z.eqb_spec (Z.of_nat (length c)) 0) as [E|E].
      - destruct c; [|cbn [length] in E; lia]. rewrite Hr. cbn [length Z.of_nat]. rewrite Z.sub_0_r.
        destruct (Z.eqb_spec rem 0); [lia|]. eexists. split; [reflexivity|]. repeat split; auto.
      - rewrite Hm, Hp. cbn [length Z.of_nat].
        destruct (Z.ltb_spec mx (0 + Z.of_nat (length c))); [lia|].
        unfold mask_payload. rewrite Hk. cbn [negb orb]. rewrite Nat2Z.id, firstn_all, skipn_all. cbn [app].
        cbn [p_rem set_payload set_hdr].
        destruct (Z.eqb_spec (rem - Z.of_nat (length c)) 0); eexists; (split; [reflexivity|]); repeat split; auto. }
    destruct PP as (q & PP & Q1 & Q2 & Q3 & Q4 & Q5 & Q6 & Q7 & Q8 & Q9 & Q10 & Q11).
    assert (Hie : in_error (s_parser _ s) = false) by (unfold in_error; now rewrite Hw).
    assert (Hhc : header_complete (s_parser _ s) = true) by (unfold header_complete; now rewrite Hw).
    assert (Hpc : payload_complete (s_parser _ s) = false) by (unfold payload_complete; now rewrite Hw).
    assert (IS : WsModel.inflate_message_stream zst inflate (mkPmce zst z []) c mx = Some (mkPmce zst z1 a)).
    { unfold WsModel.inflate_message_stream. destruct c as [|x c'].
      - destruct I1 as [(_ & Ea & Ez)|[N _]]; [rewrite Ea, Ez; reflexivity|congruence].
      - destruct I1 as [(N & _)|[_ E]]; [discriminate|]. cbn [z_state z_out app]. rewrite E.
        destruct (Z.ltb_spec mx (Z.of_nat (length a))); [lia|reflexivity]. }
    assert (DF : data_frame zst inflate (set_parser zst s q) (p_payload q) = DOk zst (mkSession zst q [] (Some (mkPmce zst z2 c)) false) (a ++ b)).
    { unfold data_frame, set_parser. cbn [s_parser s_pmce s_msg s_closed]. rewrite Q7, Q10, Q1, Q5, Q11, Hz, Hc.
      destruct (Z.eqb_spec op 0); [lia|]. cbn [s_parser s_pmce s_msg s_closed z_state]. rewrite IS.
      unfold WsModel.inflate_message_finish. cbn [z_state z_out]. rewrite I2. reflexivity. }
    assert (O7 : (op <=? 7) = true) by (destruct Op as [E0|E0]; rewrite E0; reflexivity).
    assert (LT : (mx <? Z.of_nat (length (a ++ b))) = false) by lia.
    assert (Acc : accepted q = true) by (unfold accepted in *; now rewrite Q4).
    split; intros E.
    - destruct (Z.eqb_spec (rem - Z.of_nat (length c)) 0); [lia|].
      eexists. split.
      + cbn [WsModel.stream_loop]. rewrite Hie, Hc, Hhc. cbn [orb]. cbv zeta. rewrite Hie, Hhc, Hpc. cbn [negb].
        rewrite PP, Q7, O7. change (set_parser zst (set_parser zst s (s_parser zst s)) q) with (set_parser zst s q). rewrite DF.
        unfold splice. cbn [s_msg s_parser s_pmce s_closed app]. rewrite Q5, LT. cbn [s_parser].
        unfold payload_complete. cbn [set_payload p_wsf]. rewrite Q3. cbn [negb]. rewrite Q9. reflexivity.
      + unfold mid. cbn [s_parser s_closed s_pmce]. cbn [set_payload p_wsf p_max p_payload p_rem p_hdr p_opcode p_rsv1 p_fin].
        repeat split; auto. eexists; reflexivity.
    - destruct (Z.eqb_spec (rem - Z.of_nat (length c)) 0); [|lia].
      eexists.
      remember (S fuel) as fl eqn:Ef. cbn [WsModel.stream_loop]. rewrite Hie, Hc, Hhc. cbn [orb]. cbv zeta. rewrite Hie, Hhc, Hpc. cbn [negb].
      rewrite PP, Q7, O7. change (set_parser zst (set_parser zst s (s_parser zst s)) q) with (set_parser zst s q). rewrite DF.
      unfold splice. cbn [s_msg s_parser s_pmce s_closed app]. rewrite Q5, LT. cbn [s_parser].
      unfold payload_complete. cbn [set_payload p_wsf]. rewrite Q3. cbn [negb].
      unfold frame_done. cbn [s_parser set_payload p_hdr p_opcode s_msg s_pmce s_closed]. rewrite Q8, Q7.
      assert ((op =? 0) || (op =? 1) || (op =? 2) = true) as -> by (destruct Op as [E0|E0]; rewrite E0; reflexivity).
      subst fl. cbn [WsModel.stream_loop]. unfold set_parser, next_frame. cbn [s_parser set_wsf set_payload set_hdr p_wsf in_error s_closed orb header_complete p_payload p_rem p_hdr].
      unfold in_error, header_complete. cbn [p_wsf]. cbn [orb].
      match goal with |- context [parse_header ?p []] => assert (PH : parse_header p [] = Ret (forget_finished p, [])) by
        (unfold parse_header; match goal with |- (if negb ?a then _ else _) = _ => change a with (accepted q) end; rewrite Acc; reflexivity) end.
      rewrite PH. cbv zeta. unfold forget_finished. cbn [p_fin set_wsf set_payload set_hdr]. rewrite Q11.
      cbn [p_wsf set_msg set_wsf set_payload set_hdr negb]. unfold emit. rewrite Q9. cbn [app]. reflexivity.
  Qed.

  Local Lemma mid_chunks mx op : op = 1 \/ op = 2 -> forall ps outs z z' s c,
    mid mx op s z (Z.of_nat (length (c ++ concat ps))) ->
    c ++ concat ps <> [] -> Z.of_nat (length (c ++ concat ps)) <= mx ->
    Forall (fun p => p <> []) ps -> inflated zst inflate z (c :: ps) outs z' -> Forall (fun y => Z.of_nat (length y) <= mx) outs ->
    forall fuel, exists s1 evs1 s' evs, stream_loop (S (S fuel)) s c = SRet _ s1 [] evs1 /\
      on_chunks s1 [] ps = SRet _ s' [] evs /\ app_view (evs1 ++ evs) = [Message op (last outs [])].
  Proof.
    intros Op. induction ps as [|p ps IH]; intros outs z z' s c M N L F I O fuel.
    - inversion I as [|? ? a z1 b z2 ? outs' ? I1 I2 I3]; subst. inversion I3; subst.
      cbn [concat] in *. rewrite app_nil_r in *. inversion O; subst.
      assert (0 < Z.of_nat (length c)) by (destruct c; [congruence|cbn [length]; lia]).
      destruct (mid_step _ _ _ _ _ c a z1 b z' fuel M Op) as [_ K]; auto; try lia.
      destruct K as [s' K]; [reflexivity|]. rewrite K.
      eexists _, _, _, _. split; [reflexivity|]. split; [reflexivity|].
      rewrite app_nil_r. cbn [last]. unfold app_view. cbn [flat_map view app]. destruct Op; subst; reflexivity.
    - inversion I as [|? ? a z1 b z2 ? outs' ? I1 I2 I3]; subst. inversion O; subst. inversion F; subst.
      cbn [concat] in *.
      assert (0 < Z.of_nat (length p)) by (destruct p; [congruence|cbn [length]; lia]).
      rewrite !app_length in L.
      destruct (mid_step _ _ _ _ _ c a z1 b z2 (S fuel) M Op) as [K _]; auto; try (rewrite ?app_length; lia).
      destruct K as (s1 & K & M1); [rewrite !app_length; lia|].
      replace (_ - _) with (Z.of_nat (length (p ++ concat ps))) in M1 by (rewrite !app_length; lia).
      destruct (IH outs' z2 z' s1 p M1) with (fuel := length p) as (s2 & e2 & s' & e & J1 & J2 & J3); auto.
      { destruct p; [congruence|discriminate]. }
      { rewrite app_length. lia. }
      exists s1, [EvData op (a ++ b)], s', (e2 ++ e). split; [exact K|]. split.
      + cbn [WsModel.on_chunks app]. unfold WsModel.on_stream. rewrite J1, J2. reflexivity.
      + rewrite app_view_app, J3. unfold app_view. cbn [flat_map view app].
        inversion I3; subst. reflexivity.
  Qed.
End Zip.

Local Lemma app_tail (a b x y : list Z) : a ++ x = b ++ y -> length x = length y -> a = b /\ x = y.
Proof.
  revert b. induction a as [|u a IH]; intros [|v b] E L; cbn [app] in E.
  - auto.
  - apply (f_equal (@length Z)) in E. cbn [length] in E. rewrite app_length in E. lia.
  - apply (f_equal (@length Z)) in E. cbn [length] in E. rewrite app_length in E. lia.
  - inversion E; subst. destruct (IH b H1 L) as [-> ->]. auto.
Qed.

(** ** What the application gets

    A compressed message in one frame (RFC 6455, section 5.2, and RFC 7692, section 6) arrives at a client in pieces, the first of which holds the header of
    the frame.  If zlib accepts what it is given, the application gets one message, and that is what zlib has made of the last piece
    alone: the text of all pieces before is lost. *)
Theorem ws_compressed_pieces : forall zst (inflate : zst -> list Z -> option (zst * list Z)) addr_of maxlen bits st st' op payload header p ps w outs,
  op = 1 \/ op = 2 -> bits <> 0 -> bytes payload -> payload <> [] -> Z.of_nat (length payload) <= maxlen ->
  wire (mkFrame true true false false op None payload) w ->
  w = header ++ payload -> payload = p ++ concat ps -> Forall (fun q => q <> []) ps ->
  inflated zst inflate st (p :: ps) outs st' -> Forall (fun y => Z.of_nat (length y) <= maxlen) outs ->
  exists s' evs, on_chunks zst inflate addr_of (session_new zst wshs_c_accepted maxlen bits (Some st)) [] ((header ++ p) :: ps) = SRet zst s' [] evs /\
    app_view evs = [Message op (last outs [])].
Proof.
  intros zst inflate addr_of mx bits st st' op payload header p ps w outs Op Hb By Ne Lm Wi Ew Ep Fp I O.
  set (f := mkFrame true true false false op None payload) in *.
  assert (Hok : frame_ok f).
  { unfold frame_ok. cbn [f f_opcode f_payload f_mask]. repeat split; auto; try lia. }
  destruct (wire_header f w Wi Hok) as (ext & key & body & E & Le & Lk & Hpay & Hl7 & Lb & Hmask).
  cbn [f f_payload f_opcode f_fin f_rsv1 f_rsv2 f_rsv3 f_mask masked_of] in *.
  assert (key = []) by (destruct key; [reflexivity|discriminate]). subst key. cbn [app] in E.
  set (s0 := session_new zst wshs_c_accepted mx bits (Some st)).
  rewrite Ew in E. change (rfc_octet0 true true false false op :: octet1 false (len7_of (Z.of_nat (length payload))) :: ext ++ body)
    with ((rfc_octet0 true true false false op :: octet1 false (len7_of (Z.of_nat (length payload))) :: ext) ++ body) in E.
  apply app_tail in E; [|now symmetry]. destruct E as [Eh <-].
  pose proof (parse_header_complete (s_parser _ s0) true true false false op false (len7_of (Z.of_nat (length payload))) ext [] p) as HP.
  cbv zeta in HP. cbn [app] in HP. change (is_server (s_parser zst s0)) with false in HP. change (open_of (s_parser zst s0)) with (@None Z) in HP.
  change (p_send_bits (s_parser zst s0)) with bits in HP.
  assert (D : is_data op = true) by (destruct Op; subst op; reflexivity).
  assert (A : allowed false (negb (bits =? 0)) None true true false false op false (len7_of (Z.of_nat (length payload))) = true).
  { unfold allowed. rewrite D. destruct (Z.eqb_spec bits 0); [contradiction|reflexivity]. }
  rewrite A in HP. specialize (HP eq_refl eq_refl ltac:(discriminate) ltac:(lia) Hl7 Le eq_refl).
  change (rfc_octet0 true true false false op :: octet1 false (len7_of (Z.of_nat (length payload))) :: ext ++ p)
    with ((rfc_octet0 true true false false op :: octet1 false (len7_of (Z.of_nat (length payload))) :: ext) ++ p) in HP.
  rewrite <- Eh, Hpay in HP.
  set (q := parsed _ _ _ _ _ _ _ _ _ _) in HP.
  assert (M : mid zst mx op (set_parser zst s0 q) st (Z.of_nat (length (p ++ concat ps)))).
  { rewrite <- Ep. unfold mid, q, parsed. rewrite D. cbn [set_parser s_parser s_closed s_pmce s0 session_new].
    cbn [accepted p_wshs set_wsf set_payload set_hdr set_msg p_wsf p_max p_payload p_rem p_hdr h_masked h_opcode h_fin p_opcode p_rsv1 p_fin].
    repeat split. exists []. reflexivity. }
  destruct (mid_chunks zst inflate addr_of mx op Op ps outs st st' _ p M) with (fuel := length (header ++ p)) as (s1 & e1 & s' & e & J1 & J2 & J3); auto.
  { now rewrite <- Ep. }
  { now rewrite <- Ep. }
  exists s', (e1 ++ e). split; [|exact J3].
  cbn [on_chunks app]. unfold on_stream.
  assert (ST : stream_loop zst inflate addr_of (S (S (length (header ++ p)))) s0 (header ++ p) = stream_loop zst inflate addr_of (S (S (length (header ++ p)))) (set_parser zst s0 q) p).
  { remember (S (length (header ++ p))) as fl. cbn [stream_loop]. change (in_error (s_parser zst s0) || s_closed zst s0) with false. cbn iota.
    change (header_complete (s_parser zst s0)) with false. cbn iota. rewrite HP. cbv zeta.
    change (in_error (s_parser zst (set_parser zst s0 q)) || s_closed zst (set_parser zst s0 q)) with false. cbn iota.
    change (header_complete (s_parser zst (set_parser zst s0 q))) with true. reflexivity. }
  rewrite ST, J1, J2. reflexivity.
Qed.
Print Assumptions ws_compressed_pieces.

(* the message of DeflProps that is cut right after the header, and a frame that is cut where one block ends and the next begins *)
Example ws_compressed_pieces_case :
  (exists payload outs st', toy_frames [(1, firstn 64 long_message)] = Done [[193; 126; 1; 129] ++ payload] /\ payload <> [] /\
    wire (mkFrame true true false false 1 None payload) ([193; 126; 1; 129] ++ payload) /\
    inflated (list Z) toy_session_inflate [] [[]; payload] outs st' /\ Forall (fun y => Z.of_nat (length y) <= 2000) outs /\
    last outs [] <> firstn 64 long_message) /\
  (exists outs st', inflated (list Z) toy_session_inflate [] [stored 104 ++ [0]; stored 105 ++ [0]] outs st' /\ concat outs = [104; 105] /\ last outs [] = [105]).
Proof.
  split.
  - eexists _, _, _. split; [vm_compute; reflexivity|]. split; [discriminate|]. split.
    { exists [126; 1; 129], []. eexists. split; [reflexivity|]. split; [|split; reflexivity].
      right. left. split; [split; vm_compute; discriminate|]. exists [1; 129]. split; [reflexivity|]. split; [reflexivity|].
      split; [repeat constructor; discriminate|reflexivity]. }
    split.
    { eapply inflated_piece; [left; auto|vm_compute; reflexivity|].
      eapply inflated_piece; [right; split; [discriminate|vm_compute; reflexivity]|vm_compute; reflexivity|]. apply inflated_none. }
    split; [repeat (apply Forall_cons; [vm_compute; discriminate|]); apply Forall_nil|]. vm_compute. discriminate.
  - eexists _, _. split.
    { eapply inflated_piece; [right; split; [discriminate|vm_compute; reflexivity]|vm_compute; reflexivity|].
      eapply inflated_piece; [right; split; [discriminate|vm_compute; reflexivity]|vm_compute; reflexivity|]. apply inflated_none. }
    split; reflexivity.
Qed.
