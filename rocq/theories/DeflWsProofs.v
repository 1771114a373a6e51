(** Reception of compressed messages by a session. *)
From Coq Require Import ZArith List Lia Bool ZifyBool ZifyNat Arith.
From Verif Require Import Base BaseLemmas WsModel WsSpec WsMaskProofs WsParseProofs WsSplitProofs WsSessionProofs WsMoreProofs.
From Verif Require DeflModel DeflSpec DeflProofs.
Import ListNotations.
Open Scope Z_scope.
Notation length := List.length.

Section Receive.
  Variable zst : Type.
  Variable inflate : zst -> list Z -> option (zst * list Z).
  Variable addr_of : list Z -> Z.
  Notation session := (session zst).
  Notation stream_loop := (stream_loop zst inflate addr_of).
  Notation Rel := (Rel zst).

  (** What is left of the callback when a frame has been parsed. *)
  Definition handle (fuel : nat) (s : session) (p : parser) (rest : list Z) : sres zst :=
    let s := set_parser zst s p in
    let step :=
      if h_opcode (p_hdr p) <=? 7 then
        match data_frame zst inflate s (p_payload p) with
        | DThrow _ => inl (SThrow zst s [])
        | DNoPmce _ => let '(s, e) := close_once zst s (EvClose 1011 []) in inl (SRet zst s [] e)
        | DOk _ s payload =>
            let s := splice zst s payload in
            if p_max p <? Z.of_nat (length (s_msg zst s))
            then inl (SThrow zst s [EvData (p_opcode p) (s_msg zst s)])
            else inr (s, [EvData (p_opcode p) (s_msg zst s)])
        end
      else inr (s, []) in
    match step with
    | inl r => r
    | inr (s, evs1) =>
        if negb (payload_complete (s_parser zst s)) then SRet zst s rest evs1
        else
          match frame_done zst s with
          | inl (s, evs2) => SRet zst s [] (evs1 ++ evs2)
          | inr (s, evs2) =>
              emit zst (evs1 ++ evs2) (stream_loop fuel (set_parser zst s (next_frame (s_parser zst s))) rest)
          end
    end.

  Lemma frame_arrives srv mx b s f w rest fuel :
    Rel srv mx b s None -> wire f w -> frame_ok f -> Z.of_nat (length (f_payload f)) <= mx ->
    frame_allowed srv (negb (b =? 0)) None f = true ->
    exists p2, stream_loop (S fuel) s (w ++ rest) = handle fuel s p2 rest /\
      h_opcode (p_hdr p2) = f_opcode f /\ h_fin (p_hdr p2) = f_fin f /\ p_payload p2 = f_payload f /\
      payload_complete p2 = true /\ p_max p2 = mx /\ p_send_bits p2 = b /\ p_wshs p2 = p_wshs (s_parser _ s) /\
      (is_data (f_opcode f) = true ->
        p_rsv1 p2 = f_rsv1 f /\ p_opcode p2 = f_opcode f /\ p_fin p2 = f_fin f) /\
      (is_data (f_opcode f) = false -> (f_opcode f =? 0) = false ->
        p_rsv1 p2 = p_rsv1 (forget_finished (s_parser _ s)) /\
        p_opcode p2 = p_opcode (forget_finished (s_parser _ s)) /\ p_fin p2 = false).
  Proof.
    intros HR Hw Hok Hlen Hal0.
    assert (Hopen := Rel_open _ _ _ _ _ _ HR).
    destruct HR as (Ha & Hsrv & Hmx & Hbits & Hwsf & Hpl & Hcl & Hop & Hrsv & Hmsg).
    destruct (wire_header f w Hw Hok) as (ext & key & body & -> & Le & Lk & Hpay & Hl7 & Lb & Hmask).
    pose proof (parse_header_complete (s_parser _ s) (f_fin f) (f_rsv1 f) (f_rsv2 f) (f_rsv3 f)
                  (f_opcode f) (masked_of f) (len7_of (Z.of_nat (length (f_payload f)))) ext key
                  (body ++ rest) Ha Hwsf Hopen (proj1 Hok) Hl7 Le Lk) as HP.
    cbv zeta in HP. rewrite Hop, Hsrv, Hbits in HP. fold (masked_of f).
    unfold frame_allowed in Hal0. fold (masked_of f) in Hal0.
    assert (Edata : (rfc_octet0 (f_fin f) (f_rsv1 f) (f_rsv2 f) (f_rsv3 f) (f_opcode f)
        :: octet1 (masked_of f) (len7_of (Z.of_nat (length (f_payload f)))) :: ext ++ key ++ body) ++ rest
        = rfc_octet0 (f_fin f) (f_rsv1 f) (f_rsv2 f) (f_rsv3 f) (f_opcode f)
        :: octet1 (masked_of f) (len7_of (Z.of_nat (length (f_payload f)))) :: ext ++ key ++ body ++ rest)
      by (cbn [app]; rewrite <- !app_assoc; reflexivity).
    rewrite Edata. clear Edata.
    set (data := rfc_octet0 _ _ _ _ _ :: _) in *.
    assert (Herr : in_error (s_parser _ s) = false) by (unfold in_error; now rewrite Hwsf).
    assert (Hhc : header_complete (s_parser _ s) = false) by (unfold header_complete; now rewrite Hwsf).
    cbn [option_map] in HP. rewrite Hal0 in HP.
    set (p1 := parsed (s_parser zst s) (f_fin f) (f_rsv1 f) (f_rsv2 f) (f_rsv3 f) (f_opcode f) (masked_of f)
                      (len7_of (Z.of_nat (length (f_payload f))))
                      (payload_len_of (len7_of (Z.of_nat (length (f_payload f)))) ext)
                      (if masked_of f then load_be key else h_key (p_hdr (s_parser zst s)))) in *.
    set (kk := if masked_of f then load_be key else h_key (p_hdr (s_parser zst s))) in *.
    assert (P1 : p_wsf p1 = wsf_header_done) by reflexivity.
    assert (P2 : accepted p1 = true).
    { unfold accepted, p1, parsed in *. cbn [p_wshs set_wsf set_payload set_hdr].
      destruct (is_data (f_opcode f)), ((f_opcode f =? 0) && f_fin f);
        cbn [p_wshs set_msg set_hdr]; unfold forget_finished; destruct (p_fin _); exact Ha. }
    assert (P2' : p_wshs p1 = p_wshs (s_parser _ s)).
    { unfold p1, parsed in *. cbn [p_wshs set_wsf set_payload set_hdr].
      destruct (is_data (f_opcode f)), ((f_opcode f =? 0) && f_fin f);
        cbn [p_wshs set_msg set_hdr]; unfold forget_finished; destruct (p_fin _); reflexivity. }
    assert (P3 : p_payload p1 = []).
    { unfold p1, parsed in *. cbn [p_payload set_wsf set_payload set_hdr].
      destruct (is_data (f_opcode f)), ((f_opcode f =? 0) && f_fin f);
        cbn [p_payload set_msg set_hdr]; unfold forget_finished; destruct (p_fin _); exact Hpl. }
    assert (P4 : p_rem p1 = Z.of_nat (length body)).
    { unfold p1, parsed. cbn [p_rem set_wsf set_payload]. rewrite Hpay, Lb. reflexivity. }
    assert (P5 : p_max p1 = mx).
    { unfold p1, parsed in *. cbn [p_max set_wsf set_payload set_hdr].
      destruct (is_data (f_opcode f)), ((f_opcode f =? 0) && f_fin f);
        cbn [p_max set_msg set_hdr]; unfold forget_finished; destruct (p_fin _); exact Hmx. }
    assert (P5' : p_send_bits p1 = b).
    { unfold p1, parsed in *. cbn [p_send_bits set_wsf set_payload set_hdr].
      destruct (is_data (f_opcode f)), ((f_opcode f =? 0) && f_fin f);
        cbn [p_send_bits set_msg set_hdr]; unfold forget_finished; destruct (p_fin _); exact Hbits. }
    assert (P6 : p_hdr p1 = mkHdr (f_fin f) (f_rsv1 f) (f_rsv2 f) (f_rsv3 f) (f_opcode f) (masked_of f)
                      (len7_of (Z.of_nat (length (f_payload f)))) kk
                      (payload_len_of (len7_of (Z.of_nat (length (f_payload f)))) ext)) by reflexivity.
    assert (MD : is_data (f_opcode f) = true ->
      p_rsv1 p1 = f_rsv1 f /\ p_opcode p1 = f_opcode f /\ p_fin p1 = f_fin f).
    { intros E. unfold p1, parsed. rewrite E. repeat split. }
    assert (MC : is_data (f_opcode f) = false -> (f_opcode f =? 0) = false ->
      p_rsv1 p1 = p_rsv1 (forget_finished (s_parser _ s)) /\
      p_opcode p1 = p_opcode (forget_finished (s_parser _ s)) /\ p_fin p1 = false).
    { intros E E'. unfold p1, parsed. rewrite E, E'. cbn [andb].
      repeat split. apply (p_fin_forget (s_parser _ s)). }
    clearbody p1.
    destruct (parse_payload_whole (addr_of (body ++ rest)) p1 body rest (f_payload f)) as [k' HPP]; auto.
    { rewrite P5. exact Hlen. }
    { apply Hmask; rewrite P6; [reflexivity|]. cbn [h_key]. unfold kk. intros ->. reflexivity. }
    set (p2 := set_wsf (set_payload (set_hdr p1 (set_key (p_hdr p1) k')) (f_payload f) 0) wsf_payload_done) in *.
    exists p2. split.
    { cbn [WsModel.stream_loop]. rewrite Herr, Hcl, Hhc. cbn [orb]. rewrite HP. cbv zeta.
      assert (in_error p1 = false) as -> by (unfold in_error; now rewrite P1).
      assert (header_complete p1 = true) as -> by (unfold header_complete; now rewrite P1).
      assert (payload_complete p1 = false) as -> by (unfold payload_complete; now rewrite P1).
      cbn [negb]. rewrite HPP. reflexivity. }
    split; [change (h_opcode (p_hdr p2)) with (h_opcode (p_hdr p1)); now rewrite P6|].
    split; [change (h_fin (p_hdr p2)) with (h_fin (p_hdr p1)); now rewrite P6|].
    split; [reflexivity|]. split; [reflexivity|]. split; [exact P5|]. split; [exact P5'|]. split; [exact P2'|].
    split; [exact MD|exact MC].
  Qed.

  Variable decode : list Z -> option (list Z).
  Variable seen : zst -> list Z.
  Hypothesis SD : DeflSpec.stream_decoder zst inflate decode seen.
  Hypothesis PX : DeflSpec.prefixes decode.

  (** Between messages; [h]: all that has been inflated. *)
  Definition ready (srv : bool) (mx b : Z) (s : session) (h : list Z) : Prop :=
    Rel srv mx b s None /\ exists z, s_pmce zst s = Some z /\ seen (z_state zst z) = h.

  Lemma ready_after srv mx b s h p msg' pm :
    ready srv mx b s h -> p_wshs p = p_wshs (s_parser zst s) -> p_max p = mx -> p_send_bits p = b ->
    p_fin p = true -> forall h', (exists z, pm = Some z /\ seen (z_state zst z) = h') -> msg' = [] ->
    ready srv mx b (mkSession zst (next_frame p) msg' pm (s_closed zst s)) h'.
  Proof.
    intros [(Ha & Hsrv & Hmx & Hbits & Hwsf & Hpl & Hcl & Hop & Hrsv & Hmsg) _] E1 E2 E3 E4 h' Hz ->.
    split; [|exact Hz]. unfold WsSessionProofs.Rel. cbn [s_parser s_closed s_msg].
    set (p3 := next_frame p). assert (Fg : p_fin p3 = true) by exact E4.
    repeat split; auto;
      try solve [unfold accepted, is_server in *; change (p_wshs p3) with (p_wshs p); now rewrite E1].
    - unfold open_of. rewrite Fg. reflexivity.
    - unfold forget_finished. rewrite Fg. reflexivity.
  Qed.

  (** A final frame with a message as it is, or compressed. *)
  Lemma step_message srv mx b s h op mask r1 payload x y w rest fuel :
    ready srv mx b s h -> wire (mkFrame true r1 false false op mask payload) w ->
    op = 1 \/ op = 2 -> bytes payload -> Z.of_nat (length payload) <= mx -> Z.of_nat (length y) <= mx ->
    (srv = true -> mask <> None) -> (r1 = true -> b <> 0) -> decode h = Some x ->
    (if r1 then decode (h ++ payload ++ [0; 0; 255; 255]) = Some (x ++ y) else y = payload) ->
    exists s' evs, stream_loop (S fuel) s (w ++ rest) = emit zst evs (stream_loop fuel s' rest) /\
      app_view evs = [Message op y] /\
      ready srv mx b s' (if r1 then h ++ payload ++ [0; 0; 255; 255] else h).
  Proof.
    intros RD Hw Hop Hb Hl Hly Hm Hr DH DD.
    assert (Ed : is_data op = true) by (unfold is_data; lia).
    set (f := mkFrame true r1 false false op mask payload) in *.
    assert (Hok : frame_ok f).
    { split; [cbn [f f_opcode]; lia|]. split; [exact Hb|]. cbn [f f_opcode]. lia. }
    assert (Hal : frame_allowed srv (negb (b =? 0)) None f = true).
    { unfold frame_allowed, allowed. cbn [f f_fin f_rsv1 f_rsv2 f_rsv3 f_opcode f_mask f_payload]. rewrite Ed.
      assert (negb srv || match mask with Some _ => true | None => false end = true) as ->.
      { destruct srv; auto. destruct mask eqn:E; auto. destruct (Hm eq_refl). reflexivity. }
      destruct r1; [|reflexivity]. specialize (Hr eq_refl). cbn [negb orb andb].
      destruct (Z.eqb_spec b 0); [contradiction|reflexivity]. }
    destruct RD as [HR (z & Ez & Sz)].
    destruct (frame_arrives srv mx b s f w rest fuel HR Hw Hok Hl Hal)
      as (p2 & -> & Q0 & Q1 & Q2 & Q3 & Q4 & Q5 & Q6 & MD & _).
    destruct (MD Ed) as (M1 & M2 & M3). cbn [f f_opcode f_fin f_payload f_rsv1] in Q0, Q1, Q2, M1, M2, M3.
    unfold handle. cbv zeta. rewrite Q0, Q2.
    assert (N7 : (op <=? 7) = true) by lia. assert (N0 : (op =? 0) = false) by lia.
    assert (N9 : (op =? 9) = false) by lia. assert (N10 : (op =? 10) = false) by lia.
    rewrite N7. unfold data_frame. cbn [set_parser s_parser s_pmce s_msg s_closed]. rewrite Q0, N0, M1, Q4, M3.
    cbn [s_pmce s_msg s_closed]. rewrite Ez.
    pose proof HR as HR0. pose proof HR0 as (Ha & Hsrv & Hmx & Hbits & Hwsf & Hpl & Hcl & Hop' & Hrsv & Hmsg).
    assert (RD : ready srv mx b s h) by (split; [exact HR0|exists z; auto]).
    assert (Bd : (op =? 0) || (op =? 1) || (op =? 2) = true) by lia.
    destruct r1.
    - assert (INF : exists z2, (match inflate_message_stream zst inflate (mkPmce zst (z_state zst z) []) payload mx with
                | None => None | Some z => inflate_message_finish zst inflate z end) = Some z2 /\
                z_out zst z2 = y /\ seen (z_state zst z2) = h ++ payload ++ [0; 0; 255; 255]).
      { rewrite app_assoc in DD. destruct (PX _ _ _ DD) as (x1 & t2 & D1 & E1).
        destruct (PX _ _ _ D1) as (x0 & t1 & D0 & E0). rewrite DH in D0. injection D0 as <-. subst x1.
        rewrite <- app_assoc in E1. apply app_inv_head in E1.
        assert (S1 : exists z1, inflate_message_stream zst inflate (mkPmce zst (z_state zst z) []) payload mx = Some z1 /\
                   z_out zst z1 = t1 /\ seen (z_state zst z1) = h ++ payload).
        { unfold inflate_message_stream. cbn [z_state z_out app]. destruct payload as [|c cs].
          - eexists. split; [reflexivity|]. cbn [z_state z_out]. rewrite app_nil_r in D1 |- *. rewrite DH in D1.
            injection D1 as D1. split; [|exact Sz].
            rewrite <- (app_nil_r x) in D1 at 1. apply app_inv_head in D1. exact D1.
          - destruct (SD (z_state zst z) (c :: cs) x t1) as (st1 & I1 & S1); [rewrite Sz; exact DH|rewrite Sz; exact D1|].
            rewrite I1. destruct (Z.ltb_spec mx (Z.of_nat (length t1))) as [C|C].
            + exfalso. subst y. rewrite app_length in Hly. lia.
            + eexists. split; [reflexivity|]. cbn [z_state z_out]. rewrite S1, Sz. auto. }
        destruct S1 as (z1 & -> & O1 & S1). unfold inflate_message_finish.
        destruct (SD (z_state zst z1) [0; 0; 255; 255] (x ++ t1) t2) as (st2 & I2 & S2);
          [rewrite S1; exact D1|rewrite S1, DD, E1, app_assoc; reflexivity|].
        rewrite I2. eexists. split; [reflexivity|]. cbn [z_state z_out]. rewrite O1, S2, S1, <- app_assoc.
        split; [symmetry; exact E1|reflexivity]. }
      destruct INF as (z2 & INF & O2 & S2).
      destruct (inflate_message_stream zst inflate (mkPmce zst (z_state zst z) []) payload mx) as [z1|]; [|discriminate].
      rewrite INF, O2.
      unfold splice. cbn [s_parser s_msg s_pmce s_closed app].
      destruct (Z.ltb_spec mx (Z.of_nat (length y))); [lia|].
      cbn [s_parser]. change (payload_complete (set_payload p2 [] (p_rem p2))) with (payload_complete p2).
      rewrite Q3. cbn [negb]. unfold frame_done. cbn [s_parser].
      change (p_hdr (set_payload p2 [] (p_rem p2))) with (p_hdr p2).
      change (p_opcode (set_payload p2 [] (p_rem p2))) with (p_opcode p2). rewrite Q0, Q1, M2, Bd.
      cbn [s_msg s_pmce s_closed].
      do 2 eexists. split; [reflexivity|]. split.
      + unfold app_view. cbn [flat_map view app]. rewrite N9, N10. reflexivity.
      + cbn [set_parser s_parser s_msg s_pmce s_closed].
        apply (ready_after srv mx b s h (set_payload p2 [] (p_rem p2)) [] _ RD); try assumption; [|reflexivity].
        eexists. split; [reflexivity|]. exact S2.
    - unfold splice. cbn [s_parser s_msg s_pmce s_closed app]. subst y.
      destruct (Z.ltb_spec mx (Z.of_nat (length payload))); [lia|].
      cbn [s_parser]. change (payload_complete (set_payload p2 [] (p_rem p2))) with (payload_complete p2).
      rewrite Q3. cbn [negb]. unfold frame_done. cbn [s_parser].
      change (p_hdr (set_payload p2 [] (p_rem p2))) with (p_hdr p2).
      change (p_opcode (set_payload p2 [] (p_rem p2))) with (p_opcode p2). rewrite Q0, Q1, M2, Bd.
      cbn [s_msg s_pmce s_closed].
      do 2 eexists. split; [reflexivity|]. split.
      + unfold app_view. cbn [flat_map view app]. rewrite N9, N10. reflexivity.
      + cbn [set_parser s_parser s_msg s_pmce s_closed].
        apply (ready_after srv mx b s h (set_payload p2 [] (p_rem p2)) [] _ RD); try assumption; [|reflexivity].
        eexists. split; [reflexivity|]. exact Sz.
  Qed.

  Lemma step_control srv mx b s h op mask payload w rest fuel :
    ready srv mx b s h -> wire (mkFrame true false false false op mask payload) w ->
    op = 9 \/ op = 10 -> bytes payload -> Z.of_nat (length payload) <= mx -> (length payload <= 125)%nat ->
    (srv = true -> mask <> None) ->
    exists s' evs, stream_loop (S fuel) s (w ++ rest) = emit zst evs (stream_loop fuel s' rest) /\
      app_view evs = [if op =? 9 then Ping payload else Pong payload] /\ ready srv mx b s' h.
  Proof.
    intros RD Hw Hop Hb Hl H125 Hm.
    set (f := mkFrame true false false false op mask payload) in *.
    assert (Nd : is_data op = false) by (unfold is_data; lia).
    assert (N0 : (op =? 0) = false) by lia.
    assert (Hok : frame_ok f).
    { split; [cbn [f f_opcode]; lia|]. split; [exact Hb|]. cbn [f f_opcode]. lia. }
    assert (Hal : frame_allowed srv (negb (b =? 0)) None f = true).
    { unfold frame_allowed, allowed. cbn [f f_fin f_rsv1 f_rsv2 f_rsv3 f_opcode f_mask f_payload]. rewrite Nd, N0.
      assert (negb srv || match mask with Some _ => true | None => false end = true) as ->.
      { destruct srv; auto. destruct mask eqn:E; auto. destruct (Hm eq_refl). reflexivity. }
      assert (is_control op = true) as -> by (unfold is_control; lia).
      cbn [negb andb orb]. unfold len7_of. destruct (Z.leb_spec (Z.of_nat (length payload)) 125); lia. }
    destruct RD as [HR (z & Ez & Sz)].
    destruct (frame_arrives srv mx b s f w rest fuel HR Hw Hok Hl Hal)
      as (p2 & -> & Q0 & Q1 & Q2 & Q3 & Q4 & Q5 & Q6 & _ & MC).
    destruct (MC Nd N0) as (Fm2 & Fm1 & Fm3). cbn [f f_opcode f_fin f_payload f_rsv1] in Q0, Q1, Q2.
    destruct HR as (Ha & Hsrv & Hmx & Hbits & Hwsf & Hpl & Hcl & Hop' & Hrsv & Hmsg).
    assert (RD : ready srv mx b (mkSession zst (next_frame p2) (s_msg zst s) (s_pmce zst s) (s_closed zst s)) h).
    { split; [|exists z; auto]. unfold WsSessionProofs.Rel. cbn [set_parser s_parser s_closed s_msg].
      set (p3 := next_frame _).
      change (p_rsv1 p3 = p_rsv1 (forget_finished (s_parser zst s))) in Fm2.
      change (p_opcode p3 = p_opcode (forget_finished (s_parser zst s))) in Fm1.
      change (p_fin p3 = false) in Fm3.
      repeat split; auto;
            try solve [unfold accepted, is_server in *; change (p_wshs p3) with (p_wshs p2); now rewrite Q6].
      - unfold open_of. rewrite Fm3, Fm1, p_opcode_forget, Hop'. reflexivity.
      - unfold forget_finished. rewrite Fm3, Fm2. exact Hrsv. }
    unfold handle. cbv zeta. rewrite Q0.
    assert (N7 : (op <=? 7) = false) by lia. rewrite N7.
    cbn [set_parser s_parser s_msg s_pmce s_closed]. rewrite Q3. cbn [negb].
    unfold frame_done. cbn [set_parser s_parser s_msg s_pmce s_closed]. rewrite Q0, Q1, Q2.
    assert (Nb : (op =? 0) || (op =? 1) || (op =? 2) = false) by lia. rewrite Nb.
    assert (N8 : (op =? 8) = false) by lia. rewrite N8.
    destruct (Z.eqb_spec op 9) as [E9|E9].
    - do 2 eexists. split; [reflexivity|]. split; [reflexivity|exact RD].
    - assert (E10 : (op =? 10) = true) by lia. rewrite E10.
      do 2 eexists. split; [reflexivity|]. split; [reflexivity|exact RD].
  Qed.

  Lemma ready_forget srv mx b s h : ready srv mx b s h ->
    ready srv mx b (set_parser zst s (forget_finished (s_parser zst s))) h.
  Proof. intros [R Z]. split; [apply Rel_forget; exact R|exact Z]. Qed.

  Lemma nothing_left srv mx b s h fuel : ready srv mx b s h -> (0 < fuel)%nat ->
    stream_loop fuel s [] = SRet zst (set_parser zst s (forget_finished (s_parser zst s))) [] [].
  Proof.
    intros [(Ha & Hsrv & Hmx & Hbits & Hwsf & Hpl & Hcl & Hop & Hrsv & Hmsg) _] F.
    destruct fuel as [|fuel]; [lia|]. cbn [WsModel.stream_loop].
    assert (Herr : in_error (s_parser _ s) = false) by (unfold in_error; now rewrite Hwsf).
    assert (Hhc : header_complete (s_parser _ s) = false) by (unfold header_complete; now rewrite Hwsf).
    rewrite Herr, Hcl, Hhc. cbn [orb]. rewrite parse_header_short by (auto; cbn [length]; lia).
    cbv zeta.
    assert (in_error (forget_finished (s_parser zst s)) = false) as ->
      by (unfold in_error, forget_finished in *; destruct (p_fin _); exact Herr).
    assert (header_complete (forget_finished (s_parser zst s)) = false) as ->
      by (unfold header_complete, forget_finished in *; destruct (p_fin _); exact Hhc).
    reflexivity.
  Qed.
End Receive.

(** ** From one application to the other *)
Section Both.
  Variable dst : Type.
  Variable deflate : dst -> DeflModel.mode -> nat -> list Z -> DeflModel.answer dst.
  Variable reset : dst -> dst.
  Variable decode : list Z -> option (list Z).
  Variable flushed : list Z -> Prop.
  Variable dsane : dst -> Prop.
  Variable fed made : dst -> list Z.
  Variable bound : nat -> nat.
  Hypothesis LG : DeflSpec.language decode flushed.
  Hypothesis PX : DeflSpec.prefixes decode.
  Hypothesis DC : DeflSpec.deflate_contract dst deflate reset decode flushed dsane fed made bound.
  Variable zst : Type.
  Variable inflate : zst -> list Z -> option (zst * list Z).
  Variable seen : zst -> list Z.
  Hypothesis SD : DeflSpec.stream_decoder zst inflate decode seen.
  Variable addr_of : list Z -> Z.
  Variable srv : bool.
  Variable mx b : Z.
  (** A key for each message. *)
  Variable K : Type.
  Variable good : K -> Prop.
  Variable raw : K -> Z -> list Z -> list Z.
  Variable mask : K -> option Z.
  Hypothesis Hb : b <> 0.
  Hypothesis Hmx : 0 <= mx < two32.
  Hypothesis Hmask : srv = true -> forall k, mask k <> None.
  Hypothesis Hraw : forall k x d, good k -> 0 <= x < 256 -> bytes d -> u64 (Z.of_nat (length d)) ->
    wire (frame_of x (mask k) d) (raw k x d).
  Hypothesis Hlen : forall k x d, good k -> bytes d -> (length d <= length (raw k x d))%nat.

  Definition plain (h : list Z) : list Z := match decode h with Some x => x | None => [] end.
  Definition linked (s : dst) (h : list Z) : Prop :=
    DeflProofs.paired dst (list Z) decode flushed dsane fed made (fun _ => True) (fun h => h) plain s h.

  Lemma linked_decode s h : linked s h -> decode h = Some (plain h).
  Proof.
    intros (S & _ & F & D & base & bx & F0 & D0 & E & G). unfold plain. cbn beta in E. rewrite E.
    rewrite (DeflSpec.lang_chain _ _ LG _ _ _ _ F0 D0 D). reflexivity.
  Qed.

  Notation send nct := (fun s m xs ys => DeflModel.ws_send_deflated dst deflate reset (raw (fst m)) nct s (fst (snd m)) (snd (snd m)) xs ys).

  Lemma one_message nct s h sess m xs ys s' w rest fuel :
    linked s h -> ready zst seen srv mx b sess h -> sendable (snd m) -> good (fst m) -> Z.of_nat (length (snd (snd m))) <= mx ->
    send nct s m xs ys = DeflModel.Done (s', w) -> Z.of_nat (length w) <= mx ->
    (0 < length w)%nat /\
    exists sess' evs h', stream_loop zst inflate addr_of (S fuel) sess (w ++ rest)
        = emit zst evs (stream_loop zst inflate addr_of fuel sess' rest) /\
      app_view evs = [delivered (snd m)] /\ ready zst seen srv mx b sess' h' /\ linked s' h'.
  Proof.
    intros LK RD SM GK LM E LW. pose proof (sendable_opcode (snd m) SM) as Hop. destruct SM as [SO SB].
    destruct m as [k [op data]]. cbn [fst snd] in *.
    pose proof (linked_decode s h LK) as DH.
    unfold DeflModel.ws_send_deflated in E.
    assert (U : forall d : list Z, Z.of_nat (length d) <= mx -> u64 (Z.of_nat (length d))) by (intros d; unfold u64, two64, two32 in *; lia).
    destruct ((op =? 1) || (op =? 2)) eqn:EO.
    - destruct (DeflModel.send_data dst deflate reset nct s op data xs ys) as [[s1 [octet payload]]| |] eqn:SE; try discriminate.
      injection E as <- <-.
      assert (OP : op = 1 \/ op = 2) by lia.
      assert (DV : delivered (op, data) = Message op data).
      { unfold delivered. cbn [fst snd]. assert (op =? 9 = false) as -> by lia. assert (op =? 10 = false) as -> by lia. reflexivity. }
      rewrite DV.
      destruct (DeflProofs.send_data_spec dst (list Z) deflate reset decode flushed dsane fed made bound
                  (fun _ => True) (fun h => h) plain LG DC nct s h op data xs ys s1 octet payload LK SE)
        as [(-> & -> & LK' & _)|(-> & BP & s0 & LK0 & _ & S1 & M1 & F1 & FL1 & D1)].
      + assert (W : wire (mkFrame true false false false op (mask k) data) (raw k (Z.lor 128 op) data)).
        { pose proof (Hraw k (Z.lor 128 op) data GK) as W.
          rewrite frame_of_fin in W by lia. apply W; auto. destruct OP as [-> | ->]; cbn; lia. }
        split. { pose proof (wire_len _ _ W) as L. assert (2 <= length (raw k (Z.lor 128 op) data))%nat; [|lia].
                 apply L. split; [cbn [f_opcode]; lia|]. split; [exact SB|]. cbn [f_opcode]; lia. }
        destruct (step_message zst inflate addr_of decode seen SD PX srv mx b sess h op (mask k) false data (plain h) data
                    _ rest fuel RD W OP SB LM LM (fun Q => Hmask Q _) (fun Q => Hb) DH eq_refl) as (sess' & evs & E1 & V & RD').
        exists sess', evs, h. auto.
      + assert (LP : Z.of_nat (length payload) <= mx) by (pose proof (Hlen k (Z.lor 192 op) payload GK BP); lia).
        assert (W : wire (mkFrame true true false false op (mask k) payload) (raw k (Z.lor 192 op) payload)).
        { pose proof (Hraw k (Z.lor 192 op) payload GK) as W.
          assert (FO : frame_of (Z.lor 192 op) (mask k) payload = mkFrame true true false false op (mask k) payload)
            by (destruct OP as [-> | ->]; reflexivity).
          rewrite FO in W. apply W; auto. destruct OP as [-> | ->]; cbn; lia. }
        split. { pose proof (wire_len _ _ W) as L. assert (2 <= length (raw k (Z.lor 192 op) payload))%nat; [|lia].
                 apply L. split; [cbn [f_opcode]; lia|]. split; [exact BP|]. cbn [f_opcode]; lia. }
        destruct LK0 as (S0 & _ & FL0 & D0 & base & bx & F0 & DB & EA & GO). cbn beta in EA, GO.
        assert (DD : decode (h ++ payload ++ [0; 0; 255; 255]) = Some (plain h ++ data)).
        { rewrite GO, EA, <- !app_assoc. change [0; 0; 255; 255] with DeflModel.marker. rewrite <- M1, <- F1.
          apply (DeflSpec.lang_chain _ _ LG); assumption. }
        destruct (step_message zst inflate addr_of decode seen SD PX srv mx b sess h op (mask k) true payload (plain h) data
                    _ rest fuel RD W OP BP LP LM (fun Q => Hmask Q _) (fun _ => Hb) DH DD) as (sess' & evs & E1 & V & RD').
        exists sess', evs, (h ++ payload ++ [0; 0; 255; 255]). split; [exact E1|]. split; [exact V|]. split; [exact RD'|].
        split; [exact S1|]. split; [exact I|]. split; [exact FL1|]. split; [exact D1|].
        exists base, bx. split; [exact F0|]. split; [exact DB|]. cbn beta. split.
        * rewrite EA, M1, <- app_assoc. reflexivity.
        * unfold plain at 1. rewrite DD, GO, F1, app_assoc. reflexivity.
    - destruct ((op =? 9) || (op =? 10)) eqn:EC; [|discriminate].
      destruct (125 <? Z.of_nat (length data)) eqn:E5; [discriminate|]. injection E as <- <-.
      assert (OP : op = 9 \/ op = 10) by lia.
      assert (W : wire (mkFrame true false false false op (mask k) data) (raw k (Z.lor 128 op) data)).
      { pose proof (Hraw k (Z.lor 128 op) data GK) as W.
        rewrite frame_of_fin in W by lia. apply W; auto. destruct OP as [-> | ->]; cbn; lia. }
      split. { pose proof (wire_len _ _ W) as L. assert (2 <= length (raw k (Z.lor 128 op) data))%nat; [|eapply Nat.lt_le_trans; [apply Nat.lt_0_2|eassumption]].
               apply L. split; [cbn [f_opcode]; lia|]. split; [exact SB|]. cbn [f_opcode]; lia. }
      destruct (step_control zst inflate addr_of seen srv mx b sess h op (mask k) data _ rest fuel RD W OP SB LM ltac:(lia) (fun Q => Hmask Q _))
        as (sess' & evs & E1 & V & RD').
      exists sess', evs, h. split; [exact E1|]. split; [|auto]. rewrite V. unfold delivered. cbn [fst snd].
      destruct OP as [-> | ->]; reflexivity.
  Qed.

  Lemma group nct : forall g s h sess ms zs ws fuel,
    linked s h -> ready zst seen srv mx b sess h -> Forall (fun m => sendable (snd m) /\ good (fst m)) ms ->
    Forall (fun m => Z.of_nat (length (snd (snd m))) <= mx) ms ->
    DeflSpec.send_all dst (K * (Z * list Z)) (send nct) s ms zs = DeflModel.Done (g ++ ws) ->
    Forall (fun w => Z.of_nat (length w) <= mx) g -> (length g < fuel)%nat ->
    (length g <= length (concat g))%nat /\
    exists sess' evs h' s' ms1 ms2 zs2, ms = ms1 ++ ms2 /\
      stream_loop zst inflate addr_of fuel sess (concat g) = SRet zst sess' [] evs /\
      app_view evs = map (fun m => delivered (snd m)) ms1 /\ ready zst seen srv mx b sess' h' /\ linked s' h' /\
      DeflSpec.send_all dst (K * (Z * list Z)) (send nct) s' ms2 zs2 = DeflModel.Done ws.
  Proof.
    induction g as [|w g IH]; intros s h sess ms zs ws fuel LK RD FS FL E FW FU.
    - split; [cbn [length]; lia|].
      exists (set_parser zst sess (forget_finished (s_parser zst sess))), [], h, s, [], ms, zs.
      split; [reflexivity|]. split; [apply (nothing_left zst inflate addr_of seen srv mx b sess h); auto; cbn [length] in FU; lia|].
      split; [reflexivity|]. split; [apply ready_forget; exact RD|]. auto.
    - destruct ms as [|m ms]; [discriminate|]. cbn [DeflSpec.send_all] in E.
      destruct zs as [|[xa ya] zs]; [discriminate|].
      inversion FS as [|? ? FS1 FS2]; subst. inversion FL as [|? ? FL1 FL2]; subst. inversion FW as [|? ? FW1 FW2]; subst.
      destruct (DeflModel.ws_send_deflated dst deflate reset (raw (fst m)) nct s (fst (snd m)) (snd (snd m)) xa ya) as [[s1 w1]| |] eqn:SE; try discriminate.
      destruct (DeflSpec.send_all dst (K * (Z * list Z)) (send nct) s1 ms zs) as [ws1| |] eqn:SA; try discriminate.
      injection E as -> ->. destruct fuel as [|fuel]; [lia|]. cbn [length] in FU.
      destruct (one_message nct s h sess m xa ya s1 w (concat g) fuel LK RD (proj1 FS1) (proj2 FS1) FL1 SE FW1) as (LW & sess1 & evs1 & h1 & E1 & V1 & RD1 & LK1).
      destruct (IH s1 h1 sess1 ms zs ws fuel LK1 RD1 FS2 FL2 SA FW2 ltac:(lia)) as (LG1 & sess2 & evs2 & h2 & s2 & ms1 & ms2 & zs2 & -> & E2 & V2 & RD2 & LK2 & SA2).
      cbn [concat length]. split; [rewrite app_length; lia|].
      exists sess2, (evs1 ++ evs2), h2, s2, (m :: ms1), ms2, zs2. split; [reflexivity|].
      split; [rewrite E1, E2; reflexivity|]. split; [rewrite app_view_app, V1, V2; reflexivity|]. auto.
  Qed.

  Lemma groups nct : forall gs s h sess ms zs,
    linked s h -> ready zst seen srv mx b sess h -> Forall (fun m => sendable (snd m) /\ good (fst m)) ms ->
    Forall (fun m => Z.of_nat (length (snd (snd m))) <= mx) ms ->
    DeflSpec.send_all dst (K * (Z * list Z)) (send nct) s ms zs = DeflModel.Done (concat gs) ->
    Forall (fun w => Z.of_nat (length w) <= mx) (concat gs) ->
    exists sess' evs, on_chunks zst inflate addr_of sess [] (map (fun g => concat g) gs) = SRet zst sess' [] evs /\
      app_view evs = map (fun m => delivered (snd m)) ms.
  Proof.
    induction gs as [|g gs IH]; intros s h sess ms zs LK RD FS FL E FW.
    - cbn [concat] in E. destruct ms as [|m ms].
      + exists sess, []. split; reflexivity.
      + cbn [DeflSpec.send_all] in E. destruct zs as [|[xa ya] zs]; [discriminate|].
        destruct (DeflModel.ws_send_deflated dst deflate reset (raw (fst m)) nct s (fst (snd m)) (snd (snd m)) xa ya) as [[s1 w1]| |]; try discriminate.
        destruct (DeflSpec.send_all dst (K * (Z * list Z)) (send nct) s1 ms zs); discriminate.
    - cbn [concat] in E, FW. apply Forall_app in FW. destruct FW as [FW1 FW2].
      destruct (group nct g s h sess ms zs (concat gs) (S (S (length (concat g) + length g))) LK RD FS FL E FW1 ltac:(lia)) as (LG1 & _).
      destruct (group nct g s h sess ms zs (concat gs) (S (S (length (concat g)))) LK RD FS FL E FW1 ltac:(lia))
        as (_ & sess1 & evs1 & h1 & s1 & ms1 & ms2 & zs2 & -> & E1 & V1 & RD1 & LK1 & SA1).
      apply Forall_app in FS. apply Forall_app in FL.
      destruct (IH s1 h1 sess1 ms2 zs2 LK1 RD1 (proj2 FS) (proj2 FL) SA1 FW2) as (sess2 & evs2 & E2 & V2).
      cbn [map on_chunks]. unfold on_stream. cbn [app]. rewrite E1, E2. cbn [emit].
      exists sess2, (evs1 ++ evs2). split; [reflexivity|]. rewrite app_view_app, V1, V2, map_app. reflexivity.
  Qed.

  Theorem compressed_end_to_end nct gs s z ms zs :
    dsane s -> fed s = [] -> made s = [] -> seen z = [] ->
    Forall (fun m => sendable (snd m) /\ good (fst m)) ms -> Forall (fun m => Z.of_nat (length (snd (snd m))) <= mx) ms ->
    DeflSpec.send_all dst (K * (Z * list Z)) (send nct) s ms zs = DeflModel.Done (concat gs) ->
    Forall (fun w => Z.of_nat (length w) <= mx) (concat gs) ->
    exists sess' evs, on_chunks zst inflate addr_of
        (session_new zst (if srv then wshs_s_accepted else wshs_c_accepted) mx b (Some z)) [] (map (fun g => concat g) gs)
      = SRet zst sess' [] evs /\
      app_view evs = map (fun m => delivered (snd m)) ms.
  Proof.
    intros S F M Z FS FL E FW. destruct (DeflSpec.lang_nil _ _ LG) as [N1 N2].
    apply (groups nct gs s [] _ ms zs); auto.
    - split; [exact S|]. split; [exact I|]. rewrite F, M. split; [exact N1|]. split; [exact N2|].
      exists [], []. cbn beta. split; [exact N1|]. split; [exact N2|]. split; [reflexivity|]. unfold plain. rewrite N2. reflexivity.
    - split; [apply session_new_Rel|]. eexists. split; [reflexivity|exact Z].
  Qed.
End Both.
