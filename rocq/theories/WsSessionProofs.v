(** Proofs about the receiving half of a WebSocket session. *)
From Coq Require Import ZArith List Lia Bool ZifyBool ZifyNat Arith.
From Verif Require Import Base BaseLemmas WsModel WsSpec WsMaskProofs WsParseProofs WsSplitProofs.
Import ListNotations.
Open Scope Z_scope.
Ltac Zify.zify_post_hook ::= Z.div_mod_to_equations.

(** ** Wire format *)

Lemma rfc_masked_spec a b c d s out : byte a -> byte b -> byte c -> byte d ->
  rfc_masked (of_oct a b c d) s out -> out = mask_spec a b c d s.
Proof.
  intros Ha Hb Hc Hd [L H]. apply (nth_ext _ _ 0 0).
  - now rewrite mask_spec_length.
  - intros i Hi. rewrite L in Hi. rewrite H by auto. rewrite mask_spec_nth by auto.
    now rewrite key_octet_nth.
Qed.

Lemma length_field_cases m n lf : 0 <= n -> rfc_length_field m n lf ->
  exists ext, lf = octet1 m (len7_of n) :: ext /\ length ext = ext_len (len7_of n) /\
    0 <= len7_of n < 128 /\ payload_len_of (len7_of n) ext = n.
Proof.
  intros H0 [[Hn ->]|[[Hn (e & -> & L & Hb & Hv)]|[Hn (e & -> & L & Hb & Hv)]]].
  - assert (len7_of n = n) as -> by (unfold len7_of; destruct (Z.leb_spec n 125); [|destruct (Z.leb_spec n 65535)]; lia).
    exists []. repeat split; try lia.
    + unfold ext_len. destruct (Z.leb_spec n 125); [reflexivity|lia].
    + unfold payload_len_of. destruct (Z.leb_spec n 125); [reflexivity|lia].
  - assert (len7_of n = 126) as -> by (unfold len7_of; destruct (Z.leb_spec n 125); [|destruct (Z.leb_spec n 65535)]; lia).
    exists e. repeat split; try lia; auto.
    rewrite be_value_load in Hv. exact Hv.
  - assert (len7_of n = 127) as -> by (unfold len7_of; destruct (Z.leb_spec n 125); [|destruct (Z.leb_spec n 65535)]; lia).
    exists e. repeat split; try lia; auto.
    rewrite be_value_load in Hv. exact Hv.
Qed.

Definition masked_of (f : frame) : bool := match f_mask f with Some _ => true | None => false end.

(** What a whole frame on the wire does to the parser. *)
Lemma wire_header f w :
  wire f w -> frame_ok f ->
  exists ext key body,
    w = rfc_octet0 (f_fin f) (f_rsv1 f) (f_rsv2 f) (f_rsv3 f) (f_opcode f)
        :: octet1 (masked_of f) (len7_of (Z.of_nat (length (f_payload f)))) :: ext ++ key ++ body /\
    length ext = ext_len (len7_of (Z.of_nat (length (f_payload f)))) /\
    length key = key_len (masked_of f) /\
    payload_len_of (len7_of (Z.of_nat (length (f_payload f)))) ext = Z.of_nat (length (f_payload f)) /\
    0 <= len7_of (Z.of_nat (length (f_payload f))) < 128 /\
    length body = length (f_payload f) /\
    (forall addr h, h_masked h = masked_of f -> (masked_of f = true -> h_key h = load_be key) ->
       exists k', mask_payload addr h body = (f_payload f, set_key h k')).
Proof.
  intros (lf & ks & body & -> & Hlf & Hm) (Hop & Hb & _).
  destruct (length_field_cases _ _ _ (Zle_0_nat _) Hlf) as (ext & -> & Le & Hr & Hp).
  exists ext, ks, body. unfold masked_of in *.
  destruct (f_mask f) as [k|].
  - destruct Hm as (Lk & Hkb & Hk & HM).
    split; [reflexivity|]. do 4 (split; [solve [auto]|]).
    split; [exact (proj1 HM)|].
    intros addr h Hhm Hhk. specialize (Hhk eq_refl). rewrite be_value_load in Hk.
    assert (Hu : u32 k).
    { subst k. pose proof (load_be_bound ks Hkb) as B. rewrite Lk in B.
      change (2 ^ (8 * Z.of_nat 4)) with two32 in B. exact B. }
    destruct (of_oct_koct k Hu) as (a & b & c & d & Ha & Hb' & Hc & Hd & Hkk & _).
    rewrite Hkk in HM. apply rfc_masked_spec in HM; auto. subst body.
    rewrite (mask_payload_spec addr h _ a b c d); auto using mask_spec_bytes; [|congruence].
    rewrite mask_spec_invol. eexists. reflexivity.
  - destruct Hm as (-> & ->).
    split; [reflexivity|]. do 5 (split; [solve [auto]|]).
    intros addr h Hhm _. unfold mask_payload. rewrite Hhm. cbn [negb orb].
    exists (h_key h). destruct h; reflexivity.
Qed.

Lemma wire_len f w : wire f w -> frame_ok f -> (2 <= length w)%nat.
Proof.
  intros H1 H2. destruct (wire_header f w H1 H2) as (e & k & b & -> & _). simpl. lia.
Qed.

Lemma parse_payload_whole addr p body rest payload :
  accepted p = true -> p_wsf p = wsf_header_done -> p_payload p = [] ->
  p_rem p = Z.of_nat (length body) -> length body = length payload ->
  Z.of_nat (length payload) <= p_max p ->
  (exists k', mask_payload addr (p_hdr p) body = (payload, set_key (p_hdr p) k')) ->
  exists k', parse_payload addr p (body ++ rest)
   = Ret (set_wsf (set_payload (set_hdr p (set_key (p_hdr p) k')) payload 0) wsf_payload_done, rest).
Proof.
  intros Ha Hw Hpl Hr L Hmax [k' Hk]. unfold parse_payload.
  unfold payload_complete, header_complete. rewrite Ha, Hw. cbn [negb].
  rewrite Hr, app_length, Hpl.
  replace (Z.min _ _) with (Z.of_nat (length body)) by lia.
  destruct (Z.eqb_spec (Z.of_nat (length body)) 0) as [E|E].
  - destruct body; [|simpl in E; lia]. destruct payload; [|simpl in L; lia].
    rewrite Hr. cbn [length Z.of_nat Z.eqb app].
    exists (h_key (p_hdr p)). f_equal. f_equal.
    assert (Hh : set_key (p_hdr p) (h_key (p_hdr p)) = p_hdr p) by (destruct (p_hdr p); reflexivity).
    rewrite Hh. destruct p; cbn in *; subst; reflexivity.
  - destruct (Z.ltb_spec (p_max p) (Z.of_nat (length (@nil Z)) + Z.of_nat (length body)));
      [cbn [length Z.of_nat] in *; lia|].
    rewrite Nat2Z.id, firstn_app, firstn_all, Nat.sub_diag, firstn_O, app_nil_r, Hk.
    rewrite skipn_app, skipn_all, Nat.sub_diag, Z.sub_diag. cbn [app skipn].
    exists k'. reflexivity.
Qed.

Section Session.
  Variable zst : Type.
  Variable inflate : zst -> list Z -> option (zst * list Z).
  Variable addr_of : list Z -> Z.
  Notation session := (session zst).
  Notation stream_loop := (stream_loop zst inflate addr_of).
  Notation on_stream := (on_stream zst inflate addr_of).
  Notation on_chunks := (on_chunks zst inflate addr_of).

  (** ** Fuel *)

  Lemma parse_header_shrinks p d p' d' :
    parse_header p d = Ret (p', d') -> header_complete p = false ->
    header_complete p' = true -> in_error p' = false -> (length d' + 2 <= length d)%nat.
  Proof.
    unfold parse_header. intros H Hc Hc' He'.
    destruct (negb (accepted p)); [discriminate|]. rewrite Hc in H.
    assert (Hf : header_complete (forget_finished p) = false)
      by (unfold header_complete, forget_finished in *; destruct (p_fin p); exact Hc).
    destruct d as [|b0 [|b1 d]].
    - injection H as <- <-. congruence.
    - injection H as <- <-. congruence.
    - cbv zeta in H.
      set (p1 := set_hdr (forget_finished p) _) in H.
      destruct (is_server p1 && _); [injection H as <- <-; discriminate He'|].
      destruct (check_opcode p1 _) as [e|p2] eqn:Ec; [injection H as <- <-; discriminate He'|].
      assert (H2 : header_complete p2 = false).
      { assert (Hp1 : header_complete p1 = false) by exact Hf.
        revert Ec. unfold check_opcode.
        repeat match goal with |- context[if ?b then _ else _] => destruct b end;
          intros [= <-]; exact Hp1. }
      set (dd := b0 :: b1 :: d) in *.
      unfold read_len in H.
      assert (HK : forall h n, (2 <= n)%nat -> (n <= length dd)%nat ->
        match read_key h n dd with
        | Some (h0, ntotal0) =>
            Ret (set_wsf (set_payload (set_hdr (set_hdr p2 h) h0) (p_payload (set_hdr p2 h)) (h_len h0)) wsf_header_done,
                 skipn ntotal0 dd)
        | None => Ret (set_hdr p2 h, dd)
        end = Ret (p', d') -> (length d' + 2 <= length dd)%nat).
      { intros h n Hn Hnl. unfold read_key. destruct (h_masked h).
        - destruct (Nat.ltb_spec (length dd) (n + 4)).
          + intros [= <- <-]. change (header_complete p2 = true) in Hc'. congruence.
          + intros [= <- <-]. rewrite skipn_length. lia.
        - intros [= <- <-]. rewrite skipn_length. lia. }
      destruct (h_res1 (p_hdr p2) <=? 125).
      + eapply HK in H; auto; simpl; lia.
      + destruct (h_res1 (p_hdr p2) =? 126).
        * destruct (Nat.ltb_spec (length dd) 4).
          -- injection H as <- <-. congruence.
          -- eapply HK in H; auto; lia.
        * destruct (Nat.ltb_spec (length dd) 10).
          -- injection H as <- <-. congruence.
          -- eapply HK in H; auto; lia.
  Qed.

  Lemma parse_payload_shrinks addr p d p' d' :
    parse_payload addr p d = Ret (p', d') -> (length d' <= length d)%nat.
  Proof.
    unfold parse_payload. intros H.
    destruct (negb (accepted p)); [discriminate|].
    destruct (payload_complete p); [injection H as <- <-; lia|].
    destruct (negb (header_complete p)); [discriminate|].
    destruct (Z.min _ _ =? 0).
    - destruct (p_rem p =? 0); injection H as <- <-; lia.
    - destruct (p_max p <? _); [discriminate|].
      destruct (mask_payload _ _ _) as [o h].
      destruct (p_rem _ =? 0); injection H as <- <-; rewrite skipn_length; lia.
  Qed.

  (** The loop never runs out of fuel. *)
  Theorem stream_no_fuel fuel : forall (s : session) data,
    (length data + (if header_complete (s_parser _ s) then 1 else 0) < fuel)%nat ->
    stream_loop fuel s data <> SFuel _.
  Proof.
    induction fuel as [|fuel IH]; intros s data L; [lia|]. cbn [stream_loop].
    destruct (in_error (s_parser _ s) || s_closed _ s); [discriminate|].
    assert (HP : forall p d,
      (if header_complete (s_parser zst s) then Ret (s_parser zst s, data)
       else parse_header (s_parser zst s) data) = Ret (p, d) ->
      in_error p = false -> header_complete p = true -> (length d < fuel)%nat).
    { intros p d E He Hc. destruct (header_complete (s_parser _ s)) eqn:Hs.
      - injection E as <- <-. lia.
      - pose proof (parse_header_shrinks _ _ _ _ E Hs Hc He). lia. }
    set (R := if header_complete (s_parser zst s) then Ret (s_parser zst s, data)
              else parse_header (s_parser zst s) data) in *.
    destruct R as [[p d]|]; [|discriminate].
    specialize (HP p d eq_refl). cbv zeta.
    destruct (in_error p) eqn:He.
    { unfold close_once. destruct (s_closed _ _); discriminate. }
    destruct (header_complete p) eqn:Hc; cbn [negb]; [|discriminate].
    specialize (HP eq_refl eq_refl).
    destruct (payload_complete p).
    { apply IH. cbn [s_parser set_parser header_complete p_wsf next_frame set_wsf]. lia. }
    destruct (parse_payload (addr_of d) p d) as [[p1 d1]|] eqn:Epp; [|discriminate].
    apply parse_payload_shrinks in Epp.
    match goal with |- context[match ?st with inl r => r | inr _ => _ end] => destruct st as [r|[s1 e1]] eqn:Est end.
    - revert Est. destruct (h_opcode (p_hdr p1) <=? 7); [|discriminate].
      destruct (data_frame _ _ _ _) as [s2 pl| |].
      + destruct (p_max p1 <? _); [|discriminate]. intros [= <-]. discriminate.
      + unfold close_once. destruct (s_closed _ _); intros [= <-]; discriminate.
      + intros [= <-]. discriminate.
    - destruct (negb (payload_complete (s_parser zst s1))); [discriminate|].
      destruct (frame_done _ s1) as [[s2 e2]|[s2 e2]]; [discriminate|].
      unfold emit.
      specialize (IH (set_parser zst s2 (next_frame (s_parser zst s2))) d1).
      destruct (stream_loop fuel _ _); try discriminate.
      exfalso. apply IH; auto.
      cbn [s_parser set_parser header_complete p_wsf next_frame set_wsf]. lia.
  Qed.

  Corollary on_stream_no_fuel s data : on_stream s data <> SFuel _.
  Proof. apply stream_no_fuel. destruct (header_complete _); lia. Qed.

  (** ** Reception of whole frames *)

  (** The session between two frames; [open] is the message under way. *)
  Definition Rel (srv : bool) (maxlen bits : Z) (s : session) (open : option (Z * list Z)) : Prop :=
    let p := s_parser _ s in
    accepted p = true /\ is_server p = srv /\ p_max p = maxlen /\ p_send_bits p = bits /\
    p_wsf p = wsf_new /\ p_payload p = [] /\ s_closed _ s = false /\
    open_of p = option_map fst open /\
    (p_rsv1 (forget_finished p) = false) /\
    match open with
    | None => s_msg _ s = []
    | Some (o, d) => is_data o = true /\ s_msg _ s = d
    end.

  Lemma Rel_open srv mx b s open : Rel srv mx b s open ->
    open_of (s_parser _ s) <> Some 0.
  Proof.
    intros (_ & _ & _ & _ & _ & _ & _ & -> & _ & H). destruct open as [[o d]|]; [|discriminate].
    cbn. destruct H as [H _]. intros [= ->]. discriminate.
  Qed.

  Lemma Rel_forget srv mx b s open : Rel srv mx b s open ->
    Rel srv mx b (set_parser _ s (forget_finished (s_parser _ s))) open.
  Proof.
    intros (H1 & H2 & H3 & H4 & H5 & H6 & H7 & H8 & H9 & H10).
    unfold Rel. cbn [s_parser set_parser s_closed s_msg].
    rewrite forget_idem, <- open_of_forget. repeat split; auto;
      unfold forget_finished; destruct (p_fin _); auto.
  Qed.

  Definition view (e : ev) : list app_event :=
    match e with
    | EvFinish op d => [if op =? 9 then Ping d else if op =? 10 then Pong d else Message op d]
    | EvClose st reason => [PeerClosed st reason]
    | EvCloseError st _ => [ProtocolError]
    | _ => []
    end.

  Definition app_view (evs : list ev) : list app_event := flat_map view evs.

  Lemma app_view_app a b : app_view (a ++ b) = app_view a ++ app_view b.
  Proof. apply flat_map_app. Qed.

  Lemma close_info_model pl : bytes pl -> length pl <> 1%nat ->
    view (EvClose (close_status pl) (close_reason pl)) = [close_info pl].
  Proof.
    intros Hb L. destruct pl as [|a [|b r]]; [reflexivity|simpl in L; lia|].
    unfold close_status, close_reason, close_info, view. cbn [firstn length skipn app].
    do 2 f_equal. unfold load_be. cbn [fold_left]. lia.
  Qed.

  (** Consumption of one frame. [open'] is the message under way afterwards. *)
  Definition next_open (open : option (Z * list Z)) (f : frame) : option (Z * list Z) :=
    if is_control (f_opcode f) then open
    else if f_fin f then None
    else Some (match open with Some (o, _) => o | None => f_opcode f end,
               match open with Some (_, d) => d | None => [] end ++ f_payload f).

  Definition frame_events (open : option (Z * list Z)) (f : frame) : list app_event :=
    if f_opcode f =? 9 then [Ping (f_payload f)]
    else if f_opcode f =? 10 then [Pong (f_payload f)]
    else if f_fin f
         then [Message (match open with Some (o, _) => o | None => f_opcode f end)
                       (match open with Some (_, d) => d | None => [] end ++ f_payload f)]
         else [].

  Lemma step_frame srv mx b s open f w rest fuel :
    Rel srv mx b s open -> wire f w -> frame_ok f -> f_rsv1 f = false ->
    Z.of_nat (length (f_payload f)) <= mx ->
    (f_opcode f = 0 ->
       Z.of_nat (length (match open with Some (_, d) => d | None => [] end))
       + Z.of_nat (length (f_payload f)) <= mx) ->
    if frame_allowed srv (negb (b =? 0)) (option_map fst open) f
    then
      if f_opcode f =? 8
      then exists s' evs, stream_loop (S fuel) s (w ++ rest) = SRet _ s' [] evs /\
             s_closed _ s' = true /\ app_view evs = [close_info (f_payload f)]
      else exists s' evs, stream_loop (S fuel) s (w ++ rest)
                          = emit _ evs (stream_loop fuel s' rest) /\
             Rel srv mx b s' (next_open open f) /\ app_view evs = frame_events open f
    else exists s' evs, stream_loop (S fuel) s (w ++ rest) = SRet _ s' [] evs /\
             s_closed _ s' = true /\ app_view evs = [ProtocolError].
  Proof.
    intros HR Hw Hok Hr1 Hlen Hlen0.
    assert (Hopen := Rel_open _ _ _ _ _ HR).
    destruct HR as (Ha & Hsrv & Hmx & Hbits & Hwsf & Hpl & Hcl & Hop & Hrsv & Hmsg).
    destruct (wire_header f w Hw Hok) as (ext & key & body & -> & Le & Lk & Hpay & Hl7 & Lb & Hmask).
    pose proof (parse_header_complete (s_parser _ s) (f_fin f) (f_rsv1 f) (f_rsv2 f) (f_rsv3 f)
                  (f_opcode f) (masked_of f) (len7_of (Z.of_nat (length (f_payload f)))) ext key
                  (body ++ rest) Ha Hwsf Hopen (proj1 Hok) Hl7 Le Lk) as HP.
    cbv zeta in HP. rewrite Hop, Hsrv, Hbits in HP. fold (masked_of f).
    unfold frame_allowed. fold (masked_of f).
    assert (Edata : (rfc_octet0 (f_fin f) (f_rsv1 f) (f_rsv2 f) (f_rsv3 f) (f_opcode f)
        :: octet1 (masked_of f) (len7_of (Z.of_nat (length (f_payload f)))) :: ext ++ key ++ body) ++ rest
        = rfc_octet0 (f_fin f) (f_rsv1 f) (f_rsv2 f) (f_rsv3 f) (f_opcode f)
        :: octet1 (masked_of f) (len7_of (Z.of_nat (length (f_payload f)))) :: ext ++ key ++ body ++ rest)
      by (cbn [app]; rewrite <- !app_assoc; reflexivity).
    rewrite Edata. clear Edata.
    set (data := rfc_octet0 _ _ _ _ _ :: _) in *.
    assert (Herr : in_error (s_parser _ s) = false) by (unfold in_error; now rewrite Hwsf).
    assert (Hhc : header_complete (s_parser _ s) = false) by (unfold header_complete; now rewrite Hwsf).
    destruct (allowed srv _ _ _ _ _ _ _ _ _) eqn:Hal.
    2:{ destruct HP as (p' & HP & He & Hd).
        cbn [stream_loop]. rewrite Herr, Hcl, Hhc. cbn [orb]. rewrite HP. cbv zeta.
        rewrite He. unfold close_once. cbn [set_parser s_closed]. rewrite Hcl.
        do 2 eexists. split; [reflexivity|]. split; reflexivity. }
    set (p1 := parsed (s_parser zst s) (f_fin f) (f_rsv1 f) (f_rsv2 f) (f_rsv3 f) (f_opcode f) (masked_of f)
                      (len7_of (Z.of_nat (length (f_payload f))))
                      (payload_len_of (len7_of (Z.of_nat (length (f_payload f)))) ext)
                      (if masked_of f then load_be key else h_key (p_hdr (s_parser zst s)))) in *.
    set (kk := if masked_of f then load_be key else h_key (p_hdr (s_parser zst s))) in *.
    assert (P1 : p_wsf p1 = wsf_header_done) by reflexivity.
    assert (P2 : accepted p1 = true).
    { unfold accepted, p1, parsed in *. cbn [p_wshs set_wsf set_payload set_hdr].
      destruct (is_data (f_opcode f)), ((f_opcode f =? 0) && f_fin f);
        cbn [p_wshs set_msg set_hdr]; unfold forget_finished; destruct (p_fin _); exact Ha. }
    assert (P2' : p_wshs p1 = p_wshs (s_parser _ s)).
    { unfold p1, parsed in *. cbn [p_wshs set_wsf set_payload set_hdr].
      destruct (is_data (f_opcode f)), ((f_opcode f =? 0) && f_fin f);
        cbn [p_wshs set_msg set_hdr]; unfold forget_finished; destruct (p_fin _); reflexivity. }
    assert (P3 : p_payload p1 = []).
    { unfold p1, parsed in *. cbn [p_payload set_wsf set_payload set_hdr].
      destruct (is_data (f_opcode f)), ((f_opcode f =? 0) && f_fin f);
        cbn [p_payload set_msg set_hdr]; unfold forget_finished; destruct (p_fin _); exact Hpl. }
    assert (P4 : p_rem p1 = Z.of_nat (length body)).
    { unfold p1, parsed. cbn [p_rem set_wsf set_payload]. rewrite Hpay, Lb. reflexivity. }
    assert (P5 : p_max p1 = mx).
    { unfold p1, parsed in *. cbn [p_max set_wsf set_payload set_hdr].
      destruct (is_data (f_opcode f)), ((f_opcode f =? 0) && f_fin f);
        cbn [p_max set_msg set_hdr]; unfold forget_finished; destruct (p_fin _); exact Hmx. }
    assert (P5' : p_send_bits p1 = b).
    { unfold p1, parsed in *. cbn [p_send_bits set_wsf set_payload set_hdr].
      destruct (is_data (f_opcode f)), ((f_opcode f =? 0) && f_fin f);
        cbn [p_send_bits set_msg set_hdr]; unfold forget_finished; destruct (p_fin _); exact Hbits. }
    assert (P6 : p_hdr p1 = mkHdr (f_fin f) (f_rsv1 f) (f_rsv2 f) (f_rsv3 f) (f_opcode f) (masked_of f)
                      (len7_of (Z.of_nat (length (f_payload f)))) kk
                      (payload_len_of (len7_of (Z.of_nat (length (f_payload f)))) ext)) by reflexivity.
    assert (MD : is_data (f_opcode f) = true ->
      p_rsv1 p1 = f_rsv1 f /\ p_opcode p1 = f_opcode f /\ p_fin p1 = f_fin f).
    { intros E. unfold p1, parsed. rewrite E. repeat split. }
    assert (M0 : is_data (f_opcode f) = false -> (f_opcode f =? 0) = true ->
      p_rsv1 p1 = p_rsv1 (forget_finished (s_parser _ s)) /\
      p_opcode p1 = p_opcode (forget_finished (s_parser _ s)) /\ p_fin p1 = f_fin f).
    { intros E E'. unfold p1, parsed. rewrite E, E'. cbn [andb].
      pose proof (p_fin_forget (s_parser _ s)).
      destruct (f_fin f); repeat split. assumption. }
    assert (MC : is_data (f_opcode f) = false -> (f_opcode f =? 0) = false ->
      p_rsv1 p1 = p_rsv1 (forget_finished (s_parser _ s)) /\
      p_opcode p1 = p_opcode (forget_finished (s_parser _ s)) /\ p_fin p1 = false).
    { intros E E'. unfold p1, parsed. rewrite E, E'. cbn [andb].
      repeat split. apply (p_fin_forget (s_parser _ s)). }
    clearbody p1.
    destruct (parse_payload_whole (addr_of (body ++ rest)) p1 body rest (f_payload f)) as [k' HPP]; auto.
    { rewrite P5. exact Hlen. }
    { apply Hmask; rewrite P6; [reflexivity|]. cbn [h_key]. unfold kk. intros ->. reflexivity. }
    set (p2 := set_wsf (set_payload (set_hdr p1 (set_key (p_hdr p1) k')) (f_payload f) 0) wsf_payload_done) in *.
    cbn [stream_loop]. rewrite Herr, Hcl, Hhc. cbn [orb]. rewrite HP. cbv zeta.
    assert (in_error p1 = false) as -> by (unfold in_error; now rewrite P1).
    assert (header_complete p1 = true) as -> by (unfold header_complete; now rewrite P1).
    assert (payload_complete p1 = false) as -> by (unfold payload_complete; now rewrite P1).
    cbn [negb]. rewrite HPP.
    assert (Q0 : h_opcode (p_hdr p2) = f_opcode f)
      by (change (h_opcode (p_hdr p2)) with (h_opcode (p_hdr p1)); now rewrite P6).
    assert (Q1 : h_fin (p_hdr p2) = f_fin f)
      by (change (h_fin (p_hdr p2)) with (h_fin (p_hdr p1)); now rewrite P6).
    assert (Q2 : p_payload p2 = f_payload f) by reflexivity.
    assert (Q3 : payload_complete p2 = true) by reflexivity.
    assert (Q4 : p_max p2 = mx) by exact P5.
    assert (Q5 : p_send_bits p2 = b) by exact P5'.
    assert (Q6 : p_wshs p2 = p_wshs (s_parser _ s)) by exact P2'.
    assert (QD : p_rsv1 p2 = p_rsv1 p1 /\ p_opcode p2 = p_opcode p1 /\ p_fin p2 = p_fin p1)
      by (repeat split).
    destruct QD as (QD1 & QD2 & QD3). rewrite <- QD1, <- QD2, <- QD3 in *.
    clearbody p2. rewrite Q0, Q2.
    (* the message fields of the parser *)
    destruct Hok as (Hop16 & Hbytes & Hclose).
    assert (Hal' := Hal). apply andb_true_iff in Hal'. destruct Hal' as [_ Hal'].
    destruct (is_data (f_opcode f)) eqn:Ed.
    { (* TEXT / BINARY *)
      assert (N8 : (f_opcode f =? 8) = false) by (unfold is_data in Ed; lia).
      assert (N7 : (f_opcode f <=? 7) = true) by (unfold is_data in Ed; lia).
      assert (N0 : (f_opcode f =? 0) = false) by (unfold is_data in Ed; lia).
      rewrite N8, N7.
      destruct open as [[o d]|]; [discriminate Hal'|]. cbn [option_map] in *.
      unfold data_frame. cbn [set_parser s_parser].
      rewrite Q0, N0.
      destruct (MD eq_refl) as (M1 & M2 & M3).
      rewrite M1, Hr1. unfold splice. cbn [s_parser s_msg s_pmce s_closed app].
      rewrite Q4.
      destruct (Z.ltb_spec mx (Z.of_nat (length (f_payload f)))); [lia|].
      cbn [s_parser]. change (payload_complete (set_payload p2 [] (p_rem p2))) with (payload_complete p2).
      rewrite Q3. cbn [negb].
      unfold frame_done. cbn [s_parser].
      change (p_hdr (set_payload p2 [] (p_rem p2))) with (p_hdr p2).
      change (p_opcode (set_payload p2 [] (p_rem p2))) with (p_opcode p2). rewrite Q0, Q1, M2.
      assert (Bd : (f_opcode f =? 0) || (f_opcode f =? 1) || (f_opcode f =? 2) = true)
        by (unfold is_data in Ed; lia). rewrite Bd. cbn [s_msg s_pmce s_closed].
      assert (Nc : is_control (f_opcode f) = false) by (unfold is_control, is_data in *; lia).
      assert (N9 : (f_opcode f =? 9) = false) by (unfold is_data in *; lia).
      assert (N10 : (f_opcode f =? 10) = false) by (unfold is_data in *; lia).
      destruct (f_fin f) eqn:Ef.
      - do 2 eexists. split; [reflexivity|]. split.
        + unfold Rel, next_open. rewrite Nc, Ef.
          cbn [set_parser s_parser s_closed s_msg].
          set (p3 := next_frame _).
          assert (Fg : p_fin p3 = true) by exact M3.
          repeat split; auto;
            try solve [unfold accepted, is_server in *; change (p_wshs p3) with (p_wshs p2); now rewrite Q6].
          * unfold open_of. rewrite Fg. reflexivity.
          * unfold forget_finished. rewrite Fg. reflexivity.
        + unfold app_view, frame_events. cbn [flat_map view app]. rewrite N9, N10, Ef. reflexivity.
      - do 2 eexists. split; [reflexivity|]. split.
        + unfold Rel, next_open. rewrite Nc, Ef.
          cbn [set_parser s_parser s_closed s_msg].
          set (p3 := next_frame _).
          assert (Fg : p_fin p3 = false) by exact M3.
          assert (Fo : p_opcode p3 = f_opcode f) by exact M2.
          assert (Fr : p_rsv1 p3 = f_rsv1 f) by exact M1.
          repeat split; auto;
            try solve [unfold accepted, is_server in *; change (p_wshs p3) with (p_wshs p2); now rewrite Q6].
          * unfold open_of. rewrite Fg, Fo, N0. reflexivity.
          * unfold forget_finished. rewrite Fg, Fr. exact Hr1.
        + unfold app_view, frame_events. cbn [flat_map view app]. rewrite N9, N10, Ef. reflexivity. }
    destruct (f_opcode f =? 0) eqn:E0.
    { (* CONTINUATION *)
      assert (N8 : (f_opcode f =? 8) = false) by lia.
      assert (N7 : (f_opcode f <=? 7) = true) by lia.
      rewrite N8, N7.
      destruct open as [[o d]|]; [|discriminate Hal']. cbn [option_map fst] in *.
      destruct Hmsg as [Hod Hmsg].
      assert (Nfin : p_fin (s_parser _ s) = false).
      { unfold open_of in Hop. destruct (p_fin (s_parser _ s)); [discriminate|reflexivity]. }
      assert (Nop : p_opcode (s_parser _ s) = o).
      { unfold open_of in Hop. rewrite Nfin in Hop. destruct (p_opcode _ =? 0); [discriminate|].
        now injection Hop. }
      assert (Hfg : forget_finished (s_parser _ s) = s_parser _ s)
        by (unfold forget_finished; now rewrite Nfin).
      rewrite Hfg in Hrsv.
      unfold data_frame. cbn [set_parser s_parser].
      rewrite Q0, E0.
      destruct (M0 eq_refl eq_refl) as (M1 & M2 & M3). rewrite Hfg in M1, M2.
      rewrite Hrsv in M1. rewrite Nop in M2.
      cbn [set_parser s_parser s_pmce].
      rewrite M1. unfold splice. cbn [s_parser s_msg s_pmce s_closed set_parser].
      rewrite Q4, Hmsg.
      destruct (Z.ltb_spec mx (Z.of_nat (length (d ++ f_payload f))));
        [rewrite app_length in *; specialize (Hlen0 ltac:(lia)); lia|].
      cbn [s_parser]. change (payload_complete (set_payload p2 [] (p_rem p2))) with (payload_complete p2).
      rewrite Q3. cbn [negb].
      unfold frame_done. cbn [s_parser].
      change (p_hdr (set_payload p2 [] (p_rem p2))) with (p_hdr p2).
      change (p_opcode (set_payload p2 [] (p_rem p2))) with (p_opcode p2). rewrite Q0, Q1, M2, E0.
      cbn [orb s_msg s_pmce s_closed].
      assert (Nc : is_control (f_opcode f) = false) by (unfold is_control; lia).
      assert (N9 : (f_opcode f =? 9) = false) by lia.
      assert (N10 : (f_opcode f =? 10) = false) by lia.
      assert (O9 : (o =? 9) = false) by (unfold is_data in *; lia).
      assert (O10 : (o =? 10) = false) by (unfold is_data in *; lia).
      assert (O0 : (o =? 0) = false) by (unfold is_data in *; lia).
      destruct (f_fin f) eqn:Ef.
      - do 2 eexists. split; [reflexivity|]. split.
        + unfold Rel, next_open. rewrite Nc, Ef.
          cbn [set_parser s_parser s_closed s_msg].
          set (p3 := next_frame _).
          assert (Fg : p_fin p3 = true) by exact M3.
          repeat split; auto;
            try solve [unfold accepted, is_server in *; change (p_wshs p3) with (p_wshs p2); now rewrite Q6].
          * unfold open_of. rewrite Fg. reflexivity.
          * unfold forget_finished. rewrite Fg. reflexivity.
        + unfold app_view, frame_events. cbn [flat_map view app]. rewrite N9, N10, Ef, O9, O10. reflexivity.
      - do 2 eexists. split; [reflexivity|]. split.
        + unfold Rel, next_open. rewrite Nc, Ef.
          cbn [set_parser s_parser s_closed s_msg].
          set (p3 := next_frame _).
          assert (Fg : p_fin p3 = false) by exact M3.
          assert (Fo : p_opcode p3 = o) by exact M2.
          assert (Fr : p_rsv1 p3 = false) by exact M1.
          repeat split; auto;
            try solve [unfold accepted, is_server in *; change (p_wshs p3) with (p_wshs p2); now rewrite Q6].
          * unfold open_of. rewrite Fg, Fo, O0. reflexivity.
          * unfold forget_finished. rewrite Fg, Fr. reflexivity.
        + unfold app_view, frame_events. cbn [flat_map view app]. rewrite N9, N10, Ef. reflexivity. }
    (* control frames *)
    destruct (is_control (f_opcode f)) eqn:Ec; [|discriminate Hal'].
    assert (Hfin : f_fin f = true) by (destruct (f_fin f); auto; rewrite !andb_false_r in Hal'; discriminate).
    assert (N7 : (f_opcode f <=? 7) = false) by (unfold is_control in *; lia).
    rewrite N7.
    cbn [set_parser s_parser s_msg s_pmce s_closed].
    rewrite Q3. cbn [negb]. unfold frame_done. cbn [set_parser s_parser s_msg s_pmce s_closed].
    rewrite Q0, Q1, Hfin, Q2.
    assert (Nd : (f_opcode f =? 0) || (f_opcode f =? 1) || (f_opcode f =? 2) = false)
      by (unfold is_data in *; lia). rewrite Nd.
    assert (HRel : Rel srv mx b
        (mkSession zst (next_frame p2) (s_msg zst s) (s_pmce zst s) (s_closed zst s)) open).
    { unfold Rel. cbn [set_parser s_parser s_closed s_msg].
      set (p3 := next_frame _).
      destruct (MC eq_refl eq_refl) as (Fm2 & Fm1 & Fm3).
      change (p_rsv1 p3 = p_rsv1 (forget_finished (s_parser zst s))) in Fm2.
      change (p_opcode p3 = p_opcode (forget_finished (s_parser zst s))) in Fm1.
      change (p_fin p3 = false) in Fm3.
      repeat split; auto;
            try solve [unfold accepted, is_server in *; change (p_wshs p3) with (p_wshs p2); now rewrite Q6].
      - unfold open_of. rewrite Fm3, Fm1, p_opcode_forget, Hop.
        destruct open as [[o d]|]; cbn [option_map fst]; [|reflexivity].
        destruct (Z.eqb_spec o 0); [subst; destruct Hmsg; discriminate|reflexivity].
      - unfold forget_finished. rewrite Fm3, Fm2. exact Hrsv. }
    destruct (f_opcode f =? 8) eqn:E8.
    { do 2 eexists. split; [reflexivity|]. split; [reflexivity|].
      cbn [app]. unfold app_view. cbn [flat_map]. rewrite app_nil_r. apply close_info_model; auto. apply Hclose. lia. }
    destruct (f_opcode f =? 9) eqn:E9.
    { do 2 eexists. split; [reflexivity|].
      split; [unfold next_open; rewrite Ec; exact HRel|].
      unfold app_view, frame_events. cbn [flat_map view app]. rewrite E9. reflexivity. }
    destruct (f_opcode f =? 10) eqn:E10.
    { do 2 eexists. split; [reflexivity|].
      split; [unfold next_open; rewrite Ec; exact HRel|].
      unfold app_view, frame_events. cbn [flat_map view app]. rewrite E9, E10. reflexivity. }
    unfold is_control in Ec. rewrite E8, E9, E10 in Ec. discriminate.
  Qed.

  Definition olen (open : option (Z * list Z)) : Z :=
    Z.of_nat (length (match open with Some (_, d) => d | None => [] end)).

  Lemma fits_next srv pm mx open f r :
    frame_allowed srv pm (option_map fst open) f = true ->
    fits mx (olen open) (f :: r) -> fits mx (olen (next_open open f)) r.
  Proof.
    intros Hal Hf. unfold frame_allowed in Hal. apply andb_true_iff in Hal. destruct Hal as [_ Hal].
    cbn [fits] in Hf. unfold next_open.
    destruct (is_data (f_opcode f)) eqn:Ed.
    - assert (is_control (f_opcode f) = false) as -> by (unfold is_control, is_data in *; lia).
      destruct open as [[o d]|]; [discriminate Hal|].
      destruct Hf as [_ Hf]. destruct (f_fin f); exact Hf.
    - destruct (f_opcode f =? 0) eqn:E0.
      + assert (is_control (f_opcode f) = false) as -> by (unfold is_control in *; lia).
        destruct Hf as (_ & _ & Hf). destruct (f_fin f); [exact Hf|].
        replace (olen _) with (olen open + Z.of_nat (length (f_payload f))); [exact Hf|].
        unfold olen. destruct open as [[o d]|]; rewrite app_length; lia.
      + destruct (is_control (f_opcode f)); [|discriminate Hal]. apply Hf.
  Qed.

  Lemma receive_cons srv pm open f r :
    frame_allowed srv pm (option_map fst open) f = true -> f_opcode f =? 8 = false ->
    receive srv pm open (f :: r) = frame_events open f ++ receive srv pm (next_open open f) r.
  Proof.
    intros Hal E8. cbn [receive]. rewrite Hal, E8. cbn [negb].
    unfold frame_allowed in Hal. apply andb_true_iff in Hal. destruct Hal as [_ Hal].
    unfold frame_events, next_open, is_control. rewrite E8.
    destruct (f_opcode f =? 9); [reflexivity|]. destruct (f_opcode f =? 10); [reflexivity|].
    cbn [orb]. destruct (f_fin f); [|reflexivity].
    destruct open as [[o d]|]; reflexivity.
  Qed.

  Lemma emit_emit a b r : emit zst a (emit zst b r) = emit zst (a ++ b) r.
  Proof. destruct r; cbn; rewrite ?app_assoc; reflexivity. Qed.

  Lemma stream_frames srv mx b fs w : wires fs w ->
    forall s open fuel, Rel srv mx b s open -> Forall frame_ok fs ->
    Forall (fun f => f_rsv1 f = false) fs -> fits mx (olen open) fs -> (length w < fuel)%nat ->
    exists s' evs, stream_loop fuel s w = SRet _ s' [] evs /\
      ((s_closed _ s' = true /\
        forall more, receive srv (negb (b =? 0)) open (fs ++ more) = app_view evs) \/
       (exists open', Rel srv mx b s' open' /\
         (forall more, receive srv (negb (b =? 0)) open (fs ++ more)
            = app_view evs ++ receive srv (negb (b =? 0)) open' more) /\
         (forall more, fits mx (olen open) (fs ++ more) -> fits mx (olen open') more))).
  Proof.
    induction 1 as [|f fs w ws Hw Hws IH]; intros s open fuel HR Hok Hr1 Hfit Hfuel.
    - destruct fuel as [|fuel]; [lia|].
      exists (set_parser _ s (forget_finished (s_parser _ s))), []. split.
      + destruct HR as (Ha & Hsrv & Hmx & Hbits & Hwsf & Hpl & Hcl & Hop & Hrsv & Hmsg).
        cbn [stream_loop].
        assert (Herr : in_error (s_parser _ s) = false) by (unfold in_error; now rewrite Hwsf).
        assert (Hhc : header_complete (s_parser _ s) = false) by (unfold header_complete; now rewrite Hwsf).
        rewrite Herr, Hcl, Hhc. cbn [orb]. rewrite parse_header_short by (auto; simpl; lia).
        cbv zeta.
        assert (in_error (forget_finished (s_parser zst s)) = false) as ->
          by (unfold in_error, forget_finished in *; destruct (p_fin _); exact Herr).
        assert (header_complete (forget_finished (s_parser zst s)) = false) as ->
          by (unfold header_complete, forget_finished in *; destruct (p_fin _); exact Hhc).
        reflexivity.
      + right. exists open. split; [apply Rel_forget; exact HR|]. split; auto.
    - inversion_clear Hok. inversion_clear Hr1.
      destruct fuel as [|fuel]; [lia|].
      assert (Hlen := proj1 Hfit).
      pose proof (step_frame srv mx b s open f w ws fuel HR Hw H H1 Hlen) as ST.
      assert (Hwl := wire_len _ _ Hw H). rewrite app_length in Hfuel.
      assert (Hz : f_opcode f = 0 -> Z.of_nat (length match open with Some (_, d) => d | None => [] end)
                     + Z.of_nat (length (f_payload f)) <= mx).
        { intros E. cbn [fits] in Hfit. rewrite E in Hfit. cbn [is_data Z.eqb orb] in Hfit.
          apply Hfit. }
      specialize (ST Hz).
      destruct (frame_allowed srv (negb (b =? 0)) (option_map fst open) f) eqn:Hal.
      +
        destruct (f_opcode f =? 8) eqn:E8.
        * destruct ST as (s' & evs & ST & Hc & Hv). exists s', evs. split; [exact ST|].
          left. split; [exact Hc|]. intros more. cbn [app receive]. rewrite Hal, E8. cbn [negb].
          now rewrite Hv.
        * destruct ST as (s' & evs & ST & HR' & Hv).
          destruct (IH s' (next_open open f) fuel HR' H0 H2) as (s2 & evs2 & ST2 & HD).
          -- eapply fits_next; eauto.
          -- lia.
          -- exists s2, (evs ++ evs2). split; [rewrite ST, ST2; reflexivity|].
             destruct HD as [(Hc & Hv2)|(open' & HR2 & Hv2 & Hf2)].
             ++ left. split; [exact Hc|]. intros more. cbn [app].
                rewrite receive_cons, app_view_app, Hv, Hv2 by auto. reflexivity.
             ++ right. exists open'. split; [exact HR2|]. split.
                ** intros more. cbn [app].
                   rewrite receive_cons, app_view_app, Hv, Hv2, app_assoc by auto. reflexivity.
                ** intros more Hm. apply Hf2. eapply fits_next; eauto.
      + destruct ST as (s' & evs & ST & Hc & Hv).
          exists s', evs. split; [exact ST|]. left. split; [exact Hc|].
          intros more. cbn [app receive]. rewrite Hal. cbn [negb]. now rewrite Hv.
  Qed.

  Lemma closed_chunks s chunks : s_closed _ s = true ->
    on_chunks s [] chunks = SRet _ s [] [].
  Proof.
    intros Hc. induction chunks as [|c cs IH]; [reflexivity|].
    cbn [on_chunks]. unfold on_stream. cbn [stream_loop]. rewrite Hc, orb_true_r. now rewrite IH.
  Qed.

  (** Reception of whole frames, any number of frames per piece. *)
  Theorem chunks_receive srv mx b gs cs : Forall2 wires gs cs ->
    forall s open, Rel srv mx b s open -> Forall (Forall frame_ok) gs ->
    Forall (Forall (fun f => f_rsv1 f = false)) gs -> fits mx (olen open) (concat gs) ->
    exists s' evs, on_chunks s [] cs = SRet _ s' [] evs /\
      app_view evs = receive srv (negb (b =? 0)) open (concat gs).
  Proof.
    induction 1 as [|fs w gs cs Hw Hws IH]; intros s open HR Hok Hr1 Hfit.
    - exists s, []. split; reflexivity.
    - inversion_clear Hok. inversion_clear Hr1. cbn [concat] in *.
      assert (Hfit1 : fits mx (olen open) fs).
      { clear -Hfit. revert Hfit. generalize (olen open).
        induction fs as [|f fs IH]; intros n Hf; [exact I|]. cbn [app fits] in *.
        destruct Hf as [Hf1 Hf2]. split; [exact Hf1|].
        destruct (is_data _); [auto|]. destruct (f_opcode f =? 0); [|auto].
        destruct Hf2; split; auto. }
      destruct (stream_frames srv mx b fs w Hw s open (S (S (length w))) HR H H1 Hfit1 ltac:(lia))
        as (s' & evs & ST & HD).
      cbn [on_chunks app]. unfold on_stream. rewrite ST.
      destruct HD as [(Hc & Hv)|(open' & HR' & Hv & Hf)].
      + rewrite closed_chunks by auto. cbn [emit]. exists s', evs. rewrite app_nil_r.
        split; [reflexivity|]. now rewrite Hv.
      + destruct (IH s' open' HR' H0 H2 (Hf _ Hfit)) as (s2 & evs2 & ST2 & Hv2).
        rewrite ST2. cbn [emit]. exists s2, (evs ++ evs2). split; [reflexivity|].
        rewrite app_view_app, Hv2, Hv. reflexivity.
  Qed.

  Lemma session_new_Rel srv mx b z :
    Rel srv mx b (session_new zst (if srv then wshs_s_accepted else wshs_c_accepted) mx b z) None.
  Proof. destruct srv; repeat split. Qed.

  (** ** Closure is notified at most once, and last *)

  (** A monitor: events the application can see are only allowed before the
      closure was reported. *)
  Fixpoint monitor (closed : bool) (evs : list ev) : option bool :=
    match evs with
    | [] => Some closed
    | EvClose _ _ :: r | EvCloseError _ _ :: r => if closed then None else monitor true r
    | EvData _ _ :: r | EvFinish _ _ :: r => if closed then None else monitor false r
    | _ :: r => monitor closed r
    end.

  Lemma monitor_app a b c : monitor c (a ++ b)
    = match monitor c a with None => None | Some c' => monitor c' b end.
  Proof. revert c. induction a as [|e a IH]; intros c; [reflexivity|].
    destruct e, c; cbn [app monitor]; auto. Qed.

  Lemma data_frame_closed s pl s' pl' : data_frame zst inflate s pl = DOk _ s' pl' ->
    s_closed _ s' = s_closed _ s.
  Proof.
    unfold data_frame. cbv zeta.
    set (s1 := if h_opcode _ =? 0 then s else _).
    assert (H1 : s_closed _ s1 = s_closed _ s) by (unfold s1; destruct (h_opcode _ =? 0); reflexivity).
    destruct (p_rsv1 _); [|intros [= <- <-]; exact H1].
    destruct (s_pmce _ s1); [|discriminate].
    destruct (inflate_message_stream _ _ _ _ _); [|discriminate].
    destruct (if p_fin _ then _ else _); [|discriminate].
    intros [= <- <-]. exact H1.
  Qed.

  Lemma frame_done_monitor s : s_closed _ s = false ->
    match frame_done zst s with
    | inr (s', evs) => monitor false evs = Some false /\ s_closed _ s' = false
    | inl (s', evs) => monitor false evs = Some true /\ s_closed _ s' = true
    end.
  Proof.
    intros Hc. unfold frame_done.
    destruct (h_fin _); [|auto].
    destruct (_ || _); [auto|]. destruct (_ =? 8); [auto|].
    destruct (_ =? 9); [auto|]. destruct (_ =? 10); auto.
  Qed.

  Lemma stream_monitor fuel : forall s data,
    match stream_loop fuel s data with
    | SRet _ s' _ evs | SThrow _ s' evs => monitor (s_closed _ s) evs = Some (s_closed _ s')
    | SFuel _ => True
    end.
  Proof.
    induction fuel as [|fuel IH]; intros s data; [exact I|]. cbn [stream_loop].
    destruct (in_error (s_parser _ s)); cbn [orb]; [reflexivity|].
    destruct (s_closed _ s) eqn:Hcl; [cbn [monitor]; now rewrite Hcl|].
    destruct (if header_complete (s_parser zst s) then _ else _) as [[p d]|];
      [|cbn [monitor]; now rewrite Hcl].
    cbv zeta. destruct (in_error p) eqn:He.
    { unfold close_once. cbn [set_parser s_closed]. rewrite Hcl. reflexivity. }
    destruct (header_complete p); cbn [negb];
      [|cbn [monitor set_parser s_closed]; now rewrite Hcl].
    destruct (payload_complete p).
    { specialize (IH (set_parser zst (set_parser zst s p) (next_frame p)) d).
      cbn [set_parser s_closed] in IH. rewrite Hcl in IH. exact IH. }
    destruct (parse_payload (addr_of d) p d) as [[p1 d1]|];
      [|cbn [monitor set_parser s_closed]; now rewrite Hcl].
    match goal with |- context[match ?st with inl r => r | inr _ => _ end] => destruct st as [r|[s1 e1]] eqn:Est end.
    - revert Est. destruct (h_opcode (p_hdr p1) <=? 7); [|discriminate].
      destruct (data_frame _ _ _ _) as [s2 pl| |] eqn:Edf.
      + destruct (p_max p1 <? _); [|discriminate]. intros [= <-].
        apply data_frame_closed in Edf. cbn [set_parser s_closed] in Edf.
        cbn [monitor splice s_closed]. now rewrite Edf, Hcl.
      + unfold close_once. cbn [set_parser s_closed]. rewrite Hcl. intros [= <-]. reflexivity.
      + intros [= <-]. cbn [monitor set_parser s_closed]. now rewrite Hcl.
    - assert (H1 : s_closed _ s1 = false /\ monitor false e1 = Some false).
      { revert Est. destruct (h_opcode (p_hdr p1) <=? 7).
        - destruct (data_frame _ _ _ _) as [s2 pl| |] eqn:Edf; try discriminate.
          + destruct (p_max p1 <? _); [discriminate|]. intros [= <- <-].
            apply data_frame_closed in Edf. split; [|reflexivity].
            cbn [splice s_closed]. rewrite Edf. exact Hcl.
          + unfold close_once. destruct (s_closed _ _); discriminate.
        - intros [= <- <-]. split; [exact Hcl|reflexivity]. }
      destruct H1 as [H1 H1'].
      destruct (negb (payload_complete (s_parser zst s1))).
      { now rewrite H1', H1. }
      pose proof (frame_done_monitor s1 H1) as HF.
      destruct (frame_done _ s1) as [[s2 e2]|[s2 e2]].
      + rewrite monitor_app, H1'. destruct HF as [-> ->]. reflexivity.
      + destruct HF as [HF1 HF2].
        specialize (IH (set_parser zst s2 (next_frame (s_parser zst s2))) d1).
        cbn [set_parser s_closed] in IH. rewrite HF2 in IH.
        destruct (stream_loop fuel _ _); cbn [emit]; auto;
          rewrite !monitor_app, H1', HF1; exact IH.
  Qed.

  Notation life := (life zst inflate addr_of).

  Lemma life_step_total s o : exists r, life_step zst inflate addr_of s o = Some r.
  Proof.
    destruct o as [buf|]; cbn [life_step]; [|eauto].
    pose proof (on_stream_no_fuel s buf). destruct (on_stream s buf); eauto. congruence.
  Qed.

  Lemma life_total ops : forall s, exists r, life s ops = Some r.
  Proof.
    induction ops as [|o ops IH]; intros s; cbn [life]; [eauto|].
    destruct (life_step_total s o) as [[s' e] ->]. destruct (IH s') as [[s2 e2] ->]. eauto.
  Qed.

  Lemma life_monitor ops : forall s s' evs, life s ops = Some (s', evs) ->
    monitor (s_closed _ s) evs = Some (s_closed _ s').
  Proof.
    induction ops as [|o ops IH]; intros s s' evs; cbn [life].
    - intros [= <- <-]. reflexivity.
    - destruct (life_step zst inflate addr_of s o) as [[s1 e1]|] eqn:E1; [|discriminate].
      destruct (life s1 ops) as [[s2 e2]|] eqn:E2; [|discriminate]. intros [= <- <-].
      apply IH in E2. rewrite monitor_app.
      assert (H1 : monitor (s_closed _ s) e1 = Some (s_closed _ s1)).
      { revert E1. destruct o as [buf|]; cbn [life_step].
        - pose proof (stream_monitor (S (S (length buf))) s buf) as H. unfold on_stream.
          destruct (stream_loop _ s buf); intros [= <- <-]; exact H.
        - intros [= E]. unfold close_once in E. destruct (s_closed _ s) eqn:Ec.
          + injection E as <- <-. cbn. now rewrite Ec.
          + injection E as <- <-. reflexivity. }
      rewrite H1. exact E2.
  Qed.

  Lemma monitor_count evs : forall c c', monitor c evs = Some c' ->
    let n := length (filter (fun e => match e with EvClose _ _ | EvCloseError _ _ => true | _ => false end) evs) in
    (n <= 1)%nat /\ (c' = true -> c = true \/ n = 1%nat) /\ (c = true -> n = 0%nat /\ c' = true).
  Proof.
    induction evs as [|e r IH]; intros c c'; cbn [monitor filter length].
    - intros [= <-]. repeat split; auto.
    - destruct e; cbn [monitor]; try (destruct c; [discriminate|]); intros H;
        apply IH in H; cbn [length] in *; destruct H as (H1 & H2 & H3);
        repeat split; try tauto; try lia; try (intros; try (right; specialize (H3 eq_refl)); lia).
      all: try (intros; discriminate).
  Qed.

  Lemma monitor_last evs : forall c' a e b, monitor false evs = Some c' ->
    evs = a ++ e :: b -> match e with EvClose _ _ | EvCloseError _ _ => True | _ => False end ->
    Forall (fun x => match x with EvSend _ | EvShutDown _ => True | _ => False end) b.
  Proof.
    assert (Q : forall b c', monitor true b = Some c' ->
       Forall (fun x => match x with EvSend _ | EvShutDown _ => True | _ => False end) b).
    { induction b as [|x b IH]; intros c' H; [constructor|].
      destruct x; cbn [monitor] in H; try discriminate; constructor; eauto. }
    intros c' a e b H -> He. rewrite monitor_app in H.
    destruct (monitor false a) as [c1|]; [|discriminate].
    destruct e; try contradiction; cbn [monitor] in H; destruct c1; try discriminate; eapply Q; eauto.
  Qed.

  Lemma life_closed ops : forall s s' evs, life s ops = Some (s', evs) ->
    In OpSocketClosed ops -> s_closed _ s' = true.
  Proof.
    assert (Mono : forall ops s s' evs, life s ops = Some (s', evs) -> s_closed _ s = true -> s_closed _ s' = true).
    { intros ops0 s s' evs H Hc. apply life_monitor in H. rewrite Hc in H.
      apply monitor_count in H. now apply H. }
    induction ops as [|o ops IH]; intros s s' evs; [contradiction|]. cbn [life].
    destruct (life_step zst inflate addr_of s o) as [[s1 e1]|] eqn:E1; [|discriminate].
    destruct (life s1 ops) as [[s2 e2]|] eqn:E2; [|discriminate]. intros [= <- <-] [->|Hin].
    - cbn [life_step] in E1. apply (Mono _ _ _ _ E2). injection E1 as E1. unfold close_once in E1.
      destruct (s_closed _ s) eqn:Ec; injection E1 as <- _; auto.
    - eauto.
  Qed.
End Session.

(** ** Sending *)

Lemma raw_bits x : 0 <= x < 256 ->
  rfc_octet0 (bit x 7) (bit x 6) (bit x 5) (bit x 4) (Z.land x 15) = x /\ 0 <= Z.land x 15 < 16.
Proof.
  intros H.
  assert (S : forallb (fun x => (rfc_octet0 (bit x 7) (bit x 6) (bit x 5) (bit x 4) (Z.land x 15) =? x)
               && (0 <=? Z.land x 15) && (Z.land x 15 <? 16)) (zrange 256) = true) by (vm_compute; reflexivity).
  assert (E := sweep 256 _ S x ltac:(lia)). cbv beta in E. lia.
Qed.

Lemma key_octets_bytes k : 0 <= k < two32 ->
  bytes (map (rfc_key_octet k) [0; 1; 2; 3]%nat) /\ be_value (map (rfc_key_octet k) [0; 1; 2; 3]%nat) = k.
Proof.
  intros Hk. unfold two32 in Hk. cbn [map]. unfold rfc_key_octet.
  cbn [Nat.modulo Nat.divmod fst snd Nat.sub nth].
  split.
  - repeat constructor; unfold byte; lia.
  - unfold be_value. cbn [fold_left]. lia.
Qed.

Definition frame_of (rsv_opcode : Z) (mask : option Z) (data : list Z) : frame :=
  mkFrame (bit rsv_opcode 7) (bit rsv_opcode 6) (bit rsv_opcode 5) (bit rsv_opcode 4)
          (Z.land rsv_opcode 15) mask data.

Lemma raw_frame_wire x data : 0 <= x < 256 -> bytes data -> u64 (Z.of_nat (length data)) ->
  wire (frame_of x None data) (raw_frame x data).
Proof.
  intros Hx Hd Hl. unfold raw_frame.
  set (h := mkHdr _ _ _ _ _ _ _ _ _).
  destruct (encode_rfc h) as (lf & Hlf & ->).
  { repeat split; try apply raw_bits; auto; try apply Hl; unfold u32, two32; cbn; lia. }
  exists lf, [], data. cbn [h_masked h app]. rewrite app_nil_r.
  split; [reflexivity|]. split; [exact Hlf|]. split; reflexivity.
Qed.

Lemma raw_frame_client_wire key addr x data :
  0 <= x < 256 -> bytes data -> u64 (Z.of_nat (length data)) -> u32 key ->
  wire (frame_of x (Some key) data) (raw_frame_client key addr x data).
Proof.
  intros Hx Hd Hl Hk. unfold raw_frame_client.
  set (h := mkHdr _ _ _ _ _ _ _ _ _).
  destruct (encode_rfc h) as (lf & Hlf & ->).
  { repeat split; try apply raw_bits; auto; try apply Hl; try apply Hk. }
  exists lf, (map (rfc_key_octet key) [0; 1; 2; 3]%nat), (fst (mask_payload addr h data)).
  split; [cbn [h_masked h app]; rewrite <- app_assoc; reflexivity|]. split; [exact Hlf|].
  cbn [f_mask frame_of]. split; [reflexivity|].
  destruct (key_octets_bytes key Hk) as [B1 B2].
  split; [exact B1|]. split; [exact B2|].
  destruct (mask_payload addr h data) as [o h'] eqn:E.
  apply (mask_payload_rfc addr h data o h' Hd) in E; auto.
Qed.
