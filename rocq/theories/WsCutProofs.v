(** Proofs about the reception of frames that the transport cuts into pieces at
    arbitrary positions. *)
From Coq Require Import ZArith List Lia Bool ZifyBool ZifyNat Arith.
From Verif Require Import Base BaseLemmas WsModel WsSpec WsCutSpec WsMaskProofs WsParseProofs WsSplitProofs
  WsSessionProofs WsMoreProofs.
Import ListNotations.
Open Scope Z_scope.
Ltac Zify.zify_post_hook ::= Z.div_mod_to_equations.

(** ** Masking piece by piece *)

(** What is left of the payload on the wire, [body], stands for [pl]. *)
Definition MaskRel (h : hdr) (body pl : list Z) : Prop :=
  if h_masked h then
    exists a b c d, byte a /\ byte b /\ byte c /\ byte d /\ h_key h = of_oct a b c d /\
      bytes body /\ pl = mask_spec a b c d body
  else pl = body.

Lemma MaskRel_len h body pl : MaskRel h body pl -> length pl = length body.
Proof.
  unfold MaskRel. destruct (h_masked h).
  - intros (a & b & c & d & _ & _ & _ & _ & _ & _ & ->). apply mask_spec_length.
  - now intros ->.
Qed.

Lemma MaskRel_step h x y pl : MaskRel h (x ++ y) pl ->
  exists k', (forall addr, mask_payload addr h x = (firstn (length x) pl, set_key h k')) /\
             MaskRel (set_key h k') y (skipn (length x) pl).
Proof.
  unfold MaskRel. change (h_masked (set_key h _)) with (h_masked h).
  destruct (h_masked h) eqn:Hm.
  - intros (a & b & c & d & Ha & Hb & Hc & Hd & Hk & Hby & ->).
    apply bytes_app in Hby. destruct Hby as [Hx Hy].
    destruct (rot4 (length x) (a, b, c, d)) as [[[a1 b1] c1] d1] eqn:Er.
    destruct (rot4_bytes _ _ _ _ _ _ _ _ _ Ha Hb Hc Hd Er) as (Ha1 & Hb1 & Hc1 & Hd1).
    exists (of_oct a1 b1 c1 d1).
    assert (E1 : firstn (length x) (mask_spec a b c d (x ++ y)) = mask_spec a b c d x).
    { rewrite mask_spec_app, firstn_app, mask_spec_length, Nat.sub_diag, firstn_O, app_nil_r.
      apply firstn_all2. rewrite mask_spec_length. lia. }
    assert (E2 : skipn (length x) (mask_spec a b c d (x ++ y)) = mask_spec a1 b1 c1 d1 y).
    { rewrite mask_spec_app, skipn_app, mask_spec_length, Nat.sub_diag, Er. cbn [skipn].
      rewrite skipn_all2 by (rewrite mask_spec_length; lia). reflexivity. }
    rewrite E1, E2.
    split.
    + intros addr. rewrite (mask_payload_spec addr h x a b c d) by auto. rewrite Er. reflexivity.
    + exists a1, b1, c1, d1. do 4 (split; [assumption|]). split; [reflexivity|]. split; auto.
  - intros ->. exists (h_key h). rewrite firstn_app, firstn_all, Nat.sub_diag, firstn_O, app_nil_r.
    rewrite skipn_app, skipn_all, Nat.sub_diag. cbn [app skipn].
    split; [|reflexivity]. intros addr. unfold mask_payload. rewrite Hm. cbn [negb orb].
    destruct h; reflexivity.
Qed.

(** The parts of a frame on the wire. *)
Lemma wire_parts f w :
  wire f w -> frame_ok f ->
  exists ext key body,
    w = rfc_octet0 (f_fin f) (f_rsv1 f) (f_rsv2 f) (f_rsv3 f) (f_opcode f)
        :: octet1 (masked_of f) (len7_of (Z.of_nat (length (f_payload f)))) :: ext ++ key ++ body /\
    length ext = ext_len (len7_of (Z.of_nat (length (f_payload f)))) /\
    length key = key_len (masked_of f) /\
    payload_len_of (len7_of (Z.of_nat (length (f_payload f)))) ext = Z.of_nat (length (f_payload f)) /\
    0 <= len7_of (Z.of_nat (length (f_payload f))) < 128 /\
    length body = length (f_payload f) /\
    (forall h, h_masked h = masked_of f -> (masked_of f = true -> h_key h = load_be key) ->
       MaskRel h body (f_payload f)).
Proof.
  intros (lf & ks & body & -> & Hlf & Hm) (Hop & Hb & _).
  destruct (length_field_cases _ _ _ (Zle_0_nat _) Hlf) as (ext & -> & Le & Hr & Hp).
  exists ext, ks, body. unfold masked_of in *.
  destruct (f_mask f) as [k|].
  - destruct Hm as (Lk & Hkb & Hk & HM).
    split; [reflexivity|]. do 4 (split; [solve [auto]|]).
    split; [exact (proj1 HM)|].
    intros h Hhm Hhk. specialize (Hhk eq_refl). rewrite be_value_load in Hk.
    assert (Hu : u32 k).
    { subst k. pose proof (load_be_bound ks Hkb) as B. rewrite Lk in B.
      change (2 ^ (8 * Z.of_nat 4)) with two32 in B. exact B. }
    destruct (of_oct_koct k Hu) as (a & b & c & d & Ha & Hb' & Hc & Hd & Hkk & _).
    rewrite Hkk in HM. apply rfc_masked_spec in HM; auto. subst body.
    unfold MaskRel. rewrite Hhm. exists a, b, c, d. do 4 (split; [assumption|]).
    split; [congruence|]. split; [auto using mask_spec_bytes|].
    symmetry. apply mask_spec_invol.
  - destruct Hm as (-> & ->).
    split; [reflexivity|]. do 5 (split; [solve [auto]|]).
    intros h Hhm _. unfold MaskRel. rewrite Hhm. reflexivity.
Qed.

(** One piece of a payload. *)
Lemma parse_payload_piece addr p x y rest pl :
  accepted p = true -> p_wsf p = wsf_header_done ->
  p_rem p = Z.of_nat (length (x ++ y)) -> MaskRel (p_hdr p) (x ++ y) pl ->
  Z.of_nat (length (p_payload p)) + Z.of_nat (length (x ++ y)) <= p_max p ->
  (y = [] \/ rest = []) ->
  exists k', parse_payload addr p (x ++ rest)
    = Ret ((if (length y =? 0)%nat then fun q => set_wsf q wsf_payload_done else fun q => q)
             (set_payload (set_hdr p (set_key (p_hdr p) k'))
                (p_payload p ++ firstn (length x) pl) (Z.of_nat (length y))), rest) /\
    MaskRel (set_key (p_hdr p) k') y (skipn (length x) pl).
Proof.
  intros Ha Hw Hr HM Hmax Hyr.
  destruct (MaskRel_step _ _ _ _ HM) as (k' & Hmask & HM').
  rewrite app_length in *.
  unfold parse_payload, payload_complete, header_complete. rewrite Ha, Hw. cbn [negb].
  rewrite Hr, app_length.
  replace (Z.min _ _) with (Z.of_nat (length x))
    by (destruct Hyr as [->| ->]; cbn [length] in *; lia).
  destruct (Z.eqb_spec (Z.of_nat (length x)) 0) as [E|E].
  - destruct x; [|simpl in E; lia]. cbn [length app firstn skipn Nat.add] in *.
    exists (h_key (p_hdr p)).
    assert (Hh : set_key (p_hdr p) (h_key (p_hdr p)) = p_hdr p) by (destruct (p_hdr p); reflexivity).
    rewrite Hh, app_nil_r. split; [|exact HM].
    rewrite Hr.
    assert (Hp : set_payload (set_hdr p (p_hdr p)) (p_payload p) (Z.of_nat (length y)) = p)
      by (destruct p; cbn in *; subst; reflexivity).
    rewrite Hp.
    destruct y; cbn [length]; [reflexivity|].
    destruct (Z.eqb_spec (Z.of_nat (S (length y))) 0); [lia|reflexivity].
  - destruct (Z.ltb_spec (p_max p) (Z.of_nat (length (p_payload p)) + Z.of_nat (length x))); [lia|].
    rewrite Nat2Z.id, firstn_app, firstn_all, Nat.sub_diag, firstn_O, app_nil_r, Hmask.
    rewrite skipn_app, skipn_all, Nat.sub_diag. cbn [app skipn].
    exists k'. split; [|exact HM'].
    replace (Z.of_nat (length x + length y) - Z.of_nat (length x)) with (Z.of_nat (length y)) by lia.
    cbn [p_rem set_payload].
    destruct (Nat.eqb_spec (length y) 0); destruct (Z.eqb_spec (Z.of_nat (length y)) 0); try lia; reflexivity.
Qed.

Section Cut.
  Variable zst : Type.
  Variable inflate : zst -> list Z -> option (zst * list Z).
  Variable addr_of : list Z -> Z.
  Notation session := (session zst).
  Notation stream_loop := (stream_loop zst inflate addr_of).
  Notation on_stream := (on_stream zst inflate addr_of).
  Notation on_chunks := (on_chunks zst inflate addr_of).
  Notation Rel := (Rel zst).

  (** More fuel than needed makes no difference. *)
  Lemma stream_mono fuel : forall s d k,
    stream_loop fuel s d <> SFuel _ -> stream_loop (fuel + k) s d = stream_loop fuel s d.
  Proof.
    induction fuel as [|fuel IH]; intros s d k H; [now elim H|].
    cbn [Nat.add WsModel.stream_loop] in *.
    destruct (in_error (s_parser zst s) || s_closed zst s); [reflexivity|].
    destruct (if header_complete (s_parser zst s) then _ else _) as [[p d1]|]; [|reflexivity].
    destruct (in_error p); [reflexivity|].
    destruct (negb (header_complete p)); [reflexivity|].
    destruct (payload_complete p); [apply IH; exact H|].
    destruct (parse_payload (addr_of d1) p d1) as [[p1 d2]|]; [|reflexivity].
    cbv zeta in *.
    match goal with |- context [match ?x with inl r => r | inr _ => _ end] =>
      destruct x as [r|[s1 e1]]; [reflexivity|] end.
    destruct (negb (payload_complete (s_parser zst s1))); [reflexivity|].
    destruct (frame_done _ s1) as [[s2 e2]|[s2 e2]]; [reflexivity|].
    rewrite IH; [reflexivity|]. intros E. rewrite E in H. apply H. reflexivity.
  Qed.

  Lemma stream_enough fuel s d : header_complete (s_parser _ s) = false ->
    (length d < fuel)%nat -> stream_loop fuel s d = on_stream s d.
  Proof.
    intros Hh Hf. unfold WsModel.on_stream.
    assert (N : stream_loop (S (length d)) s d <> SFuel _)
      by (apply stream_no_fuel; rewrite Hh; lia).
    replace fuel with (S (length d) + (fuel - S (length d)))%nat by lia.
    rewrite stream_mono by exact N.
    replace (S (S (length d))) with (S (length d) + 1)%nat by lia.
    symmetry. apply stream_mono. exact N.
  Qed.

  (** Between two frames. *)
  Definition Between (srv : bool) (mx b : Z) (s : session) (open : option (Z * list Z)) : Prop :=
    Rel srv mx b s open /\
    p_rsv2 (forget_finished (s_parser _ s)) = false /\
    p_rsv3 (forget_finished (s_parser _ s)) = false.

  (** In the middle of a payload: [got] was received, [body] is still to come
      and stands for [pl]. *)
  Definition InPay (srv : bool) (mx b : Z) (s : session) (open : option (Z * list Z)) (f : frame)
                   (got body pl : list Z) : Prop :=
    let p := s_parser _ s in
    accepted p = true /\ is_server p = srv /\ p_max p = mx /\ p_send_bits p = b /\
    p_wsf p = wsf_header_done /\ s_closed _ s = false /\
    h_opcode (p_hdr p) = f_opcode f /\ h_fin (p_hdr p) = f_fin f /\
    p_rem p = Z.of_nat (length body) /\ MaskRel (p_hdr p) body pl /\
    p_rsv1 p = false /\ p_rsv2 p = false /\ p_rsv3 p = false /\
    Z.of_nat (length got) + Z.of_nat (length pl) <= mx /\
    (if is_data (f_opcode f) then
       open = None /\ p_payload p = [] /\ p_opcode p = f_opcode f /\ p_fin p = f_fin f
     else if f_opcode f =? 0 then
       exists o d, open = Some (o, d) /\ is_data o = true /\ p_payload p = [] /\
         p_opcode p = o /\ p_fin p = f_fin f /\ s_msg _ s = d ++ got /\
         Z.of_nat (length d) + Z.of_nat (length got) + Z.of_nat (length pl) <= mx
     else
       is_control (f_opcode f) = true /\ f_fin f = true /\ p_payload p = got /\ p_fin p = false /\
       match open with
       | None => p_opcode p = 0 /\ s_msg _ s = []
       | Some (o, d) => is_data o = true /\ p_opcode p = o /\ s_msg _ s = d
       end).

  Lemma InPay_unfold fuel srv mx b s open f got body pl x :
    InPay srv mx b s open f got body pl ->
    stream_loop (S fuel) s x =
      match parse_payload (addr_of x) (s_parser _ s) x with
            | Throw => SThrow _ s []
            | Ret (p, data) =>
              let s := set_parser _ s p in
              let step :=
                if h_opcode (p_hdr p) <=? 7 then
                  match data_frame zst inflate s (p_payload p) with
                  | DThrow _ => inl (SThrow _ s [])
                  | DNoPmce _ =>
                      let '(s, e) := close_once _ s (EvClose 1011 []) in inl (SRet _ s [] e)
                  | DOk _ s payload =>
                      let s := splice _ s payload in
                      if p_max p <? Z.of_nat (length (s_msg _ s))
                      then inl (SThrow _ s [EvData (p_opcode p) (s_msg _ s)])
                      else inr (s, [EvData (p_opcode p) (s_msg _ s)])
                  end
                else inr (s, []) in
              match step with
              | inl r => r
              | inr (s, evs1) =>
                  if negb (payload_complete (s_parser _ s)) then SRet _ s data evs1
                  else
                    match frame_done _ s with
                    | inl (s, evs2) => SRet _ s [] (evs1 ++ evs2)
                    | inr (s, evs2) =>
                        emit _ (evs1 ++ evs2)
                             (stream_loop fuel (set_parser _ s (next_frame (s_parser _ s))) data)
                    end
              end
            end.
  Proof.
    intros (Ha & Hsrv & Hmx & Hb & Hw & Hcl & _).
    cbn [WsModel.stream_loop].
    assert (in_error (s_parser _ s) = false) as Herr by (unfold in_error; now rewrite Hw).
    assert (header_complete (s_parser _ s) = true) as Hhc by (unfold header_complete; now rewrite Hw).
    assert (payload_complete (s_parser _ s) = false) as Hpc by (unfold payload_complete; now rewrite Hw).
    rewrite Herr, Hcl, Hhc. cbn [orb].
    assert (set_parser _ s (s_parser _ s) = s) as Hs by (destruct s; reflexivity).
    cbv zeta. rewrite Hs, Herr, Hhc, Hpc. cbn [negb].
    destruct (parse_payload _ _ _) as [[p d]|]; reflexivity.
  Qed.

  (** A piece that does not finish the payload. *)
  Lemma pay_partial srv mx b s open f got x y pl fuel :
    InPay srv mx b s open f got (x ++ y) pl -> y <> [] ->
    exists s' evs, stream_loop (S fuel) s x = SRet _ s' [] evs /\ app_view evs = [] /\
      InPay srv mx b s' open f (got ++ firstn (length x) pl) y (skipn (length x) pl).
  Proof.
    intros HI Hy. rewrite (InPay_unfold fuel _ _ _ _ _ _ _ _ _ x HI).
    destruct HI as (Ha & Hsrv & Hmx & Hb & Hw & Hcl & Hop & Hfin & Hrem & HM & R1 & R2 & R3 & Hsz & HC).
    pose proof (MaskRel_len _ _ _ HM) as Lpl. rewrite app_length in Lpl.
    assert (Lx : length (firstn (length x) pl) = length x) by (apply firstn_length_le; lia).
    assert (Ly : length (skipn (length x) pl) = length y) by (rewrite skipn_length; lia).
    assert (Ny : (length y =? 0)%nat = false) by (destruct y; [now elim Hy|reflexivity]).
    destruct (parse_payload_piece (addr_of x) (s_parser _ s) x y [] pl Ha Hw Hrem HM) as (k' & HP & HM').
    { rewrite app_length. destruct (is_data (f_opcode f)).
      - destruct HC as (_ & -> & _). cbn [length]. lia.
      - destruct (f_opcode f =? 0).
        + destruct HC as (o & d & _ & _ & -> & _). cbn [length]. lia.
        + destruct HC as (_ & _ & -> & _). lia. }
    { now right. }
    rewrite app_nil_r in HP. rewrite HP, Ny. cbv beta zeta. clear HP.
    set (p2 := set_payload _ _ _).
    assert (Q0 : h_opcode (p_hdr p2) = f_opcode f) by exact Hop.
    rewrite Q0.
    destruct (is_data (f_opcode f)) eqn:Ed.
    - assert (N7 : (f_opcode f <=? 7) = true) by (unfold is_data in Ed; lia).
      assert (N0 : (f_opcode f =? 0) = false) by (unfold is_data in Ed; lia).
      rewrite N7. destruct HC as (-> & Hpl & Hpo & Hpf).
      unfold data_frame. cbn [set_parser s_parser]. rewrite Q0, N0.
      change (p_rsv1 p2) with (p_rsv1 (s_parser _ s)). rewrite R1.
      unfold splice. cbn [s_parser s_msg s_pmce s_closed app].
      change (p_payload p2) with (p_payload (s_parser _ s) ++ firstn (length x) pl).
      rewrite Hpl. cbn [app]. change (p_max p2) with (p_max (s_parser _ s)). rewrite Hmx.
      destruct (Z.ltb_spec mx (Z.of_nat (length (firstn (length x) pl)))); [lia|].
      cbn [s_parser].
      change (payload_complete (set_payload p2 [] (p_rem p2))) with (payload_complete (s_parser _ s)).
      assert (payload_complete (s_parser _ s) = false) as -> by (unfold payload_complete; now rewrite Hw).
      cbn [negb]. do 2 eexists. split; [reflexivity|]. split; [reflexivity|].
      unfold InPay. cbn [s_parser s_msg s_closed]. rewrite Ed.
      do 8 (split; [assumption|]). split; [reflexivity|]. split; [exact HM'|].
      do 3 (split; [assumption|]). split; [rewrite app_length; lia|].
      repeat split; assumption.
    - destruct (f_opcode f =? 0) eqn:E0.
      + assert (N7 : (f_opcode f <=? 7) = true) by lia.
        rewrite N7. destruct HC as (o & d & -> & Ho & Hpl & Hpo & Hpf & Hmsg & Hsz2).
        unfold data_frame. cbn [set_parser s_parser]. rewrite Q0, E0.
        cbn [set_parser s_parser s_pmce].
        change (p_rsv1 p2) with (p_rsv1 (s_parser _ s)). rewrite R1.
        unfold splice. cbn [s_parser s_msg s_pmce s_closed app set_parser].
        change (p_payload p2) with (p_payload (s_parser _ s) ++ firstn (length x) pl).
        rewrite Hpl, Hmsg. cbn [app]. change (p_max p2) with (p_max (s_parser _ s)). rewrite Hmx.
        destruct (Z.ltb_spec mx (Z.of_nat (length ((d ++ got) ++ firstn (length x) pl))));
          [rewrite !app_length in *; lia|].
        cbn [s_parser].
        change (payload_complete (set_payload p2 [] (p_rem p2))) with (payload_complete (s_parser _ s)).
        assert (payload_complete (s_parser _ s) = false) as -> by (unfold payload_complete; now rewrite Hw).
        cbn [negb]. do 2 eexists. split; [reflexivity|]. split; [reflexivity|].
        unfold InPay. cbn [s_parser s_msg s_closed]. rewrite Ed, E0.
        do 8 (split; [assumption|]). split; [reflexivity|]. split; [exact HM'|].
        do 3 (split; [assumption|]). split; [rewrite app_length; lia|].
        exists o, d. split; [reflexivity|]. do 2 (split; [auto|]). split; [assumption|].
        split; [assumption|]. split; [symmetry; apply app_assoc|]. rewrite app_length. lia.
      + destruct HC as (Hc & Hf & Hpl & Hpf & HO).
        assert (N7 : (f_opcode f <=? 7) = false) by (unfold is_control in *; lia).
        rewrite N7. cbn [set_parser s_parser].
        change (payload_complete p2) with (payload_complete (s_parser _ s)).
        assert (payload_complete (s_parser _ s) = false) as -> by (unfold payload_complete; now rewrite Hw).
        cbn [negb]. do 2 eexists. split; [reflexivity|]. split; [reflexivity|].
        unfold InPay. cbn [s_parser s_msg s_closed set_parser]. rewrite Ed, E0.
        do 8 (split; [assumption|]). split; [reflexivity|]. split; [exact HM'|].
        do 3 (split; [assumption|]). split; [rewrite app_length; lia|].
        do 2 (split; [assumption|]). split; [|split; [assumption|exact HO]].
        change (p_payload p2) with (p_payload (s_parser _ s) ++ firstn (length x) pl).
        now rewrite Hpl.
  Qed.

  Definition with_payload (f : frame) (pl : list Z) : frame :=
    mkFrame (f_fin f) (f_rsv1 f) (f_rsv2 f) (f_rsv3 f) (f_opcode f) (f_mask f) pl.

  (** The piece that finishes the payload: of a TEXT or BINARY frame only this
      last piece is left. *)
  Lemma pay_done srv mx b s open f got body pl rest fuel :
    InPay srv mx b s open f got body pl -> bytes (got ++ pl) ->
    (f_opcode f = 8 -> length (got ++ pl) <> 1%nat) ->
    let f' := with_payload f (if is_data (f_opcode f) then pl else got ++ pl) in
    if f_opcode f =? 8
    then exists s' evs, stream_loop (S fuel) s (body ++ rest) = SRet _ s' [] evs /\
             s_closed _ s' = true /\ app_view evs = [close_info (got ++ pl)]
    else exists s' evs, stream_loop (S fuel) s (body ++ rest)
                          = emit _ evs (stream_loop fuel s' rest) /\
             Between srv mx b s' (next_open open f') /\ app_view evs = frame_events open f'.
  Proof.
    intros HI Hby Hc8 f'. rewrite (InPay_unfold fuel _ _ _ _ _ _ _ _ _ (body ++ rest) HI).
    destruct HI as (Ha & Hsrv & Hmx & Hb & Hw & Hcl & Hop & Hfin & Hrem & HM & R1 & R2 & R3 & Hsz & HC).
    pose proof (MaskRel_len _ _ _ HM) as Lpl.
    assert (HM0 : MaskRel (p_hdr (s_parser _ s)) (body ++ []) pl) by now rewrite app_nil_r.
    assert (Hrem0 : p_rem (s_parser _ s) = Z.of_nat (length (body ++ []))) by now rewrite app_nil_r.
    destruct (parse_payload_piece (addr_of (body ++ rest)) (s_parser _ s) body [] rest pl Ha Hw Hrem0 HM0)
      as (k' & HP & _).
    { rewrite app_nil_r. destruct (is_data (f_opcode f)).
      - destruct HC as (_ & -> & _). cbn [length]. lia.
      - destruct (f_opcode f =? 0).
        + destruct HC as (o & d & _ & _ & -> & _). cbn [length]. lia.
        + destruct HC as (_ & _ & -> & _). lia. }
    { now left. }
    rewrite firstn_all2 in HP by lia.
    rewrite HP. cbn [length Nat.eqb]. cbv zeta. clear HP.
    set (p2 := set_wsf _ _).
    assert (Q0 : h_opcode (p_hdr p2) = f_opcode f) by exact Hop.
    assert (Q1 : h_fin (p_hdr p2) = f_fin f) by exact Hfin.
    assert (Q3 : payload_complete p2 = true) by reflexivity.
    assert (Q4 : p_max p2 = mx) by exact Hmx.
    assert (Q6 : p_wshs p2 = p_wshs (s_parser _ s)) by reflexivity.
    assert (Q7 : p_payload p2 = p_payload (s_parser _ s) ++ pl) by reflexivity.
    assert (S1 : p_rsv1 p2 = false) by exact R1.
    assert (S2 : p_rsv2 p2 = false) by exact R2.
    assert (S3 : p_rsv3 p2 = false) by exact R3.
    assert (Q5 : p_send_bits p2 = b) by exact Hb.
    assert (QD : p_opcode p2 = p_opcode (s_parser _ s) /\ p_fin p2 = p_fin (s_parser _ s))
      by (split; reflexivity).
    destruct QD as (QD2 & QD3). rewrite <- QD2, <- QD3 in HC.
    clearbody p2. rewrite Q0.
    destruct (is_data (f_opcode f)) eqn:Ed.
    { assert (N7 : (f_opcode f <=? 7) = true) by (unfold is_data in Ed; lia).
      assert (N8 : (f_opcode f =? 8) = false) by (unfold is_data in Ed; lia).
      assert (N0 : (f_opcode f =? 0) = false) by (unfold is_data in Ed; lia).
      rewrite N7, N8. destruct HC as (-> & Hpl & Hpo & Hpf).
      unfold data_frame. cbn [set_parser s_parser]. rewrite Q0, N0, S1.
      unfold splice. cbn [s_parser s_msg s_pmce s_closed app].
      rewrite Q7, Hpl. cbn [app]. rewrite Q4.
      destruct (Z.ltb_spec mx (Z.of_nat (length pl))); [lia|].
      cbn [s_parser]. change (payload_complete (set_payload p2 [] (p_rem p2))) with (payload_complete p2).
      rewrite Q3. cbn [negb].
      unfold frame_done. cbn [s_parser].
      change (p_hdr (set_payload p2 [] (p_rem p2))) with (p_hdr p2).
      change (p_opcode (set_payload p2 [] (p_rem p2))) with (p_opcode p2). rewrite Q0, Q1, Hpo.
      assert (Bd : (f_opcode f =? 0) || (f_opcode f =? 1) || (f_opcode f =? 2) = true)
        by (unfold is_data in Ed; lia). rewrite Bd. cbn [s_msg s_pmce s_closed].
      assert (Nc : is_control (f_opcode f) = false) by (unfold is_control, is_data in *; lia).
      assert (N9 : (f_opcode f =? 9) = false) by (unfold is_data in *; lia).
      assert (N10 : (f_opcode f =? 10) = false) by (unfold is_data in *; lia).
      destruct (f_fin f) eqn:Ef.
      - do 2 eexists. split; [reflexivity|]. split.
        + unfold Between, Rel, next_open, f'. cbn [with_payload f_opcode f_fin f_payload]. rewrite Nc, Ef.
          cbn [set_parser s_parser s_closed s_msg].
          set (p3 := next_frame _).
          assert (Fg : p_fin p3 = true) by exact Hpf.
          split; [|unfold forget_finished; rewrite Fg; split; reflexivity].
          repeat split; auto;
            try solve [unfold accepted, is_server in *; change (p_wshs p3) with (p_wshs p2); now rewrite Q6].
          * unfold open_of. rewrite Fg. reflexivity.
          * unfold forget_finished. rewrite Fg. reflexivity.
        + unfold app_view, frame_events, f'. cbn [with_payload f_opcode f_fin f_payload flat_map view app].
          rewrite N9, N10, Ef. reflexivity.
      - do 2 eexists. split; [reflexivity|]. split.
        + unfold Between, Rel, next_open, f'. cbn [with_payload f_opcode f_fin f_payload]. rewrite Nc, Ef.
          cbn [set_parser s_parser s_closed s_msg].
          set (p3 := next_frame _).
          assert (Fg : p_fin p3 = false) by exact Hpf.
          assert (Fo : p_opcode p3 = f_opcode f) by exact Hpo.
          split; [|unfold forget_finished; rewrite Fg; split; [exact S2|exact S3]].
          repeat split; auto;
            try solve [unfold accepted, is_server in *; change (p_wshs p3) with (p_wshs p2); now rewrite Q6].
          * unfold open_of. rewrite Fg, Fo, N0. reflexivity.
          * unfold forget_finished. rewrite Fg. exact S1.
        + unfold app_view, frame_events, f'. cbn [with_payload f_opcode f_fin f_payload flat_map view app].
          rewrite N9, N10, Ef. reflexivity. }
    destruct (f_opcode f =? 0) eqn:E0.
    { assert (N8 : (f_opcode f =? 8) = false) by lia.
      assert (N7 : (f_opcode f <=? 7) = true) by lia.
      rewrite N8, N7.
      destruct HC as (o & d & -> & Ho & Hpl & Hpo & Hpf & Hmsg & Hsz2).
      unfold data_frame. cbn [set_parser s_parser]. rewrite Q0, E0.
      cbn [set_parser s_parser s_pmce].
      rewrite S1. unfold splice. cbn [s_parser s_msg s_pmce s_closed set_parser].
      rewrite Q4, Hmsg, Q7, Hpl. cbn [app]. rewrite <- app_assoc.
      destruct (Z.ltb_spec mx (Z.of_nat (length (d ++ got ++ pl)))); [rewrite !app_length in *; lia|].
      cbn [s_parser]. change (payload_complete (set_payload p2 [] (p_rem p2))) with (payload_complete p2).
      rewrite Q3. cbn [negb].
      unfold frame_done. cbn [s_parser].
      change (p_hdr (set_payload p2 [] (p_rem p2))) with (p_hdr p2).
      change (p_opcode (set_payload p2 [] (p_rem p2))) with (p_opcode p2). rewrite Q0, Q1, Hpo, E0.
      cbn [orb s_msg s_pmce s_closed].
      assert (Nc : is_control (f_opcode f) = false) by (unfold is_control; lia).
      assert (N9 : (f_opcode f =? 9) = false) by lia.
      assert (N10 : (f_opcode f =? 10) = false) by lia.
      assert (O9 : (o =? 9) = false) by (unfold is_data in *; lia).
      assert (O10 : (o =? 10) = false) by (unfold is_data in *; lia).
      assert (O0 : (o =? 0) = false) by (unfold is_data in *; lia).
      destruct (f_fin f) eqn:Ef.
      - do 2 eexists. split; [reflexivity|]. split.
        + unfold Between, Rel, next_open, f'. cbn [with_payload f_opcode f_fin f_payload]. rewrite Nc, Ef.
          cbn [set_parser s_parser s_closed s_msg].
          set (p3 := next_frame _).
          assert (Fg : p_fin p3 = true) by exact Hpf.
          split; [|unfold forget_finished; rewrite Fg; split; reflexivity].
          repeat split; auto;
            try solve [unfold accepted, is_server in *; change (p_wshs p3) with (p_wshs p2); now rewrite Q6].
          * unfold open_of. rewrite Fg. reflexivity.
          * unfold forget_finished. rewrite Fg. reflexivity.
        + unfold app_view, frame_events, f'. cbn [with_payload f_opcode f_fin f_payload flat_map view app].
          rewrite N9, N10, Ef, O9, O10. reflexivity.
      - do 2 eexists. split; [reflexivity|]. split.
        + unfold Between, Rel, next_open, f'. cbn [with_payload f_opcode f_fin f_payload]. rewrite Nc, Ef.
          cbn [set_parser s_parser s_closed s_msg].
          set (p3 := next_frame _).
          assert (Fg : p_fin p3 = false) by exact Hpf.
          assert (Fo : p_opcode p3 = o) by exact Hpo.
          split; [|unfold forget_finished; rewrite Fg; split; [exact S2|exact S3]].
          repeat split; auto;
            try solve [unfold accepted, is_server in *; change (p_wshs p3) with (p_wshs p2); now rewrite Q6].
          * unfold open_of. rewrite Fg, Fo, O0. reflexivity.
          * unfold forget_finished. rewrite Fg. exact S1.
        + unfold app_view, frame_events, f'. cbn [with_payload f_opcode f_fin f_payload flat_map view app].
          rewrite N9, N10, Ef. reflexivity. }
    destruct HC as (Ec & Hf & Hpl & Hpf & HO).
    assert (N7 : (f_opcode f <=? 7) = false) by (unfold is_control in *; lia).
    rewrite N7.
    cbn [set_parser s_parser s_msg s_pmce s_closed].
    rewrite Q3. cbn [negb]. unfold frame_done. cbn [set_parser s_parser s_msg s_pmce s_closed].
    rewrite Q0, Q1, Hf, Q7, Hpl.
    assert (Nd : (f_opcode f =? 0) || (f_opcode f =? 1) || (f_opcode f =? 2) = false)
      by (unfold is_data in *; lia). rewrite Nd.
    assert (HRel : Between srv mx b
        (mkSession zst (next_frame p2) (s_msg zst s) (s_pmce zst s) (s_closed zst s)) open).
    { unfold Between, Rel. cbn [set_parser s_parser s_closed s_msg].
      set (p3 := next_frame _).
      assert (Fg : p_fin p3 = false) by exact Hpf.
      split; [|unfold forget_finished; rewrite Fg; split; [exact S2|exact S3]].
      split; [unfold accepted in *; change (p_wshs p3) with (p_wshs p2); now rewrite Q6|].
      split; [unfold is_server in *; change (p_wshs p3) with (p_wshs p2); now rewrite Q6|].
      split; [exact Q4|]. split; [exact Q5|]. split; [reflexivity|]. split; [reflexivity|].
      split; [exact Hcl|].
      split.
      - unfold open_of. rewrite Fg. change (p_opcode p3) with (p_opcode p2).
        destruct open as [[o d]|]; cbn [option_map fst].
        + destruct HO as (Ho & -> & _).
          destruct (Z.eqb_spec o 0); [subst; discriminate|reflexivity].
        + destruct HO as (-> & _). reflexivity.
      - split; [unfold forget_finished; rewrite Fg; exact S1|].
        destruct open as [[o d]|]; [destruct HO as (Ho & _ & Hm); split; assumption|apply HO]. }
    destruct (f_opcode f =? 8) eqn:E8.
    { do 2 eexists. split; [reflexivity|]. split; [reflexivity|].
      cbn [app]. unfold app_view. cbn [flat_map]. rewrite app_nil_r. apply (close_info_model zst); auto. apply Hc8. lia. }
    destruct (f_opcode f =? 9) eqn:E9.
    { do 2 eexists. split; [reflexivity|].
      split; [unfold next_open, f'; cbn [with_payload f_opcode]; rewrite Ec; exact HRel|].
      unfold app_view, frame_events, f'. cbn [with_payload f_opcode f_payload flat_map view app]. rewrite E9. reflexivity. }
    destruct (f_opcode f =? 10) eqn:E10.
    { do 2 eexists. split; [reflexivity|].
      split; [unfold next_open, f'; cbn [with_payload f_opcode]; rewrite Ec; exact HRel|].
      unfold app_view, frame_events, f'. cbn [with_payload f_opcode f_payload flat_map view app]. rewrite E9, E10. reflexivity. }
    unfold is_control in Ec. rewrite E8, E9, E10 in Ec. discriminate.
  Qed.

  (** ** The header *)

  Lemma Between_clean srv mx b s open : Between srv mx b s open -> clean' (s_parser _ s).
  Proof.
    intros ((_ & _ & _ & _ & _ & _ & _ & _ & H & _) & H2 & H3). intros _. auto.
  Qed.

  Lemma head_short srv mx b s0 open q d fuel :
    Between srv mx b s0 open -> like q (s_parser _ s0) -> (length d < 2)%nat ->
    stream_loop (S fuel) (set_parser _ s0 q) d
    = SRet _ (set_parser _ s0 (forget_finished q)) d [] /\
    like (forget_finished q) (s_parser _ s0).
  Proof.
    intros ((_ & _ & _ & _ & _ & _ & Hcl & _) & _) HL Ld.
    assert (HL' := HL). destruct HL as (Ha & Hw & _).
    split; [|eapply like_trans; [apply like_forget; auto|exact HL']].
    cbn [WsModel.stream_loop set_parser s_parser s_closed].
    assert (Herr : in_error q = false) by (unfold in_error; now rewrite Hw).
    assert (Hhc : header_complete q = false) by (unfold header_complete; now rewrite Hw).
    rewrite Herr, Hcl, Hhc. cbn [orb]. rewrite parse_header_short by auto. cbv zeta.
    assert (in_error (forget_finished q) = false) as ->
      by (unfold in_error, forget_finished in *; destruct (p_fin _); exact Herr).
    assert (header_complete (forget_finished q) = false) as ->
      by (unfold header_complete, forget_finished in *; destruct (p_fin _); exact Hhc).
    reflexivity.
  Qed.

  (** A frame that is not allowed is refused when two bytes have arrived. *)
  Lemma head_error s0 q p fin r1 r2 r3 op m len7 tail fuel :
    s_closed _ s0 = false ->
    like q p -> open_of p <> Some 0 -> 0 <= op < 16 -> 0 <= len7 < 128 ->
    allowed (is_server p) (negb (p_send_bits p =? 0)) (open_of p) fin r1 r2 r3 op m len7 = false ->
    exists s' evs, stream_loop (S fuel) (set_parser _ s0 q)
        (rfc_octet0 fin r1 r2 r3 op :: octet1 m len7 :: tail) = SRet _ s' [] evs /\
      s_closed _ s' = true /\ app_view evs = [ProtocolError].
  Proof.
    intros Hcl HL Ho Hop Hl Hal.
    destruct (parse_header_like_error q p fin r1 r2 r3 op m len7 tail HL Ho Hop Hl Hal)
      as (q' & HP & He & _ & _).
    destruct HL as (Ha & Hw & _).
    cbn [WsModel.stream_loop set_parser s_parser s_closed].
    assert (Herr : in_error q = false) by (unfold in_error; now rewrite Hw).
    assert (Hhc : header_complete q = false) by (unfold header_complete; now rewrite Hw).
    rewrite Herr, Hcl, Hhc. cbn [orb]. rewrite HP. cbv zeta. rewrite He.
    unfold close_once. cbn [set_parser s_closed]. rewrite Hcl.
    do 2 eexists. split; [reflexivity|]. split; reflexivity.
  Qed.

  (** A header that does not survive being cut. *)
  Lemma broken_header p fin r1 r2 r3 op m len7 l :
    accepted p = true -> p_wsf p = wsf_new ->
    resumable fin op = false ->
    allowed (is_server p) (negb (p_send_bits p =? 0)) (open_of p) fin r1 r2 r3 op m len7 = true ->
    let q := set_hdr (checked p fin r1 r2 r3 op m len7)
                     (mkHdr fin r1 r2 r3 op m len7 (h_key (p_hdr p)) l) in
    like q q /\ open_of q <> Some 0 /\
    allowed (is_server q) (negb (p_send_bits q =? 0)) (open_of q) fin r1 r2 r3 op m len7 = false.
  Proof.
    intros Hacc Hnew Hres Hal q.
    assert (F : p_wshs q = p_wshs p /\ p_wsf q = p_wsf p /\ p_send_bits q = p_send_bits p).
    { unfold q, checked, forget_finished. destruct (p_fin p), (is_data op), ((op =? 0) && fin);
        repeat split. }
    destruct F as (F1 & F2 & F3).
    assert (Hqa : accepted q = true) by (unfold accepted in *; now rewrite F1).
    assert (Hqn : p_wsf q = wsf_new) by congruence.
    split; [apply like_refl; auto|].
    assert (Hal' := Hal). apply andb_true_iff in Hal'. destruct Hal' as [_ Hal'].
    unfold resumable in Hres.
    destruct (is_data op) eqn:Ed.
    - subst fin.
      assert (Hoq : open_of q = Some op).
      { unfold q, checked. rewrite Ed. unfold open_of. cbn [p_fin p_opcode set_hdr set_msg].
        rewrite is_data_not0 by auto. reflexivity. }
      rewrite Hoq. split; [intros [= ->]; discriminate Ed|].
      unfold allowed. rewrite Ed. cbn [andb]. apply andb_false_r.
    - destruct (op =? 0) eqn:E0; [|discriminate Hres]. destruct fin; [|discriminate Hres].
      assert (Hoq : open_of q = None).
      { unfold q, checked. rewrite Ed, E0. cbn [andb]. unfold open_of.
        cbn [p_fin set_hdr set_msg]. reflexivity. }
      rewrite Hoq. split; [congruence|].
      unfold allowed. rewrite Ed, E0. cbn [andb]. apply andb_false_r.
  Qed.

  Definition head (f : frame) (ext key : list Z) : list Z :=
    rfc_octet0 (f_fin f) (f_rsv1 f) (f_rsv2 f) (f_rsv3 f) (f_opcode f)
    :: octet1 (masked_of f) (len7_of (Z.of_nat (length (f_payload f)))) :: ext ++ key.

  Lemma head_part srv mx b s0 open q f ext key n fuel :
    Between srv mx b s0 open -> like q (s_parser _ s0) -> 0 <= f_opcode f < 16 ->
    0 <= len7_of (Z.of_nat (length (f_payload f))) < 128 ->
    length ext = ext_len (len7_of (Z.of_nat (length (f_payload f)))) ->
    length key = key_len (masked_of f) ->
    frame_allowed srv (negb (b =? 0)) (option_map fst open) f = true ->
    (2 <= n < length (head f ext key))%nat ->
    exists q', stream_loop (S fuel) (set_parser _ s0 q) (firstn n (head f ext key))
      = SRet _ (set_parser _ s0 q') (firstn n (head f ext key)) [] /\
      if resumable (f_fin f) (f_opcode f) then like q' (s_parser _ s0)
      else forall tail fuel', exists s' evs, stream_loop (S fuel') (set_parser _ s0 q')
          (rfc_octet0 (f_fin f) (f_rsv1 f) (f_rsv2 f) (f_rsv3 f) (f_opcode f)
           :: octet1 (masked_of f) (len7_of (Z.of_nat (length (f_payload f)))) :: tail)
          = SRet _ s' [] evs /\ s_closed _ s' = true /\ app_view evs = [ProtocolError].
  Proof.
    intros HB HL Hop Hl7 Le Lk Hal Hn.
    pose proof (Between_clean _ _ _ _ _ HB) as Hcl'.
    pose proof (Rel_open _ _ _ _ _ _ (proj1 HB)) as Hopen.
    destruct HB as ((Ha0 & Hsrv & Hmx & Hb & Hw0 & _ & Hcl & Hoo & _) & _).
    assert (HL' := HL). pose proof (like_open _ _ HL) as Ho.
    destruct HL as (Ha & Hw & Hs & Hbb & _).
    assert (Hal2 : allowed (is_server q) (negb (p_send_bits q =? 0)) (open_of q) (f_fin f) (f_rsv1 f)
                     (f_rsv2 f) (f_rsv3 f) (f_opcode f) (masked_of f)
                     (len7_of (Z.of_nat (length (f_payload f)))) = true).
    { rewrite Hs, Hbb, Ho, Hsrv, Hb, Hoo. exact Hal. }
    destruct (parse_header_partial q (f_fin f) (f_rsv1 f) (f_rsv2 f) (f_rsv3 f) (f_opcode f) (masked_of f)
                (len7_of (Z.of_nat (length (f_payload f)))) ext key n Ha Hw) as [l HP]; auto.
    { rewrite Ho. exact Hopen. }
    fold (head f ext key) in HP.
    set (q' := set_hdr _ _) in HP. exists q'.
    assert (F : p_wshs q' = p_wshs q /\ p_wsf q' = p_wsf q /\ p_send_bits q' = p_send_bits q).
    { unfold q', checked, forget_finished.
      destruct (p_fin q), (is_data (f_opcode f)), ((f_opcode f =? 0) && f_fin f); repeat split. }
    destruct F as (F1 & F2 & F3).
    split.
    - cbn [WsModel.stream_loop set_parser s_parser s_closed].
      assert (Herr : in_error q = false) by (unfold in_error; now rewrite Hw).
      assert (Hhc : header_complete q = false) by (unfold header_complete; now rewrite Hw).
      rewrite Herr, Hcl, Hhc. cbn [orb]. rewrite HP. cbv zeta.
      assert (in_error q' = false) as -> by (unfold in_error; now rewrite F2, Hw).
      assert (header_complete q' = false) as -> by (unfold header_complete; now rewrite F2, Hw).
      reflexivity.
    - destruct (resumable (f_fin f) (f_opcode f)) eqn:Hr.
      + eapply like_trans; [|exact HL'].
        eapply like_checked; eauto using clean'_like.
      + intros tail fuel'.
        destruct (broken_header q (f_fin f) (f_rsv1 f) (f_rsv2 f) (f_rsv3 f) (f_opcode f) (masked_of f)
                    (len7_of (Z.of_nat (length (f_payload f)))) l Ha Hw Hr Hal2) as (B1 & B2 & B3).
        eapply head_error; eauto.
  Qed.

  Lemma head_full srv mx b s0 open q f ext key body X fuel :
    Between srv mx b s0 open -> like q (s_parser _ s0) -> 0 <= f_opcode f < 16 ->
    f_rsv1 f = false -> Z.of_nat (length (f_payload f)) <= mx ->
    (f_opcode f = 0 -> olen open + Z.of_nat (length (f_payload f)) <= mx) ->
    0 <= len7_of (Z.of_nat (length (f_payload f))) < 128 ->
    length ext = ext_len (len7_of (Z.of_nat (length (f_payload f)))) ->
    length key = key_len (masked_of f) ->
    payload_len_of (len7_of (Z.of_nat (length (f_payload f)))) ext = Z.of_nat (length (f_payload f)) ->
    length body = length (f_payload f) ->
    (forall h, h_masked h = masked_of f -> (masked_of f = true -> h_key h = load_be key) ->
       MaskRel h body (f_payload f)) ->
    frame_allowed srv (negb (b =? 0)) (option_map fst open) f = true ->
    exists s1, stream_loop (S fuel) (set_parser _ s0 q) (head f ext key ++ X)
               = stream_loop (S fuel) s1 X /\
      InPay srv mx b s1 open f [] body (f_payload f).
  Proof.
    intros HB HL Hop Hr1 Hlen Hlen0 Hl7 Le Lk Hpay Lb Hmask Hal.
    pose proof (Rel_open _ _ _ _ _ _ (proj1 HB)) as Hopen.
    destruct HB as ((Ha0 & Hsrv & Hmx & Hb & Hw0 & Hpl0 & Hcl & Hoo & Hrsv1 & Hmsg) & Hrsv2 & Hrsv3).
    pose proof (like_open _ _ HL) as Ho.
    pose proof (parsed_like q (s_parser _ s0) (f_fin f) (f_rsv1 f) (f_rsv2 f) (f_rsv3 f)
                  (f_opcode f) (masked_of f) (len7_of (Z.of_nat (length (f_payload f))))
                  (payload_len_of (len7_of (Z.of_nat (length (f_payload f)))) ext)
                  (if masked_of f then load_be key else h_key (p_hdr q)) HL) as HPL.
    destruct HL as (Ha & Hw & Hs & Hbb & _).
    pose proof (parse_header_complete q (f_fin f) (f_rsv1 f) (f_rsv2 f) (f_rsv3 f)
                  (f_opcode f) (masked_of f) (len7_of (Z.of_nat (length (f_payload f)))) ext key
                  X Ha Hw) as HP.
    rewrite Ho in HP. specialize (HP Hopen Hop Hl7 Le Lk). cbv zeta in HP.
    unfold frame_allowed in Hal. fold (masked_of f) in Hal.
    rewrite Hs, Hbb, Hsrv, Hb, Hoo, Hal in HP. rewrite HPL in HP. clear HPL.
    set (kk := if masked_of f then load_be key else h_key (p_hdr q)) in *.
    set (p1 := parsed _ _ _ _ _ _ _ _ _ _) in *.
    assert (Edata : head f ext key ++ X
        = rfc_octet0 (f_fin f) (f_rsv1 f) (f_rsv2 f) (f_rsv3 f) (f_opcode f)
        :: octet1 (masked_of f) (len7_of (Z.of_nat (length (f_payload f)))) :: ext ++ key ++ X)
      by (unfold head; cbn [app]; rewrite <- !app_assoc; reflexivity).
    rewrite Edata. clear Edata.
    exists (set_parser _ s0 p1).
    assert (P1 : p_wsf p1 = wsf_header_done) by reflexivity.
    assert (P2' : p_wshs p1 = p_wshs (s_parser _ s0)).
    { unfold p1, parsed in *. cbn [p_wshs set_wsf set_payload set_hdr].
      destruct (is_data (f_opcode f)), ((f_opcode f =? 0) && f_fin f);
        cbn [p_wshs set_msg set_hdr]; unfold forget_finished; destruct (p_fin _); reflexivity. }
    assert (P3 : p_payload p1 = []).
    { unfold p1, parsed in *. cbn [p_payload set_wsf set_payload set_hdr].
      destruct (is_data (f_opcode f)), ((f_opcode f =? 0) && f_fin f);
        cbn [p_payload set_msg set_hdr]; unfold forget_finished; destruct (p_fin _); exact Hpl0. }
    assert (P4 : p_rem p1 = Z.of_nat (length body)).
    { unfold p1, parsed. cbn [p_rem set_wsf set_payload]. rewrite Hpay, Lb. reflexivity. }
    assert (P5 : p_max p1 = mx).
    { unfold p1, parsed in *. cbn [p_max set_wsf set_payload set_hdr].
      destruct (is_data (f_opcode f)), ((f_opcode f =? 0) && f_fin f);
        cbn [p_max set_msg set_hdr]; unfold forget_finished; destruct (p_fin _); exact Hmx. }
    assert (P5' : p_send_bits p1 = b).
    { unfold p1, parsed in *. cbn [p_send_bits set_wsf set_payload set_hdr].
      destruct (is_data (f_opcode f)), ((f_opcode f =? 0) && f_fin f);
        cbn [p_send_bits set_msg set_hdr]; unfold forget_finished; destruct (p_fin _); exact Hb. }
    assert (P6 : p_hdr p1 = mkHdr (f_fin f) (f_rsv1 f) (f_rsv2 f) (f_rsv3 f) (f_opcode f) (masked_of f)
                      (len7_of (Z.of_nat (length (f_payload f)))) kk
                      (payload_len_of (len7_of (Z.of_nat (length (f_payload f)))) ext)) by reflexivity.
    assert (MD : is_data (f_opcode f) = true ->
      p_rsv1 p1 = f_rsv1 f /\ p_rsv2 p1 = f_rsv2 f /\ p_rsv3 p1 = f_rsv3 f /\
      p_opcode p1 = f_opcode f /\ p_fin p1 = f_fin f).
    { intros E. unfold p1, parsed. rewrite E. repeat split. }
    assert (M0 : is_data (f_opcode f) = false -> 
      p_rsv1 p1 = p_rsv1 (forget_finished (s_parser _ s0)) /\
      p_rsv2 p1 = p_rsv2 (forget_finished (s_parser _ s0)) /\
      p_rsv3 p1 = p_rsv3 (forget_finished (s_parser _ s0)) /\
      p_opcode p1 = p_opcode (forget_finished (s_parser _ s0)) /\
      p_fin p1 = (f_opcode f =? 0) && f_fin f).
    { intros E. unfold p1, parsed. rewrite E.
      pose proof (p_fin_forget (s_parser _ s0)).
      destruct ((f_opcode f =? 0) && f_fin f); repeat split. assumption. }
    clearbody p1.
    split.
    - cbn [WsModel.stream_loop set_parser s_parser s_closed].
      assert (Herr : in_error q = false) by (unfold in_error; now rewrite Hw).
      assert (Hhc : header_complete q = false) by (unfold header_complete; now rewrite Hw).
      rewrite Herr, Hcl, Hhc. cbn [orb]. rewrite HP. cbv zeta.
      assert (He1 : in_error p1 = false) by (unfold in_error; now rewrite P1).
      assert (Hh1 : header_complete p1 = true) by (unfold header_complete; now rewrite P1).
      assert (Hp1 : payload_complete p1 = false) by (unfold payload_complete; now rewrite P1).
      rewrite He1, Hh1. cbn [orb]. cbv iota. rewrite He1, Hh1, Hp1. cbn [negb].
      reflexivity.
    - assert (Hal' := Hal). apply andb_true_iff in Hal'. destruct Hal' as [_ Hal'].
      unfold InPay. cbn [set_parser s_parser s_closed s_msg].
      split; [unfold accepted in *; now rewrite P2'|].
      split; [unfold is_server in *; now rewrite P2'|].
      do 3 (split; [assumption|]). split; [exact Hcl|].
      split; [now rewrite P6|]. split; [now rewrite P6|].
      split; [exact P4|].
      split; [apply Hmask; rewrite P6; [reflexivity|]; cbn [h_key]; unfold kk; intros ->; reflexivity|].
      cbn [length Z.of_nat Z.add].
      destruct (is_data (f_opcode f)) eqn:Ed.
      + destruct (MD eq_refl) as (E1 & E2 & E3 & E4 & E5).
        destruct open as [[o d]|]; [discriminate Hal'|]. cbn [option_map] in *.
        apply andb_true_iff in Hal'. destruct Hal' as [Hal' A3].
        apply andb_true_iff in Hal'. destruct Hal' as [_ A2].
        apply negb_true_iff in A2. apply negb_true_iff in A3.
        split; [congruence|]. split; [congruence|]. split; [congruence|]. split; [lia|].
        repeat split; auto.
      + destruct (M0 eq_refl) as (E1 & E2 & E3 & E4 & E5).
        split; [congruence|]. split; [congruence|]. split; [congruence|]. split; [lia|].
        rewrite p_opcode_forget, Hoo in E4.
        destruct (f_opcode f =? 0) eqn:E0.
        * destruct open as [[o d]|]; [|discriminate Hal']. cbn [option_map fst] in *.
          destruct Hmsg as [Hod Hmsg]. exists o, d. rewrite app_nil_r.
          specialize (Hlen0 ltac:(lia)). unfold olen in Hlen0.
          repeat split; auto. lia.
        * destruct (is_control (f_opcode f)) eqn:Ec; [|discriminate Hal'].
          assert (Hfin : f_fin f = true)
            by (destruct (f_fin f); auto; rewrite !andb_false_r in Hal'; discriminate).
          do 4 (split; [auto|]).
          destruct open as [[o d]|]; cbn [option_map fst] in *.
          -- destruct Hmsg; auto.
          -- auto.
  Qed.

  (** ** Positions *)

  Lemma cuts_ge pieces : forall a p, In p (cuts a pieces) -> (a <= p)%nat.
  Proof.
    induction pieces as [|c cs IH]; intros a p H; [destruct H|]. cbn [cuts] in H.
    destruct H as [<-|H]; [lia|]. apply IH in H. lia.
  Qed.

  Lemma in_cuts_in lo hi ps p : In p (cuts_in lo hi ps) <-> In p ps /\ (lo <= p < hi)%nat.
  Proof.
    unfold cuts_in. rewrite filter_In. split; intros [H1 H2]; split; auto.
    - apply andb_true_iff in H2. destruct H2 as [H2 H3].
      apply Nat.leb_le in H2. apply Nat.ltb_lt in H3. lia.
    - apply andb_true_iff. split; [apply Nat.leb_le|apply Nat.ltb_lt]; lia.
  Qed.

  Lemma fold_max_le l : forall a m, (fold_right Nat.max a l <= m)%nat <->
    (a <= m)%nat /\ (forall p, In p l -> (p <= m)%nat).
  Proof.
    induction l as [|x l IH]; intros a m; cbn [fold_right In].
    - split; [intros H; split; [exact H|intros p []]|tauto].
    - rewrite Nat.max_lub_iff, IH. split.
      + intros (H1 & H2 & H3). split; [exact H2|]. intros p [<-|H]; auto.
      + intros (H1 & H2). repeat split; auto.
  Qed.

  Lemma skipn_skipn' (l : list Z) : forall m n, skipn n (skipn m l) = skipn (m + n) l.
  Proof.
    induction l as [|x l IH]; intros m n; [now rewrite !skipn_nil|].
    destruct m; cbn [skipn Nat.add]; [reflexivity|apply IH].
  Qed.

  Lemma fold_max_ge a l : (a <= fold_right Nat.max a l)%nat.
  Proof. exact (proj1 (proj1 (fold_max_le l a _) (Nat.le_refl _))). Qed.

  Lemma fold_max_eq a a' l l' :
    (forall m, ((a <= m)%nat /\ (forall p, In p l -> (p <= m)%nat)) <->
               ((a' <= m)%nat /\ (forall p, In p l' -> (p <= m)%nat))) ->
    fold_right Nat.max a l = fold_right Nat.max a' l'.
  Proof.
    intros H. apply Nat.le_antisymm.
    - apply fold_max_le. apply H. apply fold_max_le. lia.
    - apply fold_max_le. apply H. apply fold_max_le. lia.
  Qed.

  Lemma cuts_in_nil lo hi ps :
    (length (cuts_in lo hi ps) =? 0)%nat = true <-> forall p, In p ps -> ~ (lo <= p < hi)%nat.
  Proof.
    split.
    - intros H p Hp Hr. assert (Hin : In p (cuts_in lo hi ps)) by (apply in_cuts_in; auto).
      destruct (cuts_in lo hi ps); [destruct Hin|discriminate H].
    - intros H. destruct (cuts_in lo hi ps) as [|p l] eqn:E; [reflexivity|].
      exfalso. assert (Hin : In p (cuts_in lo hi ps)) by (rewrite E; now left).
      apply in_cuts_in in Hin. apply (H p); tauto.
  Qed.

  (** Only the set of the cuts inside a frame matters. *)
  Lemma torn_ext f w base ps ps' :
    (forall p, (base < p < base + length w)%nat -> (In p ps <-> In p ps')) ->
    torn f w base ps = torn f w base ps'.
  Proof.
    intros H. unfold torn. f_equal. f_equal.
    apply eq_true_iff_eq. rewrite !cuts_in_nil.
    assert (header_size f w <= length w)%nat by (unfold header_size; lia).
    split; intros HH p Hp Hr; apply (HH p); auto; apply H; auto; lia.
  Qed.

  Lemma kept_ext f w base ps ps' :
    (0 < header_size f w)%nat ->
    (forall p, (base < p < base + length w)%nat -> (In p ps <-> In p ps')) ->
    kept f w base ps = kept f w base ps'.
  Proof.
    intros Hh H. unfold kept. destruct (is_data _); [|reflexivity]. unfold after_last_cut. fold (header_size f w). f_equal. f_equal.
    apply fold_max_eq. intros m.
    split; intros [H1 H2]; split; auto; intros p Hp; apply H2; apply in_cuts_in in Hp;
      apply in_cuts_in; split; try tauto; apply H; tauto || lia.
  Qed.

  Lemma receive_cut_ext srv pmce fs : forall open base ps ps',
    Forall (fun fw => (0 < header_size (fst fw) (snd fw))%nat) fs ->
    (forall p, (base < p)%nat -> (In p ps <-> In p ps')) ->
    receive_cut srv pmce open base ps fs = receive_cut srv pmce open base ps' fs.
  Proof.
    induction fs as [|[f w] r IH]; intros open base ps ps' HF H; [reflexivity|].
    inversion_clear HF. cbn [fst snd] in *. cbn [receive_cut].
    rewrite (torn_ext f w base ps ps') by (intros; apply H; lia).
    rewrite (kept_ext f w base ps ps') by (auto; intros; apply H; lia).
    assert (HI : forall o, receive_cut srv pmce o (base + length w) ps r
                 = receive_cut srv pmce o (base + length w) ps' r)
      by (intros o; apply IH; auto; intros; apply H; lia).
    rewrite !HI. reflexivity.
  Qed.

  Lemma receive_cut_cons srv pm open base ps f w r :
    frame_allowed srv pm (option_map fst open) f = true -> torn f w base ps = false ->
    f_opcode f =? 8 = false ->
    let f' := with_payload f (kept f w base ps) in
    (f_opcode f =? 9 = true \/ f_opcode f =? 10 = true -> kept f w base ps = f_payload f) ->
    receive_cut srv pm open base ps ((f, w) :: r)
    = frame_events open f' ++ receive_cut srv pm (next_open open f') (base + length w) ps r.
  Proof.
    intros Hal Ht E8 f' Hk. cbn [receive_cut]. rewrite Hal, E8, Ht. cbn [negb].
    unfold frame_events, next_open, is_control, f'. cbn [with_payload f_opcode f_fin f_payload]. rewrite E8.
    destruct (f_opcode f =? 9); [rewrite Hk by auto; reflexivity|].
    destruct (f_opcode f =? 10); [rewrite Hk by auto; reflexivity|].
    cbn [orb]. destruct (f_fin f); [|reflexivity].
    destruct open as [[o d]|]; reflexivity.
  Qed.

  (** ** The rest of a payload, in any number of pieces *)

  Lemma chunk_emit s d c cs evs s' tail fuel :
    on_stream s (d ++ c) = emit _ evs (stream_loop fuel s' tail) ->
    header_complete (s_parser _ s') = false -> (length tail < fuel)%nat ->
    on_chunks s d (c :: cs) = emit _ evs (on_chunks s' [] (tail :: cs)).
  Proof.
    intros E Hh Hf. cbn [WsModel.on_chunks app]. rewrite E, stream_enough by auto.
    destruct (on_stream s' tail); cbn [emit]; try reflexivity.
    now rewrite emit_emit.
  Qed.

  Lemma chunk_end s d c cs s' evs :
    on_stream s (d ++ c) = SRet _ s' [] evs -> s_closed _ s' = true ->
    on_chunks s d (c :: cs) = SRet _ s' [] evs.
  Proof.
    intros E Hc. cbn [WsModel.on_chunks]. rewrite E, closed_chunks by auto. cbn [emit].
    now rewrite app_nil_r.
  Qed.

  Lemma Between_header srv mx b s open : Between srv mx b s open -> header_complete (s_parser _ s) = false.
  Proof.
    intros ((_ & _ & _ & _ & Hw & _) & _). unfold header_complete. now rewrite Hw.
  Qed.

  (** How the reception of a frame ends that is allowed and not torn: [res] is
      the whole computation, [pl] what is left of the payload. *)
  Definition Ends (srv : bool) (mx b : Z) (open : option (Z * list Z)) (f : frame)
      (pl rest : list Z) (endp : nat) (ps : list nat) (res : sres zst) : Prop :=
    if f_opcode f =? 8
    then exists s' evs, res = SRet _ s' [] evs /\ app_view evs = [close_info (f_payload f)]
    else exists s' evs tail cs,
      res = emit _ evs (on_chunks s' [] (tail :: cs)) /\
      Between srv mx b s' (next_open open (with_payload f pl)) /\
      app_view evs = frame_events open (with_payload f pl) /\
      tail ++ concat cs = rest /\
      (forall p, (endp < p)%nat -> (In p ps <-> In p (cuts endp (tail :: cs)))).

  Lemma Ends_emit srv mx b open f pl rest endp ps ps' res evs :
    Ends srv mx b open f pl rest endp ps res -> app_view evs = [] ->
    (forall p, (endp < p)%nat -> (In p ps <-> In p ps')) ->
    Ends srv mx b open f pl rest endp ps' (emit _ evs res).
  Proof.
    unfold Ends. intros H Hv Hp. destruct (f_opcode f =? 8).
    - destruct H as (s' & e & -> & He). cbn [emit]. do 2 eexists. split; [reflexivity|].
      rewrite app_view_app, Hv, He. reflexivity.
    - destruct H as (s' & e & tail & cs & -> & HB & He & Hr & Hc). rewrite emit_emit.
      exists s', (evs ++ e), tail, cs. rewrite app_view_app, Hv, He.
      do 4 (split; [auto|]). intros p Hpp. rewrite <- Hp by auto. apply Hc. exact Hpp.
  Qed.

  Lemma pay_end srv mx b s s1 open f got body pl d c tail cs rest endp n :
    InPay srv mx b s1 open f got body pl -> got ++ pl = f_payload f -> frame_ok f ->
    on_stream s (d ++ c) = stream_loop (S n) s1 (body ++ tail) -> (length tail < n)%nat ->
    tail ++ concat cs = rest ->
    Ends srv mx b open f (if is_data (f_opcode f) then pl else f_payload f) rest
         endp (cuts endp (tail :: cs)) (on_chunks s d (c :: cs)).
  Proof.
    intros HI Hgp (Hop & Hby & Hc8) E Hn Er.
    assert (Hby' : bytes (got ++ pl)) by now rewrite Hgp.
    assert (Hc8' : f_opcode f = 8 -> length (got ++ pl) <> 1%nat) by now rewrite Hgp.
    pose proof (pay_done srv mx b s1 open f got body pl tail n HI Hby' Hc8') as HD.
    cbv zeta in HD. rewrite <- E in HD.
    unfold Ends. destruct (f_opcode f =? 8) eqn:E8.
    - destruct HD as (s' & evs & HS & Hcl & Hv).
      exists s', evs. split; [|now rewrite Hv, Hgp].
      apply chunk_end; auto.
    - destruct HD as (s' & evs & HS & HB & Hv). rewrite Hgp in HB, Hv.
      exists s', evs, tail, cs.
      split; [eapply chunk_emit; [exact HS|eapply Between_header; eauto|exact Hn]|].
      do 3 (split; [assumption|]). tauto.
  Qed.

  Lemma keep_step at0 n endp cs (pl : list Z) : (at0 + n < endp)%nat ->
    skipn (fold_right Nat.max at0 (cuts_in at0 endp ((at0 + n)%nat :: cuts (at0 + n) cs)) - at0) pl
    = skipn (fold_right Nat.max (at0 + n)%nat
               (cuts_in (at0 + n) endp (cuts (at0 + n) cs)) - (at0 + n)) (skipn n pl).
  Proof.
    intros Hn. rewrite skipn_skipn'. f_equal.
    replace (fold_right Nat.max at0 (cuts_in at0 endp ((at0 + n)%nat :: cuts (at0 + n) cs)))
      with (fold_right Nat.max (at0 + n)%nat (cuts_in (at0 + n) endp (cuts (at0 + n) cs))).
    - pose proof (fold_max_ge (at0 + n) (cuts_in (at0 + n) endp (cuts (at0 + n) cs))). lia.
    - apply fold_max_eq. intros m. split; intros [H1 H2].
      + split; [lia|]. intros p Hp. apply in_cuts_in in Hp. destruct Hp as [[<-|Hp] Hr]; [exact H1|].
        apply H2. apply in_cuts_in. apply cuts_ge in Hp as Hg. split; [exact Hp|lia].
      + split.
        * apply H2. apply in_cuts_in. split; [now left|]. lia.
        * intros p Hp. apply H2. apply in_cuts_in in Hp. destruct Hp as [Hp Hr].
          apply in_cuts_in. split; [now right|lia].
  Qed.

  Lemma keep_all lo e endp cs (pl : list Z) : (endp <= e)%nat -> 
    skipn (fold_right Nat.max lo (cuts_in lo endp (e :: cuts e cs)) - lo) pl = pl.
  Proof.
    intros He.
    replace (fold_right Nat.max lo (cuts_in lo endp (e :: cuts e cs))) with lo; [now rewrite Nat.sub_diag|].
    apply Nat.le_antisymm; [apply fold_max_ge|].
    apply fold_max_le. split; [lia|]. intros p Hp. apply in_cuts_in in Hp.
    destruct Hp as [Hp Hr]. exfalso.
    assert (e <= p)%nat by (destruct Hp as [<-|Hp]; [lia|apply cuts_ge in Hp; lia]). lia.
  Qed.

  Lemma pay_chunks chunks : forall srv mx b s open f got body pl rest at0,
    InPay srv mx b s open f got body pl -> got ++ pl = f_payload f -> frame_ok f ->
    body <> [] -> concat chunks = body ++ rest ->
    let ps := cuts at0 chunks in
    let endp := (at0 + length body)%nat in
    Ends srv mx b open f
      (if is_data (f_opcode f)
       then skipn (fold_right Nat.max at0 (cuts_in at0 endp ps) - at0) pl else f_payload f)
      rest endp ps (on_chunks s [] chunks).
  Proof.
    induction chunks as [|c cs IH]; intros srv mx b s open f got body pl rest at0 HI Hgp Hok Hnb E ps endp.
    - exfalso. destruct body; [now elim Hnb|discriminate E].
    - cbn [concat] in E.
      assert (Lpl : length pl = length body) by (apply (MaskRel_len (p_hdr (s_parser _ s))); apply HI).
      destruct (le_lt_dec (length body) (length c)) as [L|L].
      + destruct (app_whole body rest c (concat cs) E L) as (tail & E1 & E2).
        unfold ps. cbn [cuts]. rewrite keep_all by (unfold endp; lia).
        replace (at0 + length c)%nat with (endp + length tail)%nat
          by (unfold endp; rewrite E1, app_length; lia).
        assert (HS : on_stream s ([] ++ c) = stream_loop (S (S (length c))) s (body ++ tail))
          by (unfold WsModel.on_stream; cbn [app]; rewrite <- E1; reflexivity).
        assert (Lt : (length tail < S (length c))%nat) by (rewrite E1, app_length; lia).
        pose proof (pay_end srv mx b s s open f got body pl [] c tail cs rest endp (S (length c))
                      HI Hgp Hok HS Lt E2) as HE.
        cbn [cuts] in HE. exact HE.
      + pose proof (app_prefix_firstn body rest c (concat cs) E L) as E1.
        set (y := skipn (length c) body).
        assert (Eb : body = c ++ y) by (rewrite E1 at 1; unfold y; rewrite firstn_skipn; reflexivity).
        assert (Ly : (length c + length y = length body)%nat) by (rewrite Eb, app_length; reflexivity).
        assert (Hy : y <> []) by (intros Ey; rewrite Ey in Ly; cbn [length] in Ly; lia).
        rewrite Eb in HI.
        destruct (pay_partial srv mx b s open f got c y pl (S (length c)) HI Hy) as (s' & evs & HS & Hv & HI').
        assert (E2 : concat cs = y ++ rest).
        { rewrite Eb, <- app_assoc in E. now apply app_inv_head in E. }
        specialize (IH srv mx b s' open f _ y _ rest (at0 + length c)%nat HI').
        rewrite <- app_assoc, firstn_skipn in IH. specialize (IH Hgp Hok Hy E2). cbv zeta in IH.
        cbn [WsModel.on_chunks app]. unfold WsModel.on_stream. rewrite HS.
        replace (at0 + length c + length y)%nat with endp in IH by (unfold endp; lia).
        unfold ps. cbn [cuts]. rewrite keep_step by (unfold endp; lia).
        eapply Ends_emit; [exact IH|exact Hv|].
        intros p Hp. cbn [In]. split; [auto|]. intros [<-|H]; [|exact H].
        unfold endp in Hp. lia.
  Qed.

  (** ** A frame, in any number of pieces *)
  Lemma frame_chunks srv mx b s0 open f w rest base :
    Between srv mx b s0 open -> wire f w -> frame_ok f -> f_rsv1 f = false ->
    Z.of_nat (length (f_payload f)) <= mx ->
    (f_opcode f = 0 -> olen open + Z.of_nat (length (f_payload f)) <= mx) ->
    forall chunks q pend, like q (s_parser _ s0) ->
    (length pend < if frame_allowed srv (negb (b =? 0)%Z) (option_map fst open) f
                   then header_size f w else 2)%nat ->
    pend ++ concat chunks = w ++ rest ->
    let ps := cuts (base + length pend) chunks in
    if frame_allowed srv (negb (b =? 0)) (option_map fst open) f && negb (torn f w base ps)
    then Ends srv mx b open f (kept f w base ps) rest (base + length w) ps
              (on_chunks (set_parser _ s0 q) pend chunks)
    else exists s' evs, on_chunks (set_parser _ s0 q) pend chunks = SRet _ s' [] evs /\
           app_view evs = [ProtocolError].
  Proof.
    intros HB Hw Hok Hr1 Hlen Hlen0.
    destruct (wire_parts f w Hw Hok) as (ext & key & body & Ew & Le & Lk & Hpay & Hl7 & Lb & Hmask).
    assert (Ew' : w = head f ext key ++ body)
      by (rewrite Ew; unfold head; cbn [app]; rewrite <- app_assoc; reflexivity).
    assert (Lw : length w = (length (head f ext key) + length body)%nat) by (rewrite Ew'; apply app_length).
    assert (Hhs : header_size f w = length (head f ext key)) by (unfold header_size; lia).
    assert (H2 : (2 <= length (head f ext key))%nat) by (unfold head; cbn [length]; lia).
    rewrite Hhs.
    pose proof (Rel_open _ _ _ _ _ _ (proj1 HB)) as Hopen.
    assert (Hop := proj1 Hok).
    assert (Hcl : s_closed _ s0 = false) by apply HB.
    assert (HN : forall D R, D ++ R = w ++ rest -> (2 <= length D)%nat -> exists tail,
              D = rfc_octet0 (f_fin f) (f_rsv1 f) (f_rsv2 f) (f_rsv3 f) (f_opcode f)
                  :: octet1 (masked_of f) (len7_of (Z.of_nat (length (f_payload f)))) :: tail).
    { intros D R ED LD. rewrite Ew in ED. destruct D as [|x [|y D]]; cbn [length] in LD; try lia.
      cbn [app] in ED. injection ED as -> -> _. eauto. }
    induction chunks as [|c cs IH]; intros q pend HL Lp E.
    { exfalso. cbn [concat] in E. rewrite app_nil_r in E. rewrite E, app_length in Lp.
      destruct (frame_allowed _ _ _ _); lia. }
    cbn [concat] in E. rewrite app_assoc in E.
    cbn [cuts]. rewrite <- Nat.add_assoc, <- app_length.
    remember (pend ++ c) as D eqn:ED.
    cbv zeta in IH |- *.
    destruct (le_lt_dec 2 (length D)) as [L2|L2].
    2:{ (* fewer than two bytes *)
      destruct (head_short srv mx b s0 open q D (S (length D)) HB HL L2) as (HS & HL').
      specialize (IH (forget_finished q) D HL').
      assert (Lq : (length D < if frame_allowed srv (negb (b =? 0)%Z) (option_map fst open) f
                   then length (head f ext key) else 2)%nat) by (destruct (frame_allowed _ _ _ _); lia).
      specialize (IH Lq E).
      assert (Hst : on_chunks (set_parser zst s0 q) pend (c :: cs)
                    = on_chunks (set_parser zst s0 (forget_finished q)) D cs).
      { cbn [WsModel.on_chunks]. unfold WsModel.on_stream. rewrite <- ED, HS.
        destruct (on_chunks _ D cs); reflexivity. }
      rewrite Hst.
      assert (Ht : torn f w base ((base + length D)%nat :: cuts (base + length D) cs)
                   = torn f w base (cuts (base + length D) cs)).
      { unfold torn. f_equal. f_equal. apply eq_true_iff_eq. rewrite !cuts_in_nil.
        split; intros HH p Hp; [apply HH; now right|]. destruct Hp as [<-|Hp]; [lia|apply HH; exact Hp]. }
      assert (Hk : kept f w base ((base + length D)%nat :: cuts (base + length D) cs)
                   = kept f w base (cuts (base + length D) cs)).
      { unfold kept. destruct (is_data _); [|reflexivity]. unfold after_last_cut. fold (header_size f w). f_equal. f_equal. unfold cuts_in.
        cbn [filter]. rewrite Hhs.
        destruct (Nat.leb_spec (base + length (head f ext key)) (base + length D)); [lia|reflexivity]. }
      rewrite Ht, Hk.
      destruct (frame_allowed srv (negb (b =? 0)) (option_map fst open) f && _); [|exact IH].
      replace (on_chunks (set_parser zst s0 (forget_finished q)) D cs)
        with (emit _ [] (on_chunks (set_parser zst s0 (forget_finished q)) D cs))
        by (destruct (on_chunks _ D cs); reflexivity).
      eapply Ends_emit; [exact IH|reflexivity|].
      intros p Hp. cbn [In]. split; [auto|]. intros [<-|H]; [lia|exact H]. }
    destruct (frame_allowed srv (negb (b =? 0)) (option_map fst open) f) eqn:Hal; cbn [andb].
    2:{ (* not allowed *)
      destruct (HN D (concat cs) E L2) as [tail Et].
      assert (Hal2 : allowed (is_server (s_parser _ s0)) (negb (p_send_bits (s_parser _ s0) =? 0))
                       (open_of (s_parser _ s0)) (f_fin f) (f_rsv1 f)
                     (f_rsv2 f) (f_rsv3 f) (f_opcode f) (masked_of f)
                     (len7_of (Z.of_nat (length (f_payload f)))) = false).
      { destruct HB as ((_ & Hsrv & _ & Hb & _ & _ & _ & Hoo & _) & _).
        rewrite Hsrv, Hb, Hoo. exact Hal. }
      destruct (head_error s0 q (s_parser _ s0) (f_fin f) (f_rsv1 f) (f_rsv2 f) (f_rsv3 f) (f_opcode f)
                  (masked_of f) (len7_of (Z.of_nat (length (f_payload f)))) tail (S (length D)) Hcl HL Hopen Hop Hl7 Hal2)
        as (s' & evs & HS & Hcs & Hv).
      exists s', evs. split; [|exact Hv]. apply chunk_end; [|exact Hcs].
      unfold WsModel.on_stream. rewrite <- ED. rewrite Et at 2. exact HS. }
    destruct (le_lt_dec (length (head f ext key)) (length D)) as [Lh|Lh].
    2:{ (* the header is incomplete *)
      assert (E1 : D = firstn (length D) (head f ext key)).
      { eapply app_prefix_firstn; [|exact Lh]. rewrite E, Ew', <- app_assoc. reflexivity. }
      destruct (head_part srv mx b s0 open q f ext key (length D) (S (length D)) HB HL Hop Hl7 Le Lk Hal
                  (conj L2 Lh)) as (q' & HS & HQ).
      rewrite <- E1 in HS.
      assert (Hst : on_chunks (set_parser zst s0 q) pend (c :: cs)
                    = on_chunks (set_parser zst s0 q') D cs).
      { cbn [WsModel.on_chunks]. unfold WsModel.on_stream. rewrite <- ED, HS.
        destruct (on_chunks _ D cs); reflexivity. }
      rewrite Hst.
      destruct (resumable (f_fin f) (f_opcode f)) eqn:Hres.
      - specialize (IH q' D HQ Lh E). cbn [andb] in IH.
        assert (Ht : forall l, torn f w base l = false) by (intros l; unfold torn; now rewrite Hres).
        rewrite Ht in *. cbn [negb] in *.
        assert (Hk : kept f w base ((base + length D)%nat :: cuts (base + length D) cs)
                     = kept f w base (cuts (base + length D) cs)).
        { unfold kept. destruct (is_data _); [|reflexivity]. unfold after_last_cut. fold (header_size f w). f_equal. f_equal. unfold cuts_in.
          cbn [filter]. rewrite Hhs.
          destruct (Nat.leb_spec (base + length (head f ext key)) (base + length D)); [lia|reflexivity]. }
        rewrite Hk.
        replace (on_chunks (set_parser zst s0 q') D cs)
          with (emit _ [] (on_chunks (set_parser zst s0 q') D cs))
          by (destruct (on_chunks _ D cs); reflexivity).
        eapply Ends_emit; [exact IH|reflexivity|].
        intros p Hp. cbn [In]. split; [auto|]. intros [<-|H]; [lia|exact H].
      - assert (Ht : torn f w base ((base + length D)%nat :: cuts (base + length D) cs) = true).
        { unfold torn. rewrite Hres. cbn [negb andb]. apply negb_true_iff.
          destruct (Nat.eqb _ 0) eqn:En; [|reflexivity]. exfalso.
          rewrite cuts_in_nil in En. apply (En (base + length D)%nat); [now left|]. rewrite Hhs. lia. }
        rewrite Ht. cbn [negb].
        destruct cs as [|c2 cs].
        { exfalso. cbn [concat] in E. rewrite app_nil_r in E. apply (f_equal (@length Z)) in E.
          rewrite app_length in E. lia. }
        cbn [concat] in E. rewrite app_assoc in E.
        destruct (HN (D ++ c2) (concat cs) E) as [tail Et]; [rewrite app_length; lia|].
        destruct (HQ tail (S (length (D ++ c2)))) as (s' & evs & HS2 & Hcs & Hv).
        exists s', evs. split; [|exact Hv]. apply chunk_end; [|exact Hcs].
        unfold WsModel.on_stream. rewrite Et at 2. exact HS2. }
    (* the header is complete *)
    assert (E3 : D ++ concat cs = head f ext key ++ body ++ rest) by (rewrite E, Ew', app_assoc; reflexivity).
    destruct (app_whole (head f ext key) (body ++ rest) D (concat cs) E3 Lh) as (X & EX & EX2).
    assert (LD : length D = (length (head f ext key) + length X)%nat) by (rewrite EX; apply app_length).
    assert (Ht : torn f w base ((base + length D)%nat :: cuts (base + length D) cs) = false).
    { unfold torn. apply andb_false_iff. right. apply negb_false_iff. apply cuts_in_nil.
      intros p Hp. assert (base + length D <= p)%nat by (destruct Hp as [<-|Hp]; [lia|apply cuts_ge in Hp; lia]).
      rewrite Hhs. lia. }
    rewrite Ht. cbn [negb].
    destruct (head_full srv mx b s0 open q f ext key body X (S (length D)) HB HL Hop Hr1 Hlen Hlen0
                Hl7 Le Lk Hpay Lb Hmask Hal) as (s1 & HS & HI).
    rewrite <- EX in HS.
    destruct (le_lt_dec (length body) (length X)) as [Lx|Lx].
    - destruct (app_whole body rest X (concat cs) EX2 Lx) as (tail & Etail & Erest).
      assert (LX : length X = (length body + length tail)%nat) by (rewrite Etail; apply app_length).
      assert (Hk : kept f w base ((base + length D)%nat :: cuts (base + length D) cs) = f_payload f).
      { unfold kept. destruct (is_data _); [|reflexivity]. unfold after_last_cut. fold (header_size f w). rewrite Hhs. apply keep_all. lia. }
      rewrite Hk.
      replace (base + length D)%nat with (base + length w + length tail)%nat by lia.
      replace (f_payload f) with (if is_data (f_opcode f) then f_payload f else f_payload f) at 1
        by (destruct (is_data _); reflexivity).
      assert (HS' : on_stream (set_parser zst s0 q) (pend ++ c)
                    = stream_loop (S (S (length D))) s1 (body ++ tail))
        by (unfold WsModel.on_stream; rewrite <- ED, HS, Etail; reflexivity).
      assert (Lt : (length tail < S (length D))%nat) by lia.
      pose proof (pay_end srv mx b (set_parser zst s0 q) s1 open f [] body (f_payload f) pend c tail cs rest
                (base + length w) (S (length D)) HI eq_refl Hok HS' Lt Erest) as HE.
      cbn [cuts] in HE. exact HE.
    - pose proof (app_prefix_firstn body rest X (concat cs) EX2 Lx) as E1.
      set (y := skipn (length X) body).
      assert (Eb : body = X ++ y) by (rewrite E1 at 1; unfold y; rewrite firstn_skipn; reflexivity).
      assert (Ly : (length X + length y = length body)%nat) by (rewrite Eb, app_length; reflexivity).
      assert (Hy : y <> []) by (intros Ey; rewrite Ey in Ly; cbn [length] in Ly; lia).
      rewrite Eb in HI.
      destruct (pay_partial srv mx b s1 open f [] X y (f_payload f) (S (length D)) HI Hy)
        as (s' & evs & HS2 & Hv & HI').
      assert (E2 : concat cs = y ++ rest).
      { rewrite Eb, <- app_assoc in EX2. now apply app_inv_head in EX2. }
      cbn [app] in HI'.
      pose proof (pay_chunks cs srv mx b s' open f _ y _ rest (base + length D)%nat HI'
                    (firstn_skipn _ _) Hok Hy E2) as HE. cbv zeta in HE.
      replace (base + length D + length y)%nat with (base + length w)%nat in HE by lia.
      assert (Hk : kept f w base ((base + length D)%nat :: cuts (base + length D) cs)
         = if is_data (f_opcode f)
           then skipn (fold_right Nat.max (base + length D)%nat
                        (cuts_in (base + length D) (base + length w) (cuts (base + length D) cs))
                       - (base + length D)) (skipn (length X) (f_payload f))
           else f_payload f).
      { unfold kept. destruct (is_data _); [|reflexivity]. unfold after_last_cut. fold (header_size f w). rewrite Hhs.
        replace (base + length D)%nat with (base + length (head f ext key) + length X)%nat by lia.
        rewrite keep_step by lia. reflexivity. }
      rewrite Hk.
      cbn [WsModel.on_chunks]. unfold WsModel.on_stream. rewrite <- ED, HS, HS2.
      eapply Ends_emit; [exact HE|exact Hv|].
      intros p Hp. cbn [In]. split; [auto|]. intros [<-|H]; [lia|exact H].
  Qed.

  (** ** All frames *)

  Lemma empty_chunks srv mx b open : forall chunks s, Between srv mx b s open -> concat chunks = [] ->
    exists s', on_chunks s [] chunks = SRet _ s' [] [].
  Proof.
    intros chunks. 
    assert (HG : forall s0 q, Between srv mx b s0 open -> like q (s_parser _ s0) -> concat chunks = [] ->
       exists s', on_chunks (set_parser _ s0 q) [] chunks = SRet _ s' [] []).
    { induction chunks as [|c cs IH]; intros s0 q HB HL E.
      - eexists. reflexivity.
      - cbn [concat] in E. apply app_eq_nil in E. destruct E as [-> E].
        destruct (head_short srv mx b s0 open q [] 1 HB HL) as (HS & HL'); [simpl; lia|].
        cbn [WsModel.on_chunks app]. unfold WsModel.on_stream. cbn [length]. rewrite HS.
        destruct (IH s0 _ HB HL' E) as [s' ->]. exists s'. reflexivity. }
    intros s HB E.
    replace s with (set_parser _ s (s_parser _ s)) by (destruct s; reflexivity).
    apply HG; auto. apply like_refl; apply HB.
  Qed.

  (** A shorter message under way fits as well. *)
  Lemma fits_mono mx r : forall n n', n' <= n -> fits mx n r -> fits mx n' r.
  Proof.
    induction r as [|f r IH]; intros n n' Hn H; [exact I|]. cbn [fits] in *.
    destruct H as [H1 H2]. split; [exact H1|].
    destruct (is_data _); [exact H2|]. destruct (f_opcode f =? 0).
    - destruct H2 as [H2 H3]. split; [lia|]. destruct (f_fin f); [exact H3|]. eapply IH; [|exact H3]. lia.
    - eapply IH; eauto.
  Qed.

  Theorem chunks_receive_cut srv mx b fws : 
    Forall (fun fw => wire (fst fw) (snd fw)) fws -> Forall frame_ok (map fst fws) ->
    Forall (fun f => f_rsv1 f = false) (map fst fws) ->
    forall chunks s open base, Between srv mx b s open ->
    fits mx (olen open) (map fst fws) ->
    concat chunks = concat (map snd fws) ->
    exists s' evs, on_chunks s [] chunks = SRet _ s' [] evs /\
      app_view evs = receive_cut srv (negb (b =? 0)) open base (cuts base chunks) fws.
  Proof.
    induction fws as [|[f w] r IH]; intros Hw Hok Hr1 chunks s open base HB Hfit E.
    - destruct (empty_chunks srv mx b open chunks s HB E) as [s' ->]. exists s', []. split; reflexivity.
    - inversion_clear Hw as [|? ? W1 W2]. cbn [map fst snd] in *.
      inversion_clear Hok as [|? ? O1 O2]. inversion_clear Hr1 as [|? ? R1 R2].
      cbn [concat] in E.
      assert (Hlen := proj1 Hfit).
      assert (Hz : f_opcode f = 0 -> olen open + Z.of_nat (length (f_payload f)) <= mx).
      { intros E0. cbn [fits] in Hfit. rewrite E0 in Hfit. cbn [is_data Z.eqb orb] in Hfit. apply Hfit. }
      assert (H2 : forall g v, wire g v -> frame_ok g -> (2 <= header_size g v)%nat).
      { intros g v Wg Og. destruct (wire_parts g v Wg Og) as (ext & key & body & Ew & _ & _ & _ & _ & Lb & _).
        unfold header_size. rewrite Ew. cbn [length]. rewrite !app_length. lia. }
      pose proof (frame_chunks srv mx b s open f w (concat (map snd r)) base HB W1 O1 R1 Hlen Hz
                    chunks (s_parser _ s) [] (like_refl _ (proj1 (proj1 HB)) ltac:(apply HB))) as HF.
      assert (Lp : (length (@nil Z) < if frame_allowed srv (negb (b =? 0)%Z) (option_map fst open) f
                   then header_size f w else 2)%nat)
        by (specialize (H2 f w W1 O1); cbn [length]; destruct (frame_allowed _ _ _ _); lia).
      specialize (HF Lp E). cbv zeta in HF. cbn [length] in HF. rewrite Nat.add_0_r in HF.
      replace (set_parser _ s (s_parser _ s)) with s in HF by (destruct s; reflexivity).
      destruct (frame_allowed srv (negb (b =? 0)) (option_map fst open) f) eqn:Hal.
      2:{ cbn [andb] in HF. destruct HF as (s' & evs & HS & Hv). exists s', evs. split; [exact HS|].
          cbn [receive_cut]. rewrite Hal. exact Hv. }
      cbn [andb] in HF. destruct (torn f w base (cuts base chunks)) eqn:Ht; cbn [negb] in HF.
      { destruct HF as (s' & evs & HS & Hv). exists s', evs. split; [exact HS|].
        cbn [receive_cut]. rewrite Hal, Ht. exact Hv. }
      unfold Ends in HF. destruct (f_opcode f =? 8) eqn:E8.
      { destruct HF as (s' & evs & HS & Hv). exists s', evs. split; [exact HS|].
        cbn [receive_cut]. rewrite Hal, Ht, E8. exact Hv. }
      destruct HF as (s' & evs & tail & cs & HS & HB' & Hv & Er & Hps).
      set (f' := with_payload f (kept f w base (cuts base chunks))) in *.
      assert (Hkl : (length (kept f w base (cuts base chunks)) <= length (f_payload f))%nat).
      { unfold kept, after_last_cut. destruct (is_data _); [rewrite skipn_length; lia|lia]. }
      assert (Hfit' : fits mx (olen (next_open open f')) (map fst r)).
      { assert (Hn : fits mx (olen (next_open open f)) (map fst r)) by (eapply fits_next; eauto).
        eapply fits_mono; [|exact Hn]. unfold next_open, f'. cbn [with_payload f_opcode f_fin f_payload].
        destruct (is_control (f_opcode f)); [lia|]. destruct (f_fin f); [lia|].
        unfold olen. rewrite !app_length. lia. }
      destruct (IH W2 O2 R2 (tail :: cs) s' (next_open open f') (base + length w)%nat HB' Hfit') as (s2 & evs2 & HS2 & Hv2).
      { exact Er. }
      exists s2, (evs ++ evs2). split; [rewrite HS, HS2; reflexivity|].
      rewrite receive_cut_cons; auto.
      + fold f'. rewrite app_view_app, Hv, Hv2. f_equal.
        symmetry. apply receive_cut_ext; [|exact Hps].
        clear -W2 O2 H2. induction r as [|[g v] r IHr]; [constructor|].
        inversion_clear W2. cbn [map fst] in O2. inversion_clear O2. cbn [fst snd] in *.
        constructor; [|auto]. cbn [fst snd]. specialize (H2 g v H H1). lia.
      + intros Hc. unfold kept. destruct (is_data (f_opcode f)) eqn:Ed; [|reflexivity].
        exfalso. unfold is_data in Ed. lia.
  Qed.

  Lemma session_new_Between srv mx b z :
    Between srv mx b (session_new zst (if srv then wshs_s_accepted else wshs_c_accepted) mx b z) None.
  Proof. split; [apply session_new_Rel|]. destruct srv; split; reflexivity. Qed.
End Cut.

  (** Harmless cuts. *)
  Lemma harmless_receive (srv pmce : bool) fws : forall open base ps,
    harmless base ps fws ->
    Forall (fun fw => (2 + length (f_payload (fst fw)) <= length (snd fw))%nat) fws ->
    receive_cut srv pmce open base ps fws = receive srv pmce open (map fst fws).
  Proof.
    induction fws as [|[f w] r IH]; intros open base ps HH HL; [reflexivity|].
    cbn [harmless] in HH. destruct HH as [Hf Hr]. inversion_clear HL as [|? ? L1 L2]. cbn [fst snd] in L1.
    cbn [receive_cut map fst receive].
    assert (Lh : (header_size f w + length (f_payload f) = length w)%nat) by (unfold header_size; lia).
    assert (Ht : torn f w base ps = false).
    { unfold torn. destruct (resumable (f_fin f) (f_opcode f)) eqn:Er; [reflexivity|]. cbn [negb andb].
      apply negb_false_iff. apply cuts_in_nil. intros p Hp Hr'.
      destruct (Hf p Hp) as [H|[[_ H]|[H|[H _]]]]; try lia. congruence. }
    assert (Hk : kept f w base ps = f_payload f).
    { unfold kept. destruct (is_data (f_opcode f)) eqn:Ed; [|reflexivity].
      unfold after_last_cut. fold (header_size f w).
      replace (fold_right _ _ _) with (base + header_size f w)%nat; [now rewrite Nat.sub_diag|].
      apply Nat.le_antisymm; [apply fold_max_ge|]. apply fold_max_le. split; [lia|].
      intros p Hp. apply in_cuts_in in Hp. destruct Hp as [Hp Hr'].
      destruct (Nat.eq_dec p (base + header_size f w)); [lia|].
      destruct (Hf p Hp) as [H|[[H _]|[H|[_ H]]]]; try lia. congruence. }
    rewrite Ht, Hk, !IH by auto. reflexivity.
  Qed.


(** ** End to end *)

Lemma send_cut_events ms : forall srv pm mask ws base ps,
  (srv = true -> forall m, mask m <> None) ->
  Forall sendable ms -> length ws = length ms ->
  receive_cut srv pm None base ps
    (combine (map (fun m => frame_of (Z.lor 128 (fst m)) (mask m) (snd m)) ms) ws)
  = arrives base ps ms ws.
Proof.
  induction ms as [|m ms IH]; intros srv pm mask ws base ps Hm Hs L; [reflexivity|].
  destruct ws as [|w ws]; [discriminate L|]. injection L as L.
  inversion_clear Hs. cbn [map combine]. pose proof (sendable_opcode m H) as Hop.
  rewrite frame_of_fin by auto.
  assert (Hal : frame_allowed srv pm None (mkFrame true false false false (fst m) (mask m) (snd m)) = true).
  { unfold frame_allowed, allowed. cbn [f_fin f_rsv1 f_rsv2 f_rsv3 f_opcode f_mask f_payload].
    assert (negb srv || match mask m with Some _ => true | None => false end = true) as ->.
    { destruct srv; auto. destruct (mask m) eqn:E; auto. destruct (Hm eq_refl m). exact E. }
    destruct H as [[Hd|[Hc Hl]] _].
    - rewrite Hd. reflexivity.
    - assert (is_data (fst m) = false) as -> by (unfold is_data; lia).
      assert (fst m =? 0 = false) as -> by lia.
      assert (is_control (fst m) = true) as -> by (unfold is_control; lia).
      cbn [negb andb]. unfold len7_of. destruct (Z.leb_spec (Z.of_nat (length (snd m))) 125); lia. }
  set (f := mkFrame true false false false (fst m) (mask m) (snd m)) in *.
  assert (Hr : resumable (f_fin f) (f_opcode f) = true).
  { unfold f, resumable. cbn [f_fin f_opcode]. destruct (is_data (fst m)); [reflexivity|].
    assert (fst m =? 0 = false) as -> by lia. reflexivity. }
  assert (Ht : torn f w base ps = false) by (unfold torn; now rewrite Hr).
  cbn [receive_cut option_map]. rewrite Hal, Ht. cbn [negb].
  unfold kept, f. cbn [f_opcode f_payload f_fin app].
  assert (fst m =? 8 = false) as -> by lia.
  destruct m as [op d]. cbn [fst snd arrives] in *.
  destruct (op =? 9) eqn:E9; [now rewrite IH|].
  destruct (op =? 10) eqn:E10; [now rewrite IH|].
  assert (is_data op = true) as -> by (unfold is_data; lia). now rewrite IH.
Qed.

Lemma arrives_whole ms : forall ws base ps, Forall sendable ms ->
  Forall2 (fun m w => (length (snd m) <= length w)%nat) ms ws ->
  whole_payloads base ps ms ws -> arrives base ps ms ws = map delivered ms.
Proof.
  induction ms as [|[op d] ms IH]; intros ws base ps Hs HL HW; [reflexivity|].
  inversion HL as [|? w ? ws' L1 L2]; subst. inversion_clear Hs. cbn [snd] in L1.
  cbn [arrives whole_payloads map] in *. destruct HW as [W1 W2].
  rewrite (IH ws') by auto. f_equal. unfold delivered. cbn [fst snd].
  destruct (op =? 9) eqn:E9; [reflexivity|]. destruct (op =? 10) eqn:E10; [reflexivity|]. f_equal.
  unfold after_last_cut.
  replace (fold_right _ _ _) with (base + (length w - length d))%nat; [now rewrite Nat.sub_diag|].
  apply Nat.le_antisymm; [apply fold_max_ge|]. apply fold_max_le. split; [lia|].
  intros p Hp. apply in_cuts_in in Hp. destruct Hp as [Hp Hr'].
  pose proof (sendable_opcode _ H) as Ho. cbn [fst] in Ho.
  assert (Hd : is_data op = true) by (unfold is_data; lia).
  specialize (W1 Hd p Hp). lia.
Qed.

Section EndToEndCut.
  Variable zst : Type.
  Variable inflate : zst -> list Z -> option (zst * list Z).
  Variable addr_of : list Z -> Z.

  Theorem end_to_end_cut (srv : bool) mx bits z (raw : Z * list Z -> Z -> list Z -> list Z)
          (mask : Z * list Z -> option Z) (ms : list (Z * list Z)) (ws chunks : list (list Z)) :
    (srv = true -> forall m, mask m <> None) ->
    (forall m x d, 0 <= x < 256 -> bytes d -> u64 (Z.of_nat (length d)) ->
        wire (frame_of x (mask m) d) (raw m x d)) ->
    0 <= mx < two32 ->
    Forall sendable ms ->
    Forall (fun m => Z.of_nat (length (snd m)) <= mx) ms ->
    Forall2 (fun m o => ws_send (raw m) (fst m) (snd m) = Ret o) ms ws ->
    concat chunks = concat ws ->
    (exists s' evs,
      on_chunks zst inflate addr_of
        (session_new zst (if srv then wshs_s_accepted else wshs_c_accepted) mx bits z) [] chunks
      = SRet zst s' [] evs /\
      app_view evs = arrives 0 (cuts 0 chunks) ms ws) /\
    Forall2 (fun m w => (length (snd m) <= length w)%nat) ms ws.
  Proof.
    intros Hm Hraw Hmx Hs Hl Hw E.
    set (fr := fun m : Z * list Z => frame_of (Z.lor 128 (fst m)) (mask m) (snd m)).
    assert (Lws : length ws = length ms) by (clear -Hw; induction Hw; cbn [length]; congruence).
    assert (Hwire : Forall2 (fun m w => wire (fr m) w /\ frame_ok (fr m)) ms ws).
    { clear E. revert Hs Hl. induction Hw as [|m o ms os Ho Hos IH]; intros Hs Hl; [constructor|].
      inversion_clear Hs. inversion_clear Hl.
      constructor; [|apply IH; auto].
      assert (Ho' : o = raw m (Z.lor 128 (fst m)) (snd m)).
      { unfold ws_send in Ho. destruct (_ || _); [now injection Ho|].
        destruct (_ || _); [|discriminate]. destruct (125 <? _); [discriminate|]. now injection Ho. }
      subst o. split.
      - apply Hraw.
        + destruct (sendable_opcode m H) as [->|[->|[->| ->]]]; cbn; lia.
        + apply H.
        + unfold u64, two64, two32 in *. lia.
      - pose proof (sendable_opcode m H) as Hop. unfold fr. rewrite frame_of_fin by auto.
        repeat split; cbn [f_opcode f_payload]; try lia. apply H. }
    assert (Emap : map fst (combine (map fr ms) ws) = map fr ms /\
                   map snd (combine (map fr ms) ws) = ws).
    { clear -Lws. revert ws Lws. induction ms as [|m ms IH]; intros [|w ws] L; try discriminate L; [split; reflexivity|].
      injection L as L. destruct (IH ws L) as [E1 E2]. cbn [map combine fst snd]. rewrite E1, E2. split; reflexivity. }
    destruct Emap as [E1 E2].
    split.
    - destruct (chunks_receive_cut zst inflate addr_of srv mx bits (combine (map fr ms) ws))
        with (chunks := chunks) (base := 0%nat) (open := @None (Z * list Z))
             (s := session_new zst (if srv then wshs_s_accepted else wshs_c_accepted) mx bits z)
        as (s' & evs & H1 & H2).
      + clear -Hwire. induction Hwire as [|m w ms ws [H _] Hr IH]; [constructor|]. cbn [map combine].
        constructor; [exact H|exact IH].
      + rewrite E1. clear -Hwire. induction Hwire as [|m w ms ws [_ H] Hr IH]; [constructor|]. cbn [map].
        constructor; [exact H|exact IH].
      + rewrite E1. apply Forall_map. eapply Forall_impl; [|exact Hs]. intros m Hsm.
        pose proof (sendable_opcode m Hsm) as Hop. unfold fr. rewrite frame_of_fin by auto. reflexivity.
      + apply session_new_Between.
      + rewrite E1. apply send_fits; auto.
      + rewrite E2. exact E.
      + exists s', evs. split; [exact H1|]. rewrite H2. apply send_cut_events; auto.
    - clear -Hwire Hs. revert Hs. induction Hwire as [|m w ms ws [H1 H2] Hr IH]; intros Hs; [constructor|].
      inversion_clear Hs as [|? ? S1 S2]. constructor; [|auto].
      destruct (wire_parts (fr m) w H1 H2) as (ext & key & body & Ew & _ & _ & _ & _ & Lb & _).
      pose proof (sendable_opcode m S1) as Hop. unfold fr in Lb. rewrite frame_of_fin in Lb by auto.
      cbn [f_payload] in Lb. rewrite Ew. cbn [length]. rewrite !app_length. lia.
  Qed.
End EndToEndCut.
