(** Proofs about delivering a frame header in several pieces. *)
From Coq Require Import ZArith List Lia Bool ZifyBool ZifyNat Arith.
From Verif Require Import Base BaseLemmas WsModel WsSpec WsMaskProofs WsParseProofs.
Import ListNotations.
Open Scope Z_scope.
Ltac Zify.zify_post_hook ::= Z.div_mod_to_equations.

(** The parser after the opcode check of an allowed frame. *)
Definition checked (p : parser) (fin r1 r2 r3 : bool) (op : Z) (m : bool) (len7 : Z) : parser :=
  let p := set_hdr (forget_finished p)
             (mkHdr fin r1 r2 r3 op m len7 (h_key (p_hdr p)) (h_len (p_hdr p))) in
  if is_data op then set_msg p op r3 r2 r1 fin
  else if (op =? 0) && fin
       then set_msg p (p_opcode p) (p_rsv3 p) (p_rsv2 p) (p_rsv1 p) true
       else p.

Lemma parse_header_checked p fin r1 r2 r3 op m len7 tail :
  accepted p = true -> p_wsf p = wsf_new -> open_of p <> Some 0 ->
  0 <= op < 16 -> 0 <= len7 < 128 ->
  let data := rfc_octet0 fin r1 r2 r3 op :: octet1 m len7 :: tail in
  allowed (is_server p) (negb (p_send_bits p =? 0)) (open_of p) fin r1 r2 r3 op m len7 = true ->
  parse_header p data =
    let p := checked p fin r1 r2 r3 op m len7 in
    match read_len (p_hdr p) data with
    | None => Ret (p, data)
    | Some (h, ntotal) =>
        let p := set_hdr p h in
        match read_key h ntotal data with
        | None => Ret (p, data)
        | Some (h, ntotal) =>
            let p := set_payload (set_hdr p h) (p_payload p) (h_len h) in
            Ret (set_wsf p wsf_header_done, skipn ntotal data)
        end
    end.
Proof.
  intros Hacc Hnew Hopen Hop Hn data Hal.
  assert (Hhc : header_complete p = false) by (unfold header_complete; now rewrite Hnew).
  unfold parse_header. rewrite Hacc, Hhc. cbn [negb]. unfold data.
  fold (word01 fin r1 r2 r3 op m len7). cbv zeta.
  rewrite unpack_word by auto.
  set (p1 := set_hdr (forget_finished p) _).
  assert (Hp1 : p1 = set_hdr (forget_finished p)
               (mkHdr fin r1 r2 r3 op m len7 (h_key (p_hdr p)) (h_len (p_hdr p))))
    by (unfold p1, forget_finished; destruct (p_fin p); reflexivity).
  assert (Hsrv : is_server p1 = is_server p)
    by (unfold p1, forget_finished; destruct (p_fin p); reflexivity).
  assert (Hsb : p_send_bits p1 = p_send_bits p)
    by (unfold p1, forget_finished; destruct (p_fin p); reflexivity).
  rewrite Hsrv. change (h_masked (p_hdr p1)) with m.
  assert (Hal2 : (negb (is_server p) || m)
            && allowed false (negb (p_send_bits p =? 0)) (open_of p) fin r1 r2 r3 op m len7 = true)
    by exact Hal.
  apply andb_true_iff in Hal2. destruct Hal2 as [Hm Hal2].
  assert (is_server p && negb m = false) as -> by (destruct (is_server p), m; auto).
  rewrite (check_opcode_spec p1 fin r1 r2 r3 op m len7 (open_of p)
                   (h_key (p_hdr p)) (h_len (p_hdr p)) Hop Hn).
  - rewrite Hsb, Hal2. rewrite Hp1. unfold checked. cbv zeta. reflexivity.
  - rewrite Hp1. reflexivity.
  - rewrite Hp1. exact (p_opcode_forget p).
  - exact Hopen.
Qed.

Lemma checked_hdr p fin r1 r2 r3 op m len7 :
  p_hdr (checked p fin r1 r2 r3 op m len7)
  = mkHdr fin r1 r2 r3 op m len7 (h_key (p_hdr p)) (h_len (p_hdr p)).
Proof. unfold checked. destruct (is_data op), ((op =? 0) && fin); reflexivity. Qed.

Lemma firstn_cons2 (a b : Z) (s : list Z) n : (2 <= n)%nat ->
  firstn n (a :: b :: s) = a :: b :: firstn (n - 2) s.
Proof. intros H. destruct n as [|[|n]]; try lia. cbn [firstn]. do 3 f_equal. lia. Qed.

Lemma parse_header_partial p fin r1 r2 r3 op m len7 ext key n :
  accepted p = true -> p_wsf p = wsf_new -> open_of p <> Some 0 ->
  0 <= op < 16 -> 0 <= len7 < 128 ->
  length ext = ext_len len7 -> length key = key_len m ->
  allowed (is_server p) (negb (p_send_bits p =? 0)) (open_of p) fin r1 r2 r3 op m len7 = true ->
  let H := rfc_octet0 fin r1 r2 r3 op :: octet1 m len7 :: ext ++ key in
  (2 <= n < length H)%nat ->
  exists l, parse_header p (firstn n H)
    = Ret (set_hdr (checked p fin r1 r2 r3 op m len7)
                   (mkHdr fin r1 r2 r3 op m len7 (h_key (p_hdr p)) l), firstn n H).
Proof.
  intros Hacc Hnew Hopen Hop Hn Le Lk Hal H HnH.
  assert (LH : length H = (2 + length ext + length key)%nat)
    by (unfold H; cbn [length]; rewrite app_length; lia).
  assert (Lf : length (firstn n H) = n) by (apply firstn_length_le; lia).
  pose proof (parse_header_checked p fin r1 r2 r3 op m len7 (firstn (n - 2) (ext ++ key))
                Hacc Hnew Hopen Hop Hn Hal) as HP.
  cbv zeta in HP. rewrite <- firstn_cons2 in HP by lia. fold H in HP. rewrite HP. clear HP.
  rewrite checked_hdr. unfold read_len. cbn [h_res1]. rewrite Lf.
  assert (Hself : forall q, set_hdr (checked p fin r1 r2 r3 op m len7)
                    (mkHdr fin r1 r2 r3 op m len7 (h_key (p_hdr p)) (h_len (p_hdr p))) = q ->
                  checked p fin r1 r2 r3 op m len7 = q).
  { intros q <-. rewrite <- (checked_hdr p fin r1 r2 r3 op m len7).
    destruct (checked p fin r1 r2 r3 op m len7); reflexivity. }
  unfold ext_len in Le. unfold key_len in Lk.
  destruct (Z.leb_spec len7 125).
  - unfold read_key. cbn [h_masked set_len]. destruct m; [|lia].
    rewrite Lf. destruct (Nat.ltb_spec n (2 + 4)); [|lia].
    eexists. reflexivity.
  - destruct (Z.eqb_spec len7 126).
    + destruct (Nat.ltb_spec n 4).
      * exists (h_len (p_hdr p)). f_equal. f_equal. apply Hself. reflexivity.
      * unfold read_key. cbn [h_masked set_len]. destruct m; [|lia].
        rewrite Lf. destruct (Nat.ltb_spec n (4 + 4)); [|lia].
        eexists. reflexivity.
    + destruct (Nat.ltb_spec n 10).
      * exists (h_len (p_hdr p)). f_equal. f_equal. apply Hself. reflexivity.
      * unfold read_key. cbn [h_masked set_len]. destruct m; [|lia].
        rewrite Lf. destruct (Nat.ltb_spec n (10 + 4)); [|lia].
        eexists. reflexivity.
Qed.

Lemma parse_header_short p d : accepted p = true -> p_wsf p = wsf_new ->
  (length d < 2)%nat -> parse_header p d = Ret (forget_finished p, d).
Proof.
  intros Hacc Hnew L. unfold parse_header, header_complete. rewrite Hacc, Hnew. cbn [negb].
  destruct d as [|a [|b d]]; try reflexivity. simpl in L; lia.
Qed.

Lemma parse_header_done p d : accepted p = true -> header_complete p = true ->
  parse_header p d = Ret (p, d).
Proof. intros Hacc H. unfold parse_header. now rewrite Hacc, H. Qed.

(** ** Feeding pieces *)

Lemma feed_done cs : forall p d, accepted p = true -> header_complete p = true ->
  feed p d cs = Ret (p, d ++ concat cs).
Proof.
  induction cs as [|c cs IH]; intros p d Ha Hc; cbn [feed concat].
  - now rewrite app_nil_r.
  - rewrite parse_header_done by auto. rewrite IH by auto. now rewrite app_assoc.
Qed.

Lemma is_data_not0 op : is_data op = true -> (op =? 0) = false.
Proof. unfold is_data. lia. Qed.

Definition clean (p : parser) : Prop :=
  (p_fin p = true \/ p_opcode p = 0) -> 
  p_rsv1 (forget_finished p) = false /\ p_rsv2 (forget_finished p) = false
  /\ p_rsv3 (forget_finished p) = false.

Lemma forget_set_hdr p h : forget_finished (set_hdr p h) = set_hdr (forget_finished p) h.
Proof. unfold forget_finished. cbn [p_fin set_hdr]. destruct (p_fin p); reflexivity. Qed.

(** After a partial delivery of a resumable, allowed header the parser is as
    good as new: its context equals that before, up to forgetting. *)
Lemma checked_forget p fin r1 r2 r3 op m len7 srv pmce :
  clean p ->
  allowed srv pmce (open_of p) fin r1 r2 r3 op m len7 = true ->
  resumable fin op = true ->
  forget_finished (checked p fin r1 r2 r3 op m len7)
  = set_hdr (forget_finished p) (p_hdr (checked p fin r1 r2 r3 op m len7)).
Proof.
  intros Hc Hal Hr. unfold resumable in Hr.
  apply andb_true_iff in Hal. destruct Hal as [_ Hal].
  unfold checked. destruct (is_data op) eqn:Ed.
  - subst fin. unfold forget_finished at 1. cbn [p_fin set_msg].
    destruct (open_of p) eqn:Eo; [discriminate Hal|].
    assert (Hf : p_fin p = true \/ p_opcode p = 0).
    { unfold open_of in Eo. destruct (p_fin p); auto.
      destruct (Z.eqb_spec (p_opcode p) 0); auto; discriminate. }
    destruct (Hc Hf) as (E1 & E2 & E3).
    assert (E4 : p_opcode (forget_finished p) = 0) by (rewrite p_opcode_forget, Eo; reflexivity).
    pose proof (p_fin_forget p) as E5.
    destruct (forget_finished p). cbn in E1, E2, E3, E4, E5. subst. reflexivity.
  - destruct (op =? 0) eqn:E0.
    + destruct fin; [discriminate Hr|]. cbn [andb p_hdr set_hdr].
      rewrite forget_set_hdr, forget_idem. reflexivity.
    + cbn [andb]. cbn [p_hdr set_hdr]. rewrite forget_set_hdr, forget_idem. reflexivity.
Qed.

(** Two parsers [q] that behave like [p] on the next header. *)
Definition like (q p : parser) : Prop :=
  accepted q = true /\ p_wsf q = wsf_new /\ is_server q = is_server p /\
  p_send_bits q = p_send_bits p /\
  exists h, h_key h = h_key (p_hdr p) /\ p_hdr q = h /\
            forget_finished q = set_hdr (forget_finished p) h.

Lemma open_of_forget p : open_of p = open_of (forget_finished p).
Proof.
  unfold forget_finished. destruct (p_fin p) eqn:E; [|reflexivity].
  unfold open_of. rewrite E. reflexivity.
Qed.

Lemma open_of_set_hdr p h : open_of (set_hdr p h) = open_of p.
Proof. reflexivity. Qed.

Lemma like_open q p : like q p -> open_of q = open_of p.
Proof.
  intros (_ & _ & _ & _ & h & _ & _ & E). rewrite (open_of_forget q), E, open_of_set_hdr.
  symmetry. apply open_of_forget.
Qed.

Lemma parsed_checked p fin r1 r2 r3 op m len7 len key :
  parsed p fin r1 r2 r3 op m len7 len key
  = let c := checked p fin r1 r2 r3 op m len7 in
    set_wsf (set_payload (set_hdr c (mkHdr fin r1 r2 r3 op m len7 key len)) (p_payload c) len)
            wsf_header_done.
Proof. reflexivity. Qed.

Lemma parsed_like q p fin r1 r2 r3 op m len7 len key :
  like q p ->
  parsed q fin r1 r2 r3 op m len7 len key = parsed p fin r1 r2 r3 op m len7 len key.
Proof.
  intros (_ & _ & _ & _ & h & Hk & Hh & E). unfold parsed. rewrite Hh, E.
  destruct (is_data op), ((op =? 0) && fin); reflexivity.
Qed.

Lemma like_refl p : accepted p = true -> p_wsf p = wsf_new -> like p p.
Proof.
  intros Ha Hw. repeat split; auto. exists (p_hdr p). repeat split.
  unfold forget_finished; destruct (p_fin p); destruct p; reflexivity.
Qed.

Lemma like_trans r q p : like r q -> like q p -> like r p.
Proof.
  intros (A1 & A2 & A3 & A4 & h & Hk & Hh & E) (B1 & B2 & B3 & B4 & h' & Hk' & Hh' & E').
  repeat split; auto; try congruence.
  exists h. repeat split; auto; try congruence.
  rewrite E, E'. reflexivity.
Qed.

Lemma like_forget p : accepted p = true -> p_wsf p = wsf_new -> like (forget_finished p) p.
Proof.
  intros Ha Hw. repeat split.
  - unfold accepted in *. unfold forget_finished; destruct (p_fin p); exact Ha.
  - unfold forget_finished; destruct (p_fin p); exact Hw.
  - unfold forget_finished; destruct (p_fin p); reflexivity.
  - unfold forget_finished; destruct (p_fin p); reflexivity.
  - exists (p_hdr p). repeat split.
    + unfold forget_finished; destruct (p_fin p); reflexivity.
    + rewrite forget_idem. unfold forget_finished; destruct (p_fin p); destruct p; reflexivity.
Qed.

(** [clean] only speaks about the state after forgetting. *)
Definition clean' (p : parser) : Prop :=
  p_opcode (forget_finished p) = 0 ->
  p_rsv1 (forget_finished p) = false /\ p_rsv2 (forget_finished p) = false
  /\ p_rsv3 (forget_finished p) = false.

Lemma clean'_clean p : clean' p -> clean p.
Proof.
  intros H Hf. apply H. unfold forget_finished. destruct (p_fin p) eqn:E; [reflexivity|].
  destruct Hf; [discriminate|auto].
Qed.

Lemma clean'_like q p : like q p -> clean' p -> clean' q.
Proof.
  intros (_ & _ & _ & _ & h & _ & _ & E) H. unfold clean'. rewrite E. exact H.
Qed.

Lemma like_checked p fin r1 r2 r3 op m len7 srv pmce l :
  accepted p = true -> p_wsf p = wsf_new -> clean' p ->
  allowed srv pmce (open_of p) fin r1 r2 r3 op m len7 = true ->
  resumable fin op = true ->
  like (set_hdr (checked p fin r1 r2 r3 op m len7)
                (mkHdr fin r1 r2 r3 op m len7 (h_key (p_hdr p)) l)) p.
Proof.
  intros Ha Hw Hc Hal Hr.
  assert (F : p_wshs (checked p fin r1 r2 r3 op m len7) = p_wshs p /\
              p_wsf (checked p fin r1 r2 r3 op m len7) = p_wsf p /\
              p_send_bits (checked p fin r1 r2 r3 op m len7) = p_send_bits p).
  { unfold checked, forget_finished. destruct (p_fin p), (is_data op), ((op =? 0) && fin);
      repeat split. }
  destruct F as (F1 & F2 & F3).
  repeat split.
  - unfold accepted in *. cbn [p_wshs set_hdr]. now rewrite F1.
  - cbn [p_wsf set_hdr]. congruence.
  - unfold is_server. cbn [p_wshs set_hdr]. now rewrite F1.
  - exact F3.
  - eexists. split; [|split; [reflexivity|]].
    + reflexivity.
    + rewrite forget_set_hdr.
      rewrite (checked_forget p fin r1 r2 r3 op m len7 srv pmce (clean'_clean p Hc) Hal Hr).
      reflexivity.
Qed.

(** *** Errors are found from the first two octets *)
Lemma parse_header_like_error q p fin r1 r2 r3 op m len7 tail :
  like q p -> open_of p <> Some 0 -> 0 <= op < 16 -> 0 <= len7 < 128 ->
  allowed (is_server p) (negb (p_send_bits p =? 0)) (open_of p) fin r1 r2 r3 op m len7 = false ->
  let data := rfc_octet0 fin r1 r2 r3 op :: octet1 m len7 :: tail in
  exists q', parse_header q data = Ret (q', data) /\ in_error q' = true /\
       accepted q' = true /\
       p_err q' = Some (err_of (is_server p) (negb (p_send_bits p =? 0)) (open_of p)
                               fin r1 r2 r3 op m len7).
Proof.
  intros HL Hopen Hop Hn Hal data.
  pose proof (like_open _ _ HL) as Ho.
  destruct HL as (Hacc & Hnew & Hsrv & Hsb & _).
  assert (Hhc : header_complete q = false) by (unfold header_complete; now rewrite Hnew).
  unfold parse_header. rewrite Hacc, Hhc. cbn [negb]. unfold data.
  fold (word01 fin r1 r2 r3 op m len7). cbv zeta.
  rewrite unpack_word by auto.
  set (p1 := set_hdr (forget_finished q) _).
  assert (Hw1 : p_wshs p1 = p_wshs q)
    by (unfold p1, forget_finished; destruct (p_fin q); reflexivity).
  assert (Hsrv1 : is_server p1 = is_server q) by (unfold is_server; now rewrite Hw1).
  assert (Hsb1 : p_send_bits p1 = p_send_bits q)
    by (unfold p1, forget_finished; destruct (p_fin q); reflexivity).
  assert (Hac : forall e, accepted (set_error p1 e) = true).
  { intros e. unfold accepted in *. cbn [p_wshs set_error]. now rewrite Hw1. }
  rewrite Hsrv1, Hsrv. change (h_masked (p_hdr p1)) with m.
  assert (Hal2 : (negb (is_server p) || m)
            && allowed false (negb (p_send_bits p =? 0)) (open_of p) fin r1 r2 r3 op m len7 = false)
    by exact Hal.
  destruct (is_server p && negb m) eqn:Esm.
  - eexists. split; [reflexivity|]. repeat split; auto.
    cbn [p_err set_error]. unfold err_of. now rewrite Esm.
  - assert (negb (is_server p) || m = true) as E by (destruct (is_server p), m; auto).
    rewrite E in Hal2. cbn [andb] in Hal2.
    rewrite (check_opcode_spec p1 fin r1 r2 r3 op m len7 (open_of p)
                   (h_key (p_hdr (forget_finished q))) (h_len (p_hdr (forget_finished q))) Hop Hn).
    + rewrite Hsb1, Hsb, Hal2. eexists. split; [reflexivity|]. repeat split; auto.
      cbn [p_err set_error]. unfold err_of. now rewrite Esm.
    + reflexivity.
    + unfold p1. cbn [p_opcode set_hdr]. rewrite p_opcode_forget, Ho. reflexivity.
    + exact Hopen.
Qed.

Lemma prefix_cases (H : list Z) (d tail : list Z) :
  (exists rest, d = H ++ rest) \/ (length d < length H)%nat \/
  firstn (length H) d <> H.
Proof.
  destruct (le_lt_dec (length H) (length d)) as [L|L]; [|auto].
  destruct (list_eq_dec Z.eq_dec (firstn (length H) d) H) as [E|E]; [|auto].
  left. exists (skipn (length H) d). rewrite <- E at 1. symmetry; apply firstn_skipn.
Qed.

Lemma app_prefix_firstn (H rest d c : list Z) : d ++ c = H ++ rest ->
  (length d < length H)%nat -> d = firstn (length d) H.
Proof.
  intros E L. assert (E2 : firstn (length d) (d ++ c) = firstn (length d) (H ++ rest)) by now rewrite E.
  rewrite firstn_app, firstn_all, Nat.sub_diag, firstn_O, app_nil_r in E2.
  rewrite firstn_app in E2. replace (length d - length H)%nat with 0%nat in E2 by lia.
  rewrite firstn_O, app_nil_r in E2. exact E2.
Qed.

Lemma app_whole (H rest d c : list Z) : d ++ c = H ++ rest ->
  (length H <= length d)%nat -> exists r1, d = H ++ r1 /\ r1 ++ c = rest.
Proof.
  intros E L. exists (skipn (length H) d).
  assert (E2 : firstn (length H) (d ++ c) = firstn (length H) (H ++ rest)) by now rewrite E.
  rewrite firstn_app in E2. replace (length H - length d)%nat with 0%nat in E2 by lia.
  rewrite firstn_O, app_nil_r in E2. rewrite firstn_app, firstn_all, Nat.sub_diag, firstn_O, app_nil_r in E2.
  split. rewrite <- E2 at 1. symmetry; apply firstn_skipn.
  assert (E3 : skipn (length H) (d ++ c) = skipn (length H) (H ++ rest)) by now rewrite E.
  rewrite skipn_app in E3. replace (length H - length d)%nat with 0%nat in E3 by lia.
  rewrite skipn_app, skipn_all, Nat.sub_diag in E3. cbn [skipn app] in E3. exact E3.
Qed.

(** The positive theorem: any number of pieces, cut anywhere. *)
Theorem feed_resumable p fin r1 r2 r3 op m len7 ext key rest :
  accepted p = true -> p_wsf p = wsf_new -> open_of p <> Some 0 -> clean' p ->
  0 <= op < 16 -> 0 <= len7 < 128 ->
  length ext = ext_len len7 -> length key = key_len m ->
  resumable fin op = true ->
  allowed (is_server p) (negb (p_send_bits p =? 0)) (open_of p) fin r1 r2 r3 op m len7 = true ->
  let H := rfc_octet0 fin r1 r2 r3 op :: octet1 m len7 :: ext ++ key in
  forall pieces, concat pieces = H ++ rest ->
  feed p [] pieces = parse_header p (H ++ rest).
Proof.
  intros Hacc Hnew Hopen Hcl Hop Hn Le Lk Hres Hal H pieces Hcat.
  assert (Hmain : forall q pend pieces, like q p -> (length pend < length H)%nat ->
             pend ++ concat pieces = H ++ rest ->
             feed q pend pieces = parse_header p (H ++ rest)).
  { clear pieces Hcat. intros q pend pieces; revert q pend.
    assert (Hfull : forall q r, like q p -> parse_header q (H ++ r)
       = Ret (parsed p fin r1 r2 r3 op m len7 (payload_len_of len7 ext)
                (if m then load_be key else h_key (p_hdr p)), r)).
    { intros q r HL. pose proof (like_open _ _ HL) as Ho.
      pose proof (parsed_like q p fin r1 r2 r3 op m len7) as HPL.
      assert (HL' := HL).
      destruct HL as (Ha & Hw & Hs & Hb & h & Hk & Hh & Hf).
      pose proof (parse_header_complete q fin r1 r2 r3 op m len7 ext key r Ha Hw) as HP.
      rewrite Ho in HP. specialize (HP Hopen Hop Hn Le Lk). cbv zeta in HP.
      rewrite Hs, Hb, Hal in HP.
      unfold H. cbn [app]. rewrite <- app_assoc. rewrite HP.
      rewrite HPL by auto. rewrite Hh, Hk. reflexivity. }
    induction pieces as [|c cs IH]; intros q pend HL Lp E; cbn [feed concat] in *.
    - exfalso. rewrite app_nil_r in E. apply (f_equal (@length Z)) in E.
      rewrite app_length in E. lia.
    - rewrite app_assoc in E.
      destruct (le_lt_dec (length H) (length (pend ++ c))) as [Lw|Lw].
      + destruct (app_whole H rest (pend ++ c) (concat cs) E Lw) as (r1' & E1 & E2).
        rewrite E1, Hfull by auto. rewrite feed_done.
        * rewrite Hfull by (apply like_refl; auto). now rewrite E2.
        * unfold parsed, accepted. cbn [p_wshs set_wsf set_payload set_hdr].
          unfold accepted in Hacc.
          destruct (is_data op), ((op =? 0) && fin); cbn [p_wshs set_msg set_hdr];
            unfold forget_finished; destruct (p_fin p); exact Hacc.
        * reflexivity.
      + pose proof (app_prefix_firstn H rest (pend ++ c) (concat cs) E Lw) as E1.
        destruct (le_lt_dec 2 (length (pend ++ c))) as [L2|L2].
        * assert (HL' := HL). pose proof (like_open _ _ HL) as Ho.
          destruct HL as (Ha & Hw & Hs & Hb & h & Hk & Hh & Hf).
          destruct (parse_header_partial q fin r1 r2 r3 op m len7 ext key (length (pend ++ c)))
            as [l Hpp]; auto.
          -- rewrite Ho. exact Hopen.
          -- rewrite Ho, Hs, Hb. exact Hal.
          -- fold H in Hpp. rewrite <- E1 in Hpp. rewrite Hpp.
             apply IH; auto.
             eapply like_trans; [|exact HL'].
             eapply like_checked; eauto using clean'_like.
             rewrite Ho. exact Hal.
        * assert (HL' := HL). destruct HL as (Ha & Hw & Hs & Hb & h & Hk & Hh & Hf).
          rewrite parse_header_short by auto. apply IH; auto.
          eapply like_trans; [apply like_forget; auto|exact HL']. }
  apply Hmain; auto. apply like_refl; auto. simpl; lia.
Qed.

Lemma feed_error_stuck p fin r1 r2 r3 op m len7 rest0 :
  accepted p = true -> p_wsf p = wsf_new -> open_of p <> Some 0 ->
  0 <= op < 16 -> 0 <= len7 < 128 ->
  allowed (is_server p) (negb (p_send_bits p =? 0)) (open_of p) fin r1 r2 r3 op m len7 = false ->
  let H := [rfc_octet0 fin r1 r2 r3 op; octet1 m len7] in
  forall pieces, concat pieces = H ++ rest0 ->
  exists p' d, feed p [] pieces = Ret (p', d) /\ in_error p' = true /\
    p_err p' = Some (err_of (is_server p) (negb (p_send_bits p =? 0)) (open_of p)
                            fin r1 r2 r3 op m len7).
Proof.
  intros Hacc Hnew Hopen Hop Hn Hal H pieces Hcat.
  assert (Hmain : forall pieces q pend, like q p -> (length pend < 2)%nat ->
             pend ++ concat pieces = H ++ rest0 ->
             exists p' d, feed q pend pieces = Ret (p', d) /\ in_error p' = true /\
    p_err p' = Some (err_of (is_server p) (negb (p_send_bits p =? 0)) (open_of p)
                            fin r1 r2 r3 op m len7)).
  { clear pieces Hcat. induction pieces as [|c cs IH]; intros q pend HL Lp E; cbn [feed concat] in *.
    - exfalso. rewrite app_nil_r in E. apply (f_equal (@length Z)) in E. simpl in E. lia.
    - rewrite app_assoc in E.
      destruct (le_lt_dec 2 (length (pend ++ c))) as [Lw|Lw].
      + destruct (app_whole H rest0 (pend ++ c) (concat cs) E Lw) as (r1' & E1 & E2).
        destruct (parse_header_like_error q p fin r1 r2 r3 op m len7 r1' HL Hopen Hop Hn Hal)
          as (q' & Hq & He & Ha' & Hd).
        cbv zeta in Hq. rewrite E1. cbn [app H]. rewrite Hq.
        rewrite feed_done; auto.
        * eauto.
        * unfold in_error in He. unfold header_complete. destruct (p_wsf q'); auto; discriminate.
      + assert (HL' := HL). destruct HL as (Ha & Hw & Hs & Hb & h & Hk & Hh & Hf).
        rewrite parse_header_short by auto. apply IH; auto.
        eapply like_trans; [apply like_forget; auto|exact HL']. }
  apply Hmain; auto. apply like_refl; auto.
Qed.

(** The negative theorem: a header that is not resumable is refused whenever the
    first piece holds at least its first two octets but not all of it. *)
Theorem feed_not_resumable p fin r1 r2 r3 op m len7 ext key rest n :
  accepted p = true -> p_wsf p = wsf_new -> open_of p <> Some 0 ->
  0 <= op < 16 -> 0 <= len7 < 128 ->
  length ext = ext_len len7 -> length key = key_len m ->
  resumable fin op = false ->
  allowed (is_server p) (negb (p_send_bits p =? 0)) (open_of p) fin r1 r2 r3 op m len7 = true ->
  let H := rfc_octet0 fin r1 r2 r3 op :: octet1 m len7 :: ext ++ key in
  (2 <= n < length H)%nat ->
  exists p' d, feed p [] [firstn n H; skipn n H ++ rest] = Ret (p', d) /\ in_error p' = true.
Proof.
  intros Hacc Hnew Hopen Hop Hn Le Lk Hres Hal H HnH.
  destruct (parse_header_partial p fin r1 r2 r3 op m len7 ext key n
              Hacc Hnew Hopen Hop Hn Le Lk Hal HnH) as [l Hpp].
  fold H in Hpp. cbn [feed app]. rewrite Hpp.
  set (q := set_hdr (checked p fin r1 r2 r3 op m len7) _).
  assert (E : firstn n H ++ skipn n H ++ rest
              = rfc_octet0 fin r1 r2 r3 op :: octet1 m len7 :: ext ++ key ++ rest).
  { rewrite app_assoc, firstn_skipn. unfold H. cbn [app]. now rewrite <- app_assoc. }
  rewrite E.
  assert (F : p_wshs q = p_wshs p /\ p_wsf q = p_wsf p /\ p_send_bits q = p_send_bits p).
  { unfold q, checked, forget_finished. destruct (p_fin p), (is_data op), ((op =? 0) && fin);
      repeat split. }
  destruct F as (F1 & F2 & F3).
  assert (Hqa : accepted q = true) by (unfold accepted in *; now rewrite F1).
  assert (Hqs : is_server q = is_server p) by (unfold is_server; now rewrite F1).
  assert (Hqn : p_wsf q = wsf_new) by congruence.
  assert (Hal' := Hal). apply andb_true_iff in Hal'. destruct Hal' as [_ Hal'].
  assert (Hq : open_of q <> Some 0 /\
      allowed (is_server q) (negb (p_send_bits q =? 0)) (open_of q) fin r1 r2 r3 op m len7 = false).
  { unfold resumable in Hres.
    destruct (is_data op) eqn:Ed.
    - subst fin.
      assert (Hoq : open_of q = Some op).
      { unfold q, checked. rewrite Ed. unfold open_of. cbn [p_fin p_opcode set_hdr set_msg].
        rewrite is_data_not0 by auto. reflexivity. }
      rewrite Hoq. split; [intros [= ->]; discriminate Ed|].
      unfold allowed. rewrite Ed. cbn [andb]. apply andb_false_r.
    - destruct (op =? 0) eqn:E0; [|discriminate Hres]. destruct fin; [|discriminate Hres].
      assert (Hoq : open_of q = None).
      { unfold q, checked. rewrite Ed, E0. cbn [andb]. unfold open_of.
        cbn [p_fin set_hdr set_msg]. reflexivity. }
      rewrite Hoq. split; [congruence|].
      unfold allowed. rewrite Ed, E0. cbn [andb]. apply andb_false_r. }
  destruct Hq as [Hq1 Hq2].
  pose proof (parse_header_complete q fin r1 r2 r3 op m len7 ext key rest Hqa Hqn Hq1 Hop Hn Le Lk) as HP.
  cbv zeta in HP. rewrite Hq2 in HP. destruct HP as (p' & HP & He & _).
  rewrite HP. eauto.
Qed.
