(** Proofs about header encoding and parsing. *)
From Coq Require Import ZArith List Lia Bool ZifyBool ZifyNat Arith.
From Verif Require Import Base BaseLemmas WsModel WsSpec WsMaskProofs.
Import ListNotations.
Open Scope Z_scope.
Ltac Zify.zify_post_hook ::= Z.div_mod_to_equations.

(** A header the encoder may be given: 4-bit opcode, 32-bit key, 64-bit length
    (the widths of the bit-fields). *)
Definition hdr_ok (h : hdr) : Prop :=
  0 <= h_opcode h < 16 /\ u32 (h_key h) /\ u64 (h_len h).

Lemma opcode_byte_rfc fin r1 r2 r3 op m res k n : 0 <= op < 16 ->
  opcode_byte (mkHdr fin r1 r2 r3 op m res k n) = rfc_octet0 fin r1 r2 r3 op.
Proof.
  intros Hop.
  assert (S : forallb (fun op => opcode_byte (mkHdr fin r1 r2 r3 op m res k n)
                                 =? rfc_octet0 fin r1 r2 r3 op) (zrange 16) = true).
  { destruct fin, r1, r2, r3; vm_compute; reflexivity. }
  assert (H := sweep 16 _ S op ltac:(lia)). apply Z.eqb_eq in H. exact H.
Qed.

Lemma be_value_load s : be_value s = load_be s.
Proof.
  unfold be_value, load_be. generalize 0.
  induction s as [|b s IH]; intros acc; [reflexivity|]. cbn [fold_left].
  rewrite IH. f_equal. lia.
Qed.

Lemma len_or_mask m n : 0 <= n <= 125 ->
  Z.lor (Z.shiftl (b2z m) 7) n mod 256 = 128 * b2z m + n.
Proof.
  intros Hn.
  assert (S : forallb (fun n => Z.lor (Z.shiftl (b2z m) 7) n mod 256 =? 128 * b2z m + n)
                      (zrange 126) = true) by (destruct m; vm_compute; reflexivity).
  assert (H := sweep 126 _ S n ltac:(lia)). now apply Z.eqb_eq in H.
Qed.

(** The encoder's output is the RFC layout. *)
Theorem encode_rfc h : hdr_ok h ->
  exists lf, rfc_length_field (h_masked h) (h_len h) lf /\
  encode h = rfc_octet0 (h_fin h) (h_rsv1 h) (h_rsv2 h) (h_rsv3 h) (h_opcode h)
             :: lf ++ (if h_masked h
                       then map (rfc_key_octet (h_key h)) [0; 1; 2; 3]%nat else []).
Proof.
  intros (Hop & Hk & Hl). unfold u64, u32, two64, two32 in *.
  assert (Hkey : (if h_masked h then store_be 4 (h_key h) else [])
                 = if h_masked h then map (rfc_key_octet (h_key h)) [0; 1; 2; 3]%nat else []).
  { destruct (h_masked h); [|reflexivity]. cbn [store_be map].
    unfold rfc_key_octet. cbn [Nat.modulo Nat.divmod fst Nat.sub nth].
    repeat f_equal; change (2 ^ (8 * Z.of_nat 0)) with 1; rewrite ?Z.div_1_r; reflexivity. }
  unfold encode. rewrite Hkey. destruct h as [fin r1 r2 r3 op m res k n]. cbn [h_fin h_rsv1 h_rsv2 h_rsv3 h_opcode h_masked h_len h_key] in *.
  rewrite opcode_byte_rfc by auto.
  destruct (Z.leb_spec n 125).
  - exists [128 * b2z m + n]. split; [left; split; [lia|reflexivity]|].
    rewrite len_or_mask by lia. reflexivity.
  - destruct (Z.leb_spec n 65535).
    + exists ((128 * b2z m + 126) :: store_be 2 n). split.
      * right; left. split; [lia|]. exists (store_be 2 n).
        repeat split; auto using store_be_length, store_be_bytes.
        rewrite be_value_load. apply load_be_store. change (2 ^ (8 * Z.of_nat 2)) with 65536. lia.
      * replace (Z.lor (Z.shiftl (b2z m) 7) 126) with (128 * b2z m + 126)
          by (destruct m; reflexivity). reflexivity.
    + exists ((128 * b2z m + 127) :: store_be 8 n). split.
      * right; right. split; [lia|]. exists (store_be 8 n).
        repeat split; auto using store_be_length, store_be_bytes.
        rewrite be_value_load. apply load_be_store.
        change (2 ^ (8 * Z.of_nat 8)) with 18446744073709551616. lia.
      * replace (Z.lor (Z.shiftl (b2z m) 7) 127) with (128 * b2z m + 127)
          by (destruct m; reflexivity). reflexivity.
Qed.

(** ** Unpacking the first two octets *)

Definition octet1 (m : bool) (len7 : Z) : Z := 128 * b2z m + len7.

Lemma b2z_inj a b : b2z a =? b2z b = true -> a = b.
Proof. destruct a, b; simpl; congruence. Qed.

Definition bits_of (b : Z) : bool * bool * bool * bool * Z :=
  (128 <=? b, (64 <=? b mod 128), (32 <=? b mod 64), (16 <=? b mod 32), b mod 16).

Lemma bit_shift_low b0 b1 n : 0 <= n < 8 -> byte b0 -> byte b1 ->
  bit (Z.lor (Z.shiftl b1 8) b0) n = bit b0 n.
Proof.
  intros Hn H0 H1. unfold bit. f_equal. f_equal. apply Z.bits_inj'. intros i Hi.
  rewrite !Z.land_spec. destruct (Z.eq_dec i 0) as [->|].
  - rewrite !Z.shiftr_spec, Z.lor_spec, Z.shiftl_spec_low by lia. reflexivity.
  - change 1 with (2 ^ 0). rewrite (Z.pow2_bits_false 0 i) by lia. now rewrite !andb_false_r.
Qed.

Lemma land15_low b0 b1 : byte b0 -> byte b1 ->
  Z.land (Z.lor (Z.shiftl b1 8) b0) 15 = b0 mod 16.
Proof.
  intros H0 H1. change 15 with (Z.ones 4). rewrite Z.land_ones by lia.
  change 256 with (2 ^ 8). apply Z.bits_inj'. intros i Hi.
  change 16 with (2 ^ 4).
  destruct (Z.ltb_spec i 4).
  - rewrite !Z.mod_pow2_bits_low by lia. rewrite Z.lor_spec, Z.shiftl_spec_low by lia. reflexivity.
  - rewrite !Z.mod_pow2_bits_high by lia. reflexivity.
Qed.

Lemma land_low_mask m b0 b1 : byte b0 -> byte b1 -> byte m ->
  Z.land (Z.lor (Z.shiftl b1 8) b0) m = Z.land b0 m.
Proof.
  intros H0 H1 Hm. apply Z.bits_inj'. intros i Hi. rewrite !Z.land_spec, Z.lor_spec.
  destruct (Z.ltb_spec i 8).
  - rewrite Z.shiftl_spec_low by lia. reflexivity.
  - assert (Z.testbit m i = false).
    { destruct (Z.eq_dec m 0) as [->|]. apply Z.bits_0. unfold byte in Hm.
      apply Z.bits_above_log2; [lia|].
      assert (Z.log2 m < 8) by (apply Z.log2_lt_pow2; lia). lia. }
    rewrite H2. now rewrite !andb_false_r.
Qed.

Lemma shr8_lor b0 b1 n : 0 <= n -> byte b0 -> 0 <= b1 ->
  Z.shiftr (Z.lor (Z.shiftl b1 8) b0) (8 + n) = Z.shiftr b1 n.
Proof.
  intros Hn H0 H1. apply Z.bits_inj'. intros i Hi.
  rewrite !Z.shiftr_spec, Z.lor_spec, Z.shiftl_spec by lia.
  assert (Z.testbit b0 (i + (8 + n)) = false).
  { destruct (Z.eq_dec b0 0) as [->|]. apply Z.bits_0. unfold byte in H0.
    apply Z.bits_above_log2; [lia|].
    assert (Z.log2 b0 < 8) by (apply Z.log2_lt_pow2; lia). lia. }
  rewrite H, orb_false_r. f_equal. lia.
Qed.

Lemma rfc_octet0_byte fin r1 r2 r3 op : 0 <= op < 16 -> byte (rfc_octet0 fin r1 r2 r3 op).
Proof. unfold byte, rfc_octet0. destruct fin, r1, r2, r3; cbn [b2z]; lia. Qed.

Lemma octet1_byte m n : 0 <= n < 128 -> byte (octet1 m n).
Proof. unfold byte, octet1. destruct m; cbn [b2z]; lia. Qed.

Lemma octet0_fields fin r1 r2 r3 op : 0 <= op < 16 ->
  let b := rfc_octet0 fin r1 r2 r3 op in
  bit b 7 = fin /\ bit b 6 = r1 /\ bit b 5 = r2 /\ bit b 4 = r3 /\ b mod 16 = op /\
  Z.land b 112 = 64 * b2z r1 + 32 * b2z r2 + 16 * b2z r3 /\
  Z.land (Z.land b 112) 48 = 32 * b2z r2 + 16 * b2z r3 /\
  Z.land b 128 = 128 * b2z fin.
Proof.
  intros Hop.
  assert (S : forallb (fun op =>
     let b := rfc_octet0 fin r1 r2 r3 op in
     Bool.eqb (bit b 7) fin && Bool.eqb (bit b 6) r1 && Bool.eqb (bit b 5) r2 && Bool.eqb (bit b 4) r3
     && (b mod 16 =? op) && (Z.land b 112 =? 64 * b2z r1 + 32 * b2z r2 + 16 * b2z r3)
     && (Z.land (Z.land b 112) 48 =? 32 * b2z r2 + 16 * b2z r3)
     && (Z.land b 128 =? 128 * b2z fin)) (zrange 16) = true)
    by (destruct fin, r1, r2, r3; vm_compute; reflexivity).
  assert (H := sweep 16 _ S op ltac:(lia)). cbv zeta in H |- *.
  rewrite !andb_true_iff, !eqb_true_iff, !Z.eqb_eq in H. tauto.
Qed.

Lemma octet1_fields m n : 0 <= n < 128 ->
  bit (octet1 m n) 7 = m /\ Z.land (octet1 m n) 127 = n.
Proof.
  intros Hn.
  assert (S : forallb (fun n => Bool.eqb (bit (octet1 m n) 7) m && (Z.land (octet1 m n) 127 =? n))
                      (zrange 128) = true) by (destruct m; vm_compute; reflexivity).
  assert (H := sweep 128 _ S n ltac:(lia)).
  rewrite andb_true_iff, eqb_true_iff, Z.eqb_eq in H. tauto.
Qed.

Definition word01 (fin r1 r2 r3 : bool) (op : Z) (m : bool) (len7 : Z) : Z :=
  Z.lor (Z.shiftl (octet1 m len7) 8) (rfc_octet0 fin r1 r2 r3 op).

Lemma unpack_word old fin r1 r2 r3 op m len7 : 0 <= op < 16 -> 0 <= len7 < 128 ->
  unpack old (word01 fin r1 r2 r3 op m len7)
  = mkHdr fin r1 r2 r3 op m len7 (h_key old) (h_len old).
Proof.
  intros Hop Hn. unfold unpack, word01.
  pose proof (rfc_octet0_byte fin r1 r2 r3 op Hop) as B0.
  pose proof (octet1_byte m len7 Hn) as B1.
  rewrite !bit_shift_low by (auto; lia). rewrite land15_low by auto.
  destruct (octet0_fields fin r1 r2 r3 op Hop) as (-> & -> & -> & -> & -> & _).
  destruct (octet1_fields m len7 Hn) as (E1 & E2).
  assert (bit (Z.lor (Z.shiftl (octet1 m len7) 8) (rfc_octet0 fin r1 r2 r3 op)) 15 = m) as ->.
  { unfold bit. change 15 with (8 + 7). rewrite shr8_lor by (auto; unfold byte in *; lia).
    unfold bit in E1. exact E1. }
  change (Z.shiftr (Z.lor (Z.shiftl (octet1 m len7) 8) (rfc_octet0 fin r1 r2 r3 op)) 8)
    with (Z.shiftr (Z.lor (Z.shiftl (octet1 m len7) 8) (rfc_octet0 fin r1 r2 r3 op)) (8 + 0)).
  rewrite shr8_lor by (auto; unfold byte in *; lia). rewrite Z.shiftr_0_r, E2. reflexivity.
Qed.

(** Every pair of octets is of this form. *)
Lemma octet0_surj b : byte b -> exists fin r1 r2 r3 op, 0 <= op < 16 /\ b = rfc_octet0 fin r1 r2 r3 op.
Proof.
  intros Hb. unfold byte in Hb.
  exists (128 <=? b), (64 <=? b mod 128), (32 <=? b mod 64), (16 <=? b mod 32), (b mod 16).
  split; [lia|]. unfold rfc_octet0, b2z.
  destruct (Z.leb_spec 128 b), (Z.leb_spec 64 (b mod 128)), (Z.leb_spec 32 (b mod 64)),
    (Z.leb_spec 16 (b mod 32)); lia.
Qed.

Lemma octet1_surj b : byte b -> exists m n, 0 <= n < 128 /\ b = octet1 m n.
Proof.
  intros Hb. unfold byte in Hb. exists (128 <=? b), (b mod 128). split; [lia|].
  unfold octet1, b2z. destruct (Z.leb_spec 128 b); lia.
Qed.

(** ** The abstract state of the message reassembly *)

Definition open_of (p : parser) : option Z :=
  if p_fin p then None else if p_opcode p =? 0 then None else Some (p_opcode p).

Definition err_of (srv pmce : bool) (open : option Z)
                  (fin r1 r2 r3 : bool) (op : Z) (m : bool) (len7 : Z) : errdesc :=
  if srv && negb m then e_must_mask
  else if is_data op then
    match open with Some _ => e_continuation_expected | None => e_rsv_data end
  else if op =? 0 then if r1 || r2 || r3 then e_rsv_cont else e_dangling
  else if is_control op then
    if r1 || r2 || r3 then e_rsv_control
    else if 125 <? len7 then e_control_length else e_control_fragment
  else e_unknown_opcode.

Lemma p_opcode_forget p :
  p_opcode (forget_finished p) = match open_of p with Some o => o | None => 0 end.
Proof.
  unfold forget_finished, open_of. destruct (p_fin p); [reflexivity|].
  destruct (Z.eqb_spec (p_opcode p) 0); congruence.
Qed.

Lemma p_fin_forget p : p_fin (forget_finished p) = false.
Proof. unfold forget_finished. destruct (p_fin p) eqn:E; auto. Qed.

Lemma forget_idem p : forget_finished (forget_finished p) = forget_finished p.
Proof. unfold forget_finished at 1. now rewrite p_fin_forget. Qed.

(** Opcodes that may be recorded in the parser. *)
Definition open_wf (p : parser) : Prop := p_opcode p = 0 \/ is_data (p_opcode p) = true.

Definition msg_fields (p : parser) (open : option Z) : Prop :=
  p_opcode p = match open with Some o => o | None => 0 end /\ p_fin p = false.

(** The check of the opcode, decided by the specification. *)
Lemma check_opcode_spec p fin r1 r2 r3 op m len7 open k n :
  0 <= op < 16 -> 0 <= len7 < 128 ->
  p_hdr p = mkHdr fin r1 r2 r3 op m len7 k n ->
  p_opcode p = (match open with Some o => o | None => 0 end) ->
  open <> Some 0 ->
  check_opcode p (word01 fin r1 r2 r3 op m len7)
  = if allowed false (negb (p_send_bits p =? 0)) open fin r1 r2 r3 op m len7
    then inr (if is_data op then set_msg p op r3 r2 r1 fin
              else if (op =? 0) && fin
                   then set_msg p (p_opcode p) (p_rsv3 p) (p_rsv2 p) (p_rsv1 p) true
                   else p)
    else inl (err_of false (negb (p_send_bits p =? 0)) open fin r1 r2 r3 op m len7).
Proof.
  intros Hop Hn Hh Ho Hno. unfold check_opcode, word01. rewrite Hh. cbn [h_opcode h_rsv1 h_rsv2 h_rsv3 h_fin h_res1].
  pose proof (rfc_octet0_byte fin r1 r2 r3 op Hop) as B0.
  pose proof (octet1_byte m len7 Hn) as B1.
  rewrite !land_low_mask by (auto; unfold byte; lia).
  destruct (octet0_fields fin r1 r2 r3 op Hop) as (_ & _ & _ & _ & _ & E112 & E48 & E128).
  rewrite E48, E112, E128. rewrite Ho.
  assert (Hz : (match open with Some o => o | None => 0 end =? 0)
               = match open with Some _ => false | None => true end).
  { destruct open as [o|]; [|reflexivity]. apply Z.eqb_neq. congruence. }
  rewrite Hz. unfold allowed, err_of, is_data, is_control. cbn [negb andb orb].
  destruct ((op =? 1) || (op =? 2)) eqn:Ed.
  - destruct open; [reflexivity|]. cbn [negb andb].
    destruct (p_send_bits p =? 0), r1, r2, r3; reflexivity.
  - destruct (op =? 0) eqn:E0.
    + destruct open, fin, r1, r2, r3; reflexivity.
    + destruct ((op =? 8) || (op =? 9) || (op =? 10)) eqn:Ec; [|reflexivity].
      destruct r1, r2, r3; try reflexivity. cbn [negb andb orb b2z Z.mul Z.add Z.eqb].
      rewrite (Z.leb_antisym). destruct (125 <? len7); cbn [negb andb]; [rewrite ?andb_false_r; reflexivity|].
      destruct fin; reflexivity.
Qed.

(** The number of octets in the extended length and mask key fields. *)
Definition ext_len (len7 : Z) : nat :=
  if len7 <=? 125 then 0%nat else if len7 =? 126 then 2%nat else 8%nat.
Definition key_len (m : bool) : nat := if m then 4%nat else 0%nat.

Definition payload_len_of (len7 : Z) (ext : list Z) : Z :=
  if len7 <=? 125 then len7 else load_be ext.

Lemma slice_app_mid (a b c : list Z) n : length b = n ->
  slice (length a) n (a ++ b ++ c) = b.
Proof.
  intros <-. unfold slice. rewrite skipn_app, skipn_all, Nat.sub_diag. cbn [skipn app].
  rewrite firstn_app, firstn_all, Nat.sub_diag. cbn [firstn]. apply app_nil_r.
Qed.

(** Parsing a complete header. *)
Definition parsed (p : parser) (fin r1 r2 r3 : bool) (op : Z) (m : bool) (len7 len key : Z) : parser :=
  let p := set_hdr (forget_finished p)
             (mkHdr fin r1 r2 r3 op m len7 (h_key (p_hdr p)) (h_len (p_hdr p))) in
  let p := if is_data op then set_msg p op r3 r2 r1 fin
           else if (op =? 0) && fin
                then set_msg p (p_opcode p) (p_rsv3 p) (p_rsv2 p) (p_rsv1 p) true
                else p in
  let h := mkHdr fin r1 r2 r3 op m len7 key len in
  set_wsf (set_payload (set_hdr p h) (p_payload p) len) wsf_header_done.

Lemma read_len_set p (d : list Z) fin r1 r2 r3 op m len7 k n ext key rest :
  0 <= len7 < 128 ->
  p = mkHdr fin r1 r2 r3 op m len7 k n ->
  length ext = ext_len len7 -> length d = 2%nat ->
  read_len p (d ++ ext ++ key ++ rest)
  = Some (mkHdr fin r1 r2 r3 op m len7 k (payload_len_of len7 ext), (2 + ext_len len7)%nat).
Proof.
  intros Hn -> Le Ld. unfold read_len, payload_len_of, ext_len in *. cbn [h_res1].
  destruct (Z.leb_spec len7 125); [reflexivity|].
  destruct (Z.eqb_spec len7 126).
  - rewrite !app_length. destruct (Nat.ltb_spec (length d + (length ext + (length key + length rest))) 4); [lia|].
    rewrite <- Ld at 1. rewrite slice_app_mid by auto. reflexivity.
  - rewrite !app_length. destruct (Nat.ltb_spec (length d + (length ext + (length key + length rest))) 10); [lia|].
    rewrite <- Ld at 1. rewrite slice_app_mid by auto. reflexivity.
Qed.

Lemma read_key_set fin r1 r2 r3 op m len7 k n (d ext key rest : list Z) :
  length key = key_len m ->
  read_key (mkHdr fin r1 r2 r3 op m len7 k n) (length d + length ext) (d ++ ext ++ key ++ rest)
  = Some (mkHdr fin r1 r2 r3 op m len7 (if m then load_be key else k) n,
          (length d + length ext + length key)%nat).
Proof.
  intros Lk. unfold read_key. cbn [h_masked]. unfold key_len in Lk. destruct m.
  - rewrite !app_length.
    destruct (Nat.ltb_spec (length d + (length ext + (length key + length rest)))
                           (length d + length ext + 4)); [lia|].
    rewrite app_assoc. rewrite <- app_length.
    rewrite slice_app_mid by auto. rewrite Lk. reflexivity.
  - rewrite Lk, Nat.add_0_r. reflexivity.
Qed.

Theorem parse_header_complete p fin r1 r2 r3 op m len7 ext key rest :
  accepted p = true -> p_wsf p = wsf_new -> open_of p <> Some 0 ->
  0 <= op < 16 -> 0 <= len7 < 128 ->
  length ext = ext_len len7 -> length key = key_len m ->
  let data := rfc_octet0 fin r1 r2 r3 op :: octet1 m len7 :: ext ++ key ++ rest in
  let pmce := negb (p_send_bits p =? 0) in
  if allowed (is_server p) pmce (open_of p) fin r1 r2 r3 op m len7
  then parse_header p data
       = Ret (parsed p fin r1 r2 r3 op m len7 (payload_len_of len7 ext)
                     (if m then load_be key else h_key (p_hdr p)), rest)
  else exists p', parse_header p data = Ret (p', data) /\ in_error p' = true /\
       p_err p' = Some (err_of (is_server p) pmce (open_of p) fin r1 r2 r3 op m len7).
Proof.
  intros Hacc Hnew Hopen Hop Hn Le Lk data pmce.
  assert (Hhc : header_complete p = false) by (unfold header_complete; now rewrite Hnew).
  assert (Hdata : data = [rfc_octet0 fin r1 r2 r3 op; octet1 m len7] ++ ext ++ key ++ rest) by reflexivity.
  assert (HP : parse_header p data =
    let p := set_hdr (forget_finished p)
               (mkHdr fin r1 r2 r3 op m len7 (h_key (p_hdr p)) (h_len (p_hdr p))) in
    if is_server p && negb m then Ret (set_error p e_must_mask, data)
    else match check_opcode p (word01 fin r1 r2 r3 op m len7) with
         | inl e => Ret (set_error p e, data)
         | inr p =>
              match read_len (p_hdr p) data with
              | None => Ret (p, data)
              | Some (h, ntotal) =>
                  let p := set_hdr p h in
                  match read_key h ntotal data with
                  | None => Ret (p, data)
                  | Some (h, ntotal) =>
                      let p := set_payload (set_hdr p h) (p_payload p) (h_len h) in
                      Ret (set_wsf p wsf_header_done, skipn ntotal data)
                  end
              end
         end).
  { unfold parse_header. rewrite Hacc, Hhc. cbn [negb]. unfold data.
    fold (word01 fin r1 r2 r3 op m len7).
    replace (h_key (p_hdr p)) with (h_key (p_hdr (forget_finished p)))
      by (unfold forget_finished; destruct (p_fin p); reflexivity).
    replace (h_len (p_hdr p)) with (h_len (p_hdr (forget_finished p)))
      by (unfold forget_finished; destruct (p_fin p); reflexivity).
    rewrite <- (unpack_word (p_hdr (forget_finished p)) fin r1 r2 r3 op m len7) by auto.
    cbv zeta. cbn [p_hdr set_hdr].
    replace (h_masked (unpack (p_hdr (forget_finished p)) (word01 fin r1 r2 r3 op m len7))) with m
      by (rewrite unpack_word by auto; reflexivity).
    reflexivity. }
  rewrite HP. clear HP. cbv zeta.
  set (p1 := set_hdr (forget_finished p)
               (mkHdr fin r1 r2 r3 op m len7 (h_key (p_hdr p)) (h_len (p_hdr p)))).
  assert (Hsrv : is_server p1 = is_server p)
    by (unfold p1, forget_finished; destruct (p_fin p); reflexivity).
  assert (Hsb : p_send_bits p1 = p_send_bits p)
    by (unfold p1, forget_finished; destruct (p_fin p); reflexivity).
  rewrite Hsrv.
  assert (Hco := check_opcode_spec p1 fin r1 r2 r3 op m len7 (open_of p)
                   (h_key (p_hdr p)) (h_len (p_hdr p)) Hop Hn eq_refl).
  rewrite Hsb in Hco. fold pmce in Hco.
  rewrite Hco; [|exact (p_opcode_forget p)|exact Hopen]. clear Hco.
  assert (Hal : allowed (is_server p) pmce (open_of p) fin r1 r2 r3 op m len7
                = (negb (is_server p) || m) && allowed false pmce (open_of p) fin r1 r2 r3 op m len7)
    by (unfold allowed; cbn [negb orb andb]; reflexivity).
  rewrite Hal.
  destruct (is_server p && negb m) eqn:Esm.
  - assert (negb (is_server p) || m = false) as -> by (destruct (is_server p), m; auto).
    cbn [andb]. eexists. repeat split. cbn [p_err set_error]. unfold err_of. rewrite Esm. reflexivity.
  - assert (negb (is_server p) || m = true) as -> by (destruct (is_server p), m; auto).
    cbn [andb].
    destruct (allowed false pmce (open_of p) fin r1 r2 r3 op m len7) eqn:Ea.
    + set (p2 := if is_data op then _ else _).
      assert (Hh2 : p_hdr p2 = mkHdr fin r1 r2 r3 op m len7 (h_key (p_hdr p)) (h_len (p_hdr p)))
        by (unfold p2; destruct (is_data op), ((op =? 0) && fin); reflexivity).
      rewrite Hh2, Hdata.
      rewrite (read_len_set _ [rfc_octet0 fin r1 r2 r3 op; octet1 m len7]
                 fin r1 r2 r3 op m len7 _ _ ext key rest Hn eq_refl Le eq_refl).
      rewrite <- Le. change 2%nat with (length [rfc_octet0 fin r1 r2 r3 op; octet1 m len7]) at 1.
      rewrite read_key_set by auto.
      unfold parsed. fold p1. fold p2.
      rewrite !app_assoc. rewrite <- !app_length. rewrite skipn_app, skipn_all, Nat.sub_diag.
      cbn [skipn app h_len]. destruct p2; reflexivity.
    + eexists. repeat split. cbn [p_err set_error].
      f_equal. unfold err_of. rewrite Esm. reflexivity.
Qed.
