(** Proofs about the text form of socket addresses. *)
From Coq Require Import ZArith List Lia Bool ZifyBool ZifyNat Arith.
From Verif Require Import Base BaseLemmas AddrModel AddrProofs NetrefModel NetrefSpec NetrefProofs UriProofs AddrTextModel AddrTextSpec.
From Verif Require AddrSpec.
Import ListNotations.
Open Scope Z_scope.
Ltac Zify.zify_post_hook ::= Z.div_mod_to_equations.

Lemma number_app a b : number (a ++ [b]) = 10 * number a + (b - 48).
Proof. unfold number. rewrite fold_left_app. reflexivity. Qed.

Lemma put_du_spec n : forall v, 0 <= v < 10 ^ Z.of_nat n -> (0 < n)%nat ->
  put_du n v <> [] /\ Forall decimal (put_du n v) /\ number (put_du n v) = v.
Proof.
  induction n as [|n IH]; intros v Hv Hn; [lia|]. cbn [put_du]. destruct (v <? 10) eqn:E.
  - split; [discriminate|]. split; [constructor; [unfold decimal; lia|constructor]|]. unfold number. cbn [fold_left]. lia.
  - destruct n as [|n']; [cbn in Hv; lia|].
    rewrite Nat2Z.inj_succ, Z.pow_succ_r in Hv by lia.
    destruct (IH (v / 10) ltac:(lia) ltac:(lia)) as (H1 & H2 & H3).
    split; [intros C; apply app_eq_nil in C; destruct C; discriminate|]. split.
    + apply Forall_app. split; [exact H2|]. constructor; [unfold decimal; lia|constructor].
    + rewrite number_app, H3. lia.
Qed.

Definition mapped : list Z := [0;0;0;0;0;0;0;0;0;0;255;255].

Lemma match_mapped a : length a = 16%nat -> match_subnet 0 a mapped 96 = true <-> firstn 12 a = mapped.
Proof.
  intros L. unfold match_subnet. change (96 / 8)%nat with 12%nat. change (96 mod 8)%nat with 0%nat.
  change (Z.land 255 (Z.shiftr 65280 (Z.of_nat 0))) with 0. rewrite Z.land_0_l.
  change (0 =? 0) with true. rewrite andb_true_r. change (firstn 12 mapped) with mapped.
  rewrite Z.eqb_eq. apply memcmp_zero. rewrite firstn_length, L. reflexivity.
Qed.

Ltac Zify.zify_post_hook ::= idtac.

Section Laws.
  Variables ntop4 ntop6 : list Z -> list Z.
  Variables pton4 pton6 : list Z -> option (list Z).

  Lemma print_parse a : inet_laws ntop4 ntop6 pton4 pton6 -> AddrSpec.is_address a ->
    parse_addr pton4 pton6 (print_addr ntop4 ntop6 a) = (Some a, length (print_addr ntop4 ntop6 a)).
  Proof.
    intros [L4 L6] (La & Ba & Pa).
    assert (Pb : 0 <= a_port a < 10 ^ Z.of_nat 20).
    { change (10 ^ Z.of_nat 20) with 100000000000000000000. clear - Pa. lia. }
    destruct (put_du_spec 20 (a_port a) Pb (Nat.lt_0_succ 19)) as (D1 & D2 & D3).
    unfold print_addr. fold mapped. destruct (match_subnet 0 (a_addr a) mapped 96) eqn:E.
    - apply match_mapped in E; [|exact La].
      assert (Ls : length (skipn 12 (a_addr a)) = 4%nat) by (rewrite skipn_length; lia).
      destruct (L4 _ Ls (bytes_skipn _ _ Ba)) as (N & Len & C & R).
      set (h := ntop4 (skipn 12 (a_addr a))) in *. set (p := put_du 20 (a_port a)) in *.
      set (r := mkReference h false (Some p) None None None).
      assert (Er : h ++ [58] ++ p = text_of r).
      { unfold text_of, r. cbn. rewrite !app_nil_r. reflexivity. }
      assert (V : valid r).
      { unfold valid, r. cbn [host bracketed port path query fragment when]. split; [exact N|]. split.
        - eapply Forall_impl; [|exact C]. cbv beta. unfold letter_or_digit. clear. intros c Hc. lia.
        - split; [|auto]. split; [exact D1|]. split; [exact D2|]. rewrite D3. clear - Pa. lia. }
      rewrite Er. unfold parse_addr. rewrite <- (app_nil_r (text_of r)) at 1.
      rewrite (parse_valid r [] V); [|unfold ref_stops, r; cbn; auto].
      rewrite <- Er. unfold written, len_view, r. cbn [port path query fragment bracketed host option_map opt_text r_host r_port r_path r_query r_fragment r_num r_v6 view_len view_text fst snd host_text].
      assert ((length h =? 0)%nat = false) as -> by (destruct h; [congruence|reflexivity]).
      assert ((63 <? length h)%nat = false) as -> by lia.
      assert ((length p =? 0)%nat = false) as -> by (destruct p; [congruence|reflexivity]). cbn [orb negb Nat.eqb].
      rewrite skipn_O. rewrite firstn_app, Nat.sub_diag, firstn_all, firstn_O, app_nil_r. rewrite R, D3.
      f_equal. f_equal. rewrite <- E at 1. rewrite firstn_skipn. destruct a; reflexivity.
    - destruct (L6 _ La Ba) as (N & Len & C & R).
      set (h := ntop6 (a_addr a)) in *. set (p := put_du 20 (a_port a)) in *.
      set (r := mkReference h true (Some p) None None None).
      assert (Er : ([91] ++ h ++ [93]) ++ [58] ++ p = text_of r).
      { unfold text_of, r. cbn. rewrite !app_nil_r. reflexivity. }
      assert (V : valid r).
      { unfold valid, r. cbn [host bracketed port path query fragment when]. split; [exact N|]. split.
        - eapply Forall_impl; [|exact C]. cbv beta. unfold letter_or_digit, hex_lower. clear. intros c Hc. lia.
        - split; [|auto]. split; [exact D1|]. split; [exact D2|]. rewrite D3. clear - Pa. lia. }
      rewrite Er. unfold parse_addr. rewrite <- (app_nil_r (text_of r)) at 1.
      rewrite (parse_valid r [] V); [|unfold ref_stops, r; cbn; auto].
      rewrite <- Er. unfold written, len_view, r. cbn [port path query fragment bracketed host option_map opt_text r_host r_port r_path r_query r_fragment r_num r_v6 view_len view_text fst snd host_text].
      assert ((length h =? 0)%nat = false) as -> by (destruct h; [congruence|reflexivity]).
      assert ((63 <? length h)%nat = false) as -> by lia.
      assert ((length p =? 0)%nat = false) as -> by (destruct p; [congruence|reflexivity]). cbn [orb negb Nat.eqb].
      rewrite <- !app_assoc. cbn [app skipn]. rewrite firstn_app, Nat.sub_diag, firstn_all, firstn_O, app_nil_r. rewrite R, D3.
      f_equal. destruct a; reflexivity.
  Qed.

  (** Whatever is accepted is a valid reference with a host, a port, no path,
      and no text in the query or the fragment. *)
  Lemma parse_addr_sound s a n : parse_addr pton4 pton6 s = (Some a, n) -> n <> O ->
    exists r, valid r /\ firstn n s = text_of r /\ (length (host r) <= 63)%nat
      /\ (exists ds, port r = Some ds /\ a_port a = number ds) /\ path r = None
      /\ (query r = None \/ query r = Some []) /\ (fragment r = None \/ fragment r = Some [])
      /\ (if bracketed r then pton6 (host r) = Some (a_addr a)
          else exists v4, pton4 (host r) = Some v4 /\ a_addr a = mapped ++ v4).
  Proof.
    intros H Hn. destruct (parse_exists s) as [(r & t & -> & V & St)|Z0].
    2:{ exfalso. unfold parse_addr in H. destruct (parse_ref s) as [c m]. cbn in Z0. subst m.
        destruct (_ || _) in H; [discriminate|]. destruct (_ || _) in H; [discriminate|].
        destruct (r_v6 c); destruct (_ (view_text s (r_host c))) in H; try discriminate; injection H as _ <-; congruence. }
    assert (W := written_views r t). cbv zeta in W. destruct W as (W1 & W2 & W3 & W4 & W5).
    unfold parse_addr in H. rewrite (parse_valid r t V St) in H.
    assert (Eh : view_text (text_of r ++ t) (r_host (written r)) = host r).
    { unfold view_text. destruct (r_host (written r)) as [[o m]|]; cbn in W1; [|discriminate]. injection W1 as W1. exact W1. }
    rewrite Eh in H.
    assert (Vh : view_len (r_host (written r)) = length (host r)) by reflexivity. rewrite Vh in H.
    destruct ((length (host r) =? 0)%nat || (63 <? length (host r))%nat) eqn:E1; [discriminate|].
    destruct ((view_len (r_port (written r)) =? 0)%nat || negb (view_len (r_path (written r)) =? 0)%nat
            || negb (view_len (r_query (written r)) =? 0)%nat || negb (view_len (r_fragment (written r)) =? 0)%nat) eqn:E2; [discriminate|].
    rewrite !orb_false_iff in E2. destruct E2 as [[[E2 E3] E4] E5].
    exists r. split; [exact V|].
    assert (Hn' : n = length (text_of r) /\ a_port a = match r_num (written r) with Some v => v | None => 0 end
       /\ (if bracketed r then pton6 (host r) = Some (a_addr a)
          else exists v4, pton4 (host r) = Some v4 /\ a_addr a = mapped ++ v4)).
    { change (r_v6 (written r)) with (bracketed r) in H. destruct (bracketed r).
      - destruct (pton6 (host r)) eqn:P; [|discriminate]. injection H as <- <-. auto.
      - destruct (pton4 (host r)) eqn:P; [|discriminate]. injection H as <- <-. split; [reflexivity|]. split; [reflexivity|]. eauto. }
    destruct Hn' as (-> & Hp & Hhost). split; [|split; [|split; [|split; [|split; [|split]]]]].
    - rewrite firstn_app, Nat.sub_diag, firstn_all, firstn_O. apply app_nil_r.
    - lia.
    - unfold written, len_view in *. cbn [r_port r_num option_map view_len] in *. destruct (port r) as [ds|]; [|discriminate E2].
      exists ds. auto.
    - destruct V as (_ & _ & _ & Vp & _). unfold written, len_view in E3. cbn [r_path view_len] in E3. destruct (path r) as [p|]; [|reflexivity].
      cbn [when option_map view_len] in *. destruct Vp as [[q ->] _]. discriminate E3.
    - unfold written, len_view in E4. cbn [r_query view_len] in E4. destruct (query r) as [q|]; [|auto]. cbn [option_map view_len] in E4.
      right. f_equal. destruct q; [reflexivity|discriminate E4].
    - unfold written, len_view in E5. cbn [r_fragment view_len] in E5. destruct (fragment r) as [q|]; [|auto]. cbn [option_map view_len] in E5.
      right. f_equal. destruct q; [reflexivity|discriminate E5].
    - exact Hhost.
  Qed.
End Laws.

Ltac Zify.zify_post_hook ::= Z.div_mod_to_equations.

(** ** The sample functions obey the laws *)
Lemma hex1_lower d : 0 <= d < 16 -> hex_lower (hex1 d) /\ unhex1 (hex1 d) = d.
Proof. intros H. unfold hex_lower, hex1, unhex1. destruct (d <? 10) eqn:E; [destruct (48 + d <? 58) eqn:E2|destruct (87 + d <? 58) eqn:E2]; lia. Qed.

Lemma dec3_digits b : 0 <= b < 256 -> (48 <= 48 + b / 100 <= 57) /\ (48 <= 48 + b / 10 mod 10 <= 57) /\ (48 <= 48 + b mod 10 <= 57)
  /\ (48 + b / 100 - 48) * 100 + (48 + b / 10 mod 10 - 48) * 10 + (48 + b mod 10 - 48) = b.
Proof. intros H. lia. Qed.

Lemma sample_laws : inet_laws sample_ntop4 sample_ntop6 sample_pton4 sample_pton6.
Proof.
  split; intros a L Ha.
  - do 5 (destruct a as [|? a]; cbn [length] in L; try lia).
    repeat match goal with H : bytes (_ :: _) |- _ => inversion_clear H | H : Forall _ (_ :: _) |- _ => inversion_clear H end.
    unfold byte in *. cbn -[Z.div Z.modulo Z.mul Z.add Z.sub]. split; [discriminate|]. split; [lia|]. 
    repeat match goal with H : 0 <= _ < 256 |- _ => apply dec3_digits in H; destruct H as (? & ? & ? & ?) end. split.
    + repeat (apply Forall_cons; [first [right; reflexivity | left; assumption]|]). apply Forall_nil.
    + repeat match goal with H : _ = _ |- _ => rewrite H; clear H end. reflexivity.
  - do 17 (destruct a as [|? a]; cbn [length] in L; try lia).
    repeat match goal with H : bytes (_ :: _) |- _ => inversion_clear H | H : Forall _ (_ :: _) |- _ => inversion_clear H end.
    unfold byte in *. cbn -[Z.div Z.modulo Z.mul Z.add Z.sub hex1 unhex1]. split; [discriminate|]. split; [lia|]. split.
    + assert (E : forall x, 0 <= x < 256 -> hex_lower (hex1 (x / 16)) /\ hex_lower (hex1 (x mod 16))).
      { intros x Hx. destruct (hex1_lower (x / 16) ltac:(lia)), (hex1_lower (x mod 16) ltac:(lia)). auto. }
      repeat (apply Forall_cons; [first [right; left; reflexivity | left; apply E; assumption]|]). apply Forall_nil.
    + assert (E : forall x, 0 <= x < 256 -> 16 * unhex1 (hex1 (x / 16)) + unhex1 (hex1 (x mod 16)) = x).
      { intros x Hx. destruct (hex1_lower (x / 16) ltac:(lia)) as [_ ->]. destruct (hex1_lower (x mod 16) ltac:(lia)) as [_ ->]. lia. }
      repeat (rewrite E by assumption). reflexivity.
Qed.
