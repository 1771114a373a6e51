(** Proofs about the addresses that clients connect to. *)
From Coq Require Import ZArith List Lia Bool ZifyBool ZifyNat Arith.
From Verif Require Import Base Text BaseLemmas NetrefModel NetrefSpec NetrefProofs NetrefProps AddrTextModel AddrTextProofs ConnModel ConnSpec.
Import ListNotations.
Open Scope Z_scope.

Lemma part_view s v : part s v = match option_map (view s) v with Some x => x | None => [] end.
Proof. destruct v as [[off len]|]; reflexivity. Qed.

Lemma parse_text r : valid r -> parse_ref (text_of r) = (written r, length (text_of r)).
Proof.
  intros V. assert (P := parse_valid r [] V). rewrite app_nil_r in P. apply P.
  unfold ref_stops. destruct (fragment r), (query r), (path r), (port r); cbn; auto.
Qed.

Definition opt_or (o : option (list Z)) : list Z := match o with Some x => x | None => [] end.

Lemma text_parts r : valid r ->
  part (text_of r) (r_host (written r)) = host r
  /\ part (text_of r) (r_path (written r)) = opt_or (path r)
  /\ part (text_of r) (r_query (written r)) = opt_or (query r)
  /\ part (text_of r) (r_fragment (written r)) = opt_or (fragment r).
Proof.
  intros V. destruct (written_views r []) as (W1 & W2 & W3 & W4 & W5). rewrite app_nil_r in *.
  rewrite !part_view, W1, W3, W4, W5. auto.
Qed.

Lemma written_port r : valid r ->
  (part_len (r_port (written r)) =? 0)%nat = (match port r with Some _ => false | None => true end)
  /\ port_num (written r) = match port r with Some ds => number ds | None => 0 end.
Proof.
  intros (_ & _ & P & _). unfold written, part_len, port_num, len_view. cbn [r_port r_num].
  destruct (port r) as [ds|]; cbn [option_map]; [|auto]. split; [|reflexivity].
  destruct P as (N & _). destruct ds; [congruence|reflexivity].
Qed.

Lemma written_absent r :
  absent (r_path (written r)) = (match path r with Some _ => false | None => true end)
  /\ absent (r_query (written r)) = (match query r with Some _ => false | None => true end)
  /\ absent (r_fragment (written r)) = (match fragment r with Some _ => false | None => true end).
Proof. unfold written, len_view. cbn [r_path r_query r_fragment]. destruct (path r), (query r), (fragment r); auto. Qed.

Definition is_none {A} (o : option A) : bool := match o with Some _ => false | None => true end.

(** What [connect] does to the text of a valid reference *)
Definition outcome (k : kind) (r : reference) : option plan :=
  match k with
  | Tcp | Ssl => if is_none (port r) || negb (is_none (path r)) || negb (is_none (query r)) || negb (is_none (fragment r)) then None
                 else Some (mkPlan (host r) (port_of k r) [] [] [] [] None)
  | Http | Https => if negb (is_none (path r)) || negb (is_none (query r)) then None
                    else let d := host_and_port (host r) (port_of k r) in
                         Some (mkPlan (host r) (port_of k r) d [] [] [] (match k with Https => verify_name d | _ => None end))
  | Ws | Wss => let d := host_and_port (host r) (port_of k r) in
                Some (mkPlan (host r) (port_of k r) d (opt_or (path r)) (opt_or (query r)) (opt_or (fragment r))
                        (match k with Wss => verify_name d | _ => None end))
  end.

Lemma connect_text k r : valid r -> connect k (text_of r) = outcome k r.
Proof.
  intros V. unfold connect. rewrite parse_text, Nat.eqb_refl by auto. cbn [negb].
  destruct (text_parts r V) as (-> & -> & -> & ->). destruct (written_port r V) as (-> & ->).
  destruct (written_absent r) as (-> & -> & ->). unfold outcome, port_of, is_none, default_port.
  destruct k, (port r), (path r), (query r), (fragment r); reflexivity.
Qed.

Lemma connect_inv k addr p : connect k addr = Some p ->
  (addr = [] /\ k <> Tcp /\ k <> Ssl) \/ exists r, valid r /\ addr = text_of r /\ outcome k r = Some p.
Proof.
  intros H. destruct addr as [|c addr].
  - left. split; [reflexivity|]. split; intros ->; vm_compute in H; discriminate.
  - right. assert (S : snd (parse_ref (c :: addr)) = length (c :: addr)).
    { unfold connect in H. destruct (parse_ref (c :: addr)) as [w n]. cbn [snd]. destruct (n =? length (c :: addr))%nat eqn:E; [now apply Nat.eqb_eq in E|discriminate]. }
    apply netref_whole in S; [|discriminate]. destruct S as (r & V & T). exists r. rewrite <- T in H. rewrite (connect_text k r V) in H. auto.
Qed.

(** Ports *)
Lemma number_from ds : Forall decimal ds -> forall a, 0 <= a -> 0 <= fold_left (fun a c => 10 * a + (c - 48)) ds a.
Proof. induction 1 as [|c ds D _ IH]; intros a A; cbn [fold_left]; [exact A|]. apply IH. unfold decimal in D. lia. Qed.
Lemma port_range k r : valid r -> 0 <= port_of k r <= 65535.
Proof.
  intros (_ & _ & P & _). unfold port_of. destruct (port r) as [ds|]; [|destruct k; lia].
  destruct P as (_ & D & L). split; [|exact L]. apply number_from; [exact D|lia].
Qed.

Lemma peer_text k r : valid r -> bracketed r = false ->
  let r' := mkReference (host r) false (Some (put_du 20 (port_of k r))) None None None in
  names_peer k r r' /\ host_and_port (host r) (port_of k r) = text_of r'.
Proof.
  intros V B. assert (R := port_range k r V). cbn zeta.
  destruct (put_du_spec 20 (port_of k r)) as (N & D & E); [change (10 ^ Z.of_nat 20) with 100000000000000000000; lia|lia|].
  destruct V as (H1 & H2 & _). unfold names_peer, valid, host_and_port, text_of. cbn [host bracketed port path query fragment when opt_text option_map].
  rewrite B in *. rewrite E. rewrite !app_nil_r. split; [|reflexivity].
  split; [|auto 10]. split; [exact H1|]. split; [exact H2|]. split; [|auto]. split; [exact N|]. split; [exact D|lia].
Qed.

Lemma verify_plain k r : valid r -> bracketed r = false ->
  verify_name (host_and_port (host r) (port_of k r)) = if (length (host r) <=? 253)%nat then Some (host r) else None.
Proof.
  intros V B. destruct (peer_text k r V B) as ((V' & _) & ->). set (r' := mkReference _ _ _ _ _ _) in *.
  unfold verify_name. rewrite (parse_text r' V'). destruct (text_parts r' V') as (-> & _).
  assert (T := text_nonempty r' V'). destruct (length (text_of r') =? 0)%nat eqn:E; [apply Nat.eqb_eq in E; contradiction|].
  unfold written, part_len. cbn [r_host negb andb]. unfold r'. cbn [host].
  assert (1 <=? length (host r) = true)%nat as ->; [|reflexivity]. destruct V as (H & _). destruct (host r); [congruence|reflexivity].
Qed.

(** The text of a valid reference begins with a bracket if and only if it is bracketed. *)
Lemma hd_text r : valid r -> (hd 0 (text_of r) = 91 <-> bracketed r = true).
Proof.
  intros (N & C & _). unfold text_of. destruct (bracketed r); [cbn; tauto|]. split; [|discriminate].
  destruct (host r) as [|c h]; [congruence|]. inversion C as [|? ? D _]; subst. cbn. unfold letter_or_digit in D. lia.
Qed.
Lemma no_colon r : valid r -> bracketed r = false -> ~ In 58 (host r).
Proof.
  intros (_ & C & _) B I. rewrite B in C. rewrite Forall_forall in C. specialize (C _ I). unfold letter_or_digit in C. lia.
Qed.
Lemma hd_v6 r port : valid r -> hd 0 (host_and_port (host r) port) <> 91.
Proof.
  intros (N & C & _). unfold host_and_port. destruct (host r) as [|c h]; [congruence|]. inversion C as [|? ? D _]; subst. cbn.
  unfold letter_or_digit in D. destruct (bracketed r); lia.
Qed.

Lemma verify_v6 r port : valid r -> In 58 (host r) -> verify_name (host_and_port (host r) port) <> Some (host r).
Proof.
  intros V C H. unfold verify_name in H. destruct (parse_ref (host_and_port (host r) port)) as [w n] eqn:E.
  destruct (n =? 0)%nat eqn:Z0; [cbn in H; discriminate|]. apply Nat.eqb_neq in Z0.
  destruct (netref_parse _ _ _ E Z0) as (L & r0 & V0 & T & W & _).
  destruct (_ && _); [|discriminate]. injection H as H. rewrite part_view, W in H.
  destruct (bracketed r0) eqn:B.
  - apply (hd_text r0 V0) in B. apply (hd_v6 r port V). rewrite <- B, <- T. destruct (host_and_port (host r) port), n; try reflexivity. congruence.
  - apply (no_colon r0 V0 B). now rewrite H.
Qed.

Lemma header_v6 k r r' : valid r -> In 58 (host r) -> names_peer k r r' -> host_and_port (host r) (port_of k r) <> text_of r'.
Proof.
  intros V C (V' & H & _) E. destruct (bracketed r') eqn:B.
  - apply (hd_text r' V') in B. apply (hd_v6 r (port_of k r) V). now rewrite E.
  - apply (no_colon r' V' B). now rewrite H.
Qed.
