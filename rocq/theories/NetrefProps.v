(** Theorems about network references and the text of addresses (C18, C50). *)
From Coq Require Import ZArith List Lia Bool.
From Coq Require Import (notations) String.
From Verif Require Import Base Text BaseLemmas UriSpec AddrModel NetrefModel NetrefSpec NetrefProofs AddrTextModel AddrTextSpec AddrTextProofs.
From Verif Require AddrSpec.
Import ListNotations.
Open Scope Z_scope.

(** * C18 *)

(** Whenever the parser reports [n] characters, the first [n] characters are the
    text of a valid reference, and the parts that were written are exactly its
    parts: each view designates its part, the port number is the number that
    the port denotes, and parts that are absent were not written. *)
Theorem netref_parse : forall (s : list Z) (w : netref) (n : nat),
  parse_ref s = (w, n) -> n <> O ->
  (n <= length s)%nat /\
  exists r : reference,
    valid r /\ firstn n s = text_of r
    /\ option_map (view s) (r_host w) = Some (host r) /\ r_v6 w = bracketed r
    /\ option_map (view s) (r_port w) = port r /\ r_num w = option_map number (port r)
    /\ option_map (view s) (r_path w) = path r
    /\ option_map (view s) (r_query w) = query r
    /\ option_map (view s) (r_fragment w) = fragment r.
Proof.
  intros s w n H Hn. destruct (parse_exists s) as [(r & t & -> & V & St)|Z0].
  2:{ rewrite H in Z0. cbn in Z0. congruence. }
  rewrite (parse_valid r t V St) in H. injection H as <- <-.
  split; [rewrite app_length; lia|]. exists r. destruct (written_views r t) as (W1 & W2 & W3 & W4 & W5).
  repeat (split; [solve [auto]|]). split; [|tauto].
  rewrite firstn_app, Nat.sub_diag, firstn_all, firstn_O. apply app_nil_r.
Qed.
Print Assumptions netref_parse.

Example netref_parse_ex :
  parse_ref (txt "[::1]:08080/a/b?x=1#y z")
  = (mkRef (Some (1, 3)%nat) true (Some (6, 5)%nat) (Some 8080) (Some (11, 4)%nat) (Some (16, 3)%nat) (Some (20, 1)%nat), 21%nat).
Proof. vm_compute. reflexivity. Qed.

(** The views lie inside what was consumed, in order and without overlap. *)
Fixpoint in_order (from : nat) (vs : list (option (nat * nat))) (to : nat) : Prop :=
  match vs with
  | [] => (from <= to)%nat
  | None :: vs => in_order from vs to
  | Some (off, len) :: vs => (from <= off)%nat /\ in_order (off + len) vs to
  end.
Theorem netref_views : forall (s : list Z) (w : netref) (n : nat),
  parse_ref s = (w, n) -> n <> O ->
  in_order 0 [r_host w; r_port w; r_path w; r_query w; r_fragment w] n.
Proof.
  intros s w n H Hn. destruct (parse_exists s) as [(r & t & -> & V & St)|Z0].
  2:{ rewrite H in Z0. cbn in Z0. congruence. }
  rewrite (parse_valid r t V St) in H. injection H as <- <-.
  unfold written, len_view, text_of, host_text. cbn [r_host r_port r_path r_query r_fragment].
  rewrite !app_length.
  destruct (bracketed r), (port r), (path r), (query r), (fragment r); cbn [option_map in_order opt_text length app];
    rewrite ?app_length; cbn [length]; repeat split; lia.
Qed.
Print Assumptions netref_views.

(** Every valid reference is consumed whole, and its parts are found. *)
Theorem netref_complete : forall r : reference,
  valid r ->
  exists w, parse_ref (text_of r) = (w, length (text_of r))
    /\ option_map (view (text_of r)) (r_host w) = Some (host r) /\ r_v6 w = bracketed r
    /\ option_map (view (text_of r)) (r_port w) = port r /\ r_num w = option_map number (port r)
    /\ option_map (view (text_of r)) (r_path w) = path r
    /\ option_map (view (text_of r)) (r_query w) = query r
    /\ option_map (view (text_of r)) (r_fragment w) = fragment r.
Proof.
  intros r V. exists (written r). assert (P := parse_valid r [] V). rewrite app_nil_r in P. rewrite P.
  - destruct (written_views r []) as (W1 & W2 & W3 & W4 & W5). rewrite app_nil_r in *. auto 10.
  - unfold ref_stops. destruct (fragment r), (query r), (path r), (port r); cbn; auto.
Qed.
Print Assumptions netref_complete.

Example netref_complete_ex : valid (mkReference (txt "example.org") false (Some (txt "443")) (Some (txt "/p")) None (Some [])).
Proof.
  unfold valid. cbn [host bracketed port path query fragment when]. split; [discriminate|]. split.
  { repeat (apply Forall_cons; [unfold letter_or_digit; cbn; lia|]). apply Forall_nil. }
  split; [split; [discriminate|split; [repeat (apply Forall_cons; [unfold decimal; cbn; lia|]); apply Forall_nil|vm_compute; discriminate]]|].
  split; [split; [exists (txt "p"); reflexivity|repeat constructor]|]. split; [exact I|constructor].
Qed.

(** A text is consumed whole if and only if it is a valid reference. *)
Theorem netref_whole : forall s : list Z, s <> [] ->
  snd (parse_ref s) = length s <-> exists r, valid r /\ text_of r = s.
Proof.
  intros s Hs. split.
  - intros H. destruct (parse_ref s) as [w n] eqn:E. cbn in H. subst n.
    destruct (netref_parse s w (length s) E) as (_ & r & V & T & _).
    + intros C. apply length_zero_iff_nil in C. congruence.
    + exists r. split; [exact V|]. now rewrite <- T, firstn_all.
  - intros (r & V & <-). destruct (netref_complete r V) as (w & E & _). now rewrite E.
Qed.
Print Assumptions netref_whole.

Example netref_whole_ex : snd (parse_ref (txt "host:65536")) = O /\ snd (parse_ref (txt "a:1 b")) = 3%nat
  /\ snd (parse_ref (txt "[::1")) = O /\ snd (parse_ref (txt "x:000065535")) = 11%nat.
Proof. vm_compute. auto. Qed.

(** * C50: the text of an address *)

(** Given that the C library reads back what it prints, an address of either
    family is printed to text that [parse] consumes whole and that yields the
    same address and port. *)
Theorem address_text_round_trip : forall ntop4 ntop6 pton4 pton6 (a : address),
  inet_laws ntop4 ntop6 pton4 pton6 -> AddrSpec.is_address a ->
  parse_addr pton4 pton6 (print_addr ntop4 ntop6 a) = (Some a, length (print_addr ntop4 ntop6 a))
  /\ construct_addr pton4 pton6 (print_addr ntop4 ntop6 a) = Some a.
Proof.
  intros. assert (P := print_parse ntop4 ntop6 pton4 pton6 a H H0). split; [exact P|].
  unfold construct_addr. rewrite P. now rewrite Nat.eqb_refl.
Qed.
Print Assumptions address_text_round_trip.

Example address_text_laws : inet_laws sample_ntop4 sample_ntop6 sample_pton4 sample_pton6.
Proof. exact sample_laws. Qed.
Example address_text_ex :
  print_addr sample_ntop4 sample_ntop6 (mkAddr (a_addr ipv4_loopback) 80) = txt "127.000.000.001:80"
  /\ print_addr sample_ntop4 sample_ntop6 ipv6_loopback = txt "[0000:0000:0000:0000:0000:0000:0000:0001]:0".
Proof. vm_compute. auto. Qed.

(** No printed address is longer than 47 characters plus what the C library's
    longest IPv6 text exceeds 39 by. *)
Theorem address_text_fits : forall ntop4 ntop6 pton4 pton6 (a : address),
  inet_laws ntop4 ntop6 pton4 pton6 -> AddrSpec.is_address a ->
  (length (ntop6 (a_addr a)) <= 39)%nat ->
  (length (print_addr ntop4 ntop6 a) <= 47)%nat.
Proof.
  intros ntop4 ntop6 pton4 pton6 a [L4 L6] (La & Ba & Pa) H39. unfold print_addr.
  assert (P : (length (put_du 20 (a_port a)) <= 5)%nat).
  { assert (G : forall n m v, v < 10 ^ Z.of_nat m -> (0 < m)%nat -> (length (put_du n v) <= m)%nat).
    { induction n as [|n IH]; intros m v Hv Hm; [cbn; lia|]. cbn [put_du]. destruct (v <? 10) eqn:E; [cbn; lia|].
      destruct m as [|m]; [lia|]. destruct m as [|m]; [cbn in Hv; lia|].
      rewrite app_length. cbn [length]. specialize (IH (S m) (v / 10)).
      rewrite Nat2Z.inj_succ, Z.pow_succ_r in Hv by lia.
      assert (v / 10 < 10 ^ Z.of_nat (S m)) by (apply Z.div_lt_upper_bound; lia). specialize (IH H ltac:(lia)). lia. }
    apply (G 20%nat 5%nat); [change (10 ^ Z.of_nat 5) with 100000; lia|lia]. }
  destruct (match_subnet _ _ _ _); rewrite ?app_length; cbn [length].
  - assert (Ls : length (skipn 12 (a_addr a)) = 4%nat) by (rewrite skipn_length; lia).
    destruct (L4 _ Ls (bytes_skipn _ _ Ba)) as (_ & Len & _). lia.
  - lia.
Qed.
Print Assumptions address_text_fits.

(** Whatever is accepted has the form the documentation gives, except that an
    empty query and an empty fragment may follow the port. *)
Theorem address_text_accepted_partial : forall pton4 pton6 (s : list Z) (a : address) (n : nat),
  parse_addr pton4 pton6 s = (Some a, n) -> n <> O ->
  exists r, valid r /\ firstn n s = text_of r /\ (length (host r) <= 63)%nat
    /\ (exists ds, port r = Some ds /\ a_port a = number ds) /\ path r = None
    /\ (query r = None \/ query r = Some []) /\ (fragment r = None \/ fragment r = Some [])
    /\ (if bracketed r then pton6 (host r) = Some (a_addr a)
        else exists v4, pton4 (host r) = Some v4 /\ a_addr a = [0;0;0;0;0;0;0;0;0;0;255;255] ++ v4).
Proof. intros pton4 pton6 s a n. apply parse_addr_sound; exact (fun x => x). Qed.
Print Assumptions address_text_accepted_partial.

(** Text with a question mark and a number sign after the port is accepted, also
    by the constructor that must consume all of it. *)
Theorem address_text_strict_refuted : exists (s : list Z) (a : address),
  construct_addr sample_pton4 sample_pton6 s = Some a /\ In 63 s /\ In 35 s.
Proof.
  exists (txt "127.000.000.001:80?#"), (mkAddr (a_addr ipv4_loopback) 80).
  split; [vm_compute; reflexivity|]. split; cbn; tauto.
Qed.
Print Assumptions address_text_strict_refuted.
