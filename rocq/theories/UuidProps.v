(** C08, C09, C10: UUID text, order and generation. *)
From Coq Require Import ZArith List Lia Bool Sorting.Sorted.
From Verif Require Import Base UuidModel UuidSpec UuidProofs.
Import ListNotations.
Open Scope Z_scope.

(** C08: printing gives the 8-4-4-4-12 lower-case form, whatever the buffer held. *)
Theorem uuid_print u buf : is_uuid u -> (37 <= length buf)%nat ->
  to_string u buf = uuid_text u /\ print_partial u buf = uuid_text u ++ [0] ++ skipn 37 buf.
Proof. intros Hu Hb. split; [exact (to_string_spec u buf Hu Hb)|exact (print_spec u buf Hu Hb)]. Qed.
Print Assumptions uuid_print.

(** C08: what is printed parses back to the same UUID, with anything after it. *)
Theorem uuid_round_trip u buf r : is_uuid u -> (37 <= length buf)%nat ->
  parse (to_string u buf ++ r) = Some u.
Proof. exact (print_parse u buf r). Qed.
Print Assumptions uuid_round_trip.

(** C08: the parser accepts exactly the strings that begin with the text of some
    UUID in either case, and yields that UUID. *)
Theorem uuid_parse_iff s u : parse s = Some u <->
  (36 <= length s)%nat /\ is_uuid u /\ map to_lower (firstn 36 s) = uuid_text u.
Proof. exact (parse_iff s u). Qed.
Print Assumptions uuid_parse_iff.

(** C08: the throwing constructor accepts exactly the texts of UUIDs. *)
Theorem uuid_construct_iff s u : construct s = Some u <->
  length s = 36%nat /\ is_uuid u /\ map to_lower s = uuid_text u.
Proof. exact (construct_iff s u). Qed.
Print Assumptions uuid_construct_iff.

(** C08: the fields of the POSEIDON_UUID literal are the big-endian groups. *)
Theorem uuid_fields xh xl y zh zl :
  of_fields xh xl y zh zl = store_be 4 xh ++ store_be 2 xl ++ store_be 2 y ++ store_be 2 zh ++ store_be 6 zl.
Proof. exact (fields_text xh xl y zh zl). Qed.
Print Assumptions uuid_fields.

Definition sample : list Z := [18;52;86;120;154;188;77;239;128;1;254;220;186;152;118;84].
Example sample_ok : is_uuid sample /\ parse (to_string sample (repeat 7 64) ++ [33]) = Some sample
  /\ construct (map (fun c => if 97 <=? c then c - 32 else c) (uuid_text sample)) = Some sample.
Proof.
  split; [split; [reflexivity|repeat constructor; unfold byte; lia]|].
  split; vm_compute; reflexivity.
Qed.

(** C09: the sign of [compare] is the lexicographic order of the octets, which
    is that of the printed text; [equals] is equality. *)
Theorem uuid_compare a b : is_uuid a -> is_uuid b ->
  Z.sgn (compare a b) = lex a b /\ Z.sgn (compare a b) = lex (uuid_text a) (uuid_text b)
  /\ (compare a b = 0 <-> a = b) /\ (equals a b = true <-> a = b).
Proof.
  intros Ha Hb. destruct Ha as [La Ba]. destruct Hb as [Lb Bb].
  assert (L : length a = length b) by congruence.
  pose proof (compare_sgn a b L Ba Bb) as C. split; [exact C|]. split.
  { rewrite lex_text by (split; assumption). exact C. }
  split; [|exact (equals_iff a b L)]. split.
  - intros E. apply lex_eq. rewrite <- C, E. reflexivity.
  - intros ->. rewrite lex_refl in C. lia.
Qed.
Print Assumptions uuid_compare.

(** C09: it is a strict total order. *)
Theorem uuid_total_order a b c : is_uuid a -> is_uuid b -> is_uuid c ->
  compare a a = 0
  /\ (compare a b < 0 <-> compare b a > 0)
  /\ (compare a b < 0 \/ a = b \/ compare a b > 0)
  /\ (compare a b < 0 -> compare b c < 0 -> compare a c < 0).
Proof.
  intros Ha Hb Hc. pose proof (uuid_compare a b Ha Hb) as (C1 & _ & E1 & _).
  pose proof (uuid_compare b a Hb Ha) as (C2 & _). pose proof (uuid_compare b c Hb Hc) as (C3 & _).
  pose proof (uuid_compare a c Ha Hc) as (C4 & _). pose proof (uuid_compare a a Ha Ha) as (_ & _ & E5 & _).
  pose proof (lex_antisym a b) as A. pose proof (lex_lt_trans a b c) as T.
  split; [tauto|]. split; [lia|]. split; [|lia].
  destruct (Z.eq_dec (compare a b) 0) as [E|E]; [tauto|lia].
Qed.
Print Assumptions uuid_total_order.

Example compare_sample : compare sample (map (fun b => 255 - b) sample) < 0.
Proof. vm_compute. reflexivity. Qed.

(** C10: version 4 UUIDs are the 128 random bits with version and variant stamped. *)
Theorem uuid_v4_fields z0 z1 z2 z3 :
  random_v4 z0 z1 z2 z3 = stamp_v4 (store_be 4 z0 ++ store_be 4 z1 ++ store_be 4 z2 ++ store_be 4 z3).
Proof. exact (random_v4_spec z0 z1 z2 z3). Qed.
Print Assumptions uuid_v4_fields.

(** C10: the octets of a version 7 UUID: 48-bit time, version, 12-bit serial,
    variant, 14 bits of the process id, 48 random bits. *)
Theorem uuid_v7_fields pid g d : 0 <= pid < two32 -> clock_ok d -> 0 <= g_serial g < 4096 ->
  let s := if g_time g =? ms d then (g_serial g + 1) mod 4096 else 0 in
  random_v7 pid g d =
  (mkGen (ms d) s,
   store_be 6 (ms d) ++ [7 * 16 + s / 256; s mod 256]
   ++ [128 + pid mod 16384 / 256; pid mod 256] ++ store_be 2 (d_z2 d mod 65536) ++ store_be 4 (d_z3 d)).
Proof.
  intros Hp Hd Hg. cbv zeta. pose proof (random_v7_fields pid g d Hp Hd Hg) as F. cbv zeta in F.
  unfold next_serial in F. rewrite <- F. rewrite random_v7_value by assumption. reflexivity.
Qed.
Print Assumptions uuid_v7_fields.

(** C10: every UUID of every run is well-formed: version 7, variant 2. *)
Theorem uuid_v7_version pid ds : 0 <= pid < two32 -> Forall clock_ok ds ->
  Forall (fun u => is_uuid u /\ nth 6 u 0 / 16 = 7 /\ nth 8 u 0 / 64 = 2) (run_v7 pid gen_init ds).
Proof. intros Hp Hd. apply (run_serial pid ds Hp Hd). cbn; lia. Qed.
Print Assumptions uuid_v7_version.

(** C10: with a clock that never goes back and at most 4096 calls within any
    millisecond, UUIDs are strictly increasing in their order of creation. *)
Theorem uuid_v7_sorted_partial pid ds : 0 <= pid < two32 -> Forall clock_ok ds ->
  Forall (fun d => 0 < ms d) ds -> Sorted Z.le (map ms ds) ->
  (forall t, (count_occ Z.eq_dec (map ms ds) t <= Z.to_nat 4096)%nat) ->
  StronglySorted (fun a b => compare a b < 0) (run_v7 pid gen_init ds).
Proof. exact (v7_sorted pid ds). Qed.
Print Assumptions uuid_v7_sorted_partial.

(** C10: processes whose ids differ in their low 14 bits never make equal UUIDs. *)
Theorem uuid_v7_processes p1 p2 g1 g2 d1 d2 :
  0 <= p1 < two32 -> 0 <= p2 < two32 -> p1 mod 16384 <> p2 mod 16384 ->
  clock_ok d1 -> clock_ok d2 -> 0 <= g_serial g1 < 4096 -> 0 <= g_serial g2 < 4096 ->
  snd (random_v7 p1 g1 d1) <> snd (random_v7 p2 g2 d2).
Proof. exact (v7_distinct_processes p1 p2 g1 g2 d1 d2). Qed.
Print Assumptions uuid_v7_processes.

Definition at_ms (t : Z) : draw := mkDraw (t / 1000) (t mod 1000 * 1000000) (t * 7919) (t * 104729).
Example v7_hyps : let ds := [at_ms 1700000000000; at_ms 1700000000000; at_ms 1700000000001] in
  Forall clock_ok ds /\ Forall (fun d => 0 < ms d) ds /\ Sorted Z.le (map ms ds)
  /\ map (firstn 8) (run_v7 4242 gen_init ds)
     = [[1;139;207;229;104;0;112;0]; [1;139;207;229;104;0;112;1]; [1;139;207;229;104;1;112;0]].
Proof.
  cbv zeta. repeat split; repeat constructor; unfold clock_ok; vm_compute; intuition congruence.
Qed.

(** C10: the full claim, "sorted in their order of creation", is false when the
    clock steps back ... *)
Theorem uuid_v7_sorted_refuted_clock : exists pid ds,
  Forall clock_ok ds /\ 0 <= pid < two32 /\
  ~ StronglySorted (fun a b => compare a b < 0) (run_v7 pid gen_init ds).
Proof.
  exists 1, [at_ms 1700000000001; at_ms 1700000000000]. split; [|split; [vm_compute; intuition congruence|]].
  - repeat constructor; unfold clock_ok; vm_compute; intuition congruence.
  - intros H. apply StronglySorted_inv in H. destruct H as [_ H]. inversion_clear H.
    vm_compute in H0. discriminate.
Qed.
Print Assumptions uuid_v7_sorted_refuted_clock.

(** ... and when more than 4096 are created within one millisecond. *)
Theorem uuid_v7_sorted_refuted_burst : exists pid ds,
  Forall clock_ok ds /\ 0 <= pid < two32 /\ Sorted Z.le (map ms ds) /\
  ~ StronglySorted (fun a b => compare a b < 0) (run_v7 pid gen_init ds).
Proof.
  exists 1, (repeat (at_ms 1700000000000) (Z.to_nat 4097)).
  assert (C : clock_ok (at_ms 1700000000000)) by (unfold clock_ok; vm_compute; intuition congruence).
  split; [|split; [vm_compute; intuition congruence|split]].
  - apply Forall_forall. intros d Hd. apply repeat_spec in Hd. now subst.
  - generalize (Z.to_nat 4097). clear. induction n as [|n IH]; cbn [repeat map]; constructor; auto.
    destruct n; constructor. apply Z.le_refl.
  - intros H.
    assert (G : forall l i, StronglySorted (fun a b => compare a b < 0) l ->
       match skipn i l with a :: b :: _ => compare a b <? 0 | _ => true end = true).
    { clear. induction l as [|a l IH]; intros i H.
      - destruct i; reflexivity.
      - apply StronglySorted_inv in H. destruct H as [H1 H2]. destruct i as [|i]; [|exact (IH i H1)].
        cbn [skipn]. destruct l as [|b l]; [reflexivity|]. inversion_clear H2. now apply Z.ltb_lt. }
    specialize (G _ (Z.to_nat 4095) H). vm_compute in G. discriminate.
Qed.
Print Assumptions uuid_v7_sorted_refuted_burst.
