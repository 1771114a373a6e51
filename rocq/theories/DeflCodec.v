(** A codec that obeys the contracts of [DeflSpec]: it writes blocks without
    compression (RFC 1951, 3.2.4), one for each octet.  It shows that the
    contracts can be met; it is not a model of zlib. *)
From Coq Require Import ZArith List Lia Bool ZifyBool ZifyNat Arith.
From Verif Require Import Base BaseLemmas DeflModel DeflSpec DeflProofs.
Import ListNotations.
Open Scope Z_scope.

(** Where a reader is: before a header (after a flush, or at the beginning, if
    [true]); in the length; in its complement; in the data; in the empty final
    block; at the end. *)
Inductive place :=
  | Hdr (fresh : bool) | L0 | L1 (l0 : Z) | N0 (len : Z) | N1 (len n0 : Z) | Data (k : Z)
  | F0 | F1 | F2 | F3 | End.

Definition octet (b : Z) : bool := (0 <=? b) && (b <? 256).
Definition step (p : place) (b : Z) : option (place * list Z) :=
  if negb (octet b) then None
  else
    match p with
    | Hdr _ => if b =? 0 then Some (L0, []) else if b =? 1 then Some (F0, []) else None
    | L0 => Some (L1 b, [])
    | L1 l0 => Some (N0 (l0 + 256 * b), [])
    | N0 len => Some (N1 len b, [])
    | N1 len n0 => if n0 + 256 * b =? 65535 - len then Some (if len =? 0 then Hdr true else Data len, []) else None
    | Data k => Some (if k =? 1 then Hdr false else Data (k - 1), [b])
    | F0 => if b =? 0 then Some (F1, []) else None
    | F1 => if b =? 0 then Some (F2, []) else None
    | F2 => if b =? 255 then Some (F3, []) else None
    | F3 => if b =? 255 then Some (End, []) else None
    | End => None
    end.
Fixpoint run (p : place) (s : list Z) : option (place * list Z) :=
  match s with
  | [] => Some (p, [])
  | b :: r =>
      match step p b with
      | None => None
      | Some (p, o) => match run p r with None => None | Some (p, o') => Some (p, o ++ o') end
      end
  end.
Definition start : place := Hdr true.
Definition toy_decode (s : list Z) : option (list Z) :=
  match run start s with Some (End, _) => None | Some (_, o) => Some o | None => None end.
Definition toy_flushed (s : list Z) : Prop := exists x, run start s = Some (Hdr true, x).
Definition toy_whole (s x : list Z) : Prop := run start s = Some (End, x).

Lemma run_app a : forall p b,
  run p (a ++ b) = match run p a with
                   | None => None
                   | Some (q, x) => match run q b with None => None | Some (q', y) => Some (q', x ++ y) end
                   end.
Proof.
  induction a as [|c a IH]; intros p b; cbn [app run].
  - destruct (run p b) as [[q y]|]; reflexivity.
  - destruct (step p c) as [[q o]|]; [|reflexivity]. rewrite IH.
    destruct (run q a) as [[q1 x]|]; [|reflexivity]. destruct (run q1 b) as [[q2 y]|]; [|reflexivity].
    rewrite app_assoc. reflexivity.
Qed.

Lemma run_hdr e e' s : s <> [] -> run (Hdr e) s = run (Hdr e') s.
Proof. destruct s as [|b s]; [congruence|reflexivity]. Qed.

Definition ends_with (s t : list Z) : Prop := exists c, s = c ++ t.
Lemma ends_snoc s t b : ends_with s t -> ends_with (s ++ [b]) (t ++ [b]).
Proof. intros [c ->]. exists c. rewrite app_assoc. reflexivity. Qed.

Definition tail_of (p : place) (s : list Z) : Prop :=
  match p with
  | Hdr true => s = [] \/ ends_with s [0; 0; 255; 255]
  | L1 l0 => ends_with s [l0] /\ 0 <= l0 < 256
  | N0 len => exists l0 l1, ends_with s [l0; l1] /\ len = l0 + 256 * l1 /\ 0 <= l0 < 256 /\ 0 <= l1 < 256
  | N1 len n0 => exists l0 l1, ends_with s [l0; l1; n0] /\ len = l0 + 256 * l1 /\ 0 <= l0 < 256 /\ 0 <= l1 < 256 /\ 0 <= n0 < 256
  | _ => True
  end.

Lemma run_tail s : forall q x, run start s = Some (q, x) -> tail_of q s.
Proof.
  induction s as [|b s IH] using rev_ind; intros q x E.
  - injection E as <- _. left. reflexivity.
  - rewrite run_app in E. destruct (run start s) as [[p y]|]; [|discriminate].
    specialize (IH p y eq_refl). cbn [run] in E. unfold step in E.
    destruct (octet b) eqn:OB; cbn [negb] in E; [|discriminate]. unfold octet in OB.
    assert (B : 0 <= b < 256) by lia.
    destruct p as [e| |l0|len|len n0|k| | | | |];
      repeat match type of E with context [if ?c then _ else _] => destruct c eqn:? end; try discriminate;
      injection E as <- _; cbn [tail_of]; auto.
    + split; [|exact B]. exists s. reflexivity.
    + destruct IH as [H1 H2]. exists l0, b. split; [|auto]. apply (ends_snoc _ [l0]), H1.
    + destruct IH as (l0 & l1 & H1 & H2 & H3 & H4). exists l0, l1. split; [|auto]. apply (ends_snoc _ [l0; l1]), H1.
    + destruct IH as (l0 & l1 & H1 & H2 & H3 & H4 & H5). right.
      assert (l0 = 0) by lia. assert (l1 = 0) by lia. assert (n0 = 255) by lia. assert (b = 255) by lia. subst.
      apply (ends_snoc _ [0; 0; 255]), H1.
Qed.

Lemma toy_language : language toy_decode toy_flushed.
Proof.
  constructor.
  - split; [exists []|]; reflexivity.
  - intros a b x y [x' E] D1 D2. unfold toy_decode in *. rewrite run_app, E in *.
    injection D1 as <-. fold start. destruct (run start b) as [[q y']|]; [|discriminate].
    destruct q; try discriminate; injection D2 as <-; reflexivity.
  - intros a b [x Ea] [y Eb]. exists (x ++ y). rewrite run_app, Ea. fold start. rewrite Eb. reflexivity.
  - intros a b [x Ea] [y Eab] N. rewrite run_app, Ea in Eab. fold start in Eab.
    destruct (run start b) as [[q y']|] eqn:Eb; [|discriminate]. injection Eab as -> _.
    destruct (run_tail _ _ _ Eb) as [H|[c H]]; [contradiction|]. exists c. exact H.
Qed.

Lemma toy_prefix_free : prefix_free toy_whole.
Proof.
  unfold prefix_free, toy_whole. intros a x b y r A B E. subst b. rewrite run_app, A in B.
  destruct r as [|c r]; [|cbn [run] in B; unfold step in B; destruct (negb _); discriminate].
  cbn [run] in B. rewrite app_nil_r in B. injection B as <-. auto.
Qed.

(** ** The writer *)

Record writer := mkW { w_fed : list Z; w_made : list Z; w_pend : list Z; w_mark : bool; w_done : bool }.
Definition stored (b : Z) : list Z := [0; 1; 0; 254; 255; b].
Definition mark_block : list Z := [0; 0; 0; 255; 255].
Definition final_block : list Z := [1; 0; 0; 255; 255].
Definition toy_new : writer := mkW [] [] [] false false.
Definition toy_reset (_ : writer) : writer := toy_new.

Definition toy_deflate (w : writer) (m : mode) (avail : nat) (input : list Z) : answer writer :=
  if w_done w || negb (forallb octet input) then
    match m with
    | Finish => if negb (is_nil input) then (w, 0%nat, [], Z_error)
                else let out := firstn avail (w_pend w) in let rest := skipn avail (w_pend w) in
                (mkW (w_fed w) (w_made w ++ out) rest (w_mark w) (w_done w), 0%nat, out, if is_nil rest then Z_stream_end else Z_ok)
    | _ => (w, 0%nat, [], Z_error)
    end
  else
    let mark := w_mark w && is_nil input in
    let tail := match m with No_flush => [] | Finish => final_block | _ => if mark then [] else mark_block end in
    let pend := w_pend w ++ flat_map stored input ++ tail in
    let out := firstn avail pend in
    let rest := skipn avail pend in
    (mkW (w_fed w ++ input) (w_made w ++ out) rest
         (match m with No_flush => mark | _ => true end) (match m with Finish => true | _ => false end),
     length input, out,
     match m with
     | Finish => if is_nil rest then Z_stream_end else Z_ok
     | _ => if is_nil input && is_nil out then Z_buf_error else Z_ok
     end).

Definition toy_dsane (w : writer) : Prop :=
  bytes (w_made w ++ w_pend w) /\
  (if w_done w then run start (w_made w ++ w_pend w) = Some (End, w_fed w)
   else exists e, run start (w_made w ++ w_pend w) = Some (Hdr e, w_fed w) /\ (w_mark w = true -> e = true)) /\
  (length (w_made w ++ w_pend w) <= 11 * length (w_fed w) + (if w_done w then 10 else if w_mark w then 5 else 0))%nat.
Definition toy_bound (n : nat) : nat := (11 * n + 10)%nat.

Lemma forallb_octet s : forallb octet s = true -> bytes s.
Proof.
  intros H. apply Forall_forall. intros b Hb. rewrite forallb_forall in H. specialize (H b Hb).
  unfold octet in H. unfold byte. lia.
Qed.
Lemma stored_run e s : forallb octet s = true -> exists e', run (Hdr e) (flat_map stored s) = Some (Hdr e', s) /\ (s = [] -> e' = e).
Proof.
  revert e. induction s as [|b s IH]; intros e H; [exists e; auto|].
  cbn [forallb] in H. apply andb_true_iff in H. destruct H as [Hb Hs].
  destruct (IH false Hs) as (e' & E & _). exists e'. split; [|discriminate].
  cbn [flat_map stored app]. cbn [run].
  change (step (Hdr e) 0) with (Some (L0, @nil Z)). cbn iota. cbn [run].
  change (step L0 1) with (Some (L1 1, @nil Z)). cbn iota. cbn [run].
  change (step (L1 1) 0) with (Some (N0 1, @nil Z)). cbn iota. cbn [run].
  change (step (N0 1) 254) with (Some (N1 1 254, @nil Z)). cbn iota. cbn [run].
  change (step (N1 1 254) 255) with (Some (Data 1, @nil Z)). cbn iota. cbn [run].
  unfold step at 1. rewrite Hb. cbn [negb]. cbn iota. change (1 =? 1) with true. cbn iota. rewrite E. reflexivity.
Qed.
Lemma stored_bytes s : bytes s -> bytes (flat_map stored s).
Proof.
  induction 1 as [|b s Hb Hs IH]; [constructor|]. cbn [flat_map stored app].
  repeat (constructor; [solve [unfold byte in *; lia | exact Hb]|]). exact IH.
Qed.
Lemma stored_length s : length (flat_map stored s) = (6 * length s)%nat.
Proof. induction s as [|b s IH]; [reflexivity|]. cbn [flat_map stored app length]. rewrite IH. lia. Qed.

Lemma toy_step w m avail input w' n out err :
  toy_dsane w -> toy_deflate w m avail input = (w', n, out, err) -> err <> Z_error ->
  toy_dsane w' /\ (n <= length input)%nat /\ out = firstn avail (out ++ w_pend w') /\ bytes out /\
  w_fed w' = w_fed w ++ firstn n input /\ w_made w' = w_made w ++ out /\
  (m <> Finish -> n = length input /\ (m <> No_flush -> w_mark w' = true) /\ w_done w' = false /\
     (is_nil input = false -> out = [] -> avail = 0%nat) /\
     (err = Z_buf_error -> input = [] /\ out = []) /\ (err = Z_ok -> input <> [] \/ out <> []) /\ err <> Z_stream_end) /\
  (m = Finish -> w_done w' = true \/ w_done w = w_done w') /\
  (m = Finish -> n = length input /\ err <> Z_buf_error /\ (err = Z_stream_end -> w_pend w' = [] /\ w_done w' = true) /\ (err = Z_ok -> w_pend w' <> [])).
Proof.
  intros (B & R & L) E NE. unfold toy_deflate in E.
  destruct (w_done w || negb (forallb octet input)) eqn:C.
  - destruct m; try (injection E as <- <- <- <-; congruence).
    destruct (is_nil input) eqn:EI; cbn [negb] in E; [|injection E as <- <- <- <-; congruence].
    apply is_nil_true in EI. subst input. cbn [forallb negb] in C. rewrite orb_false_r in C.
    injection E as <- <- <- <-.
    set (o := firstn avail (w_pend w)). set (r := skipn avail (w_pend w)).
    assert (OR : o ++ r = w_pend w) by apply firstn_skipn.
    unfold toy_dsane. cbn [w_made w_pend w_fed w_done w_mark]. rewrite <- app_assoc, OR.
    split; [auto|]. split; [cbn; lia|]. split; [reflexivity|].
    split; [apply bytes_firstn; apply Forall_app in B; apply B|].
    rewrite firstn_nil, app_nil_r. split; [reflexivity|]. split; [reflexivity|]. split; [congruence|].
    split; [right; reflexivity|]. intros _. split; [reflexivity|].
    destruct (is_nil r) eqn:ER; split; try discriminate; (split; [|]); try discriminate; intros _.
    + split; [apply is_nil_true, ER|exact C].
    + intros Q. rewrite Q in ER. discriminate.
  - apply orb_false_iff in C. destruct C as [C1 C2]. rewrite negb_false_iff in C2.
    rewrite C1 in R, L. destruct R as (e & R & RM).
    pose proof (forallb_octet _ C2) as BI.
    set (mark := w_mark w && is_nil input) in *.
    set (tail := match m with No_flush => [] | Finish => final_block | _ => if mark then [] else mark_block end) in *.
    set (pend := w_pend w ++ flat_map stored input ++ tail) in *.
    injection E as <- <- <- <-.
    set (o := firstn avail pend) in *. set (r := skipn avail pend) in *.
    assert (OR : o ++ r = pend) by apply firstn_skipn.
    cbn [w_made w_pend w_fed w_done w_mark].
    destruct (stored_run e input C2) as (e' & RS & RE).
    assert (RT : exists q, run (Hdr e') tail = Some (q, []) /\
                 match m with
                 | Finish => q = End
                 | No_flush => q = Hdr e'
                 | _ => q = Hdr true
                 end).
    { unfold tail. destruct m; try (eexists; split; reflexivity).
      all: destruct mark eqn:EM; [|eexists; split; reflexivity].
      all: eexists; split; [reflexivity|]; f_equal; unfold mark in EM; apply andb_true_iff in EM;
        destruct EM as [EM1 EM2]; apply is_nil_true in EM2; rewrite (RE EM2); auto. }
    destruct RT as (q & RT & RQ).
    assert (RR : run start ((w_made w ++ o) ++ r) = Some (q, w_fed w ++ input)).
    { rewrite <- app_assoc, OR. unfold pend. rewrite app_assoc, run_app, R, run_app, RS, RT.
      rewrite app_nil_r. reflexivity. }
    assert (BP : bytes pend).
    { unfold pend. apply Forall_app in B. apply Forall_app. split; [apply B|]. apply Forall_app.
      split; [apply stored_bytes, BI|]. unfold tail, mark_block, final_block.
      destruct m; try constructor; try (destruct mark); repeat constructor; unfold byte; lia. }
    assert (LT : (length tail <= 5)%nat) by (unfold tail; destruct m; try (destruct mark); cbn; lia).
    split.
    { split; [|split].
      - cbn [w_made w_pend]. rewrite <- app_assoc, OR. apply Forall_app in B. apply Forall_app. split; [apply B|exact BP].
      - cbn [w_made w_pend w_done w_fed w_mark]. rewrite RR. destruct m; subst q; try reflexivity; eexists; (split; [reflexivity|]); auto.
        unfold mark. intros EM. apply andb_true_iff in EM. destruct EM as [EM1 EM2]. apply is_nil_true in EM2.
        rewrite (RE EM2). auto.
      - cbn [w_made w_pend w_done w_fed w_mark]. rewrite <- app_assoc, OR. unfold pend. rewrite !app_length, stored_length.
        rewrite app_length in L. unfold tail, mark. 
        destruct m; destruct (w_mark w), input; cbn [andb is_nil length final_block mark_block] in *; lia. }
    split; [lia|].
    split; [rewrite OR; reflexivity|].
    split; [apply bytes_firstn, BP|].
    split; [rewrite firstn_all; reflexivity|]. split; [reflexivity|].
    split.
    { intros NFi. split; [reflexivity|]. split; [intros NN; destruct m; congruence|].
      split; [destruct m; congruence|].
      split. { intros EI EO. destruct avail; [reflexivity|]. exfalso. unfold o, pend in EO.
               destruct input as [|b input]; [discriminate|]. cbn [flat_map stored app] in EO.
               destruct (w_pend w); discriminate. }
      destruct m; try congruence; destruct (is_nil input) eqn:EI, (is_nil o) eqn:EO; cbn [andb];
        (split; [|split]); try discriminate; intros _;
        try (apply is_nil_true in EI); try (apply is_nil_true in EO); auto;
        first [ left; intros Q; rewrite Q in EI; discriminate | right; intros Q; rewrite Q in EO; discriminate ]. }
    split; [intros ->; left; reflexivity|].
    intros ->. split; [reflexivity|]. destruct (is_nil r) eqn:ER; split; try discriminate; split; try discriminate; intros _.
    + split; [apply is_nil_true, ER|reflexivity].
    + intros Q. rewrite Q in ER. discriminate.
Qed.

Lemma toy_full w m avail input w' n out err :
  toy_dsane w -> toy_deflate w m avail input = (w', n, out, err) -> err <> Z_error ->
  (length out < avail)%nat -> w_pend w' = [].
Proof.
  intros S E NE L. destruct (toy_step _ _ _ _ _ _ _ _ S E NE) as (_ & _ & O & _).
  destruct (w_pend w') as [|c r]; [reflexivity|]. exfalso.
  assert (Q : length out = length (firstn avail (out ++ c :: r))) by (rewrite <- O; reflexivity).
  rewrite firstn_length, app_length in Q. cbn [length] in Q. lia.
Qed.
Lemma toy_out w m avail input w' n out err :
  toy_dsane w -> toy_deflate w m avail input = (w', n, out, err) -> err <> Z_error -> (length out <= avail)%nat.
Proof.
  intros S E NE. destruct (toy_step _ _ _ _ _ _ _ _ S E NE) as (_ & _ & O & _).
  rewrite O, firstn_length. lia.
Qed.
Lemma fine_not e : fine e -> e <> Z_error. Proof. intros [-> | ->]; discriminate. Qed.
Lemma fine_not_end e : fine e -> e <> Z_stream_end. Proof. intros [-> | ->]; discriminate. Qed.

Lemma toy_bounded w : toy_dsane w -> (length (w_made w) <= toy_bound (length (w_fed w)))%nat.
Proof.
  intros (_ & _ & L). unfold toy_bound. rewrite app_length in L.
  destruct (w_done w), (w_mark w); lia.
Qed.
Lemma toy_bound_mono a b : (a <= b)%nat -> (toy_bound a <= toy_bound b)%nat.
Proof. unfold toy_bound. lia. Qed.

(** The states of a writer that has not come to its end. *)
Definition toy_open (w : writer) : Prop := toy_dsane w /\ w_done w = false.

Lemma toy_deflate_contract :
  deflate_contract writer toy_deflate toy_reset toy_decode toy_flushed toy_open w_fed w_made toy_bound.
Proof.
  constructor.
  - intros st. unfold toy_reset, toy_open. split; [|auto]. split; [|reflexivity].
    split; [constructor|]. split; [exists true; split; reflexivity|cbn; lia].
  - intros st m avail input st' n out err [S DN] A NFi E FI.
    pose proof (fine_not _ FI) as NE. pose proof (toy_out _ _ _ _ _ _ _ _ S E NE) as LO.
    destruct (toy_step _ _ _ _ _ _ _ _ S E NE) as (S' & Ln & O & B & F & M & H1 & _).
    destruct (H1 NFi) as (_ & _ & DN' & _). repeat split; auto; apply S'.
  - intros st avail input st' n out err [S DN] A E FI L.
    destruct (toy_step _ _ _ _ _ _ _ _ S E (fine_not _ FI)) as (_ & _ & _ & _ & _ & _ & H1 & _).
    apply (H1 ltac:(discriminate)).
  - intros st m avail st' n out err [S DN] A Hm E FI L.
    assert (NFi : m <> Finish) by (intros ->; destruct Hm; discriminate).
    assert (NN : m <> No_flush) by (intros ->; destruct Hm; discriminate).
    pose proof (toy_full _ _ _ _ _ _ _ _ S E (fine_not _ FI) L) as PE.
    destruct (toy_step _ _ _ _ _ _ _ _ S E (fine_not _ FI)) as (S' & _ & _ & _ & _ & _ & H1 & _).
    destruct (H1 NFi) as (_ & MK & DN' & _). specialize (MK NN).
    destruct S' as (_ & R & _). rewrite DN', PE, app_nil_r in R. destruct R as (e & R & RM). rewrite (RM MK) in R.
    split; [exists (w_fed st'); exact R|]. unfold toy_decode. rewrite R. reflexivity.
  - intros st m avail input st' n out err [S DN] A Hm E.
    assert (NFi : m <> Finish) by (intros ->; destruct Hm as [[? _]|[?|?]]; discriminate).
    split; intros ->; destruct (toy_step _ _ _ _ _ _ _ _ S E ltac:(discriminate)) as (_ & _ & _ & _ & _ & _ & H1 & _);
      destruct (H1 NFi) as (-> & _ & _ & _ & HB & HO & _).
    + destruct (HO eq_refl) as [Q|Q]; [left|right; exact Q]. destruct input; [congruence|discriminate].
    + destruct (HB eq_refl) as [-> ->]. auto.
  - intros st [S _]. apply toy_bounded, S.
  - apply toy_bound_mono.
Qed.

Lemma toy_finish_contract :
  finish_contract writer toy_deflate toy_whole toy_dsane w_fed w_made toy_bound.
Proof.
  constructor.
  - intros st m avail input st' n out err S A E NE.
    pose proof (toy_out _ _ _ _ _ _ _ _ S E NE) as LO.
    destruct (toy_step _ _ _ _ _ _ _ _ S E NE) as (S' & Ln & O & B & F & M & _). auto.
  - intros st avail input st' n out err S A E FI L.
    destruct (toy_step _ _ _ _ _ _ _ _ S E (fine_not _ FI)) as (_ & _ & _ & _ & _ & _ & H1 & _).
    apply (H1 ltac:(discriminate)).
  - intros st avail input st' n out S A E.
    destruct (toy_step _ _ _ _ _ _ _ _ S E ltac:(discriminate)) as (S' & _ & _ & _ & _ & _ & _ & _ & H2).
    destruct (H2 eq_refl) as (-> & _ & H3 & _). split; [reflexivity|].
    destruct (H3 eq_refl) as [PE DN]. destruct S' as (_ & R & _). rewrite DN, PE, app_nil_r in R. exact R.
  - intros st m avail input st' n out err S A E ->.
    destruct (toy_step _ _ _ _ _ _ _ _ S E ltac:(discriminate)) as (_ & _ & _ & _ & _ & _ & H1 & _).
    destruct m; try reflexivity; destruct (H1 ltac:(discriminate)) as (_ & _ & _ & _ & _ & _ & H); congruence.
  - intros st m avail input st' n out err S A Hm E.
    assert (D : {m = Finish} + {m <> Finish}) by (destruct m; auto; right; discriminate).
    destruct D as [EM|NFi].
    + split; [|split].
      * intros ->. destruct (toy_step _ _ _ _ _ _ _ _ S E ltac:(discriminate)) as (_ & _ & O & _ & _ & _ & _ & _ & H2).
        destruct (H2 EM) as (_ & _ & _ & H3). specialize (H3 eq_refl). right. intros ->.
        destruct (w_pend st') as [|c r]; [congruence|]. destruct avail; [lia|]. discriminate O.
      * intros ->. exfalso. destruct (toy_step _ _ _ _ _ _ _ _ S E ltac:(discriminate)) as (_ & _ & O & _ & _ & _ & _ & _ & H2).
        destruct (H2 EM) as (_ & H3 & _). congruence.
      * intros _ ->. destruct (toy_step _ _ _ _ _ _ _ _ S E ltac:(discriminate)) as (_ & _ & O & _ & _ & _ & _ & _ & H2).
        destruct (H2 EM) as (_ & H3 & _). congruence.
    + split; [|split; [|congruence]]; intros ->;
        destruct (toy_step _ _ _ _ _ _ _ _ S E ltac:(discriminate)) as (_ & _ & _ & _ & _ & _ & H1 & _);
        destruct (H1 NFi) as (-> & _ & _ & _ & HB & HO & _).
      * destruct (HO eq_refl) as [Q|Q]; [left|right; exact Q]. destruct input; [congruence|discriminate].
      * destruct (HB eq_refl) as [-> ->]. auto.
  - apply toy_bounded.
  - apply toy_bound_mono.
Qed.

(** ** The reader *)

Record reader := mkR { r_eaten : list Z; r_got : list Z; r_pend : list Z; r_place : place }.
Definition at_end (p : place) : bool := match p with End => true | _ => false end.
Fixpoint eat (p : place) (s : list Z) : option (place * nat * list Z) :=
  match s with
  | [] => Some (p, 0%nat, [])
  | b :: r =>
      if at_end p then Some (p, 0%nat, [])
      else match step p b with
           | None => None
           | Some (p, o) =>
               match eat p r with None => None | Some (p, n, o') => Some (p, S n, o ++ o') end
           end
  end.
Definition toy_reader : reader := mkR [] [] [] start.
Definition toy_inflate (r : reader) (avail : nat) (input : list Z) : answer reader :=
  match eat (r_place r) input with
  | None => (r, 0%nat, [], Z_error)
  | Some (p, n, o) =>
      let pend := r_pend r ++ o in
      let out := firstn avail pend in
      let rest := skipn avail pend in
      (mkR (r_eaten r ++ firstn n input) (r_got r ++ out) rest p, n, out,
       if at_end p && is_nil rest then Z_stream_end
       else if (n =? 0)%nat && is_nil out then Z_buf_error else Z_ok)
  end.

Definition toy_isane (r : reader) : Prop := run start (r_eaten r) = Some (r_place r, r_got r ++ r_pend r).

Lemma eat_run s : forall p q n o, eat p s = Some (q, n, o) ->
  (n <= length s)%nat /\ run p (firstn n s) = Some (q, o) /\ ((n < length s)%nat -> q = End) /\
  (n = length s -> q = End \/ run p s = Some (q, o)).
Proof.
  induction s as [|b s IH]; intros p q n o E; cbn [eat] in E.
  - injection E as <- <- <-. split; [cbn; lia|]. split; [reflexivity|]. split; [cbn; lia|]. auto.
  - destruct (at_end p) eqn:EP.
    + injection E as <- <- <-. destruct p; try discriminate. split; [lia|]. split; [reflexivity|].
      split; auto.
    + destruct (step p b) as [[p1 o1]|] eqn:ES; [|discriminate].
      destruct (eat p1 s) as [[[q1 n1] o2]|] eqn:EE; [|discriminate]. injection E as <- <- <-.
      destruct (IH _ _ _ _ EE) as (H1 & H2 & H3 & H4). cbn [length firstn run]. rewrite ES, H2.
      split; [lia|]. split; [reflexivity|]. split; [intros; apply H3; lia|].
      intros Q. destruct (H4 ltac:(lia)) as [->|H5]; [auto|]. rewrite H5. auto.
Qed.
Lemma eat_ok s : forall p more r, run p (s ++ more) = Some r -> eat p s <> None.
Proof.
  induction s as [|b s IH]; intros p more r E; cbn [eat]; [discriminate|].
  destruct (at_end p); [discriminate|]. cbn [app run] in E.
  destruct (step p b) as [[p1 o1]|]; [|discriminate].
  destruct (run p1 (s ++ more)) as [[q o]|] eqn:ER; [|discriminate].
  specialize (IH _ _ _ ER). destruct (eat p1 s) as [[[q1 n1] o2]|]; [discriminate|congruence].
Qed.

Lemma toy_istep r avail input r' n out err :
  toy_isane r -> toy_inflate r avail input = (r', n, out, err) -> err <> Z_error ->
  toy_isane r' /\ (n <= length input)%nat /\ out = firstn avail (out ++ r_pend r') /\
  r_eaten r' = r_eaten r ++ firstn n input /\ r_got r' = r_got r ++ out /\
  ((n < length input)%nat -> r_place r' = End) /\
  (err = Z_stream_end -> r_place r' = End /\ r_pend r' = []) /\
  (err = Z_ok -> n <> 0%nat \/ out <> []) /\ (err = Z_buf_error -> n = 0%nat /\ out = []) /\
  (r_place r' = End -> r_pend r' = [] -> err = Z_stream_end).
Proof.
  intros S E NE. unfold toy_inflate in E.
  destruct (eat (r_place r) input) as [[[p k] o]|] eqn:EE; [|injection E as <- <- <- <-; congruence].
  destruct (eat_run _ _ _ _ _ EE) as (H1 & H2 & H3 & H4).
  set (pend := r_pend r ++ o) in *. injection E as <- <- <- <-.
  set (out := firstn avail pend) in *. set (rest := skipn avail pend) in *.
  assert (OR : out ++ rest = pend) by apply firstn_skipn.
  unfold toy_isane. cbn [r_eaten r_got r_pend r_place].
  split. { rewrite run_app, S, H2, <- (app_assoc (r_got r) out rest), OR. unfold pend. rewrite app_assoc. reflexivity. }
  split; [exact H1|]. split; [rewrite OR; reflexivity|]. split; [reflexivity|]. split; [reflexivity|].
  split; [exact H3|].
  destruct (at_end p && is_nil rest) eqn:C1.
  { apply andb_true_iff in C1. destruct C1 as [C1 C2]. apply is_nil_true in C2.
    split; [intros _; split; [destruct p; try discriminate; reflexivity|exact C2]|].
    split; [discriminate|]. split; [discriminate|reflexivity]. }
  assert (NEnd : p = End -> rest = [] -> False).
  { intros -> ->. discriminate C1. }
  destruct (_ && is_nil out) eqn:C2.
  - apply andb_true_iff in C2. destruct C2 as [C2 C3]. apply is_nil_true in C3. apply Nat.eqb_eq in C2.
    split; [discriminate|]. split; [discriminate|]. split; [auto|]. intros A B. destruct (NEnd A B).
  - split; [discriminate|]. split; [|split; [discriminate|intros A B; destruct (NEnd A B)]].
    intros _. destruct k; [right|left; discriminate]. intros Q. rewrite Q in C2. discriminate.
Qed.

Lemma toy_ifull r avail input r' n out err :
  toy_isane r -> toy_inflate r avail input = (r', n, out, err) -> err <> Z_error ->
  (length out <= avail)%nat /\ ((length out < avail)%nat -> r_pend r' = []).
Proof.
  intros S E NE. destruct (toy_istep _ _ _ _ _ _ _ S E NE) as (_ & _ & O & _).
  split; [rewrite O, firstn_length; lia|]. intros L.
  destruct (r_pend r') as [|c p]; [reflexivity|]. exfalso.
  assert (Q : length out = length (firstn avail (out ++ c :: p))) by (rewrite <- O; reflexivity).
  rewrite firstn_length, app_length in Q. cbn [length] in Q. lia.
Qed.

Lemma run_length s : forall p q o, run p s = Some (q, o) -> (length o <= length s)%nat.
Proof.
  induction s as [|b s IH]; intros p q o E; cbn [run] in E; [injection E as <- <-; cbn; lia|].
  destruct (step p b) as [[p1 o1]|] eqn:ES; [|discriminate].
  destruct (run p1 s) as [[q1 o2]|] eqn:ER; [|discriminate]. injection E as <- <-.
  specialize (IH _ _ _ ER). rewrite app_length.
  assert (length o1 <= 1)%nat.
  { unfold step in ES. destruct (negb (octet b)); [discriminate|].
    destruct p; repeat match type of ES with context [if ?c then _ else _] => destruct c end;
      try discriminate; injection ES as <- <-; cbn; lia. }
  cbn [length]. lia.
Qed.
Lemma toy_ibounded r : toy_isane r -> (length (r_got r) <= toy_bound (length (r_eaten r)))%nat.
Proof.
  intros S. apply run_length in S. rewrite app_length in S. unfold toy_bound. lia.
Qed.

Lemma toy_inflate_contract :
  inflate_contract reader toy_inflate toy_decode toy_isane r_eaten r_got toy_bound.
Proof.
  constructor.
  - intros st avail input st' n out err S A E FI.
    destruct (toy_istep _ _ _ _ _ _ _ S E (fine_not _ FI)) as (S' & L & O & F & G & _).
    destruct (toy_ifull _ _ _ _ _ _ _ S E (fine_not _ FI)) as [LO _]. auto 10.
  - intros st more d S D. unfold toy_decode in D. rewrite run_app, S in D.
    destruct (run (r_place st) more) as [[q y]|]; [|discriminate].
    exists (r_pend st ++ y). rewrite app_assoc. destruct q; congruence.
  - intros st avail input st' n out err S A E FI L.
    destruct (toy_ifull _ _ _ _ _ _ _ S E (fine_not _ FI)) as [_ PE]. specialize (PE L).
    destruct (toy_istep _ _ _ _ _ _ _ S E (fine_not _ FI)) as (S' & Ln & O & F & G & H3 & H4 & H5 & H6 & H7).
    assert (NEnd : r_place st' <> End).
    { intros Q. specialize (H7 Q PE). subst err. destruct FI; discriminate. }
    split. { destruct (Nat.lt_ge_cases n (length input)) as [Q|Q]; [destruct (NEnd (H3 Q))|lia]. }
    unfold toy_decode. unfold toy_isane in S'. rewrite S', PE, app_nil_r. destruct (r_place st'); congruence.
  - intros st avail input st' n out err S A E. split; intros ->;
      destruct (toy_istep _ _ _ _ _ _ _ S E ltac:(discriminate)) as (S' & Ln & O & F & G & H3 & H4 & H5 & H6 & H7); auto.
  - apply toy_ibounded.
  - apply toy_bound_mono.
Qed.

Lemma toy_never_fails : inflate_never_fails reader toy_inflate toy_decode toy_isane r_eaten.
Proof.
  intros st avail input st' n out err more d S A E D. unfold toy_decode in D.
  rewrite run_app, S in D.
  destruct (run (r_place st) (input ++ more)) as [[q y]|] eqn:R; [|discriminate].
  assert (NQ : q <> End) by (intros ->; discriminate).
  pose proof (eat_ok _ _ _ _ R) as EO.
  assert (NE : err <> Z_error).
  { intros ->. unfold toy_inflate in E. destruct (eat (r_place st) input) as [[[p k] o]|]; [|congruence].
    injection E as _ _ _ E. destruct (_ && _); [discriminate|]. destruct (_ && _); discriminate. }
  destruct (toy_istep _ _ _ _ _ _ _ S E NE) as (S' & Ln & O & F & G & H3 & H4 & _).
  destruct err; [left; reflexivity|right; reflexivity| |congruence].
  exfalso. destruct (H4 eq_refl) as [PE _].
  unfold toy_isane in S'. rewrite F, run_app, S in S'.
  destruct (run (r_place st) (firstn n input)) as [[q1 y1]|] eqn:R1; [|discriminate].
  rewrite <- (firstn_skipn n input), <- app_assoc, run_app, R1 in R.
  injection S' as -> _. rewrite PE in R.
  destruct (skipn n input ++ more); [cbn [run] in R; congruence|].
  cbn [run] in R. unfold step in R. destruct (negb _); discriminate.
Qed.

Lemma toy_whole_contract :
  whole_contract reader toy_inflate toy_whole toy_isane r_eaten r_got toy_bound.
Proof.
  constructor.
  - intros st avail input st' n out err S A E NE.
    destruct (toy_istep _ _ _ _ _ _ _ S E NE) as (S' & L & O & F & G & _).
    destruct (toy_ifull _ _ _ _ _ _ _ S E NE) as [LO _]. auto 10.
  - intros st avail input st' n out S A E.
    destruct (toy_istep _ _ _ _ _ _ _ S E ltac:(discriminate)) as (S' & L & O & F & G & _ & H & _).
    destruct (H eq_refl) as [PE PN]. unfold toy_whole, toy_isane in *. rewrite S', PE, PN, app_nil_r. reflexivity.
  - intros st avail input st' n out err S A E FI L.
    destruct (toy_ifull _ _ _ _ _ _ _ S E (fine_not _ FI)) as [_ PE]. specialize (PE L).
    destruct (toy_istep _ _ _ _ _ _ _ S E (fine_not _ FI)) as (S' & Ln & O & F & G & H3 & H4 & H5 & H6 & H7).
    assert (NEnd : r_place st' <> End).
    { intros Q. specialize (H7 Q PE). subst err. destruct FI; discriminate. }
    split. { destruct (Nat.lt_ge_cases n (length input)) as [Q|Q]; [destruct (NEnd (H3 Q))|lia]. }
    intros x W. unfold toy_whole, toy_isane in *. rewrite W in S'. injection S' as S' _. congruence.
  - intros st avail input st' n out err S A E. split; intros ->;
      destruct (toy_istep _ _ _ _ _ _ _ S E ltac:(discriminate)) as (S' & Ln & O & F & G & H3 & H4 & H5 & H6 & H7); auto.
  - intros st s x S W r E. unfold toy_whole, toy_isane in *. rewrite E, run_app, W in S.
    destruct r as [|c r]; [reflexivity|]. cbn [run] in S. unfold step in S. destruct (negb _); discriminate.
  - apply toy_ibounded.
  - apply toy_bound_mono.
Qed.

(** ** For sessions *)
Lemma toy_prefixes : prefixes toy_decode.
Proof.
  unfold prefixes, toy_decode. intros a b y E. rewrite run_app in E.
  destruct (run start a) as [[p x]|]; [|discriminate].
  destruct (run p b) as [[q t]|] eqn:B; [|discriminate].
  assert (P : p <> End).
  { intros ->. destruct b as [|c b]; [injection B as <- <-; discriminate|].
    cbn [run] in B. unfold step in B. destruct (negb _); discriminate. }
  exists x, t. destruct p; try congruence; destruct q; try discriminate; injection E as <-; auto.
Qed.

(** The state: everything that has been inflated. *)
Definition toy_session_inflate (seen data : list Z) : option (list Z * list Z) :=
  match toy_decode seen, toy_decode (seen ++ data) with
  | Some x, Some y => Some (seen ++ data, skipn (length x) y)
  | _, _ => None
  end.
Lemma toy_stream_decoder : stream_decoder (list Z) toy_session_inflate toy_decode (fun s => s).
Proof.
  intros st data x y A B. unfold toy_session_inflate. rewrite A, B. eexists. split; [|reflexivity].
  rewrite skipn_app, skipn_all, Nat.sub_diag. reflexivity.
Qed.
