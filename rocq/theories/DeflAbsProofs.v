(** Proofs about [Abstract_Deflator] and [Abstract_Inflator]. *)
From Coq Require Import ZArith List Lia Bool ZifyBool ZifyNat Arith.
From Verif Require Import Base BaseLemmas DeflModel DeflSpec DeflProofs.
Import ListNotations.
Open Scope Z_scope.

Lemma turn_spec (st : Type) call request g (s : st) b input s' n out err :
  call s (clamped g) (window input) = (s', n, out, err) -> (request <= g)%nat -> (length out <= clamped g)%nat ->
  turn st call request g s b input = Some (s', n, b ++ map Some out, err).
Proof.
  intros C R L. unfold turn. destruct (Nat.ltb_spec g request); [lia|]. cbv zeta. rewrite C.
  pose proof (clamped_le g) as CL.
  assert (F : fill (grow b g) (length b) out = b ++ map Some out ++ repeat None (g - length out)).
  { unfold fill, grow. rewrite firstn_app, firstn_all, Nat.sub_diag, firstn_O, app_nil_r. f_equal. f_equal.
    rewrite skipn_app. rewrite (skipn_all2 b) by lia. cbn [app].
    replace (length b + length out - length b)%nat with (length out) by lia.
    replace g with (length out + (g - length out))%nat at 1 by lia.
    rewrite repeat_app, skipn_app, repeat_length, Nat.sub_diag. cbn [skipn].
    rewrite skipn_all2 by (rewrite repeat_length; lia). reflexivity. }
  rewrite F. destruct (Nat.eqb_spec (g - length out) 0) as [E|E].
  - rewrite E. cbn [repeat]. rewrite app_nil_r. reflexivity.
  - unfold truncate. rewrite !app_length, map_length, repeat_length.
    replace (length b + (length out + (g - length out)) - (g - length out))%nat with (length b + length out)%nat by lia.
    rewrite app_assoc, firstn_app, app_length, map_length, Nat.sub_diag, firstn_O, app_nil_r.
    rewrite firstn_all2 by (rewrite app_length, map_length; lia). reflexivity.
Qed.

Lemma turn_small (st : Type) call request g (s : st) b input :
  (g < request)%nat -> turn st call request g s b input = None.
Proof. intros H. unfold turn. destruct (Nat.ltb_spec g request); [reflexivity|lia]. Qed.

Lemma fine_ne e : fine e -> e <> Z_error. Proof. intros [-> | ->]; discriminate. Qed.

Lemma r128 : (16 <= 128)%nat. Proof. lia. Qed.
Lemma r16 : (16 <= 16)%nat. Proof. lia. Qed.
Lemma fin_no (P : Prop) : Finish = No_flush -> P. Proof. discriminate. Qed.
Lemma ok_ne : Z_ok <> Z_error. Proof. discriminate. Qed.

(** What both contracts of a deflator say about the calls that do not finish it. *)
Record put_contract (dst : Type) (deflate : dst -> mode -> nat -> list Z -> answer dst)
    (sane : dst -> Prop) (fed made : dst -> list Z) (bound : nat -> nat) : Prop := {
  p_account : forall st m avail input st' n out err,
    sane st -> (6 < avail)%nat -> m <> Finish -> deflate st m avail input = (st', n, out, err) -> fine err ->
    sane st' /\ (n <= length input)%nat /\ (length out <= avail)%nat /\
    fed st' = fed st ++ firstn n input /\ made st' = made st ++ out;
  p_takes : forall st avail input st' n out err,
    sane st -> (6 < avail)%nat -> deflate st No_flush avail input = (st', n, out, err) -> fine err ->
    (length out < avail)%nat -> n = length input;
  p_progress : forall st m avail input st' n out err,
    sane st -> (6 < avail)%nat -> (m = No_flush /\ input <> [] \/ m = Sync_flush \/ m = Full_flush) ->
    deflate st m avail input = (st', n, out, err) ->
    (err = Z_ok -> n <> 0%nat \/ out <> []) /\ (err = Z_buf_error -> n = 0%nat /\ out = []);
  p_bound : forall st, sane st -> (length (made st) <= bound (length (fed st)))%nat;
  p_bound_mono : forall a b, (a <= b)%nat -> (bound a <= bound b)%nat }.

Lemma put_of_deflate dst deflate reset decode flushed sane fed made bound :
  deflate_contract dst deflate reset decode flushed sane fed made bound -> put_contract dst deflate sane fed made bound.
Proof.
  intros C. constructor.
  - intros * S R NF E FI. destruct (d_account _ _ _ _ _ _ _ _ _ C _ _ _ _ _ _ _ _ S R NF E FI) as (A & B & D & _ & F & G). auto.
  - apply (d_takes _ _ _ _ _ _ _ _ _ C).
  - apply (d_progress _ _ _ _ _ _ _ _ _ C).
  - apply (d_bound _ _ _ _ _ _ _ _ _ C).
  - apply (d_bound_mono _ _ _ _ _ _ _ _ _ C).
Qed.

Lemma put_of_finish dst deflate whole sane fed made bound :
  finish_contract dst deflate whole sane fed made bound -> put_contract dst deflate sane fed made bound.
Proof.
  intros C. constructor.
  - intros * S R NF E FI. apply (f_account _ _ _ _ _ _ _ C _ _ _ _ _ _ _ _ S R E (fine_ne _ FI)).
  - apply (f_takes _ _ _ _ _ _ _ C).
  - intros * S R M E. assert (M' : m = No_flush -> input <> []) by (intros ->; destruct M as [[_ M]|[M|M]]; [exact M|discriminate|discriminate]).
    destruct (f_progress _ _ _ _ _ _ _ C _ _ _ _ _ _ _ _ S R M' E) as (A & B & _). auto.
  - apply (f_bound _ _ _ _ _ _ _ C).
  - apply (f_bound_mono _ _ _ _ _ _ _ C).
Qed.

Section Put.
  Variable dst : Type.
  Variable deflate : dst -> mode -> nat -> list Z -> answer dst.
  Variable sane : dst -> Prop.
  Variable fed made : dst -> list Z.
  Variable bound : nat -> nat.
  Hypothesis PC : put_contract dst deflate sane fed made bound.

  (** One turn: a small buffer or a failure, or an account of what happened. *)
  Lemma pturn m request g st b input s' n b' err :
    (16 <= request)%nat -> m <> Finish -> sane st ->
    turn dst (fun s avail i => deflate s m avail i) request g st b input = Some (s', n, b', err) -> fine err ->
    (request <= g)%nat /\ exists out, deflate st m (clamped g) (window input) = (s', n, out, err) /\
      b' = b ++ map Some out /\ sane s' /\ (n <= length (window input))%nat /\ (length out <= clamped g)%nat /\
      fed s' = fed st ++ firstn n input /\ made s' = made st ++ out /\ (6 < clamped g)%nat.
  Proof.
    intros RQ NF S E NE. destruct (Nat.lt_ge_cases g request) as [C|C].
    { rewrite turn_small in E by exact C. discriminate. }
    split; [exact C|].
    destruct (deflate st m (clamped g) (window input)) as [[[s1 n1] out] err1] eqn:D.
    assert (R : (6 < clamped g)%nat) by (apply clamped_room; lia).
    assert (EE : err1 = err).
    { unfold turn in E. destruct (Nat.ltb_spec g request); [lia|]. cbv zeta in E. rewrite D in E. congruence. }
    subst err1.
    destruct (p_account _ _ _ _ _ _ PC _ _ _ _ _ _ _ _ S R NF D NE) as (S1 & Ln & Lo & F & M).
    rewrite window_firstn in F by exact Ln.
    rewrite (turn_spec dst (fun s avail i => deflate s m avail i) request g st b input s1 n1 out err D C Lo) in E.
    injection E as <- <- <-. exists out. auto 10.
  Qed.

  Lemma abs_deflate_loop_safe gs : forall st b taken input st' b' k,
    sane st -> input <> [] -> abs_deflate_loop dst deflate st b taken input gs = Done (st', b', k) ->
    sane st' /\ k = (taken + length input)%nat /\ fed st' = fed st ++ input /\
    exists o, b' = b ++ map Some o /\ made st' = made st ++ o.
  Proof.
    induction gs as [|g gs IH]; intros st b taken input st' b' k S N E; [discriminate|].
    cbn [abs_deflate_loop] in E.
    destruct (turn _ _ _ _ _ _ _) as [[[[s1 n] b1] err]|] eqn:T; [|discriminate].
    assert (FI : fine err) by (destruct err; try discriminate; [left|right]; reflexivity).
    destruct (pturn _ _ _ _ _ _ _ _ _ _ r128 no_fin S T FI) as (G & out & D & -> & S1 & Ln & Lo & F & M & R).
    assert (W : window input <> []) by (intros W; apply N, window_nil, W).
    pose proof (window_le input) as WL.
    destruct err; try discriminate.
    - destruct (is_nil (skipn n input)) eqn:EN; cbn [negb] in E.
      + injection E as <- <- <-. apply is_nil_true, skipn_nil_le in EN.
        split; [exact S1|]. split; [lia|]. split; [rewrite F, firstn_all2 by exact EN; reflexivity|].
        exists out. auto.
      + assert (skipn n input <> []) as N' by (intros Q; rewrite Q in EN; discriminate).
        destruct (IH _ _ _ _ _ _ _ S1 N' E) as (S2 & -> & F2 & o & -> & M2).
        split; [exact S2|]. split; [rewrite skipn_length; lia|].
        split; [rewrite F2, F, <- app_assoc, firstn_skipn; reflexivity|].
        exists (out ++ o). rewrite M2, M, map_app, !app_assoc. split; reflexivity.
    - exfalso. destruct (p_progress _ _ _ _ _ _ PC _ _ _ _ _ _ _ _ S R (or_introl (conj eq_refl W)) D) as (_ & P2).
      destruct (P2 eq_refl) as [-> ->].
      pose proof (p_takes _ _ _ _ _ _ PC _ _ _ _ _ _ _ S R D (or_intror eq_refl)) as Q. cbn [length] in Q.
      destruct (window input); [congruence|]. discriminate (Q ltac:(lia)).
  Qed.

  Lemma abs_deflate_safe st b data gs st' b' k :
    sane st -> abs_deflate dst deflate st b data gs = Done (st', b', k) ->
    sane st' /\ k = length data /\ fed st' = fed st ++ data /\
    exists o, b' = b ++ map Some o /\ made st' = made st ++ o.
  Proof.
    intros S E. unfold abs_deflate in E. destruct (is_nil data) eqn:EN.
    - apply is_nil_true in EN. subst data. injection E as <- <- <-.
      split; [exact S|]. split; [reflexivity|]. split; [symmetry; apply app_nil_r|].
      exists []. cbn [map]. rewrite !app_nil_r. auto.
    - assert (data <> []) as N by (intros Q; rewrite Q in EN; discriminate).
      apply (abs_deflate_loop_safe gs st b 0 data st' b' k S N E).
  Qed.

  Lemma abs_flush_safe m gs : m = Sync_flush \/ m = Full_flush -> forall st b st' b' r,
    sane st -> abs_flush dst deflate m st b gs = Done (st', b', r) ->
    sane st' /\ r = true /\ fed st' = fed st /\
    exists o, b' = b ++ map Some o /\ made st' = made st ++ o.
  Proof.
    intros Hm. assert (NFi : m <> Finish) by (destruct Hm; congruence). induction gs as [|g gs IH]; intros st b st' b' r S E; [discriminate|].
    cbn [abs_flush] in E.
    destruct (turn _ _ _ _ _ _ _) as [[[[s1 n] b1] err]|] eqn:T; [|discriminate].
    assert (FI : fine err) by (destruct err; try discriminate; [left|right]; reflexivity).
    destruct (pturn _ _ _ _ _ _ _ _ _ _ r16 NFi S T FI) as (G & out & D & -> & S1 & Ln & Lo & F & M & R).
    rewrite firstn_nil, app_nil_r in F.
    destruct err; try discriminate.
    - destruct (IH _ _ _ _ _ S1 E) as (S2 & -> & F2 & o & -> & M2).
      split; [exact S2|]. split; [reflexivity|]. split; [congruence|].
      exists (out ++ o). rewrite M2, M, map_app, !app_assoc. split; reflexivity.
    - injection E as <- <- <-. split; [exact S1|]. split; [reflexivity|]. split; [exact F|]. exists out. auto.
  Qed.

  Lemma abs_deflate_loop_ends gs : forall st b taken input B,
    sane st -> input <> [] -> (bound (length (fed st) + length input) <= B)%nat ->
    (length input + (B - length (made st)) < length gs)%nat ->
    abs_deflate_loop dst deflate st b taken input gs <> Hungry.
  Proof.
    induction gs as [|g gs IH]; intros st b taken input B S N HB L; [cbn [length] in L; lia|].
    cbn [abs_deflate_loop]. cbn [length] in L.
    destruct (turn _ _ _ _ _ _ _) as [[[[s1 n] b1] err]|] eqn:T; [|discriminate].
    destruct err; try discriminate.
    destruct (pturn _ _ _ _ _ _ _ _ _ _ r128 no_fin S T (or_introl eq_refl)) as (G & out & D & -> & S1 & Ln & Lo & F & M & R).
    assert (W : window input <> []) by (intros W; apply N, window_nil, W).
    pose proof (window_le input) as WL.
    destruct (p_progress _ _ _ _ _ _ PC _ _ _ _ _ _ _ _ S R (or_introl (conj eq_refl W)) D) as (P1 & _).
    destruct (is_nil (skipn n input)) eqn:EN; cbn [negb]; [discriminate|].
    assert (skipn n input <> []) as N' by (intros Q; rewrite Q in EN; discriminate).
    assert (LF : length (fed s1) = (length (fed st) + n)%nat) by (rewrite F, app_length, firstn_length; lia).
    assert (LS : length (skipn n input) = (length input - n)%nat) by apply skipn_length.
    assert (LM : length (made s1) = (length (made st) + length out)%nat) by (rewrite M; apply app_length).
    pose proof (p_bound _ _ _ _ _ _ PC _ S1) as BM.
    pose proof (p_bound_mono _ _ _ _ _ _ PC (length (fed s1)) (length (fed st) + length input)%nat ltac:(lia)) as MO.
    apply (IH s1 _ _ _ B S1 N').
    - rewrite LF, LS. replace (length (fed st) + n + (length input - n))%nat with (length (fed st) + length input)%nat by lia. exact HB.
    - destruct (P1 eq_refl) as [Hn|Ho]; [lia|]. destruct out; [congruence|]. cbn [length] in *. lia.
  Qed.

  Lemma abs_flush_ends m gs : m = Sync_flush \/ m = Full_flush -> forall st b B,
    sane st -> (bound (length (fed st)) <= B)%nat -> (B - length (made st) < length gs)%nat ->
    abs_flush dst deflate m st b gs <> Hungry.
  Proof.
    intros Hm. assert (NFi : m <> Finish) by (destruct Hm; congruence). induction gs as [|g gs IH]; intros st b B S HB L; [cbn [length] in L; lia|].
    cbn [abs_flush]. cbn [length] in L.
    destruct (turn _ _ _ _ _ _ _) as [[[[s1 n] b1] err]|] eqn:T; [|discriminate].
    destruct err; try discriminate.
    destruct (pturn _ _ _ _ _ _ _ _ _ _ r16 NFi S T (or_introl eq_refl)) as (G & out & D & -> & S1 & Ln & Lo & F & M & R).
    rewrite firstn_nil, app_nil_r in F.
    destruct (p_progress _ _ _ _ _ _ PC _ _ _ _ _ _ _ _ S R (or_intror Hm) D) as (P1 & _).
    assert (LM : length (made s1) = (length (made st) + length out)%nat) by (rewrite M; apply app_length).
    pose proof (p_bound _ _ _ _ _ _ PC _ S1) as BM. rewrite F in BM.
    apply (IH s1 _ B S1); [rewrite F; exact HB|].
    destruct (P1 eq_refl) as [Hn|Ho]; [unfold window in Ln; rewrite firstn_nil in Ln; cbn [length] in Ln; lia|].
    destruct out; [congruence|]. cbn [length] in *. lia.
  Qed.

  Lemma use_deflate os : forall st b st' b' vs,
    sane st -> use dst (abs_deflate dst deflate) (abs_flush dst deflate Sync_flush) (abs_flush dst deflate Full_flush) st b os = Done (st', b', vs) ->
    sane st' /\ vs = all_well os /\ fed st' = fed st ++ concat (map (fun o => data_of (fst o)) os) /\
    exists o, b' = b ++ map Some o /\ made st' = made st ++ o.
  Proof.
    induction os as [|[o sz] os IH]; intros st b st' b' vs S E.
    { injection E as <- <- <-. split; [exact S|]. split; [reflexivity|]. cbn [map concat]. rewrite app_nil_r.
      split; [reflexivity|]. exists []. cbn [map]. rewrite !app_nil_r. auto. }
    assert (STEP : exists s1 b1 v o1, sane s1 /\ v = match o with Put d => inl (length d) | _ => inr true end /\
       fed s1 = fed st ++ data_of o /\ b1 = b ++ map Some o1 /\ made s1 = made st ++ o1 /\
       exists vs1, use dst (abs_deflate dst deflate) (abs_flush dst deflate Sync_flush) (abs_flush dst deflate Full_flush) s1 b1 os = Done (st', b', vs1) /\ vs = v :: vs1).
    { cbn [use] in E. cbv zeta in E. destruct o as [d| |].
      - destruct (abs_deflate dst deflate st b d sz) as [[[s1 b1] k]| |] eqn:C; try discriminate.
        destruct (use _ _ _ _ s1 b1 os) as [[[s2 b2] vs1]| |] eqn:U; try discriminate. injection E as <- <- <-.
        destruct (abs_deflate_safe _ _ _ _ _ _ _ S C) as (S1 & -> & F & o1 & -> & M). exists s1; do 3 eexists. eauto 10.
      - destruct (abs_flush dst deflate Sync_flush st b sz) as [[[s1 b1] k]| |] eqn:C; try discriminate.
        destruct (use _ _ _ _ s1 b1 os) as [[[s2 b2] vs1]| |] eqn:U; try discriminate. injection E as <- <- <-.
        destruct (abs_flush_safe Sync_flush _ (or_introl eq_refl) _ _ _ _ _ S C) as (S1 & -> & F & o1 & -> & M).
        exists s1; do 3 eexists. cbn [data_of]. rewrite app_nil_r. eauto 10.
      - destruct (abs_flush dst deflate Full_flush st b sz) as [[[s1 b1] k]| |] eqn:C; try discriminate.
        destruct (use _ _ _ _ s1 b1 os) as [[[s2 b2] vs1]| |] eqn:U; try discriminate. injection E as <- <- <-.
        destruct (abs_flush_safe Full_flush _ (or_intror eq_refl) _ _ _ _ _ S C) as (S1 & -> & F & o1 & -> & M).
        exists s1; do 3 eexists. cbn [data_of]. rewrite app_nil_r. eauto 10. }
    destruct STEP as (s1 & b1 & v & o1 & S1 & -> & F1 & -> & M1 & vs1 & U & ->).
    destruct (IH _ _ _ _ _ S1 U) as (S2 & -> & F2 & o2 & -> & M2).
    split; [exact S2|]. split; [reflexivity|].
    split; [cbn [map concat fst]; rewrite F2, F1, <- app_assoc; reflexivity|].
    exists (o1 ++ o2). rewrite M2, M1, map_app, !app_assoc. auto.
  Qed.
End Put.

Section Deflator.
  Variable dst : Type.
  Variable deflate : dst -> mode -> nat -> list Z -> answer dst.
  Variable whole : list Z -> list Z -> Prop.
  Variable sane : dst -> Prop.
  Variable fed made : dst -> list Z.
  Variable bound : nat -> nat.
  Hypothesis FC : finish_contract dst deflate whole sane fed made bound.

  Lemma dturn m request g st b input s' n b' err :
    (16 <= request)%nat -> sane st ->
    turn dst (fun s avail i => deflate s m avail i) request g st b input = Some (s', n, b', err) -> err <> Z_error ->
    (request <= g)%nat /\ exists out, deflate st m (clamped g) (window input) = (s', n, out, err) /\
      b' = b ++ map Some out /\ sane s' /\ (n <= length (window input))%nat /\ (length out <= clamped g)%nat /\
      fed s' = fed st ++ firstn n input /\ made s' = made st ++ out /\ (6 < clamped g)%nat.
  Proof.
    intros RQ S E NE. destruct (Nat.lt_ge_cases g request) as [C|C].
    { rewrite turn_small in E by exact C. discriminate. }
    split; [exact C|].
    destruct (deflate st m (clamped g) (window input)) as [[[s1 n1] out] err1] eqn:D.
    assert (R : (6 < clamped g)%nat) by (apply clamped_room; lia).
    assert (EE : err1 = err).
    { unfold turn in E. destruct (Nat.ltb_spec g request); [lia|]. cbv zeta in E. rewrite D in E. congruence. }
    subst err1.
    destruct (f_account _ _ _ _ _ _ _ FC _ _ _ _ _ _ _ _ S R D NE) as (S1 & Ln & Lo & F & M).
    rewrite window_firstn in F by exact Ln.
    rewrite (turn_spec dst (fun s avail i => deflate s m avail i) request g st b input s1 n1 out err D C Lo) in E.
    injection E as <- <- <-. exists out. auto 10.
  Qed.

  Lemma abs_finish_safe gs : forall st b st' b' r,
    sane st -> abs_finish dst deflate st b gs = Done (st', b', r) ->
    sane st' /\ r = true /\ fed st' = fed st /\ whole (made st') (fed st') /\
    exists o, b' = b ++ map Some o /\ made st' = made st ++ o.
  Proof.
    induction gs as [|g gs IH]; intros st b st' b' r S E; [discriminate|].
    cbn [abs_finish] in E.
    destruct (turn _ _ _ _ _ _ _) as [[[[s1 n] b1] err]|] eqn:T; [|discriminate].
    assert (NE : err <> Z_error) by (intros ->; discriminate).
    destruct (dturn _ _ _ _ _ _ _ _ _ _ r16 S T NE) as (G & out & D & -> & S1 & Ln & Lo & F & M & R).
    rewrite firstn_nil, app_nil_r in F.
    destruct (f_progress _ _ _ _ _ _ _ FC _ _ _ _ _ _ _ _ S R (fin_no _) D) as (_ & _ & P3).
    destruct err; try discriminate.
    - destruct (IH _ _ _ _ _ S1 E) as (S2 & -> & F2 & W & o & -> & M2).
      split; [exact S2|]. split; [reflexivity|]. split; [congruence|]. split; [exact W|].
      exists (out ++ o). rewrite M2, M, map_app, !app_assoc. split; reflexivity.
    - destruct (P3 eq_refl eq_refl).
    - injection E as <- <- <-. destruct (f_end _ _ _ _ _ _ _ FC _ _ _ _ _ _ S R D) as [_ W].
      split; [exact S1|]. split; [reflexivity|]. split; [exact F|]. split; [exact W|]. exists out. auto.
  Qed.

  Lemma abs_finish_ends gs : forall st b B,
    sane st -> (bound (length (fed st)) <= B)%nat -> (B - length (made st) < length gs)%nat ->
    abs_finish dst deflate st b gs <> Hungry.
  Proof.
    induction gs as [|g gs IH]; intros st b B S HB L; [cbn [length] in L; lia|].
    cbn [abs_finish]. cbn [length] in L.
    destruct (turn _ _ _ _ _ _ _) as [[[[s1 n] b1] err]|] eqn:T; [|discriminate].
    destruct err; try discriminate.
    destruct (dturn _ _ _ _ _ _ _ _ _ _ r16 S T ok_ne) as (G & out & D & -> & S1 & Ln & Lo & F & M & R).
    rewrite firstn_nil, app_nil_r in F.
    destruct (f_progress _ _ _ _ _ _ _ FC _ _ _ _ _ _ _ _ S R (fin_no _) D) as (P1 & _).
    assert (LM : length (made s1) = (length (made st) + length out)%nat) by (rewrite M; apply app_length).
    pose proof (f_bound _ _ _ _ _ _ _ FC _ S1) as BM. rewrite F in BM.
    apply (IH s1 _ B S1); [rewrite F; exact HB|].
    destruct (P1 eq_refl) as [Hn|Ho]; [unfold window in Ln; rewrite firstn_nil in Ln; cbn [length] in Ln; lia|].
    destruct out; [congruence|]. cbn [length] in *. lia.
  Qed.
End Deflator.

(** What a flush accomplishes. *)
Section Flush.
  Variable dst : Type.
  Variable deflate : dst -> mode -> nat -> list Z -> answer dst.
  Variable reset : dst -> dst.
  Variable decode : list Z -> option (list Z).
  Variable flushed : list Z -> Prop.
  Variable sane : dst -> Prop.
  Variable fed made : dst -> list Z.
  Variable bound : nat -> nat.
  Hypothesis DC : deflate_contract dst deflate reset decode flushed sane fed made bound.

  Lemma abs_flush_decodes m gs : m = Sync_flush \/ m = Full_flush -> forall st b st' b' r,
    sane st -> abs_flush dst deflate m st b gs = Done (st', b', r) ->
    sane st' /\ r = true /\ fed st' = fed st /\ flushed (made st') /\ decode (made st') = Some (fed st') /\
    exists o, b' = b ++ map Some o /\ made st' = made st ++ o.
  Proof.
    intros Hm. assert (NFi : m <> Finish) by (intros ->; destruct Hm; discriminate).
    induction gs as [|g gs IH]; intros st b st' b' r S E; [discriminate|].
    cbn [abs_flush] in E.
    destruct (turn _ _ _ _ _ _ _) as [[[[s1 n] b1] err]|] eqn:T; [|discriminate].
    destruct (Nat.lt_ge_cases g 16) as [C|C].
    { rewrite turn_small in T by exact C. discriminate. }
    destruct (deflate st m (clamped g) (window [])) as [[[s2 n2] out] err2] eqn:D.
    assert (R : (6 < clamped g)%nat) by (apply clamped_room; lia).
    assert (EE : err2 = err).
    { unfold turn in T. destruct (Nat.ltb_spec g 16); [lia|]. cbv zeta in T. rewrite D in T. congruence. }
    subst err2. assert (FI : fine err) by (destruct err; try discriminate; [left|right]; reflexivity).
    destruct (d_account _ _ _ _ _ _ _ _ _ DC _ _ _ _ _ _ _ _ S R NFi D FI) as (S1 & Ln & Lo & B & F & M).
    rewrite (turn_spec dst (fun s avail i => deflate s m avail i) 16 g st b [] s2 n2 out err D C Lo) in T.
    injection T as <- <- <-.
    replace (firstn n2 (window [])) with (@nil Z) in F by (unfold window; rewrite !firstn_nil; reflexivity).
    rewrite app_nil_r in F.
    destruct err; try discriminate.
    - destruct (IH _ _ _ _ _ S1 E) as (S2 & -> & F2 & FL & DE & o & -> & M2).
      split; [exact S2|]. split; [reflexivity|]. split; [congruence|]. split; [exact FL|]. split; [exact DE|].
      exists (out ++ o). rewrite M2, M, map_app, !app_assoc. auto.
    - injection E as <- <- <-.
      destruct (d_progress _ _ _ _ _ _ _ _ _ DC _ _ _ _ _ _ _ _ S R (or_intror Hm) D) as [_ P2].
      destruct (P2 eq_refl) as [-> ->].
      assert (D' : deflate st m (clamped g) [] = (s2, 0%nat, [], Z_buf_error)).
      { rewrite <- D. unfold window. rewrite firstn_nil. reflexivity. }
      destruct (d_flushes _ _ _ _ _ _ _ _ _ DC _ _ _ _ _ _ _ S R Hm D' (or_intror eq_refl)) as [FL DE]; [cbn [length]; lia|].
      split; [exact S1|]. split; [reflexivity|]. split; [exact F|]. split; [exact FL|]. split; [exact DE|]. exists []. auto.
  Qed.
End Flush.

Section Inflator.
  Variable ist : Type.
  Variable inflate : ist -> nat -> list Z -> answer ist.
  Variable whole : list Z -> list Z -> Prop.
  Variable sane : ist -> Prop.
  Variable eaten got : ist -> list Z.
  Variable bound : nat -> nat.
  Hypothesis WC : whole_contract ist inflate whole sane eaten got bound.
  Hypothesis PF : prefix_free whole.

  Lemma iturn request g st b input s' n b' err :
    (16 <= request)%nat -> sane st ->
    turn ist inflate request g st b input = Some (s', n, b', err) -> err <> Z_error ->
    (request <= g)%nat /\ exists out, inflate st (clamped g) (window input) = (s', n, out, err) /\
      b' = b ++ map Some out /\ sane s' /\ (n <= length (window input))%nat /\ (length out <= clamped g)%nat /\
      eaten s' = eaten st ++ firstn n input /\ got s' = got st ++ out /\ (0 < clamped g)%nat.
  Proof.
    intros RQ S E NE. destruct (Nat.lt_ge_cases g request) as [C|C].
    { rewrite turn_small in E by exact C. discriminate. }
    split; [exact C|].
    destruct (inflate st (clamped g) (window input)) as [[[s1 n1] out] err1] eqn:D.
    assert (R : (6 < clamped g)%nat) by (apply clamped_room; lia).
    assert (EE : err1 = err).
    { unfold turn in E. destruct (Nat.ltb_spec g request); [lia|]. cbv zeta in E. rewrite D in E. congruence. }
    subst err1.
    destruct (w_account _ _ _ _ _ _ _ WC _ _ _ _ _ _ _ S (Nat.lt_trans _ _ _ (Nat.lt_0_succ 5) R) D NE) as (S1 & Ln & Lo & F & M).
    rewrite window_firstn in F by exact Ln.
    rewrite (turn_spec ist inflate request g st b input s1 n1 out err D C Lo) in E.
    injection E as <- <- <-. exists out. repeat (split; [solve [auto]|]). lia.
  Qed.

  Lemma abs_inflate_loop_safe gs : forall st b taken input st' b' k,
    sane st -> input <> [] -> abs_inflate_loop ist inflate st b taken input gs = Done (st', b', k) ->
    exists j, k = (taken + j)%nat /\ (j <= length input)%nat /\ sane st' /\ eaten st' = eaten st ++ firstn j input /\
    ((j < length input)%nat -> whole (eaten st') (got st')) /\
    exists o, b' = b ++ map Some o /\ got st' = got st ++ o.
  Proof.
    induction gs as [|g gs IH]; intros st b taken input st' b' k S N E; [discriminate|].
    cbn [abs_inflate_loop] in E.
    destruct (turn _ _ _ _ _ _ _) as [[[[s1 n] b1] err]|] eqn:T; [|discriminate].
    assert (NE : err <> Z_error) by (intros ->; discriminate).
    destruct (iturn _ _ _ _ _ _ _ _ _ r128 S T NE) as (G & out & D & -> & S1 & Ln & Lo & F & M & R).
    pose proof (window_le input) as WL.
    destruct err; try congruence.
    - destruct (is_nil (skipn n input)) eqn:EN; cbn [negb] in E.
      + injection E as <- <- <-. apply is_nil_true, skipn_nil_le in EN.
        exists n. split; [reflexivity|]. split; [lia|]. split; [exact S1|]. split; [exact F|].
        split; [lia|]. exists out. auto.
      + assert (skipn n input <> []) as N' by (intros Q; rewrite Q in EN; discriminate).
        destruct (IH _ _ _ _ _ _ _ S1 N' E) as (j & -> & Lj & S2 & F2 & H & o & -> & M2).
        rewrite skipn_length in Lj, H.
        exists (n + j)%nat. split; [lia|]. split; [lia|]. split; [exact S2|].
        split. { rewrite F2, F, <- app_assoc. f_equal.
                 rewrite <- (firstn_skipn n input) at 3. rewrite firstn_app, firstn_firstn, firstn_length.
                 rewrite Nat.min_r by lia. f_equal. f_equal. lia. }
        split; [intros Q; apply H; lia|].
        exists (out ++ o). rewrite M2, M, map_app, !app_assoc. auto.
    - exfalso. destruct (w_progress _ _ _ _ _ _ _ WC _ _ _ _ _ _ _ S R D) as [_ P2].
      destruct (P2 eq_refl) as [-> ->].
      destruct (w_takes _ _ _ _ _ _ _ WC _ _ _ _ _ _ _ S R D (or_intror eq_refl)) as [Q _]; [cbn [length]; lia|].
      apply N, window_nil. destruct (window input); [reflexivity|discriminate].
    - injection E as <- <- <-. exists n. split; [reflexivity|]. split; [lia|]. split; [exact S1|]. split; [exact F|].
      split; [intros _; apply (w_end _ _ _ _ _ _ _ WC _ _ _ _ _ _ S R D)|]. exists out. auto.
  Qed.

  Lemma abs_inflate_safe st b data gs st' b' k :
    sane st -> abs_inflate ist inflate st b data gs = Done (st', b', k) ->
    (k <= length data)%nat /\ sane st' /\ eaten st' = eaten st ++ firstn k data /\
    ((k < length data)%nat -> whole (eaten st') (got st')) /\
    exists o, b' = b ++ map Some o /\ got st' = got st ++ o.
  Proof.
    intros S E. unfold abs_inflate in E. destruct (is_nil data) eqn:EN.
    - apply is_nil_true in EN. subst data. injection E as <- <- <-. cbn [length firstn]. rewrite app_nil_r.
      split; [lia|]. split; [exact S|]. split; [reflexivity|]. split; [lia|].
      exists []. cbn [map]. rewrite !app_nil_r. auto.
    - assert (data <> []) as N by (intros Q; rewrite Q in EN; discriminate).
      destruct (abs_inflate_loop_safe _ _ _ _ _ _ _ _ S N E) as (j & -> & H). cbn [Nat.add]. exact H.
  Qed.

  Lemma abs_inflate_finish_safe gs : forall st b st' b' r,
    sane st -> abs_inflate_finish ist inflate st b gs = Done (st', b', r) ->
    sane st' /\ eaten st' = eaten st /\
    (if r then whole (eaten st') (got st') else forall x, ~ whole (eaten st') x) /\
    exists o, b' = b ++ map Some o /\ got st' = got st ++ o.
  Proof.
    induction gs as [|g gs IH]; intros st b st' b' r S E; [discriminate|].
    cbn [abs_inflate_finish] in E.
    destruct (turn _ _ _ _ _ _ _) as [[[[s1 n] b1] err]|] eqn:T; [|discriminate].
    assert (NE : err <> Z_error) by (intros ->; discriminate).
    destruct (iturn _ _ _ _ _ _ _ _ _ r16 S T NE) as (G & out & D & -> & S1 & Ln & Lo & F & M & R).
    rewrite firstn_nil, app_nil_r in F.
    destruct err; try congruence.
    - destruct (IH _ _ _ _ _ S1 E) as (S2 & F2 & W & o & -> & M2).
      split; [exact S2|]. split; [congruence|]. split; [exact W|].
      exists (out ++ o). rewrite M2, M, map_app, !app_assoc. split; reflexivity.
    - injection E as <- <- <-. cbn [is_end].
      destruct (w_progress _ _ _ _ _ _ _ WC _ _ _ _ _ _ _ S R D) as [_ P2].
      destruct (P2 eq_refl) as [-> ->].
      destruct (w_takes _ _ _ _ _ _ _ WC _ _ _ _ _ _ _ S R D (or_intror eq_refl)) as [_ Q]; [cbn [length]; lia|].
      split; [exact S1|]. split; [exact F|]. split; [exact Q|]. exists []. auto.
    - injection E as <- <- <-. cbn [is_end].
      split; [exact S1|]. split; [exact F|]. split; [apply (w_end _ _ _ _ _ _ _ WC _ _ _ _ _ _ S R D)|]. exists out. auto.
  Qed.

  Lemma abs_inflate_loop_ends gs : forall st b taken input B,
    sane st -> input <> [] -> (bound (length (eaten st) + length input) <= B)%nat ->
    (length input + (B - length (got st)) < length gs)%nat ->
    abs_inflate_loop ist inflate st b taken input gs <> Hungry.
  Proof.
    induction gs as [|g gs IH]; intros st b taken input B S N HB L; [cbn [length] in L; lia|].
    cbn [abs_inflate_loop]. cbn [length] in L.
    destruct (turn _ _ _ _ _ _ _) as [[[[s1 n] b1] err]|] eqn:T; [|discriminate].
    destruct err; try discriminate.
    destruct (iturn _ _ _ _ _ _ _ _ _ r128 S T ok_ne) as (G & out & D & -> & S1 & Ln & Lo & F & M & R).
    pose proof (window_le input) as WL.
    destruct (w_progress _ _ _ _ _ _ _ WC _ _ _ _ _ _ _ S R D) as [P1 _].
    destruct (is_nil (skipn n input)) eqn:EN; cbn [negb]; [discriminate|].
    assert (skipn n input <> []) as N' by (intros Q; rewrite Q in EN; discriminate).
    assert (LF : length (eaten s1) = (length (eaten st) + n)%nat) by (rewrite F, app_length, firstn_length; lia).
    assert (LS : length (skipn n input) = (length input - n)%nat) by apply skipn_length.
    assert (LM : length (got s1) = (length (got st) + length out)%nat) by (rewrite M; apply app_length).
    pose proof (w_bound _ _ _ _ _ _ _ WC _ S1) as BM.
    pose proof (w_bound_mono _ _ _ _ _ _ _ WC (length (eaten s1)) (length (eaten st) + length input)%nat ltac:(lia)) as MO.
    apply (IH s1 _ _ _ B S1 N').
    - rewrite LF, LS. replace (length (eaten st) + n + (length input - n))%nat with (length (eaten st) + length input)%nat by lia. exact HB.
    - destruct (P1 eq_refl) as [Hn|Ho]; [lia|]. destruct out; [congruence|]. cbn [length] in *. lia.
  Qed.

  Lemma abs_inflate_finish_ends gs : forall st b B,
    sane st -> (bound (length (eaten st)) <= B)%nat -> (B - length (got st) < length gs)%nat ->
    abs_inflate_finish ist inflate st b gs <> Hungry.
  Proof.
    induction gs as [|g gs IH]; intros st b B S HB L; [cbn [length] in L; lia|].
    cbn [abs_inflate_finish]. cbn [length] in L.
    destruct (turn _ _ _ _ _ _ _) as [[[[s1 n] b1] err]|] eqn:T; [|discriminate].
    destruct err; try discriminate.
    destruct (iturn _ _ _ _ _ _ _ _ _ r16 S T ok_ne) as (G & out & D & -> & S1 & Ln & Lo & F & M & R).
    rewrite firstn_nil, app_nil_r in F.
    destruct (w_progress _ _ _ _ _ _ _ WC _ _ _ _ _ _ _ S R D) as [P1 _].
    assert (LM : length (got s1) = (length (got st) + length out)%nat) by (rewrite M; apply app_length).
    pose proof (w_bound _ _ _ _ _ _ _ WC _ S1) as BM. rewrite F in BM.
    apply (IH s1 _ B S1); [rewrite F; exact HB|].
    destruct (P1 eq_refl) as [Hn|Ho]; [unfold window in Ln; rewrite firstn_nil in Ln; cbn [length] in Ln; lia|].
    destruct out; [congruence|]. cbn [length] in *. lia.
  Qed.

  Variable sync full : ist -> room -> list nat -> outcome (ist * room * bool).

  Lemma use_inflate z x t : whole z x -> forall ds st b st' b' vs,
    sane st -> eaten st ++ concat (map fst ds) ++ t = z ->
    use ist (abs_inflate ist inflate) sync full st b (pieces ds) = Done (st', b', vs) ->
    sane st' /\ vs = all_well (pieces ds) /\ eaten st' ++ t = z /\
    exists o, b' = b ++ map Some o /\ got st' = got st ++ o.
  Proof.
    intros W. induction ds as [|[d sz] ds IH]; intros st b st' b' vs S EZ E.
    { injection E as <- <- <-. cbn [map concat app] in EZ.
      split; [exact S|]. split; [reflexivity|]. split; [exact EZ|].
      exists []. cbn [map]. rewrite !app_nil_r. auto. }
    cbn [pieces map use fst snd] in E. cbv zeta in E. fold (pieces ds) in E.
    destruct (abs_inflate ist inflate st b d sz) as [[[s1 b1] k]| |] eqn:C; try discriminate.
    destruct (use _ _ _ _ s1 b1 (pieces ds)) as [[[s2 b2] vs1]| |] eqn:U; try discriminate. injection E as <- <- <-.
    destruct (abs_inflate_safe _ _ _ _ _ _ _ S C) as (Lk & S1 & F & H & o1 & -> & M).
    cbn [map concat fst] in EZ.
    assert (k = length d).
    { destruct (Nat.lt_ge_cases k (length d)) as [Q|Q]; [|lia]. exfalso. specialize (H Q).
      assert (EQ : z = eaten s1 ++ skipn k d ++ concat (map fst ds) ++ t).
      { rewrite F, <- app_assoc, (app_assoc (firstn k d)), firstn_skipn. rewrite <- app_assoc in EZ. symmetry. exact EZ. }
      destruct (PF _ _ _ _ _ H W EQ) as [Z0 _]. apply app_eq_nil in Z0. destruct Z0 as [Z0 _].
      apply skipn_nil_le in Z0. lia. }
    subst k. rewrite firstn_all in F.
    destruct (IH s1 _ _ _ _ S1 ltac:(rewrite F, <- app_assoc; rewrite <- app_assoc in EZ; exact EZ) U) as (S2 & -> & F2 & o2 & -> & M2).
    split; [exact S2|]. split; [reflexivity|]. split; [exact F2|].
    exists (o1 ++ o2). rewrite M2, M, map_app, !app_assoc. auto.
  Qed.

  (** A stream is restored, in whatever pieces it comes. *)
  Lemma inflate_whole z x ds st st1 b1 vs gs st2 b2 r :
    whole z x -> sane st -> eaten st = [] -> got st = [] -> concat (map fst ds) = z ->
    use ist (abs_inflate ist inflate) sync full st [] (pieces ds) = Done (st1, b1, vs) ->
    abs_inflate_finish ist inflate st1 b1 gs = Done (st2, b2, r) ->
    vs = all_well (pieces ds) /\ r = true /\ b2 = map Some x.
  Proof.
    intros W S E0 G0 EZ U FI.
    destruct (use_inflate z x [] W _ _ _ _ _ _ S ltac:(rewrite E0, app_nil_r; exact EZ) U) as (S1 & -> & E1 & o & -> & G1). rewrite app_nil_r in E1.
    destruct (abs_inflate_finish_safe _ _ _ _ _ _ S1 FI) as (S2 & E2 & H & o2 & -> & G2).
    split; [reflexivity|]. rewrite E2, E1 in H.
    destruct r; [|destruct (H x W)]. split; [reflexivity|].
    destruct (PF _ _ _ _ [] H W ltac:(rewrite app_nil_r; reflexivity)) as [_ <-].
    rewrite G2, G1, G0. cbn [app]. rewrite map_app. reflexivity.
  Qed.

  (** Nothing is taken after the end of a stream. *)
  Lemma inflate_stops z x t st b gs st' b' k :
    whole z x -> sane st -> eaten st = [] -> got st = [] -> t <> [] ->
    abs_inflate ist inflate st b (z ++ t) gs = Done (st', b', k) ->
    k = length z /\ b' = b ++ map Some x.
  Proof.
    intros W S E0 G0 NT E.
    destruct (abs_inflate_safe _ _ _ _ _ _ _ S E) as (Lk & S1 & F & H & o & -> & M).
    rewrite E0 in F. rewrite G0 in M. cbn [app] in F, M.
    assert (KL : (k <= length z)%nat).
    { destruct (Nat.le_gt_cases k (length z)) as [Q|Q]; [exact Q|]. exfalso.
      rewrite firstn_app, firstn_all2 in F by lia.
      pose proof (w_within _ _ _ _ _ _ _ WC _ _ _ S1 W _ F) as Z0.
      assert (length (firstn (k - length z) t) = 0%nat) as Q0 by (rewrite Z0; reflexivity).
      rewrite firstn_length in Q0. destruct t; [congruence|]. cbn [length] in Q0. lia. }
    assert (WH : whole (eaten st') (got st')).
    { apply H. rewrite app_length. destruct t; [congruence|]. cbn [length]. lia. }
    rewrite firstn_app in F. replace (k - length z)%nat with 0%nat in F by lia.
    rewrite firstn_O, app_nil_r in F.
    assert (EQ : z = eaten st' ++ skipn k z) by (rewrite F, firstn_skipn; reflexivity).
    destruct (PF _ _ _ _ _ WH W EQ) as [Z0 GX]. apply skipn_nil_le in Z0.
    split; [lia|]. rewrite <- GX, M. reflexivity.
  Qed.

  (** A stream that has been cut off is not taken for a whole one. *)
  Lemma inflate_cut z x t ds st st1 b1 vs gs st2 b2 r :
    whole z x -> sane st -> eaten st = [] -> concat (map fst ds) ++ t = z -> t <> [] ->
    use ist (abs_inflate ist inflate) sync full st [] (pieces ds) = Done (st1, b1, vs) ->
    abs_inflate_finish ist inflate st1 b1 gs = Done (st2, b2, r) ->
    vs = all_well (pieces ds) /\ r = false.
  Proof.
    intros W S E0 EZ NT U FI.
    destruct (use_inflate z x t W _ _ _ _ _ _ S ltac:(rewrite E0; exact EZ) U) as (S1 & -> & E1 & o & -> & G1).
    destruct (abs_inflate_finish_safe _ _ _ _ _ _ S1 FI) as (S2 & E2 & H & o2 & -> & G2).
    split; [reflexivity|]. destruct r; [|reflexivity]. exfalso. rewrite E2 in H.
    destruct (PF _ _ _ _ t H W ltac:(symmetry; exact E1)) as [Z0 _]. contradiction.
  Qed.
End Inflator.
