(** C99: lengths of vectors, and vectors of length 1. *)
From Coq Require Import List ZArith QArith Qround Lia Lqa Bool.
From Verif Require Import Base VecModel VecUnitModel.
Import ListNotations.
Open Scope Q_scope.

(** The reciprocal square root of the processor, which errs by at most 1.5 * 2^-12. *)
Definition eps : Q := 3 # 8192.
Definition approximate_rsqrt (f : Q -> Q) : Prop :=
  forall q, 0 < q -> 0 < f q /\ (1 - eps) * (1 - eps) <= q * (f q * f q) <= (1 + eps) * (1 + eps).

Local Lemma unit_general f v : vy v <> 0%Z -> vx v <> 0%Z ->
  let q := inject_Z (vx v) * inject_Z (vx v) + inject_Z (vy v) * inject_Z (vy v) in
  unit f v = (inject_Z (vx v) * f q, inject_Z (vy v) * f q).
Proof.
  intros Y X. unfold unit. destruct (Z.eqb_spec (vy v) 0); [contradiction|]. destruct (Z.eqb_spec (vx v) 0); [contradiction|].
  reflexivity.
Qed.
Local Lemma inject_nz z : z <> 0%Z -> 0 < inject_Z z * inject_Z z.
Proof. intros N. rewrite <- inject_Z_mult. change 0 with (inject_Z 0). rewrite <- Zlt_Qlt. nia. Qed.

(** The length of [unit] is 1 but for the error of the reciprocal square root, and it points where the vector does. *)
Theorem vec_unit : forall f v, approximate_rsqrt f ->
  let u := unit f v in
  (1 - eps) * (1 - eps) <= fst u * fst u + snd u * snd u <= (1 + eps) * (1 + eps)
  /\ inject_Z (vx v) * snd u == inject_Z (vy v) * fst u
  /\ ((vx v <> 0 \/ vy v <> 0)%Z -> 0 < inject_Z (vx v) * fst u + inject_Z (vy v) * snd u).
Proof.
  intros f v F u. subst u.
  assert (A : (1 - eps) * (1 - eps) <= 1 <= (1 + eps) * (1 + eps)) by (unfold eps; split; vm_compute; discriminate).
  destruct (Z.eq_dec (vy v) 0) as [Y|Y]; [|destruct (Z.eq_dec (vx v) 0) as [X|X]].
  - unfold unit. rewrite Y. change ((0 =? 0)%Z) with true. cbv iota. cbn [fst snd].
    split; [destruct (vx v <? 0)%Z; lra|]. split; [change (inject_Z 0) with 0; lra|].
    intros [H|H]; [|contradiction]. change (inject_Z 0) with 0. destruct (Z.ltb_spec (vx v) 0) as [L|L].
    + rewrite Zlt_Qlt in L. change (inject_Z 0) with 0 in L. lra.
    + assert (L' : (0 < vx v)%Z) by lia. rewrite Zlt_Qlt in L'. change (inject_Z 0) with 0 in L'. lra.
  - unfold unit. destruct (Z.eqb_spec (vy v) 0); [contradiction|]. rewrite X. change ((0 =? 0)%Z) with true. cbv iota. cbn [fst snd].
    split; [destruct (vy v <? 0)%Z; lra|]. split; [change (inject_Z 0) with 0; lra|].
    intros _. change (inject_Z 0) with 0. destruct (Z.ltb_spec (vy v) 0) as [L|L].
    + rewrite Zlt_Qlt in L. change (inject_Z 0) with 0 in L. lra.
    + assert (L' : (0 < vy v)%Z) by lia. rewrite Zlt_Qlt in L'. change (inject_Z 0) with 0 in L'. lra.
  - rewrite (unit_general f v Y X). cbn [fst snd].
    pose proof (inject_nz _ X) as PX. pose proof (inject_nz _ Y) as PY.
    set (x := inject_Z (vx v)) in *. set (y := inject_Z (vy v)) in *. set (q := x * x + y * y).
    assert (Q : 0 < q) by (unfold q; lra). destruct (F q Q) as [P B]. set (r := f q) in *.
    split; [|split].
    + setoid_replace (x * r * (x * r) + y * r * (y * r)) with (q * (r * r)) by (unfold q; ring). exact B.
    + ring.
    + intros _. setoid_replace (x * (x * r) + y * (y * r)) with (q * r) by (unfold q; ring).
      apply Qmult_lt_0_compat; assumption.
Qed.
Print Assumptions vec_unit.

(** Vectors along an axis have exact results; the one of length zero is taken to point to the right. *)
Theorem vec_unit_axes : forall f k, (0 <= k)%Z ->
  unit f (mkVec k 0) = (1, 0) /\ unit f (mkVec (- k - 1) 0) = (-1 # 1, 0)
  /\ unit f (mkVec 0 (k + 1)) = (0, 1) /\ unit f (mkVec 0 (- k - 1)) = (0, -1 # 1).
Proof.
  intros f k H. unfold unit. cbn [vx vy]. change ((0 =? 0)%Z) with true. cbv iota.
  destruct (Z.ltb_spec k 0); [lia|]. destruct (Z.ltb_spec (- k - 1) 0); [|lia].
  destruct (Z.eqb_spec (k + 1) 0); [lia|]. destruct (Z.eqb_spec (- k - 1) 0); [lia|].
  destruct (Z.ltb_spec (k + 1) 0); [lia|]. repeat split.
Qed.
Print Assumptions vec_unit_axes.

(** The square of [magnitude] is the sum of the squares of the coordinates if [sqrt] is exact, and is as near to it as
    the square of what [sqrt] gives is to its argument. *)
Theorem vec_magnitude : forall sqrt v e, (forall q, 0 <= q -> 0 <= sqrt q /\ q * (1 - e) <= sqrt q * sqrt q <= q * (1 + e)) ->
  let q := inject_Z (dot v v) in let r := magnitude sqrt v in
  0 <= r /\ q * (1 - e) <= r * r <= q * (1 + e).
Proof.
  intros sqrt v e F q r.
  assert (E : lane 0 (square v) == q).
  { unfold square, hadd_ps, mul_ps, load, lane, q, dot. cbn [nth]. rewrite inject_Z_plus, !inject_Z_mult. reflexivity. }
  assert (P : 0 <= lane 0 (square v)).
  { rewrite E. unfold q. change 0 with (inject_Z 0). rewrite <- Zle_Qle. unfold dot. nia. }
  destruct (F _ P) as [R B]. unfold r, magnitude. rewrite <- E. split; [exact R|exact B].
Qed.
Print Assumptions vec_magnitude.

(** Such a reciprocal square root exists. *)
Definition sample_rsqrt (q : Q) : Q :=
  let s := Z.sqrt (Qnum q * Zpos (Qden q) * 100000000) in (Zpos (Qden q) * 10000)%Z # Z.to_pos s.
Example vec_unit_case : approximate_rsqrt sample_rsqrt
  /\ unit sample_rsqrt (mkVec 3 4) = (30000 # 50000, 40000 # 50000)
  /\ unit sample_rsqrt (mkVec 0 (-7)) = (0, -1 # 1).
Proof.
  split; [|split; vm_compute; reflexivity]. intros [n d] H. unfold sample_rsqrt. cbn [Qnum Qden].
  assert (N : (0 < n)%Z) by (unfold Qlt in H; cbn in H; lia).
  set (p := (n * Zpos d)%Z). assert (Pp : (1 <= p)%Z) by (unfold p; nia).
  pose proof (Z.sqrt_spec (p * 100000000) ltac:(lia)) as S. cbv zeta in S.
  set (s := Z.sqrt (p * 100000000)) in *.
  assert (S1 : (10000 <= s)%Z) by nia.
  assert (Es : Zpos (Z.to_pos s) = s) by (apply Z2Pos.id; lia).
  set (sp := Z.to_pos s) in *. clearbody sp s. subst s.
  split; [unfold Qlt; cbn [Qnum Qden]; nia|].
  assert (E : (n # d) * (((Zpos d * 10000)%Z # sp) * ((Zpos d * 10000)%Z # sp)) == (p * 100000000)%Z # (sp * sp)).
  { unfold Qeq, Qmult, p. cbn [Qnum Qden]. rewrite !Pos2Z.inj_mul. ring. }
  rewrite E. setoid_replace ((1 - eps) * (1 - eps)) with (67059721 # 67108864) by reflexivity.
  setoid_replace ((1 + eps) * (1 + eps)) with (67158025 # 67108864) by reflexivity.
  assert (U : (8192 * (Zpos sp + 1) * (8192 * (Zpos sp + 1)) <= 8195 * Zpos sp * (8195 * Zpos sp))%Z) by (apply Z.mul_le_mono_nonneg; lia).
  split; unfold Qle; cbn [Qnum Qden]; rewrite ?Pos2Z.inj_mul; nia.
Qed.
