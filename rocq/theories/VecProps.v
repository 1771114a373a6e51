(** Theorems about vectors and angles (C99). *)
From Coq Require Import List ZArith Bool Lia ZifyBool ZifyNat.
From Verif Require Import Base BaseLemmas GeoModel GeoSpec GeoProps VecModel.
Import ListNotations.
Open Scope Z_scope.

(** The angles for which the table is right (C44). *)
Definition usual (t : Z) : Prop := - 2147483160 <= t < 2 ^ 31 - 360.
(** The square of the length. *)
Definition square (v : vec) : Z := vx v * vx v + vy v * vy v.

Local Lemma sin_at t : - 2147483160 <= t < 2 ^ 31 -> sin t = at_sin t.
Proof. intros H. unfold sin, at_sin. rewrite index_mod by exact H. reflexivity. Qed.
Local Lemma cos_at t : - 2147483160 <= t < 2 ^ 31 -> cos t = at_cos t.
Proof. intros H. unfold cos, at_cos. rewrite index_mod by exact H. reflexivity. Qed.

Local Lemma at_mod i : at_sin (i mod 360) = at_sin i /\ at_cos (i mod 360) = at_cos i.
Proof. unfold at_sin, at_cos. rewrite Z.mod_mod by lia. auto. Qed.

Local Lemma circle i : - 2 * 10 ^ 10 <= at_sin i * at_sin i + at_cos i * at_cos i - 10 ^ 20 <= 2 * 10 ^ 10
  /\ at_cos i = at_sin (i + 90) /\ at_sin (i + 180) = - at_sin i /\ at_sin (- i) = - at_sin i.
Proof.
  pose proof (circle_sweep i) as C. unfold circle_ok in C. cbv zeta in C. rewrite !andb_true_iff in C. destruct C as [[[[[[A _] _] B] C] D] _].
  assert (E : forall k, at_sin (i mod 360 + k) = at_sin (i + k)).
  { intros k. unfold at_sin. rewrite Z.add_mod_idemp_l by lia. reflexivity. }
  assert (N : at_sin (- (i mod 360)) = at_sin (- i)).
  { unfold at_sin. replace (- (i mod 360)) with (0 - i mod 360) by lia. rewrite Zminus_mod_idemp_r. reflexivity. }
  destruct (at_mod i) as [S1 S2]. rewrite !E, ?N, S1, ?S2 in *.
  apply Z.eqb_eq in B, C, D. apply Z.leb_le in A. repeat split; try assumption; lia.
Qed.

Local Lemma cos_even i : at_cos (- i) = at_cos i.
Proof.
  destruct (circle i) as (_ & B & _). destruct (circle (- i)) as (_ & B' & _). destruct (circle (i - 90)) as (_ & _ & C & D).
  rewrite B', B. replace (- i + 90) with (- (i - 90)) by lia. rewrite D. rewrite <- C. f_equal. lia.
Qed.

(** C99: rotation keeps lengths, to the precision of the table, *)
Theorem vec_rotate_length v t : usual t ->
  within (2 * 10 ^ 10 * square v) (square (rotate v t)) (10 ^ 20 * square v).
Proof.
  intros H. unfold usual in H. destruct (circle t) as (C & _). rewrite <- sin_at, <- cos_at in C by lia.
  unfold within, square, rotate. cbn [vx vy]. set (s := sin t) in *. set (c := cos t) in *. clearbody s c.
  replace ((vx v * c - vy v * s) * (vx v * c - vy v * s) + (vx v * s + vy v * c) * (vx v * s + vy v * c) - 10 ^ 20 * (vx v * vx v + vy v * vy v))
    with ((s * s + c * c - 10 ^ 20) * (vx v * vx v + vy v * vy v)) by ring.
  assert (0 <= vx v * vx v + vy v * vy v) by nia. nia.
Qed.

(** and scalar and vector products of all pairs by the same factor, *)
Theorem vec_rotate_products t : usual t -> exists k, within (2 * 10 ^ 10) k (10 ^ 20) /\
  forall u v, dot (rotate u t) (rotate v t) = k * dot u v /\ cross (rotate u t) (rotate v t) = k * cross u v.
Proof.
  intros H. unfold usual in H. destruct (circle t) as (C & _). rewrite <- sin_at, <- cos_at in C by lia.
  exists (sin t * sin t + cos t * cos t). split; [unfold within; lia|]. intros u v. unfold dot, cross, rotate. cbn [vx vy]. split; ring.
Qed.

(** is undone by the opposite rotation, *)
Theorem vec_rotate_back t : usual t -> usual (- t) -> exists k, within (2 * 10 ^ 10) k (10 ^ 20) /\
  forall v, rotate (rotate v t) (- t) = times v k.
Proof.
  intros H H'. unfold usual in *. destruct (circle t) as (C & _ & _ & D). pose proof (cos_even t) as E.
  rewrite <- (sin_at t), <- ?(cos_at t), <- (sin_at (- t)), <- ?(cos_at (- t)) in * by lia.
  exists (sin t * sin t + cos t * cos t). split; [unfold within; lia|]. intros v. unfold rotate, times. cbn [vx vy]. rewrite D, E. f_equal; ring.
Qed.

(** turns a quarter, a half and a full turn exactly, *)
Theorem vec_rotate_turns v t : usual t ->
  rotate v (t + 90) = mkVec (- vy (rotate v t)) (vx (rotate v t)) /\
  rotate v (t + 180) = opposite (rotate v t) /\
  rotate v (t + 360) = rotate v t /\
  rotate v 0 = times v (10 ^ 10).
Proof.
  intros H. unfold usual in H.
  destruct (circle t) as (_ & B & C & _). destruct (circle (t + 90)) as (_ & B1 & C1 & _). destruct (circle (t + 180)) as (_ & B2 & C2 & _). destruct (circle (t + 270)) as (_ & _ & C3 & _).
  replace (t + 90 + 90) with (t + 180) in B1 by lia. replace (t + 180 + 90) with (t + 270) in B2 by lia. replace (t + 180 + 180) with (t + 360) in C2 by lia.
  replace (t + 90 + 180) with (t + 270) in C1 by lia. replace (t + 270 + 180) with (t + 450) in C3 by lia.
  destruct (circle (t + 360)) as (_ & B4 & _). replace (t + 360 + 90) with (t + 450) in B4 by lia.
  rewrite <- !(cos_at t), <- ?(cos_at (t + 90)), <- ?(cos_at (t + 180)), <- ?(cos_at (t + 360)), <- ?(sin_at t), <- ?(sin_at (t + 90)), <- ?(sin_at (t + 180)), <- ?(sin_at (t + 360)) in * by lia.
  unfold rotate, opposite, times. cbn [vx vy].
  split; [f_equal; nia|]. split; [f_equal; nia|]. split; [f_equal; nia|].
  change (sin 0) with 0. change (cos 0) with 10000000000. f_equal; lia.
Qed.

(** and respects sums and multiples. *)
Theorem vec_rotate_linear u v k t : rotate (plus u v) t = plus (rotate u t) (rotate v t)
  /\ rotate (times v k) t = times (rotate v t) k /\ rotate (opposite v) t = opposite (rotate v t).
Proof. unfold rotate, plus, times, opposite. cbn [vx vy]. repeat split; f_equal; ring. Qed.

(** C99: going from one point by a difference of points leads to the other. *)
Theorem vec_points p q v : plus p (between p q) = q /\ minus q p = between p q /\ minus (plus p v) v = p /\ between p (plus p v) = v.
Proof. unfold between, plus, minus. destruct p as [a b], q as [c d], v as [e f]. cbn [vx vy]. repeat split; f_equal; lia. Qed.

(** *** Directions *)

Local Lemma quot9_scale k a b : 0 < k -> 0 < b -> quot9 (k * a) (k * b) = quot9 a b.
Proof. intros K B. unfold quot9. rewrite <- Z.mul_assoc. apply Z.div_mul_cancel_l; lia. Qed.

Local Lemma div_scale k x y : 0 < k -> div quot9 (Fin (k * x)) (Fin (k * y)) = div quot9 (Fin x) (Fin y).
Proof.
  intros K. cbn [div]. destruct (Z.eqb_spec y 0) as [->|N].
  - rewrite Z.mul_0_r. reflexivity.
  - replace (k * y =? 0) with false by nia. rewrite !Z.abs_mul, !Z.sgn_mul, (Z.abs_eq k), (Z.sgn_pos k) by lia.
    rewrite quot9_scale by lia. f_equal. ring.
Qed.

(** Directions do not depend on lengths. *)
Local Lemma arctan_scale k y x : 0 < k -> arctan quot9 (fun x => x) tan9 (Fin (k * y)) (Fin (k * x)) = arctan quot9 (fun x => x) tan9 (Fin y) (Fin x).
Proof.
  intros K. unfold arctan. cbv zeta. cbn [neg].
  replace (- (k * y)) with (k * - y) by ring. rewrite !div_scale by exact K.
  assert (E1 : forall a, eq (Fin (k * a)) (Fin (k * a)) = eq (Fin a) (Fin a)) by (intros; cbn [eq]; rewrite !Z.eqb_refl; reflexivity).
  assert (E2 : forall a, eq (Fin (k * a)) (Fin 0) = eq (Fin a) (Fin 0)) by (intros; cbn [eq]; nia).
  assert (G1 : forall a, gt (Fin (k * a)) (Fin 0) = gt (Fin a) (Fin 0)) by (intros; cbn [gt]; nia).
  assert (G2 : forall a b, gt (Fin (k * a)) (Fin (k * b)) = gt (Fin a) (Fin b)) by (intros; cbn [gt]; nia).
  rewrite !E1, !E2, !G1, !G2. reflexivity.
Qed.

Local Definition turns_ok (i : Z) : bool :=
  match arctan quot9 (fun x => x) tan9 (Fin (at_sin i)) (Fin (at_cos i)) with Some r => (r - i) mod 360 =? 0 | None => false end.

Local Lemma turns_sweep i : turns_ok (i mod 360) = true.
Proof.
  assert (H : forallb turns_ok (map Z.of_nat (seq 0 360)) = true) by (vm_compute; reflexivity).
  rewrite forallb_forall in H. apply H. apply in_map_iff. exists (Z.to_nat (i mod 360)). split; [lia|]. apply in_seq. lia.
Qed.

Local Lemma direction_at k t : 0 < k -> exists r, arctan quot9 (fun x => x) tan9 (Fin (k * at_sin t)) (Fin (k * at_cos t)) = Some r /\ congruent r t.
Proof.
  intros K. rewrite arctan_scale by exact K. pose proof (turns_sweep t) as S. unfold turns_ok in S. destruct (at_mod t) as [E1 E2]. rewrite E1, E2 in S.
  destruct (arctan quot9 (fun x => x) tan9 (Fin (at_sin t)) (Fin (at_cos t))) as [r|]; [|discriminate]. exists r. split; [reflexivity|].
  exists ((r - t) / 360). lia.
Qed.

Notation direction9 := (direction quot9 (fun x => x) tan9).
Notation angle9 := (angle quot9 (fun x => x) tan9).

(** C99: a vector that is given by a length and an angle has that direction, *)
Theorem vec_polar rho t : usual t -> 0 < rho -> exists r, direction9 (polar rho t) = Some r /\ congruent r t.
Proof.
  intros H R. unfold usual in H. unfold direction, polar. cbn [vx vy]. rewrite sin_at, cos_at by lia. apply direction_at. exact R.
Qed.

(** the opposite one if the length is negative, *)
Theorem vec_polar_negative rho t : usual t -> rho < 0 -> exists r, direction9 (polar rho t) = Some r /\ congruent r (t + 180).
Proof.
  intros H R. unfold usual in H. unfold direction, polar. cbn [vx vy]. rewrite sin_at, cos_at by lia.
  destruct (circle t) as (_ & B & C & _). destruct (circle (t + 180)) as (_ & B2 & _). destruct (circle (t + 90)) as (_ & _ & C1 & _).
  replace (t + 180 + 90) with (t + 90 + 180) in B2 by lia.
  replace (rho * at_sin t) with (- rho * at_sin (t + 180)) by nia. replace (rho * at_cos t) with (- rho * at_cos (t + 180)) by nia.
  apply direction_at. lia.
Qed.

(** and the angle from a vector to the rotated vector is the angle of the rotation. *)
Theorem vec_rotate_angle v t : usual t -> v <> mkVec 0 0 -> exists r, angle9 v (rotate v t) = Some r /\ congruent r t.
Proof.
  intros H N. unfold usual in H. unfold angle, angle_from, direction. cbv zeta. cbn [vx vy].
  assert (P : 0 < square v).
  { unfold square. destruct v as [x y]. cbn [vx vy]. destruct (Z.eq_dec x 0) as [->|]; [destruct (Z.eq_dec y 0) as [->|]; [contradiction|]|]; nia. }
  replace (cross v (rotate v t)) with (square v * at_sin t) by (rewrite <- sin_at by lia; unfold cross, rotate, square; cbn [vx vy]; ring).
  replace (dot v (rotate v t)) with (square v * at_cos t) by (rewrite <- cos_at by lia; unfold dot, rotate, square; cbn [vx vy]; ring).
  apply direction_at. exact P.
Qed.

Example vec_case : rotate (mkVec 3 4) 90 = mkVec (-4 * 10 ^ 10) (3 * 10 ^ 10)
  /\ angle9 (mkVec 3 4) (rotate (mkVec 3 4) (-77)) = Some 283 /\ usual (-77) /\ usual 77.
Proof. split; [vm_compute; reflexivity|]. split; [vm_compute; reflexivity|]. unfold usual. lia. Qed.

(** *** Arithmetic on angles *)

(** C99: sums and differences of reduced angles are defined, and the same
    directions as those of the angles themselves. *)
Theorem deg_reduced a b : - 2147483160 <= a < 2 ^ 31 -> - 2147483160 <= b < 2 ^ 31 ->
  (exists r, deg_add (reduce360 a) (reduce360 b) = Some r /\ congruent r (a + b)) /\
  (exists r, deg_sub (reduce360 a) (reduce360 b) = Some r /\ congruent r (a - b)) /\
  (exists r, deg_neg (reduce360 a) = Some r /\ congruent r (- a)) /\
  deg_abs (reduce360 a) = Some (reduce360 a).
Proof.
  intros A B. destruct (geo_reduce360_partial a A) as [RA (ka & KA)]. destruct (geo_reduce360_partial b B) as [RB (kb & KB)].
  unfold deg_add, deg_sub, deg_neg, deg_abs, int.
  split; [|split; [|split]].
  - exists (reduce360 a + reduce360 b). split; [replace (_ && _) with true by lia; reflexivity|]. exists (ka + kb). lia.
  - exists (reduce360 a - reduce360 b). split; [replace (_ && _) with true by lia; reflexivity|]. exists (ka - kb). lia.
  - exists (- reduce360 a). split; [replace (_ && _) with true by lia; reflexivity|]. exists (- ka). lia.
  - rewrite Z.abs_eq by lia. replace (_ && _) with true by lia. reflexivity.
Qed.

(** C99: operations on angles are the arithmetic ones, unless the result is not
    an [int]; it is not defined then. *)
Theorem deg_arithmetic a b : let ok r x := (- 2 ^ 31 <= x < 2 ^ 31 /\ r = Some x) \/ (~ - 2 ^ 31 <= x < 2 ^ 31 /\ r = None) in
  ok (deg_add a b) (a + b) /\ ok (deg_sub a b) (a - b) /\ ok (deg_mul a b) (a * b) /\ ok (deg_neg a) (- a) /\ ok (deg_abs a) (Z.abs a)
  /\ (b <> 0 -> ok (deg_div a b) (Z.quot a b)).
Proof.
  assert (I : forall x, (- 2 ^ 31 <= x < 2 ^ 31 /\ int x = Some x) \/ (~ - 2 ^ 31 <= x < 2 ^ 31 /\ int x = None)).
  { intros x. unfold int. destruct (_ && _) eqn:E; [left|right]; (split; [lia|reflexivity]). }
  cbv zeta. repeat split; try apply I. intros N. unfold deg_div. replace (b =? 0) with false by lia. apply I.
Qed.

(** The product with a fraction is rounded to the nearest angle, *)
Theorem deg_mul_nearest a p q r : 0 < q -> deg_mul_float a p q = Some r -> 2 * Z.abs (r * q - a * p) <= q.
Proof.
  intros Q E. unfold deg_mul_float, int in E. destruct (_ && _); [|discriminate]. injection E as <-.
  unfold round_even. cbv zeta. pose proof (Z.div_mod (a * p) q ltac:(lia)) as D. pose proof (Z.mod_pos_bound (a * p) q Q) as M.
  set (d := a * p / q) in *. set (m := (a * p) mod q) in *. clearbody d m.
  destruct (2 * m <? q) eqn:E1; [|destruct (q <? 2 * m) eqn:E2; [|destruct (Z.even d)]]; nia.
Qed.

(** but the quotient by one is not: *)
Theorem deg_div_truncates a p q r : 0 < q -> 0 < p -> 0 <= a -> deg_div_float a p q = Some r -> r * p <= a * q < (r + 1) * p.
Proof.
  intros Q P A E. unfold deg_div_float, int in E. replace (p =? 0) with false in E by lia. destruct (_ && _); [|discriminate]. injection E as <-.
  rewrite Z.quot_div_nonneg by nia. pose proof (Z.div_mod (a * q) p ltac:(lia)). pose proof (Z.mod_pos_bound (a * q) p P). nia.
Qed.

(** C99: so division is not multiplication by the reciprocal. *)
Theorem deg_halves_refuted : ~ forall a, - 2 ^ 24 < a < 2 ^ 24 -> deg_mul_float a 1 2 = deg_div_float a 2 1.
Proof. intros H. specialize (H 3 ltac:(lia)). vm_compute in H. discriminate. Qed.

Example deg_case : deg_mul_float 45 1 2 = Some 22 /\ deg_mul_float 47 1 2 = Some 24 /\ deg_div_float 47 2 1 = Some 23 /\ deg_add 2147483647 1 = None.
Proof. vm_compute. auto. Qed.

Print Assumptions vec_rotate_length.
Print Assumptions vec_rotate_products.
Print Assumptions vec_rotate_back.
Print Assumptions vec_rotate_turns.
Print Assumptions vec_rotate_linear.
Print Assumptions vec_points.
Print Assumptions vec_polar.
Print Assumptions vec_polar_negative.
Print Assumptions vec_rotate_angle.
Print Assumptions deg_reduced.
Print Assumptions deg_arithmetic.
Print Assumptions deg_mul_nearest.
Print Assumptions deg_div_truncates.
Print Assumptions deg_halves_refuted.
