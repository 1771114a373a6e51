(** C44 and C55: angles. *)
From Coq Require Import List ZArith Bool Lia ZifyBool ZifyNat.
From Verif Require Import Base BaseLemmas GeoModel GeoSpec.
Import ListNotations.
Open Scope list_scope.
Open Scope Z_scope.
Ltac Zify.zify_post_hook ::= Z.div_mod_to_equations.

(** *** Reduction *)

(** Missing: angles below -2147483160, see [geo_reduce360_refuted]. *)
Theorem geo_reduce360_partial t : - 2147483160 <= t < 2 ^ 31 ->
  0 <= reduce360 t <= 359 /\ congruent (reduce360 t) t.
Proof.
  intros H. unfold reduce360, to_int. rewrite <- Z.add_mod_idemp_l by lia.
  rewrite Z.mod_mod by lia. rewrite Z.add_mod_idemp_l by lia. rewrite (Z.mod_small (t + 2147483160)) by lia.
  replace ((t + 2147483160) mod 360 <? 2147483648) with true by lia. split; [lia|].
  exists (5965231 - (t + 2147483160) / 360). lia.
Qed.

Theorem geo_reduce180_partial t : - 2147483339 <= t < 2 ^ 31 ->
  -179 <= reduce180 t <= 180 /\ congruent (reduce180 t) t.
Proof.
  intros H. unfold reduce180, to_int. rewrite Z.add_mod_idemp_l by lia. rewrite (Z.mod_small (t + 2147483339)) by lia.
  set (r := (t + 2147483339) mod 360). assert (R : 0 <= r < 360) by (unfold r; lia).
  assert (E : r = t + 2147483339 - 360 * ((t + 2147483339) / 360)) by (unfold r; lia). clearbody r.
  assert (F : (if (r - 179) mod 4294967296 <? 2147483648 then (r - 179) mod 4294967296 else (r - 179) mod 4294967296 - 4294967296) = r - 179).
  { destruct (Z.leb_spec 179 r).
    - rewrite Z.mod_small by lia. replace (r - 179 <? 2147483648) with true by lia. reflexivity.
    - replace ((r - 179) mod 4294967296) with (r - 179 + 4294967296) by lia.
      replace (r - 179 + 4294967296 <? 2147483648) with false by lia. lia. }
  rewrite F. split; [lia|]. exists (5965231 - (t + 2147483339) / 360). lia.
Qed.

(** For all other angles the result is another direction. *)
Theorem geo_reduce360_refuted t : - 2 ^ 31 <= t < - 2147483160 -> ~ congruent (reduce360 t) t.
Proof.
  intros H (k & E). unfold reduce360, to_int in E. rewrite Z.add_mod_idemp_l in E by lia.
  replace ((t + 2147483160) mod 4294967296) with (t + 2147483160 + 4294967296) in E by lia.
  replace ((t + 2147483160 + 4294967296) mod 360 <? 2147483648) with true in E by lia. lia.
Qed.

Theorem geo_reduce180_refuted t : - 2 ^ 31 <= t < - 2147483339 -> ~ congruent (reduce180 t) t.
Proof.
  intros H (k & E). unfold reduce180, to_int in E. rewrite Z.add_mod_idemp_l in E by lia.
  replace ((t + 2147483339) mod 4294967296) with (t + 2147483339 + 4294967296) in E by lia.
  set (r := (t + 2147483339 + 4294967296) mod 360) in *. assert (R : 0 <= r < 360) by (unfold r; lia).
  assert (F : exists j, r = t + 75 + 360 * j) by (exists ((2147483339 + 4294967296 - 75) / 360 - (t + 2147483339 + 4294967296) / 360); unfold r; lia).
  destruct F as (j & F). clearbody r.
  destruct (Z.leb_spec 179 r).
  - rewrite Z.mod_small in E by lia. replace (r - 179 <? 2147483648) with true in E by lia. lia.
  - replace ((r - 179) mod 4294967296) with (r - 179 + 4294967296) in E by lia.
    replace (r - 179 + 4294967296 <? 2147483648) with false in E by lia. lia.
Qed.

Example geo_reduced : reduce360 (-1) = 359 /\ reduce180 181 = -179 /\ reduce360 2147483647 = 127 /\ reduce180 (-2147483339) = -179.
Proof. vm_compute. auto. Qed.

(** *** The table *)

Lemma index_mod t : - 2147483160 <= t < 2 ^ 31 -> trig_index t = Z.to_nat (t mod 360).
Proof.
  intros H. unfold trig_index. f_equal. rewrite Z.add_mod_idemp_l by lia. rewrite (Z.mod_small (t + 2147483160)) by lia. lia.
Qed.

Definition at_sin (i : Z) : Z := nth (Z.to_nat (i mod 360)) sin_table 0.
Definition at_cos (i : Z) : Z := nth (Z.to_nat (i mod 360)) cos_table 0.
Definition at_tan (i : Z) : option Z := nth (Z.to_nat (i mod 360)) tan_table None.

Definition circle_ok (i : Z) : bool :=
  let s := at_sin i in
  let c := at_cos i in
  (Z.abs (s * s + c * c - 10 ^ 20) <=? 2 * 10 ^ 10)
  && (Z.abs (s * 9998476952 + c * 174524064 - 10 ^ 10 * at_sin (i + 1)) <=? 2 * 10 ^ 10)
  && (Z.abs (c * 9998476952 - s * 174524064 - 10 ^ 10 * at_cos (i + 1)) <=? 2 * 10 ^ 10)
  && (c =? at_sin (i + 90)) && (at_sin (i + 180) =? - s) && (at_sin (- i) =? - s)
  && match at_tan i with
     | Some t => (Z.abs (t * c - s * 10 ^ 9) <=? 5 * 10 ^ 10) && negb (c =? 0)
     | None => c =? 0
     end.

Lemma circle_sweep i : circle_ok (i mod 360) = true.
Proof.
  assert (C : forallb (fun k => circle_ok (Z.of_nat k)) (seq 0 360) = true) by (vm_compute; reflexivity).
  rewrite forallb_forall in C. specialize (C (Z.to_nat (i mod 360))). rewrite Z2Nat.id in C by lia. apply C. apply in_seq. lia.
Qed.

(** Sine and cosine are those of a point on the unit circle (up to 2e-10)
    which is rotated by an increment of one degree (up to 2e-10) and has gone
    around after 360 of them; the tangent is their quotient. The units are
    1e-10 and 1e-9. *)
Theorem geo_circle t : - 2147483160 <= t < 2 ^ 31 - 180 ->
  within (2 * 10 ^ 10) (sin t * sin t + cos t * cos t) (10 ^ 20)
  /\ within (2 * 10 ^ 10) (sin t * cos 1 + cos t * sin 1) (10 ^ 10 * sin (t + 1))
  /\ within (2 * 10 ^ 10) (cos t * cos 1 - sin t * sin 1) (10 ^ 10 * cos (t + 1))
  /\ cos t = sin (t + 90) /\ sin (t + 180) = - sin t
  /\ match tan t with Some u => within (5 * 10 ^ 10) (u * cos t) (sin t * 10 ^ 9) /\ cos t <> 0 | None => cos t = 0 end.
Proof.
  intros H. pose proof (circle_sweep t) as C. unfold circle_ok, at_sin, at_cos, at_tan in C. cbv zeta in C.
  change (cos 1) with 9998476952. change (sin 1) with 174524064.
  unfold sin, cos, tan, within. rewrite !index_mod by lia.
  rewrite !Z.mod_mod, !Z.add_mod_idemp_l in C by lia.
  set (s := nth (Z.to_nat (t mod 360)) sin_table 0) in *. set (c := nth (Z.to_nat (t mod 360)) cos_table 0) in *.
  set (s1 := nth (Z.to_nat ((t + 1) mod 360)) sin_table 0) in *. set (c1 := nth (Z.to_nat ((t + 1) mod 360)) cos_table 0) in *.
  set (s90 := nth (Z.to_nat ((t + 90) mod 360)) sin_table 0) in *. set (s180 := nth (Z.to_nat ((t + 180) mod 360)) sin_table 0) in *.
  set (r := nth (Z.to_nat ((- (t mod 360)) mod 360)) sin_table 0) in *.
  rewrite !andb_true_iff in C. destruct C as ((((((C1 & C2) & C3) & C4) & C5) & C6) & C7).
  clearbody s c s1 c1 s90 s180 r. clear C6.
  repeat split; try lia. destruct (nth (Z.to_nat (t mod 360)) tan_table None); lia.
Qed.

Theorem geo_period t : - 2147483160 <= t < 2 ^ 31 - 360 ->
  sin (t + 360) = sin t /\ cos (t + 360) = cos t /\ tan (t + 360) = tan t.
Proof. intros H. unfold sin, cos, tan. rewrite !index_mod by lia. replace ((t + 360) mod 360) with (t mod 360) by lia. auto. Qed.

Theorem geo_values : sin 0 = 0 /\ sin 30 = 5000000000 /\ sin 90 = 10000000000 /\ tan 45 = Some 1000000000 /\ tan 90 = None.
Proof. repeat split; vm_compute; reflexivity. Qed.

(** *** Arctangents *)

Section arctangents.
  Variable one : Z.
  Variable quotient : Z -> Z -> Z.
  Variable fl tangent : Z -> Z.
  Hypothesis HT : tangents one tangent.
  Hypothesis HR : rounding one quotient fl.
  Notation reduced := (reduced_arctan fl tangent).
  Notation arctan := (arctan quotient fl tangent).

  Lemma tangent_mono i j : 0 <= i <= j -> j <= 45 -> tangent i <= tangent j.
  Proof.
    intros H J. destruct (Z.eq_dec i j) as [->|N]; [lia|].
    pose proof (tangent_increases _ _ HT i j ltac:(lia) ltac:(lia) J). lia.
  Qed.

  Lemma search_spec s : forall fuel lower theta, 1 <= lower <= theta -> theta <= 45 -> theta - lower <= Z.of_nat fuel ->
    tangent (lower - 1) <= s -> s <= tangent theta ->
    let r := search tangent fuel (Fin s) lower theta in
    1 <= r <= 45 /\ tangent (r - 1) <= s <= tangent r.
  Proof.
    induction fuel as [|fuel IH]; intros lower theta H1 H2 H3 H4 H5; cbn [search]; cbv zeta.
    { replace theta with lower in * by lia. lia. }
    destruct (Z.eqb_spec lower theta) as [E|N]; [subst; lia|]. cbn [less].
    set (mid := (lower + theta) / 2). assert (M : lower <= mid < theta) by (unfold mid; lia). clearbody mid.
    destruct (Z.ltb_spec s (tangent mid)).
    - apply IH; lia.
    - apply IH; try lia. replace (mid + 1 - 1) with mid by lia. assumption.
  Qed.

  Lemma reduced_nearest s : 0 <= s <= one -> nearest fl tangent s (reduced (Fin s)).
  Proof.
    intros H. unfold reduced_arctan. cbv zeta.
    destruct (search_spec s 45 1 45 ltac:(lia) ltac:(lia) ltac:(lia)) as [R B].
    { change (1 - 1) with 0. rewrite (tangent_0 _ _ HT). lia. }
    { rewrite (tangent_45 _ _ HT). lia. }
    set (r := search tangent 45 (Fin s) 1 45) in *. clearbody r.
    pose proof (fl_monotone _ _ _ HR) as M.
    assert (L : forall k, 0 <= k <= 45 -> s - tangent (r - 1) <= Z.abs (tangent k - s) \/ tangent r - s <= Z.abs (tangent k - s)).
    { intros k K. destruct (Z.le_gt_cases r k).
      - right. pose proof (tangent_mono r k ltac:(lia) ltac:(lia)). lia.
      - left. pose proof (tangent_mono k (r - 1) ltac:(lia) ltac:(lia)). lia. }
    unfold nearest. destruct (Z.ltb_spec (fl (tangent r - s)) (fl (s - tangent (r - 1)))) as [C|C].
    - split; [lia|]. intros k K. replace (Z.abs (tangent r - s)) with (tangent r - s) by lia.
      destruct (L k K) as [D|D]; apply M in D; lia.
    - split; [lia|]. intros k K. replace (Z.abs (tangent (r - 1) - s)) with (s - tangent (r - 1)) by lia.
      destruct (L k K) as [D|D]; apply M in D; lia.
  Qed.

  Lemma reduced_one : reduced (Fin one) = 45.
  Proof.
    destruct (reduced_nearest one) as [R N].
    { pose proof (tangent_increases _ _ HT 0 45 ltac:(lia) ltac:(lia) ltac:(lia)). rewrite (tangent_0 _ _ HT), (tangent_45 _ _ HT) in H. lia. }
    specialize (N 45 ltac:(lia)). rewrite (tangent_45 _ _ HT), Z.sub_diag in N. change (Z.abs 0) with 0 in N.
    destruct (Z.eq_dec (reduced (Fin one)) 45) as [E|E]; [exact E|].
    pose proof (tangent_increases _ _ HT (reduced (Fin one)) 45 ltac:(lia) ltac:(lia) ltac:(lia)) as T. rewrite (tangent_45 _ _ HT) in T.
    pose proof (fl_positive _ _ _ HR (Z.abs (tangent (reduced (Fin one)) - one)) ltac:(lia)). lia.
  Qed.

  Lemma range a b : 0 < a -> a <= b -> 0 <= quotient a b <= one.
  Proof.
    intros A B. destruct (Z.eq_dec a b) as [->|]; [rewrite (quotient_same _ _ _ HR) by lia|apply (quotient_range _ _ _ HR); lia].
    pose proof (tangent_increases _ _ HT 0 45 ltac:(lia) ltac:(lia) ltac:(lia)). rewrite (tangent_0 _ _ HT), (tangent_45 _ _ HT) in H. lia.
  Qed.

  Lemma div_fin a b : b <> 0 -> 0 < a * b -> div quotient (Fin a) (Fin b) = Fin (quotient (Z.abs a) (Z.abs b)).
  Proof.
    intros B P. cbn [div]. replace (b =? 0) with false by lia. f_equal.
    destruct (Z.lt_trichotomy a 0) as [A|[A|A]]; [|subst; lia|];
    (destruct (Z.lt_trichotomy b 0) as [C|[C|C]]; [|subst; lia|]); try lia.
  Qed.

  Ltac bits := unfold GeoModel.arctan, eq, gt, neg, bit; cbv zeta;
    repeat match goal with |- context [?x =? ?y] => first [replace (x =? y) with true by lia | replace (x =? y) with false by lia]
      | |- context [?x <? ?y] => first [replace (x <? y) with true by lia | replace (x <? y) with false by lia] end;
    repeat match goal with |- context [?a * 16 + ?b] => let v := eval vm_compute in (a * 16 + b) in change (a * 16 + b) with v end;
    cbv iota.

  Lemma first_octant a b : 0 < b <= a -> arctan (Fin b) (Fin a) = Some (reduced (Fin (quotient b a))).
  Proof. intros H. bits. rewrite div_fin by nia. rewrite !Z.abs_eq by lia. reflexivity. Qed.
  Lemma second_octant a b : 0 < a < b -> arctan (Fin b) (Fin a) = Some (90 - reduced (Fin (quotient a b))).
  Proof. intros H. bits. rewrite div_fin by nia. rewrite !Z.abs_eq by lia. reflexivity. Qed.

  (** An angle in the first octant is the one with the nearest tangent. *)
  Theorem geo_arctan x y : 0 < y <= x ->
    exists r, arctan (Fin y) (Fin x) = Some r /\ nearest fl tangent (quotient y x) r.
  Proof. intros H. eexists. split; [apply first_octant; lia|]. apply reduced_nearest, range; lia. Qed.

  (** The other octants are reflections of it, *)
  Theorem geo_reflections x y : 0 < x -> 0 < y ->
    exists r, arctan (Fin y) (Fin x) = Some r /\ 0 <= r <= 90
      /\ arctan (Fin x) (Fin y) = Some (90 - r)
      /\ arctan (Fin y) (Fin (- x)) = Some (180 - r)
      /\ arctan (Fin (- y)) (Fin (- x)) = Some (180 + r)
      /\ arctan (Fin (- y)) (Fin x) = Some (360 - r).
  Proof.
    intros X Y. destruct (Z.lt_trichotomy x y) as [L|[E|L]].
    - exists (90 - reduced (Fin (quotient x y))). rewrite (second_octant x y), (first_octant y x) by lia.
      pose proof (reduced_nearest _ (range x y ltac:(lia) ltac:(lia))) as [R _].
      repeat match goal with |- _ /\ _ => split end; try lia; try reflexivity; try (f_equal; lia);
        bits; rewrite div_fin by nia; rewrite ?Z.opp_involutive, ?Z.abs_opp, !Z.abs_eq by lia; f_equal; lia.
    - subst y. exists 45. rewrite (first_octant x x), (quotient_same _ _ _ HR), reduced_one by lia.
      repeat match goal with |- _ /\ _ => split end; try lia; try reflexivity;
        bits; rewrite div_fin by nia; rewrite ?Z.opp_involutive, ?Z.abs_opp, !Z.abs_eq by lia;
        rewrite (quotient_same _ _ _ HR), reduced_one by lia; reflexivity.
    - exists (reduced (Fin (quotient y x))). rewrite (second_octant y x), (first_octant x y) by lia.
      pose proof (reduced_nearest _ (range y x ltac:(lia) ltac:(lia))) as [R _].
      repeat match goal with |- _ /\ _ => split end; try lia; try reflexivity; try (f_equal; lia);
        bits; rewrite div_fin by nia; rewrite ?Z.opp_involutive, ?Z.abs_opp, !Z.abs_eq by lia; f_equal; lia.
  Qed.

  (** and between them are the axes. *)
  Theorem geo_axes n : 0 < n ->
    arctan (Fin 0) (Fin n) = Some 0 /\ arctan (Fin n) (Fin 0) = Some 90
    /\ arctan (Fin 0) (Fin (- n)) = Some 180 /\ arctan (Fin (- n)) (Fin 0) = Some 270
    /\ arctan (Fin 0) (Fin 0) = Some 0.
  Proof. intros H. repeat split; bits; reflexivity. Qed.

  (** Whatever the arguments are, even NaN and infinity, there is an angle:
      [ASTERIA_UNREACHABLE] is not reached. *)
  Theorem geo_total y x : exists r, arctan y x = Some r /\ 0 <= r <= 360.
  Proof.
    assert (N : forall n, match n with Fin s => 0 <= s <= one | _ => True end -> 0 <= reduced n <= 45).
    { intros [| | |s] H; try exact (proj1 (reduced_nearest s H)); unfold reduced_arctan; cbv zeta;
      cbn [search less]; vm_compute; split; discriminate. }
    assert (Z0 : 0 <= 0 <= one).
    { pose proof (tangent_increases _ _ HT 0 45 ltac:(lia) ltac:(lia) ltac:(lia)). rewrite (tangent_0 _ _ HT), (tangent_45 _ _ HT) in H. lia. }
    destruct y as [| | |y]; destruct x as [| | |x].
    16: { destruct (Z.lt_trichotomy x 0) as [X|[X|X]]; destruct (Z.lt_trichotomy y 0) as [Y|[Y|Y]]; subst.
      - destruct (geo_reflections (- x) (- y) ltac:(lia) ltac:(lia)) as (r & _ & R & _ & _ & E & _).
        rewrite !Z.opp_involutive in E. eexists. split; [exact E|lia].
      - destruct (geo_axes (- x) ltac:(lia)) as (_ & _ & E & _). rewrite Z.opp_involutive in E. eexists. split; [exact E|lia].
      - destruct (geo_reflections (- x) y ltac:(lia) ltac:(lia)) as (r & _ & R & _ & E & _).
        rewrite !Z.opp_involutive in E. eexists. split; [exact E|lia].
      - destruct (geo_axes (- y) ltac:(lia)) as (_ & _ & _ & E & _). rewrite Z.opp_involutive in E. eexists. split; [exact E|lia].
      - destruct (geo_axes 1 ltac:(lia)) as (_ & _ & _ & _ & E). eexists. split; [exact E|lia].
      - destruct (geo_axes y ltac:(lia)) as (_ & E & _). eexists. split; [exact E|lia].
      - destruct (geo_reflections x (- y) ltac:(lia) ltac:(lia)) as (r & _ & R & _ & _ & _ & E).
        rewrite !Z.opp_involutive in E. eexists. split; [exact E|lia].
      - destruct (geo_axes x ltac:(lia)) as (E & _). eexists. split; [exact E|lia].
      - destruct (geo_reflections x y ltac:(lia) ltac:(lia)) as (r & E & R & _). eexists. split; [exact E|lia]. }
    all: try (eexists; split; [reflexivity|lia]).
    all: try (eexists; split; [reflexivity|]; match goal with |- context [reduced ?n] => pose proof (N n I); lia end).
    all: match goal with |- context [Fin ?n] => destruct (Z.lt_trichotomy n 0) as [X|[X|X]]; [|subst n|] end.
    all: bits; try (eexists; split; [reflexivity|lia]).
    all: cbn [div]; eexists; split; [reflexivity|];
      match goal with |- context [reduced ?n] => pose proof (N n ltac:(first [exact I|exact Z0])); lia end.
  Qed.
End arctangents.

(** *** A concrete instance: decimal fixed point *)

Definition tan9 (i : Z) : Z := match nth (Z.to_nat i) tan_table None with Some t => t | None => 0 end.
Definition quot9 (a b : Z) : Z := a * 10 ^ 9 / b.

Example geo_tangents : tangents (10 ^ 9) tan9.
Proof.
  split; [reflexivity|reflexivity|]. intros i j Hi Hij Hj.
  assert (S : forallb (fun k => tan9 (Z.of_nat k) <? tan9 (Z.of_nat (S k))) (seq 0 45) = true) by (vm_compute; reflexivity).
  rewrite forallb_forall in S.
  assert (P : forall n, Z.of_nat n + i + 1 <= 45 -> tan9 i < tan9 (Z.of_nat n + i + 1)).
  { induction n as [|n IH]; intros H.
    - specialize (S (Z.to_nat i)). rewrite in_seq in S. specialize (S ltac:(lia)).
      replace (Z.of_nat (Datatypes.S (Z.to_nat i))) with (Z.of_nat 0 + i + 1) in S by lia. rewrite Z2Nat.id in S by lia. lia.
    - specialize (IH ltac:(lia)). specialize (S (n + Z.to_nat i + 1)%nat). rewrite in_seq in S. specialize (S ltac:(lia)).
      replace (Z.of_nat (n + Z.to_nat i + 1)) with (Z.of_nat n + i + 1) in S by lia.
      replace (Z.of_nat (Datatypes.S (n + Z.to_nat i + 1))) with (Z.of_nat (Datatypes.S n) + i + 1) in S by lia. lia. }
  specialize (P (Z.to_nat (j - i - 1))). replace (Z.of_nat (Z.to_nat (j - i - 1)) + i + 1) with j in P by lia. apply P. lia.
Qed.

Example geo_rounding : rounding (10 ^ 9) quot9 (fun x => x).
Proof.
  split.
  - intros a b A B. unfold quot9. split; [apply Z.div_pos; lia|]. apply Z.div_le_upper_bound; lia.
  - intros a A. unfold quot9. rewrite Z.mul_comm. apply Z.div_mul. lia.
  - auto.
  - auto.
Qed.

Example geo_direction : arctan quot9 (fun x => x) tan9 (Fin 1) (Fin 2) = Some 27
  /\ arctan quot9 (fun x => x) tan9 (Fin (-4)) (Fin (-3)) = Some 233.
Proof. vm_compute. auto. Qed.

(** The direction of a vector may be 360 degrees rather than 0, *)
Theorem geo_full_turn_refuted : exists y x, arctan quot9 (fun x => x) tan9 y x = Some 360.
Proof. exists (Fin (-1)), (Fin 1000). vm_compute. reflexivity. Qed.

(** and if both coordinates are infinite, one that is off by a degree. *)
Theorem geo_infinite_refuted quotient fl tangent : arctan quotient fl tangent Plus_inf Plus_inf = Some 44.
Proof. vm_compute. reflexivity. Qed.

Print Assumptions geo_reduce360_partial.
Print Assumptions geo_reduce180_partial.
Print Assumptions geo_reduce360_refuted.
Print Assumptions geo_reduce180_refuted.
Print Assumptions geo_circle.
Print Assumptions geo_period.
Print Assumptions geo_values.
Print Assumptions geo_arctan.
Print Assumptions geo_reflections.
Print Assumptions geo_axes.
Print Assumptions geo_total.
Print Assumptions geo_full_turn_refuted.
Print Assumptions geo_infinite_refuted.
