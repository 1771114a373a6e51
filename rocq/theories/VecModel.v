(** Model of vectors in the plane and of arithmetic on angles.

    poseidon/geometry.hpp

    Coordinates are integral multiples of some unit and operations on them are
    exact, so the rounding of floats is not represented. [magnitude] and
    [unit], which need square roots, are in VecUnitModel.v. *)
From Coq Require Import List ZArith Bool.
From Verif Require Import Base GeoModel.
Import ListNotations.
Open Scope Z_scope.

(** geometry.hpp:152-162; points, 113-123, have the same members *)
Record vec := mkVec { vx : Z; vy : Z }.

(** [vector2(float rho, degrees theta)]. The unit of the result is 10^-10 of that of [rho].
    poseidon/geometry.hpp:164-166 *)
Definition polar (rho t : Z) : vec := mkVec (rho * cos t) (rho * sin t).
(** [vector2(point2 from, point2 to)]. geometry.hpp:168-170 *)
Definition between (from to : vec) : vec := mkVec (vx to - vx from) (vy to - vy from).
(** geometry.hpp:182-185 *)
Definition dot (a b : vec) : Z := vx a * vx b + vy a * vy b.
(** geometry.hpp:187-190 *)
Definition cross (a b : vec) : Z := vx a * vy b - vy a * vx b.
(** The unit of the result is 10^-10 of that of the vector.
    poseidon/geometry.hpp:239-247 *)
Definition rotate (v : vec) (t : Z) : vec := mkVec (vx v * cos t - vy v * sin t) (vx v * sin t + vy v * cos t).
(** geometry.hpp:356-359 *)
Definition opposite (v : vec) : vec := mkVec (- vx v) (- vy v).
(** Of vectors, or of a point and a vector. geometry.hpp:366-379 *)
Definition plus (a b : vec) : vec := mkVec (vx a + vx b) (vy a + vy b).
(** Of vectors, of a point and a vector, or of points. geometry.hpp:386-399 *)
Definition minus (a b : vec) : vec := mkVec (vx a - vx b) (vy a - vy b).
(** geometry.hpp:421-439 *)
Definition times (v : vec) (k : Z) : vec := mkVec (vx v * k) (vy v * k).

Section angles.
Variable quotient : Z -> Z -> Z.
Variable fl : Z -> Z.
Variable tangent : Z -> Z.
(** [direction], unless the compiler evaluates it. geometry.hpp:206-215 *)
Definition direction (v : vec) : option Z := arctan quotient fl tangent (Fin (vy v)) (Fin (vx v)).
(** [this->angle_from(from)]. geometry.hpp:249-257 *)
Definition angle_from (this from : vec) : option Z :=
  let delta_x := dot from this in
  let delta_y := cross from this in
  direction (mkVec delta_x delta_y).
(** [angle(from, to)]. geometry.hpp:336-339 *)
Definition angle (from to : vec) : option Z := angle_from to from.
End angles.

(** *** Arithmetic on angles. [None] is undefined behaviour. *)

(** An [int], or an overflow. geometry.hpp:351-354, 361-364, 381-384, 401-409 *)
Definition int (x : Z) : option Z := if (- 2147483648 <=? x) && (x <=? 2147483647) then Some x else None.
(** [abs], geometry.hpp:39-42 *)
Definition deg_abs (a : Z) : option Z := int (Z.abs a).
(** geometry.hpp:351-354 *)
Definition deg_neg (a : Z) : option Z := int (- a).
(** geometry.hpp:361-364 *)
Definition deg_add (a b : Z) : option Z := int (a + b).
(** geometry.hpp:381-384 *)
Definition deg_sub (a b : Z) : option Z := int (a - b).
(** geometry.hpp:401-409 *)
Definition deg_mul (a n : Z) : option Z := int (a * n).
(** geometry.hpp:441-444 *)
Definition deg_div (a n : Z) : option Z := if n =? 0 then None else int (Z.quot a n).

(** [lrintf] of [a / b], where [0 < b]: to the nearest integer, and to the
    even one of two. C library; used at geometry.hpp:411-419 *)
Definition round_even (a b : Z) : Z :=
  let q := a / b in
  let r := a mod b in
  if 2 * r <? b then q
  else if b <? 2 * r then q + 1
  else if Z.even q then q else q + 1.
(** The product with a float, which is the fraction [p / q] with [0 < q].
    poseidon/geometry.hpp:411-419 *)
Definition deg_mul_float (a p q : Z) : option Z := int (round_even (a * p) q).
(** The quotient by such a float, which is converted to [int] by the
    constructor of [degrees].
    poseidon/geometry.hpp:446-449, 25-27 *)
Definition deg_div_float (a p q : Z) : option Z := if p =? 0 then None else int (Z.quot (a * q) p).
