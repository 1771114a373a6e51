(** What the theorems about angles say. *)
From Coq Require Import List ZArith.
Import ListNotations.
Open Scope Z_scope.

(** Two angles are the same direction. *)
Definition congruent (a b : Z) : Prop := exists k, a = b + 360 * k.

(** [x] and [y], in units of [1 / u], differ by no more than [e] units. *)
Definition within (e x y : Z) : Prop := - e <= x - y <= e.

(** An increasing table of tangents from 0 to 45 degrees. *)
Record tangents (one : Z) (tangent : Z -> Z) : Prop := {
  tangent_0 : tangent 0 = 0;
  tangent_45 : tangent 45 = one;
  tangent_increases : forall i j, 0 <= i -> i < j -> j <= 45 -> tangent i < tangent j }.

(** What is needed of floating point: quotients and differences are rounded
    monotonically. *)
Record rounding (one : Z) (quotient : Z -> Z -> Z) (fl : Z -> Z) : Prop := {
  quotient_range : forall a b, 0 < a -> a < b -> 0 <= quotient a b <= one;
  quotient_same : forall a, 0 < a -> quotient a a = one;
  fl_monotone : forall a b, a <= b -> fl a <= fl b;
  fl_positive : forall a, 0 < a -> fl 0 < fl a }.

(** Among the angles from 0 to 45 degrees, none has a tangent nearer to [s]. *)
Definition nearest (fl tangent : Z -> Z) (s r : Z) : Prop :=
  0 <= r <= 45 /\ forall k, 0 <= k <= 45 -> fl (Z.abs (tangent r - s)) <= fl (Z.abs (tangent k - s)).
