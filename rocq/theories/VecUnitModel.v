(** Model of the length of a vector and of the vector of length 1 in its direction.

    poseidon/geometry.hpp

    Coordinates are integral multiples of some unit.  Additions and multiplications are exact; the
    square root and the approximation of its reciprocal are arguments.  It is what is done when the program runs;
    the compiler calls [hypotf] for constants.  There is no negative zero. *)
From Coq Require Import List ZArith QArith Bool.
From Verif Require Import Base VecModel.
Import ListNotations.
Open Scope Q_scope.

(** A register of four lanes. geometry.hpp:200-202, 228-233 *)
Definition lane (i : nat) (r : list Q) : Q := nth i r 0.
(** [_mm_load_sd]: the two coordinates. geometry.hpp:200, 228 *)
Definition load (v : vec) : list Q := [inject_Z (vx v); inject_Z (vy v); 0; 0].
(** [_mm_mul_ps]. geometry.hpp:201, 229, 230 *)
Definition mul_ps (a b : list Q) : list Q :=
  [lane 0 a * lane 0 b; lane 1 a * lane 1 b; lane 2 a * lane 2 b; lane 3 a * lane 3 b].
(** [_mm_hadd_ps]. geometry.hpp:201, 229 *)
Definition hadd_ps (a b : list Q) : list Q :=
  [lane 0 a + lane 1 a; lane 2 a + lane 3 a; lane 0 b + lane 1 b; lane 2 b + lane 3 b].
(** [_mm_unpacklo_ps]. geometry.hpp:230 *)
Definition unpacklo_ps (a b : list Q) : list Q := [lane 0 a; lane 0 b; lane 1 a; lane 1 b].
(** geometry.hpp:200-201, 228-229: the square of the length, in the first lane. *)
Definition square (v : vec) : list Q := hadd_ps (mul_ps (load v) (load v)) [0; 0; 0; 0].

(** geometry.hpp:192-204 [magnitude] *)
Definition magnitude (sqrt : Q -> Q) (v : vec) : Q := sqrt (lane 0 (square v)).

(** geometry.hpp:217-237 [unit] *)
Definition unit (rsqrt : Q -> Q) (v : vec) : Q * Q :=
  if (vy v =? 0)%Z then (if (vx v <? 0)%Z then -1 # 1 else 1, 0)
  else if (vx v =? 0)%Z then (0, if (vy v <? 0)%Z then -1 # 1 else 1)
  else
    let r2 := square v in
    let ps := mul_ps (load v) (map rsqrt (unpacklo_ps r2 r2)) in
    (lane 0 ps, lane 1 ps).
