(** Hashing of UUIDs, nil UUIDs and the least and the greatest UUID: base/uuid.hpp and src/base/uuid.cpp.
    A register is its four lanes of 32 bits, from the lowest one up; the machine is little-endian. *)
From Coq Require Import ZArith List Bool.
From Verif Require Import Base UuidModel.
Import ListNotations.
Open Scope Z_scope.

(** base/uuid.hpp:221: [_mm_load_si128] of the 16 octets. *)
Definition lanes (u : list Z) : list Z :=
  [load_le (sub 0 4 u); load_le (sub 4 4 u); load_le (sub 8 4 u); load_le (sub 12 4 u)].
(** base/uuid.hpp:222-223: [_mm_hadd_epi32], whose sums wrap around. *)
Definition hadd (a b : list Z) : list Z :=
  [(nth 0 a 0 + nth 1 a 0) mod two32; (nth 2 a 0 + nth 3 a 0) mod two32;
   (nth 0 b 0 + nth 1 b 0) mod two32; (nth 2 b 0 + nth 3 b 0) mod two32].
(** base/uuid.hpp:222: [_mm_bsrli_si128] by eight octets. *)
Definition upper_half (a : list Z) : list Z := [nth 2 a 0; nth 3 a 0; 0; 0].
(** base/uuid.hpp:224: [_mm_cvtsi128_si64], as an unsigned number. *)
Definition low64 (a : list Z) : Z := nth 0 a 0 + two32 * nth 1 a 0.
(** base/uuid.hpp:212-226 [hash::operator()]. *)
Definition hash (u : list Z) : Z :=
  let t := lanes u in
  let t := hadd t (upper_half t) in
  let t := hadd t t in
  low64 t.

(** base/uuid.hpp:156-164 [is_nil]: all 16 octets equal zero. *)
Definition is_nil (u : list Z) : bool := movemask (map (fun x => x =? 0) u) =? 65535.
(** src/base/uuid.cpp:10, 28-34 [min]. *)
Definition min : list Z := of_fields 0 0 0 0 0.
(** src/base/uuid.cpp:11, 36-42 [max]. *)
Definition max : list Z := of_fields 4294967295 65535 65535 65535 281474976710655.
