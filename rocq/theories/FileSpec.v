(** What the theorems about reading files say. *)
From Coq Require Import List ZArith.
Import ListNotations.
Open Scope list_scope.
Open Scope Z_scope.

(** Reading a file whose contents are [f]: there may be fewer bytes than
    requested, but some unless the end of the file has been reached. *)
Definition reads (f : list Z) (read : nat -> Z -> Z -> option (list Z)) : Prop :=
  forall k pos n, 0 <= pos -> 0 < n ->
  exists m, read k pos n = Some (firstn m (skipn (Z.to_nat pos) f))
  /\ Z.of_nat m <= n /\ (0 < m)%nat.

(** The bytes of [f] from [offset] on, which is from the end of the file if it
    is negative, but no more than [limit]. *)
Definition range (f : list Z) (offset limit : Z) : list Z :=
  let from := if 0 <=? offset then offset else Z.of_nat (length f) + offset in
  firstn (Z.to_nat limit) (skipn (Z.to_nat from) f).

(** Data that was collected in parts, each at the position after the previous
    one, by the calls from number [k] on. *)
Inductive collected (read : nat -> Z -> Z -> option (list Z)) (max : Z) : nat -> Z -> list Z -> Prop :=
  | collected_nothing k pos : collected read max k pos []
  | collected_part k pos n c d : 0 < n <= max -> read k pos n = Some c -> c <> [] ->
      collected read (max - Z.of_nat (length c)) (S k) (pos + Z.of_nat (length c)) d ->
      collected read max k pos (c ++ d).
