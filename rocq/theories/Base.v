(** Shared vocabulary of the model: bytes, byte strings and fixed-width
    integers.  A byte is a [Z] in [0,256); a byte string is a list of bytes. *)
From Coq Require Import ZArith List Lia Bool.
Import ListNotations.
Open Scope Z_scope.

(** A C++ [char]/[uint8_t] value, seen as an unsigned octet. *)
Definition byte (b : Z) : Prop := 0 <= b < 256.
Definition bytes (s : list Z) : Prop := Forall byte s.

Definition two8  : Z := 256.
Definition two16 : Z := 65536.
Definition two32 : Z := 4294967296.
Definition two64 : Z := 18446744073709551616.

Definition u8 (x : Z) : Prop := 0 <= x < two8.
Definition u16 (x : Z) : Prop := 0 <= x < two16.
Definition u32 (x : Z) : Prop := 0 <= x < two32.
Definition u64 (x : Z) : Prop := 0 <= x < two64.

(** [asteria::store_be<uintN_t>] (external, asteria submodule): the [n] octets
    of [x], most significant first. *)
Fixpoint store_be (n : nat) (x : Z) : list Z :=
  match n with
  | O => []
  | S n' => (x / 2 ^ (8 * Z.of_nat n')) mod 256 :: store_be n' x
  end.

(** [asteria::load_be<uintN_t>] (external): the inverse reading. *)
Definition load_be (s : list Z) : Z := fold_left (fun a b => a * 256 + b) s 0.

(** Little-endian load/store: what a native integer access through a pointer
    does on x86-64 (the only platform of the project: it uses AVX intrinsics). *)
Fixpoint store_le (n : nat) (x : Z) : list Z :=
  match n with
  | O => []
  | S n' => x mod 256 :: store_le n' (x / 256)
  end.

Fixpoint load_le (s : list Z) : Z :=
  match s with
  | [] => 0
  | b :: s' => b + 256 * load_le s'
  end.

Definition b2z (b : bool) : Z := if b then 1 else 0.

(** The list [0; 1; ...; n-1] of integers, for sweeps over finite domains. *)
Definition zrange (n : nat) : list Z := map Z.of_nat (seq 0 n).
