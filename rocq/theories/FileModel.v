(** Model of reading files asynchronously.

    poseidon/src/fiber/read_file_future.cpp *)
From Coq Require Import List ZArith Bool.
From Verif Require Import Base.
Import ListNotations.
Open Scope list_scope.
Open Scope Z_scope.
Notation length := List.length.

(** [static_cast<int64_t>] and [static_cast<size_t>]. poseidon/src/fiber/read_file_future.cpp:64-84 *)
Definition to_i64 (x : Z) : Z := let y := x mod 2 ^ 64 in if y <? 2 ^ 63 then y else y - 2 ^ 64.
(** poseidon/src/fiber/read_file_future.cpp:64-84 *)
Definition to_size (x : Z) : Z := x mod 2 ^ 64.

(** How the operation ends: with data, with an error of the system, or because
    a string of impossible size was requested, which throws another exception.
    [Unfinished] means that the number of rounds given was too small. poseidon/src/fiber/read_file_future.cpp:24-84 *)
Inductive outcome := Data (d : list Z) | System_error | Length_error | Unfinished.

(** What is the maximum size of a string; some number between [INT_MAX] and
    [2 ^ 63 - 1]. *)
Section reading.
Variable max_size : Z.
(** [read()]: the number of the call, the position in the file and the size of
    the buffer are given; a negative result is [None]. *)
Variable read : nat -> Z -> Z -> option (list Z).

(** The loop. The position of the file is [offset] plus the size of [data].
    poseidon/src/fiber/read_file_future.cpp:64-84 *)
Fixpoint loop (fuel : nat) (k : nat) (limit file_size offset : Z) (data : list Z) : outcome :=
  match fuel with
  | O => Unfinished
  | S fuel =>
    let size := Z.of_nat (length data) in
    let size_to_reserve := to_size (Z.min (Z.min (to_i64 (limit - size)) (file_size - offset - size)) 2147483647) in
    if size_to_reserve =? 0 then Data data
    else if max_size <? size + size_to_reserve then Length_error
    else
      match read k (offset + size) size_to_reserve with
      | None => System_error
      | Some [] => Data data
      | Some c => loop fuel (S k) limit file_size offset (data ++ c)
      end
  end.

(** [lseek64()]; a negative position is an error.
    poseidon/src/fiber/read_file_future.cpp:52-62 *)
Definition seek (file_size offset_req : Z) : option Z :=
  let p := if 0 <=? offset_req then offset_req else file_size + offset_req in
  if p <? 0 then None else Some p.

(** [do_on_abstract_future_initialize], after the file has been opened. What
    [open] and [fstat] may report is not modelled.
    poseidon/src/fiber/read_file_future.cpp:24-84 *)
Definition read_file (fuel : nat) (file_size offset_req limit : Z) : outcome :=
  if offset_req =? 0 then loop fuel 0 limit file_size 0 []
  else
    match seek file_size offset_req with
    | None => System_error
    | Some offset => loop fuel 0 limit file_size offset []
    end.
End reading.
