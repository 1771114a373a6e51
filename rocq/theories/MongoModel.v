(** Model of MongoDB values: their composition into BSON, the conversion of
    replies, and printing.

    poseidon/src/mongo/mongo_connection.cpp, poseidon/src/mongo/mongo_value.cpp *)
From Coq Require Import List ZArith Bool.
From Coq Require Import String.
From Verif Require Import Base Text AddrTextModel JsonModel.
From Verif Require RedisModel.
Import ListNotations.
Open Scope list_scope.
Open Scope Z_scope.
Notation length := List.length.

(** The variant inside of a [Mongo_Value]. Doubles are given by their bits, and
    time points by the number of nanoseconds since the epoch.
    poseidon/mongo/mongo_value.hpp:18-24 *)
Inductive value :=
  | Null
  | Bool (b : bool)
  | Int (n : Z)
  | Double (bits : Z)
  | Utf8 (s : list Z)
  | Binary (s : list Z)
  | Arr (l : list value)
  | Doc (l : list (list Z * value))
  | Oid (s : list Z)
  | Date (ns : Z).

(** The elements of BSON documents, as libbson presents them. Arrays are
    documents whose keys are subscripts. [B_other] stands for the types that
    the conversion does not know. The types of mongo_connection.cpp:138-220, 338-410. *)
Inductive bson :=
  | B_null
  | B_bool (b : bool)
  | B_int32 (n : Z)
  | B_int64 (n : Z)
  | B_double (bits : Z)
  | B_utf8 (s : list Z)
  | B_binary (s : list Z)
  | B_array (l : list (list Z * bson))
  | B_document (l : list (list Z * bson))
  | B_oid (s : list Z)
  | B_date_time (ms : Z)
  | B_other.

(** *** Composition of commands *)

(** [cur_a] and [cur_o], one of which is null.
    poseidon/src/mongo/mongo_connection.cpp:108-109 *)
Inductive container := In_array (l : list value) | In_document (l : list (list Z * value)).

(** mongo_connection.cpp:110, 122, 131, 183, 204 *)
Definition size (c : container) : nat :=
  match c with In_array l => length l | In_document l => length l end.

(** The key and the value at a position. The keys of an array are its
    subscripts as decimal strings. Keys longer than [INT_MAX] are not modelled.
    poseidon/src/mongo/mongo_connection.cpp:120-136 *)
Definition member (c : container) (pos : nat) : option (list Z * value) :=
  match c with
  | In_array l => match nth_error l pos with Some v => Some (put_du 20 (Z.of_nat pos), v) | None => None end
  | In_document l => nth_error l pos
  end.

(** [xFrame]. libbson keeps the key of the unfinished element, here [f_key].
    poseidon/src/mongo/mongo_connection.cpp:96-103 *)
Record frame := mkFrame {
  f_saved : container;
  f_rpos : nat;
  f_array : bool;           (* [append_end_fn] *)
  f_key : list Z;
  f_temp : list (list Z * bson)
}.

(** The state: [bson_cmd], [cur_a]/[cur_o], [cur_rpos], and the stack. mongo_connection.cpp:105-110 *)
Definition cstate := (list (list Z * bson) * container * nat * list frame)%type.

(** [bson_append_*] on the innermost unfinished document. mongo_connection.cpp:114, 231 *)
Definition append (root : list (list Z * bson)) (stack : list frame) (x : list Z * bson)
  : list (list Z * bson) * list frame :=
  match stack with
  | [] => (root ++ [x], [])
  | f :: rest => (root, mkFrame (f_saved f) (f_rpos f) (f_array f) (f_key f) (f_temp f ++ [x]) :: rest)
  end.

(** mongo_connection.cpp:159 *)
Definition int_max : Z := 2147483647.
(** mongo_connection.cpp:165 *)
Definition uint_max : Z := 4294967295.

(** A scalar value as a BSON element. [None] when it is too long, so that an
    exception is thrown. [duration_cast] truncates toward zero.
    poseidon/src/mongo/mongo_connection.cpp:138-220 *)
Definition scalar_bson (v : value) : option bson :=
  match v with
  | Null => Some B_null
  | Bool b => Some (B_bool b)
  | Int n => Some (if (-2147483648 <=? n) && (n <=? 2147483647) then B_int32 n else B_int64 n)
  | Double x => Some (B_double x)
  | Utf8 s => if Z.of_nat (length s) <=? int_max then Some (B_utf8 s) else None
  | Binary s => if Z.of_nat (length s) <=? uint_max then Some (B_binary s) else None
  | Oid s => Some (B_oid s)
  | Date ns => Some (B_date_time (Z.quot ns 1000000))
  | Arr _ | Doc _ => None
  end.

(** One trip: an element, or the end of a document.
    poseidon/src/mongo/mongo_connection.cpp:112-236 *)
Definition cstep (s : cstate) : option cstate :=
  let '(root, cur, rpos, stack) := s in
  match rpos with
  | S rpos' =>
    match member cur (size cur - rpos) with
    | Some (key, v) =>
      match v with
      | Arr l => Some (root, In_array l, length l, mkFrame cur rpos' true key [] :: stack)
      | Doc l => Some (root, In_document l, length l, mkFrame cur rpos' false key [] :: stack)
      | _ =>
        match scalar_bson v with
        | Some b => let '(root, stack) := append root stack (key, b) in Some (root, cur, rpos', stack)
        | None => None
        end
      end
    | None => None
    end
  | O =>
    match stack with
    | [] => Some s
    | f :: rest =>
      let '(root, rest) :=
        append root rest (f_key f, if f_array f then B_array (f_temp f) else B_document (f_temp f)) in
      Some (root, f_saved f, f_rpos f, rest)
    end
  end.

(** Any number of trips; mongo_connection.cpp:112-236. *)
Fixpoint csteps (n : nat) (s : cstate) : option cstate :=
  match n with
  | O => Some s
  | S n => match cstep s with Some s => csteps n s | None => None end
  end.

(** A bound for the number of trips. Not in the code, where mongo_connection.cpp:112-236 goes on until the end. *)
Fixpoint weight (v : value) : nat :=
  match v with
  | Arr l => S (S (fold_right (fun v n => (weight v + n)%nat) O l))
  | Doc l => S (S (fold_right (fun kv n => (weight (snd kv) + n)%nat) O l))
  | _ => 2%nat
  end.

(** [execute]: the BSON document that is sent; [None] if an exception is
    thrown. Allocation failures and the validation of UTF-8 are not modelled.
    poseidon/src/mongo/mongo_connection.cpp:91-249 *)
Definition compose (cmd : list (list Z * value)) : option (list (list Z * bson)) :=
  match csteps (2 * weight (Doc cmd)) ([], In_document cmd, length cmd, []) with
  | Some (root, _, O, []) => Some root
  | _ => None
  end.

(** *** Conversion of replies. mongo_connection.cpp:303, 308-309 *)

Notation path := (list nat).

(** Pointers to values, as in RedisModel.v. mongo_connection.cpp:391-392, 415-416 *)
Fixpoint load (v : value) (p : path) : option value :=
  match p with
  | [] => Some v
  | i :: q =>
    match v with
    | Arr l => match nth_error l i with Some w => load w q | None => None end
    | Doc l => match nth_error l i with Some (_, w) => load w q | None => None end
    | _ => None
    end
  end.

(** mongo_connection.cpp:325, 332 *)
Fixpoint store (v : value) (p : path) (x : value) : option value :=
  match p with
  | [] => Some x
  | i :: q =>
    match v with
    | Arr l =>
      match nth_error l i with
      | Some w =>
        match store w q x with
        | Some w' => Some (Arr (firstn i l ++ w' :: skipn (S i) l))
        | None => None
        end
      | None => None
      end
    | Doc l =>
      match nth_error l i with
      | Some (k, w) =>
        match store w q x with
        | Some w' => Some (Doc (firstn i l ++ (k, w') :: skipn (S i) l))
        | None => None
        end
      | None => None
      end
    | _ => None
    end
  end.

(** [xFrame]: the value whose elements are about to be read, and the iterator
    of the document it is in.
    poseidon/src/mongo/mongo_connection.cpp:301-305, 384-387 *)
Record rframe := mkRframe { r_parent : path; r_iter : list (list Z * bson) }.

(** The state: [output], the value that [top_a] or [top_o] points into, the
    rest of what [top_iter] iterates over, and the stack. The flag tells that
    the function has returned. mongo_connection.cpp:307-311 *)
Definition rstate := (value * path * list (list Z * bson) * list rframe * bool)%type.

(** [emplace_back] on the array or document at [top], with the value [x].
    Invalidated pointers in the stack are reported as [None].
    poseidon/src/mongo/mongo_connection.cpp:323-335 *)
Definition emplace (out : value) (top : path) (key : list Z) (x : value) (stack : list rframe)
  : option (value * path) :=
  if existsb (fun f => RedisModel.inside top (r_parent f)) stack then None else
  match load out top with
  | Some (Arr l) =>
    match store out top (Arr (l ++ [x])) with Some out => Some (out, top ++ [length l]) | None => None end
  | Some (Doc l) =>
    match store out top (Doc (l ++ [(key, x)])) with Some out => Some (out, top ++ [length l]) | None => None end
  | _ => None
  end.

(** What is stored for an element; arrays and documents are empty at first.
    Unknown types are left null. [system_time() + dur] overflows when the time
    is out of its range; this is not modelled.
    poseidon/src/mongo/mongo_connection.cpp:337-410 *)
Definition initial (b : bson) : value :=
  match b with
  | B_null | B_other => Null
  | B_bool b => Bool b
  | B_int32 n | B_int64 n => Int n
  | B_double x => Double x
  | B_utf8 s => Utf8 s
  | B_binary s => Binary s
  | B_array _ => Arr []
  | B_document _ => Doc []
  | B_oid s => Oid s
  | B_date_time ms => Date (ms * 1000000)
  end.

(** mongo_connection.cpp:374, 379, 389 *)
Definition items (b : bson) : list (list Z * bson) :=
  match b with B_array l | B_document l => l | _ => [] end.

(** One trip: an element, or the end of a document. An empty document is five
    bytes long. At the end of a document, [top_a] and [top_o] are taken from
    [frm.parent].
    poseidon/src/mongo/mongo_connection.cpp:315-420 *)
Definition rstep (s : rstate) : option rstate :=
  let '(out, top, iter, stack, done) := s in
  if done then Some s else
  match iter with
  | (key, b) :: rest =>
    match emplace out top key (initial b) stack with
    | Some (out, pval) =>
      match items b with
      | [] => Some (out, top, rest, stack, false)
      | l => Some (out, pval, l, mkRframe pval rest :: stack, false)
      end
    | None => None
    end
  | [] =>
    match stack with
    | [] => Some (out, top, iter, stack, true)
    | f :: stack => Some (out, r_parent f, r_iter f, stack, false)
    end
  end.

(** Any number of trips; mongo_connection.cpp:315-420. *)
Fixpoint rsteps (n : nat) (s : rstate) : option rstate :=
  match n with
  | O => Some s
  | S n => match rstep s with Some s => rsteps n s | None => None end
  end.

(** A bound for the number of trips. Not in the code, where mongo_connection.cpp:315-420 goes on until the end. *)
Fixpoint bweight (b : bson) : nat :=
  match b with
  | B_array l | B_document l => S (S (fold_right (fun kb n => (bweight (snd kb) + n)%nat) O l))
  | _ => 2%nat
  end.

(** [fetch_reply], given the BSON document of the reply.
    poseidon/src/mongo/mongo_connection.cpp:290-423 *)
Definition fetch (reply : list (list Z * bson)) : option value :=
  match rsteps (2 * bweight (B_document reply)) (Doc [], [], reply, [], false) with
  | Some (out, _, _, _, true) => Some out
  | _ => None
  end.

(** *** Printing *)

(** [EVP_EncodeBlock] of OpenSSL. mongo_value.cpp:102 *)
Definition base64_char (v : Z) : Z :=
  if v <? 26 then 65 + v
  else if v <? 52 then 71 + v
  else if v <? 62 then v - 4
  else if v =? 62 then 43 else 47.

(** mongo_value.cpp:102 *)
Fixpoint encode_block (s : list Z) : list Z :=
  match s with
  | a :: b :: c :: s =>
    base64_char (a / 4) :: base64_char (a mod 4 * 16 + b / 16) :: base64_char (b mod 16 * 4 + c / 64)
      :: base64_char (c mod 64) :: encode_block s
  | [a; b] => [base64_char (a / 4); base64_char (a mod 4 * 16 + b / 16); base64_char (b mod 16 * 4); 61]
  | [a] => [base64_char (a / 4); base64_char (a mod 4 * 16); 61; 61]
  | [] => []
  end.

(** The loop over blocks of 48 bytes. As many bytes of a block are written as
    [(bsize + 2) / 3 * 4] says.
    poseidon/src/mongo/mongo_value.cpp:97-105 *)
Fixpoint encode_blocks (fuel : nat) (s : list Z) : list Z :=
  match fuel, s with
  | S fuel, _ :: _ =>
    let block := firstn 48 s in
    firstn ((length block + 2) / 3 * 4) (encode_block block) ++ encode_blocks fuel (skipn 48 s)
  | _, _ => []
  end.

(** Rounding to a double: the nearest multiple of the unit in the last place,
    ties to even; for positive integers. mongo_value.cpp:161-162 *)
Definition round53 (x : Z) : Z :=
  let k := Z.log2 x - 52 in
  if k <=? 0 then x
  else let u := 2 ^ k in
       let q := x / u in
       let r := x mod u in
       (if (2 * r <? u) || ((2 * r =? u) && Z.even q) then q else q + 1) * u.

(** The double nearest to 0.000001 is [micro] divided by [2 ^ 72]. The number
    of nanoseconds is converted to double, multiplied, and truncated.
    poseidon/src/mongo/mongo_value.cpp:161-162 *)
Definition micro : Z := 4722366482869645.
(** mongo_value.cpp:161-162 *)
Definition print_ms (ns : Z) : Z :=
  let f x := round53 (round53 x * micro) / 2 ^ 72 in
  if ns <? 0 then - f (- ns) else f ns.

(** mongo_value.cpp:149 *)
Definition hex_lower (v : Z) : Z := if v <? 10 then 48 + v else 87 + v.

(** [bson_oid_to_string] of libbson. mongo_value.cpp:149 *)
Definition oid_text (s : list Z) : list Z :=
  List.concat (map (fun b => [hex_lower (b / 16); hex_lower (b mod 16)]) s).

Section printing.
(** The number writer and the uninitialized value (see JsonModel.v), and the
    text of a double, which belongs to asteria. *)
Variable put_xu8 : Z -> list Z.
Variable junk : Z.
Variable double_text : Z -> list Z.

(** The frames of [print_to].
    poseidon/src/mongo/mongo_value.cpp:59-66 *)
Inductive pframe := At_array (l : list value) (i : nat) | At_document (l : list (list Z * value)) (i : nat).

(** mongo_value.cpp:71, 173, 206 *)
Inductive pplace := Print (v : value) | Next | Printed.

(** Values without elements.
    poseidon/src/mongo/mongo_value.cpp:74-108, 123, 141, 144-167 *)
Definition scalar_text (v : value) : list Z :=
  match v with
  | Null => txt "null"
  | Bool b => if b then txt "true" else txt "false"
  | Int n => RedisModel.put_int n
  | Double x => double_text x
  | Utf8 s => quote_json_string put_xu8 junk s
  | Binary s => txt "{$base64:""" ++ encode_blocks (length s) s ++ txt """}"
  | Oid s => txt "{$oid:""" ++ oid_text s ++ txt """}"
  | Date ns => txt "{$date:{$numberLong:""" ++ RedisModel.put_int (print_ms ns) ++ txt """}}"
  | Arr _ => txt "[]"
  | Doc _ => txt "{}"
  end.

(** One trip through either loop.
    poseidon/src/mongo/mongo_value.cpp:71-204 *)
Definition pstep (s : list Z * pplace * list pframe) : list Z * pplace * list pframe :=
  let '(text, pl, stack) := s in
  match pl with
  | Print (Arr (v :: l)) => (text ++ [91], Print v, At_array (v :: l) 0 :: stack)
  | Print (Doc ((k, v) :: l)) =>
    (text ++ [123] ++ quote_json_string put_xu8 junk k ++ [58], Print v, At_document ((k, v) :: l) 0 :: stack)
  | Print v => (text ++ scalar_text v, Next, stack)
  | Next =>
    match stack with
    | [] => (text, Printed, stack)
    | At_array l i :: rest =>
      match nth_error l (S i) with
      | Some v => (text ++ [44], Print v, At_array l (S i) :: rest)
      | None => (text ++ [93], Next, rest)
      end
    | At_document l i :: rest =>
      match nth_error l (S i) with
      | Some (k, v) =>
        (text ++ [44] ++ quote_json_string put_xu8 junk k ++ [58], Print v, At_document l (S i) :: rest)
      | None => (text ++ [125], Next, rest)
      end
    end
  | Printed => s
  end.

(** Any number of trips; mongo_value.cpp:71-204. *)
Fixpoint psteps (n : nat) (s : list Z * pplace * list pframe) :=
  match n with O => s | S n => psteps n (pstep s) end.

(** [print_to]. mongo_value.cpp:53-207 *)
Definition print (v : value) : option (list Z) :=
  match psteps (S (2 * weight v)) ([], Print v, []) with
  | (text, Printed, _) => Some text
  | _ => None
  end.
End printing.
