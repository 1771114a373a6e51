(** Model of Redis replies: their conversion into values, the printing of
    values, and the future that scans for keys and gets their values.

    poseidon/src/redis/redis_connection.cpp, poseidon/src/redis/redis_value.cpp,
    poseidon/src/fiber/redis_scan_and_get_future.cpp *)
From Coq Require Import List ZArith Bool Lia.
From Coq Require Import String.
From Verif Require Import Base Text AddrTextModel.
Import ListNotations.
Open Scope list_scope.
Open Scope Z_scope.
Notation length := List.length.

(** The variant inside of a [Redis_Value].
    poseidon/redis/redis_value.hpp:17-21 *)
Inductive value :=
  | Nil
  | Int (n : Z)
  | Str (s : list Z)
  | Arr (l : list value).

(** [redisReply] of hiredis, by its [type] member. [Reply_other] stands for
    the types that only RESP3 has.
    poseidon/src/redis/redis_connection.cpp:174, 181-210 *)
Inductive reply :=
  | Reply_nil
  | Reply_integer (n : Z)
  | Reply_string (s : list Z)
  | Reply_array (elements : list reply)
  | Reply_status (s : list Z)
  | Reply_error (s : list Z)
  | Reply_other.

(** *** Pointers into a value *)

(** A pointer to a (nested) value is the list of subscripts that lead to it. redis_connection.cpp:165-171 *)
Definition path := list nat.

(** Reading through a pointer; [None] if it points nowhere. redis_connection.cpp:200, 215 *)
Fixpoint load (v : value) (p : path) : option value :=
  match p with
  | [] => Some v
  | i :: q =>
    match v with
    | Arr l => match nth_error l i with Some w => load w q | None => None end
    | _ => None
    end
  end.

(** Writing through a pointer. redis_connection.cpp:184-209 *)
Fixpoint store (v : value) (p : path) (x : value) : option value :=
  match p with
  | [] => Some x
  | i :: q =>
    match v with
    | Arr l =>
      match nth_error l i with
      | Some w =>
        match store w q x with
        | Some w' => Some (Arr (firstn i l ++ w' :: skipn (S i) l))
        | None => None
        end
      | None => None
      end
    | _ => None
    end
  end.

(** Whether a pointer points to something strictly inside of what [q] points
    to. Such pointers are invalidated when the array at [q] is reallocated. redis_connection.cpp:203, 218 *)
Fixpoint inside (q p : path) : bool :=
  match q, p with
  | [], [] => false
  | [], _ :: _ => true
  | _ :: _, [] => false
  | i :: q', j :: p' => (i =? j)%nat && inside q' p'
  end.

(** *** Conversion of a reply *)

(** [xFrame]. [psa] always points to the array in [target].
    poseidon/src/redis/redis_connection.cpp:163-168 *)
Record frame := mkFrame { target : path; elements : list reply }.

(** Where the conversion is: at [do_pack_loop_] with [pval] and [reply], at
    the head of the loop that follows, or finished. redis_connection.cpp:180, 213, 228 *)
Inductive place := Pack (pval : path) (r : reply) | Unwind | Finished.

(** [open_array] and [open_string] keep a value which already has the type.
    poseidon/redis/redis_value.hpp:174-215 *)
Definition open_array (v : value) : list value := match v with Arr l => l | _ => [] end.
(** redis_value.hpp:174-215 *)
Definition open_string (v : value) : list Z := match v with Str s => s | _ => [] end.

(** [emplace_back()] on the array at [q]. A pointer of a frame that would be
    invalidated is reported as [None]. The call to [reserve] is not used to
    argue that there is no reallocation.
    poseidon/src/redis/redis_connection.cpp:203, 218 *)
Definition emplace (v : value) (q : path) (stack : list frame) : option (value * path) :=
  if existsb (fun f => inside q (target f)) stack then None else
  match load v q with
  | Some w =>
    match store v q (Arr (open_array w ++ [Nil])) with
    | Some v' => Some (v', q ++ [length (open_array w)])
    | None => None
    end
  | None => None
  end.

(** One trip through either loop.
    poseidon/src/redis/redis_connection.cpp:180-226 *)
Definition step (s : value * place * list frame) : option (value * place * list frame) :=
  let '(v, pl, stack) := s in
  match pl with
  | Pack p r =>
    match load v p with
    | None => None
    | Some old =>
      match r with
      | Reply_nil => match store v p Nil with Some v => Some (v, Unwind, stack) | None => None end
      | Reply_integer n => match store v p (Int n) with Some v => Some (v, Unwind, stack) | None => None end
      | Reply_string s =>
        match store v p (Str (open_string old ++ s)) with Some v => Some (v, Unwind, stack) | None => None end
      | Reply_array [] =>
        match store v p (Arr (open_array old)) with Some v => Some (v, Unwind, stack) | None => None end
      | Reply_array (r0 :: rs) =>
        let stack := mkFrame p (r0 :: rs) :: stack in
        match emplace v p stack with
        | Some (v, q) => Some (v, Pack q r0, stack)
        | None => None
        end
      | _ => Some (v, Unwind, stack)
      end
    end
  | Unwind =>
    match stack with
    | [] => Some (v, Finished, stack)
    | f :: rest =>
      match load v (target f) with
      | Some w =>
        let t := length (open_array w) in
        if (t =? length (elements f))%nat then Some (v, Unwind, rest)
        else match emplace v (target f) stack, nth_error (elements f) t with
             | Some (v, q), Some r => Some (v, Pack q r, stack)
             | _, _ => None
             end
      | None => None
      end
    end
  | Finished => Some s
  end.

(** Any number of trips; redis_connection.cpp:180-226. *)
Fixpoint steps (n : nat) (s : value * place * list frame) : option (value * place * list frame) :=
  match n with
  | O => Some s
  | S n => match step s with Some s => steps n s | None => None end
  end.

(** The number of values in a reply; it bounds the number of trips. Not in the code, where redis_connection.cpp:180-226 goes on until the end. *)
Fixpoint weight (r : reply) : nat :=
  match r with
  | Reply_array l => S (S (fold_right (fun r n => (weight r + n)%nat) O l))
  | _ => 2%nat
  end.

(** [fetch_reply]: the pair of [status] and [value] it stores.
    poseidon/src/redis/redis_connection.cpp:151-229 *)
Definition fetch_reply (r : reply) : option (list Z * value) :=
  match r with
  | Reply_status s => Some (s, Nil)
  | _ =>
    match steps (S (2 * weight r)) (Nil, Pack [] r, []) with
    | Some (v, Finished, _) => Some ([], v)
    | _ => None
    end
  end.

(** *** Printing *)

(** [fmt << int64_t]. redis_value.cpp:63 *)
Definition put_int (n : Z) : list Z :=
  if n <? 0 then 45 :: put_du 20 (- n) else put_du 20 n.

Section printing.
(** [asteria::c_quote] belongs to asteria. *)
Variable c_quote : list Z -> list Z.

(** The frame of [print_to]: the array and the subscript of [ita].
    poseidon/src/redis/redis_value.cpp:46-50 *)
Notation pframe := (list value * nat)%type.

(** redis_value.cpp:55, 91, 105 *)
Inductive pplace := Value (v : value) | Next | Printed.

(** One trip through either loop; the text is that which has been written.
    poseidon/src/redis/redis_value.cpp:55-103 *)
Definition pstep (s : list Z * pplace * list pframe) : list Z * pplace * list pframe :=
  let '(text, pl, stack) := s in
  match pl with
  | Value Nil => (text ++ txt "nil", Next, stack)
  | Value (Int n) => (text ++ put_int n, Next, stack)
  | Value (Str s) => (text ++ [34] ++ c_quote s ++ [34], Next, stack)
  | Value (Arr []) => (text ++ txt "[]", Next, stack)
  | Value (Arr (v :: l)) => (text ++ [91], Value v, (v :: l, O) :: stack)
  | Next =>
    match stack with
    | [] => (text, Printed, stack)
    | (l, i) :: rest =>
      match nth_error l (S i) with
      | Some v => (text ++ [44], Value v, (l, S i) :: rest)
      | None => (text ++ [93], Next, rest)
      end
    end
  | Printed => s
  end.

(** A bound for the number of trips. Not in the code, where redis_value.cpp:55-103 goes on until the end. *)
Fixpoint vweight (v : value) : nat :=
  match v with
  | Arr l => S (S (fold_right (fun v n => (vweight v + n)%nat) O l))
  | _ => 2%nat
  end.

(** Any number of trips; redis_value.cpp:55-103. *)
Fixpoint psteps (n : nat) (s : list Z * pplace * list pframe) :=
  match n with O => s | S n => psteps n (pstep s) end.

(** [print_to]; [None] if it did not finish.
    poseidon/src/redis/redis_value.cpp:40-106 *)
Definition print (v : value) : option (list Z) :=
  match psteps (S (2 * vweight v)) ([], Value v, []) with
  | (text, Printed, _) => Some text
  | _ => None
  end.
End printing.

(** *** SCAN and MGET *)

(** [m_res], a hash map. Its iteration order is kept; where a new key goes is
    decided by [insert], so that the theorems hold for any order. redis_scan_and_get_future.hpp:22 *)
Definition dict := list (list Z * list Z).

(** redis_scan_and_get_future.cpp:60, 65 *)
Fixpoint text_eqb (a b : list Z) : bool :=
  match a, b with
  | [], [] => true
  | x :: a, y :: b => (x =? y) && text_eqb a b
  | _, _ => false
  end.

Section scanning.
(** The server: what [execute] and [fetch_reply] give for the [n]th command;
    [None] when [execute] throws. *)
Variable server : nat -> list (list Z) -> option reply.
(** Where a new key is put in the hash map. *)
Variable slot : dict -> list Z -> nat.

(** [try_emplace(key)].
    poseidon/src/fiber/redis_scan_and_get_future.cpp:60 *)
Definition try_emplace (d : dict) (k : list Z) : dict :=
  if existsb (fun x => text_eqb (fst x) k) d then d
  else firstn (slot d k) d ++ (k, []) :: skipn (slot d k) d.

(** [execute] followed by [fetch_reply]; the result is [value]. redis_scan_and_get_future.cpp:53-54, 85-86 *)
Definition ask (n : nat) (cmd : list (list Z)) : option value :=
  match server n cmd with
  | Some r => match fetch_reply r with Some (_, v) => Some v | None => None end
  | None => None
  end.

(** The loop from [do_scan_more_] to the [goto]. [None] if an exception is
    thrown, or if [fuel] rounds were not enough. Values of other types are
    replaced by empty arrays and strings ([open_array], [open_string]).
    poseidon/src/fiber/redis_scan_and_get_future.cpp:52-66 *)
Fixpoint scan (fuel n : nat) (pattern cursor : list Z) (d : dict) : option (nat * dict) :=
  match fuel with
  | O => None
  | S fuel =>
    match ask n [txt "SCAN"; cursor; txt "MATCH"; pattern] with
    | Some v =>
      match open_array v with
      | c :: keys :: _ =>
        let d := fold_left (fun d k => try_emplace d (open_string k)) (open_array keys) d in
        if text_eqb (open_string c) (txt "0") then Some (S n, d)
        else scan fuel (S n) pattern (open_string c) d
      | _ => None
      end
    | None => None
    end
  end.

(** The last loop. Erasing an element is taken to keep the order of those
    which follow it.
    poseidon/src/fiber/redis_scan_and_get_future.cpp:88-100 *)
Fixpoint fill (d : dict) (replies : list value) : dict :=
  match d, replies with
  | (k, x) :: d', r :: rs =>
    match r with
    | Str s => (k, s) :: fill d' rs
    | _ => fill d' rs
    end
  | _, _ => d
  end.

(** [do_on_abstract_future_initialize].
    poseidon/src/fiber/redis_scan_and_get_future.cpp:32-101 *)
Definition scan_and_get (fuel : nat) (pattern : list Z) : option dict :=
  match scan fuel 0 pattern (txt "0") [] with
  | Some (_, []) => Some []
  | Some (n, d) =>
    match ask n (txt "MGET" :: map fst d) with
    | Some v => Some (fill d (open_array v))
    | None => None
    end
  | None => None
  end.
End scanning.
