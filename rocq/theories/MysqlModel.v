(** Model of MySQL values: how they are printed, sent as the arguments of
    statements, and read from rows of results.

    poseidon/src/mysql/mysql_value.cpp, poseidon/src/mysql/mysql_connection.cpp *)
From Coq Require Import List ZArith Bool.
From Coq Require Import String.
From Verif Require Import Base Text DateModel RedisModel.
Import ListNotations.
Open Scope list_scope.
Open Scope Z_scope.
Notation length := List.length.

(** The variant inside of a [MySQL_Value]. A double is an opaque number; a
    time point counts nanoseconds.
    poseidon/mysql/mysql_value.hpp:18-23 *)
Inductive value :=
  | Null
  | Int (n : Z)
  | Double (x : Z)
  | Blob (s : list Z)
  | Datetime (ns : Z).

(** *** Printing *)

(** [str.find_of(from, ...)] for single quotes, double quotes and backslashes. mysql_value.cpp:45 *)
Definition special (c : Z) : bool := (c =? 39) || (c =? 34) || (c =? 92).

(** mysql_value.cpp:45 *)
Fixpoint find_in (i : nat) (s : list Z) : option nat :=
  match s with
  | [] => None
  | c :: s => if special c then Some i else find_in (S i) s
  end.
(** mysql_value.cpp:45 *)
Definition find_of (s : list Z) (from : nat) : option nat := find_in from (skipn from s).

(** The loop. [from] is [next + 1]. Every trip finds another character, so the
    size of the string bounds the number of trips.
    poseidon/src/mysql/mysql_value.cpp:43-50 *)
Fixpoint blob_loop (fuel : nat) (s text : list Z) (base from : nat) : list Z :=
  match fuel, find_of s from with
  | S fuel, Some next =>
    blob_loop fuel s (text ++ firstn (next - base) (skipn base s) ++ [92]) next (S next)
  | _, _ => text ++ firstn (length s - base) (skipn base s)
  end.

Section printing.
(** The text of a double, which is printed by asteria; [None] for NaN. *)
Variable double_text : Z -> option (list Z).
(** The offset of the local time zone. *)
Variable off : Z -> Z.

(** [print_to]. Of the text of a time point the first 19 characters are kept.
    poseidon/src/mysql/mysql_value.cpp:15-71 *)
Definition print (v : value) : list Z :=
  match v with
  | Null => txt "NULL"
  | Int n => put_int n
  | Double x => match double_text x with Some t => t | None => txt "NULL" end
  | Blob s => [39] ++ blob_loop (length s) s [] 0 0 ++ [39]
  | Datetime ns => firstn 20 ([39] ++ print_git off ns) ++ [39]
  end.
End printing.

(** *** Time points *)

(** [MYSQL_TIME]. mysql_connection.cpp:147-157, 344-356 *)
Record mysql_time := mkTime {
  t_year : Z; t_month : Z; t_day : Z; t_hour : Z; t_minute : Z; t_second : Z; t_part : Z }.

(** A time point as an argument; [off] is the offset of the local time zone.
    The conversions to [uint32_t] do not change non-negative numbers.
    poseidon/src/mysql/mysql_connection.cpp:143-157 *)
Definition encode_time (off : Z -> Z) (ns : Z) : mysql_time :=
  let '(sec, nsec) := timespec ns in
  let b := localtime (off sec) sec in
  mkTime (year b) (mon b) (mday b) (hour b) (minute b) (second b)
    (nsec / 1000000 * 1000 + (54000 + gmtoff b) mod 4294967296 / 1800).

(** A time point in a row. [None] is an overflow.
    poseidon/src/mysql/mysql_connection.cpp:342-360 *)
Definition decode_time (timelocal : tm -> Z) (t : mysql_time) : option Z :=
  let b := mkTm (t_year t) (t_month t) (t_day t) (t_hour t) (t_minute t) (t_second t) 0 0 in
  let nsec := t_part t / 1000 * 1000000 in
  if t_part t mod 100 =? 0 then from_timespec (timelocal b) nsec
  else from_timespec (timegm b - (t_part t mod 100 * 1800 - 54000)) nsec.

(** *** Arguments of statements *)

(** [MYSQL_BIND] of an argument. Strings and numbers are not copied; they stay
    where they are. A time point is in [time_buf]: it is an element of the
    [gen]th allocation. mysql_connection.cpp:116, 120-163 *)
Inductive bind :=
  | Bind_null
  | Bind_int (n : Z)
  | Bind_double (x : Z)
  | Bind_blob (s : list Z)
  | Bind_time (gen col : nat).

(** [time_buf]: how often it was reallocated, and its elements. mysql_connection.cpp:114 *)
Definition buffer := (nat * list mysql_time)%type.
(** mysql_connection.cpp:146 *)
Definition zero_time : mysql_time := mkTime 0 0 0 0 0 0 0.

(** [time_buf.resize(n)]. New elements are zero. If the capacity has to grow,
    there is a new allocation. mysql_connection.cpp:146 *)
Definition resize (n : nat) (b : buffer) : buffer :=
  let '(gen, l) := b in
  if (n <=? length l)%nat then (gen, firstn n l)
  else (S gen, l ++ repeat zero_time (n - length l)).

(** mysql_connection.cpp:147-157 *)
Definition set_at (l : list mysql_time) (i : nat) (t : mysql_time) : list mysql_time :=
  firstn i l ++ t :: skipn (S i) l.

Section binding.
Variable off : Z -> Z.

(** The loop over [binds].
    poseidon/src/mysql/mysql_connection.cpp:116-167 *)
Fixpoint bind_args (nparams col : nat) (nargs : nat) (args : list value) (b : buffer) : list bind * buffer :=
  match nparams, args with
  | S nparams, v :: args =>
    let '(x, b) :=
      match v with
      | Null => (Bind_null, b)
      | Int n => (Bind_int n, b)
      | Double x => (Bind_double x, b)
      | Blob s => (Bind_blob s, b)
      | Datetime ns =>
        let '(gen, l) := resize nargs b in
        (Bind_time gen col, (gen, set_at l col (encode_time off ns)))
      end in
    let '(xs, b) := bind_args nparams (S col) nargs args b in
    (x :: xs, b)
  | _, _ => ([], b)
  end.

(** What the server receives for an argument; [None] for a dangling pointer. mysql_connection.cpp:169, 182 *)
Inductive sent := S_null | S_int (n : Z) | S_double (x : Z) | S_blob (s : list Z) | S_time (t : mysql_time).

(** mysql_connection.cpp:169, 182 *)
Definition send (b : buffer) (x : bind) : option sent :=
  match x with
  | Bind_null => Some S_null
  | Bind_int n => Some (S_int n)
  | Bind_double x => Some (S_double x)
  | Bind_blob s => Some (S_blob s)
  | Bind_time gen col =>
    if (gen =? fst b)%nat then option_map S_time (nth_error (snd b) col) else None
  end.

(** [execute], after the statement has been prepared: what is sent for each of
    its parameters. mysql_connection.cpp:107-110, 182 *)
Inductive outcome := Throws | Undefined | Sends (l : list sent).

(** Not in the code: all columns of mysql_connection.cpp:117, 337 must succeed. *)
Fixpoint all_some {A} (l : list (option A)) : option (list A) :=
  match l with
  | [] => Some []
  | Some x :: l => match all_some l with Some r => Some (x :: r) | None => None end
  | None :: _ => None
  end.

(** poseidon/src/mysql/mysql_connection.cpp:105-187 *)
Definition execute (nparams : nat) (args : list value) : outcome :=
  if (length args <? nparams)%nat then Throws
  else
    let '(xs, b) := bind_args nparams 0 (length args) args (O, []) in
    match all_some (map (send b) xs) with Some l => Sends l | None => Undefined end.
End binding.

(** *** Rows *)

(** The types of fields, by how they are read. mysql_connection.cpp:274-316 *)
Inductive field := F_null | F_int | F_double | F_time | F_other.

(** What the server has in a field. mysql_connection.cpp:327, 369 *)
Inductive cell := C_null | C_int (n : Z) | C_double (x : Z) | C_time (t : mysql_time) | C_bytes (s : list Z).

Section rows.
Variable timelocal : tm -> Z.
(** What is in new elements of a string that has been resized. *)
Variable filler : Z.

(** mysql_connection.cpp:312, 363 *)
Definition resize_string (n : nat) (s : list Z) : list Z := firstn n s ++ repeat filler (n - length s).

(** One column: the buffer is set up, [mysql_stmt_fetch] stores what fits into
    it, and the result is converted. A field whose type is not that of its cell
    is converted by the client library; this is not modelled ([None], which
    is also used for an overflow).
    poseidon/src/mysql/mysql_connection.cpp:271-322, 337-371 *)
Definition fetch_column (f : field) (c : cell) : option value :=
  match c with
  | C_null => Some Null
  | _ =>
    match f, c with
    | F_int, C_int n => Some (Int n)
    | F_double, C_double x => Some (Double x)
    | F_time, C_time t => option_map Datetime (decode_time timelocal t)
    | F_other, C_bytes s =>
      let buf := resize_string 255 [] in
      let buf := firstn 255 s ++ skipn (length (firstn 255 s)) buf in
      let buf' := resize_string (length s) buf in
      if (255 <? length s)%nat then Some (Blob s) else Some (Blob buf')
    | _, _ => None
    end
  end.

(** [fetch_row]. mysql_connection.cpp:247-374 *)
Definition fetch_row (fs : list field) (cs : list cell) : option (list value) :=
  all_some (map (fun fc => fetch_column (fst fc) (snd fc)) (combine fs cs)).
End rows.
