(** What the theorems about MySQL values say. *)
From Coq Require Import List ZArith Bool.
From Coq Require Import String.
From Verif Require Import Base Text NetrefSpec RedisSpec DateSpec DateModel MysqlModel.
Import ListNotations.
Open Scope list_scope.
Open Scope Z_scope.
Notation length := List.length.

(** *** How a server reads a literal *)

(** What a backslash makes of the character after it ("String Literals" in
    the manual of MySQL). *)
Definition unescape (c : Z) : list Z :=
  if c =? 48 then [0]
  else if c =? 98 then [8]
  else if c =? 110 then [10]
  else if c =? 114 then [13]
  else if c =? 116 then [9]
  else if c =? 90 then [26]
  else if (c =? 37) || (c =? 95) then [92; c]
  else [c].

(** The contents of a string literal, after its first quote, and the text
    after its last quote. A quote may also be written twice. *)
Fixpoint sql_string (s : list Z) : option (list Z * list Z) :=
  match s with
  | [] => None
  | c :: s =>
    if c =? 39 then
      match s with
      | d :: s' =>
        if d =? 39 then match sql_string s' with Some (x, r) => Some (39 :: x, r) | None => None end
        else Some ([], s)
      | [] => Some ([], [])
      end
    else if c =? 92 then
      match s with
      | d :: s' => match sql_string s' with Some (x, r) => Some (unescape d ++ x, r) | None => None end
      | [] => None
      end
    else match sql_string s with Some (x, r) => Some (c :: x, r) | None => None end
  end.

(** The same if the mode NO_BACKSLASH_ESCAPES is enabled, *)
Fixpoint plain_string (s : list Z) : option (list Z * list Z) :=
  match s with
  | [] => None
  | c :: s =>
    if c =? 39 then
      match s with
      | d :: s' =>
        if d =? 39 then match plain_string s' with Some (x, r) => Some (39 :: x, r) | None => None end
        else Some ([], s)
      | [] => Some ([], [])
      end
    else match plain_string s with Some (x, r) => Some (c :: x, r) | None => None end
  end.

(** and if the character set of the connection is GBK, where a byte above 128
    and the one after it, which may be a backslash, are one character. *)
Fixpoint gbk_string (s : list Z) : option (list Z * list Z) :=
  match s with
  | [] => None
  | c :: s =>
    if c =? 39 then
      match s with
      | d :: s' =>
        if d =? 39 then match gbk_string s' with Some (x, r) => Some (39 :: x, r) | None => None end
        else Some ([], s)
      | [] => Some ([], [])
      end
    else
      match s with
      | d :: s' =>
        if (129 <=? c) && (64 <=? d) && negb (d =? 127) then
          match gbk_string s' with Some (x, r) => Some (c :: d :: x, r) | None => None end
        else if c =? 92 then
          match gbk_string s' with Some (x, r) => Some (unescape d ++ x, r) | None => None end
        else match gbk_string s with Some (x, r) => Some (c :: x, r) | None => None end
      | [] => None
      end
  end.

(** A date and a time in digits. *)
Definition digits_of (n : nat) (v : Z) (t : list Z) : Prop :=
  length t = n /\ Forall decimal t /\ number t = v.

Inductive datetime_text (y m d h mi s : Z) : list Z -> Prop :=
  | datetime_digits ty tm td th tmi ts :
      digits_of 4 y ty -> digits_of 2 m tm -> digits_of 2 d td ->
      digits_of 2 h th -> digits_of 2 mi tmi -> digits_of 2 s ts ->
      datetime_text y m d h mi s (ty ++ [45] ++ tm ++ [45] ++ td ++ [32] ++ th ++ [58] ++ tmi ++ [58] ++ ts).

(** The days, counted from 1970-01-01. *)
Inductive epoch_day : Z -> Z * Z * Z -> Prop :=
  | epoch_zero : epoch_day 0 (1970, 1, 1)
  | epoch_after n x : epoch_day n x -> epoch_day (n + 1) (next_day x)
  | epoch_before n x : epoch_day (n + 1) (next_day x) -> (let '(y, m, d) := x in valid_date y m d) -> epoch_day n x.

(** A local date and time is that of the time [sec] in a zone with the offset
    [off]. *)
Definition local_time (sec off y m d h mi s : Z) : Prop :=
  0 <= h <= 23 /\ 0 <= mi <= 59 /\ 0 <= s <= 59
  /\ exists days, epoch_day days (y, m, d) /\ days * 86400 + h * 3600 + mi * 60 + s = sec + off.

(** *** Arguments and rows *)

(** What should be sent for an argument. The year, month and so on are local;
    below the milliseconds is the zone. *)
Inductive conveys (off : Z -> Z) : value -> sent -> Prop :=
  | conveys_null : conveys off Null S_null
  | conveys_int n : conveys off (Int n) (S_int n)
  | conveys_double x : conveys off (Double x) (S_double x)
  | conveys_blob s : conveys off (Blob s) (S_blob s)
  | conveys_time ns t :
      let sec := ns / 1000000000 in
      local_time sec (off sec) (t_year t) (t_month t) (t_day t) (t_hour t) (t_minute t) (t_second t) ->
      t_part t / 1000 = ns mod 1000000000 / 1000000 ->
      conveys off (Datetime ns) (S_time t).

(** A field and a cell of matching types. *)
Inductive fits : field -> cell -> Prop :=
  | fits_null f : fits f C_null
  | fits_int n : fits F_int (C_int n)
  | fits_double x : fits F_double (C_double x)
  | fits_bytes s : fits F_other (C_bytes s).

Definition cell_value (c : cell) : value :=
  match c with
  | C_null => Null
  | C_int n => Int n
  | C_double x => Double x
  | C_bytes s => Blob s
  | C_time t => Null
  end.
