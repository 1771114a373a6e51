(** Model of [DateTime] (/repo/poseidon/src/base/datetime.cpp, base/datetime.hpp) and of
    [timespec_from_system_time] (/repo/poseidon/utils.hpp:136-156), together with the parts of
    the C library they call: [gmtime_r], [timegm], [strftime_l] and [strptime_l] in the C
    locale, as in glibc. *)
From Coq Require Import ZArith List Lia Bool String.
From Verif Require Import Base Text.
Import ListNotations.
Open Scope list_scope.
Open Scope Z_scope.
Notation length := List.length.

(** * Clock readings *)

(** [int64_t] and [uint64_t] conversions. The representation of [m_tp], datetime.hpp:13 *)
Definition i64 (x : Z) : Prop := - two64 / 2 <= x < two64 / 2.
(** Conversion in utils.hpp:146-155 *)
Definition to_u64 (x : Z) : Z := x mod two64.

(** utils.hpp:146-155 [timespec_from_system_time]: seconds and nanoseconds.  A
    [system_time] counts nanoseconds in an [int64_t]. *)
Definition timespec (ns : Z) : Z * Z :=
  let shifted := to_u64 (to_u64 ns + 9223372036000000000) in
  (shifted / 1000000000 - 9223372036, shifted mod 1000000000).

(** The result of a parser: no match, or a time and the number of characters, or
    undefined behaviour (overflow of a signed integer) How datetime.cpp:17-156 end *)
Inductive parsed := No | Ok (ns : Z) (len : nat) | Overflow.

(** [system_clock::from_time_t] (libstdc++): seconds times 10^9, in [int64_t]. Used by datetime.cpp:33 *)
Definition in_i64 (x : Z) : bool := (-9223372036854775808 <=? x) && (x <=? 9223372036854775807).
(** Called at datetime.cpp:33, 53, 73, 93, 115, 125 *)
Definition from_time_t (t : Z) (len : nat) : parsed :=
  if in_i64 (t * 1000000000) then Ok (t * 1000000000) len else Overflow.

(** utils.hpp:138-143 [system_time_from_timespec] *)
Definition from_timespec (sec nsec : Z) : option Z :=
  let a := sec * 1000000000 in
  if in_i64 a && in_i64 (a + nsec) then Some (a + nsec) else None.

(** * Calendar: what [struct tm] holds, with the full year, the month from 1 and the offset
    from UTC. C library; datetime.cpp:27, 168 *)
Record tm := mkTm {
  year : Z; mon : Z; mday : Z; hour : Z; minute : Z; second : Z; wday : Z; gmtoff : Z }.

(** glibc time/offtime.c, with years that begin in March: the division into periods of 400,
    100, 4 and 1 years. Called at datetime.cpp:169 *)
Definition civil (days : Z) : Z * Z * Z :=
  let z := days + 719468 in
  let era := z / 146097 in
  let doe := z mod 146097 in
  let c := Z.min 3 (doe / 36524) in
  let r := doe - c * 36524 in
  let q := r / 1461 in
  let r2 := r mod 1461 in
  let y := Z.min 3 (r2 / 365) in
  let doy := r2 - y * 365 in
  let mp := (5 * doy + 2) / 153 in
  let d := doy - (153 * mp + 2) / 5 + 1 in
  let m := if mp <? 10 then mp + 3 else mp - 9 in
  let yy := era * 400 + c * 100 + q * 4 + y in
  ((if m <=? 2 then yy + 1 else yy), m, d).

(** [timegm] (glibc time/mktime.c): days that do not exist in a month run over into the next. Called at datetime.cpp:33 *)
Definition days_of (y m d : Z) : Z :=
  let yy := if m <=? 2 then y - 1 else y in
  let mp := if m <=? 2 then m + 9 else m - 3 in
  365 * yy + yy / 4 - yy / 100 + yy / 400 + (153 * mp + 2) / 5 + d - 1 - 719468.
(** Called at datetime.cpp:33, 53, 73, 93, 125 *)
Definition timegm (b : tm) : Z :=
  days_of (year b) (mon b) (mday b) * 86400 + hour b * 3600 + minute b * 60 + second b.

(** [gmtime_r], and [localtime_r] with the offset of the local time zone at that time. Called at datetime.cpp:241 *)
Definition localtime (off t : Z) : tm :=
  let days := (t + off) / 86400 in
  let rem := (t + off) mod 86400 in
  let '(y, m, d) := civil days in
  mkTm y m d (rem / 3600) (rem mod 3600 / 60) (rem mod 60) ((days + 4) mod 7) off.
(** Called at datetime.cpp:169, 187, 205, 223 *)
Definition gmtime (t : Z) : tm := localtime 0 t.

(** * Names in the C locale. C library, for datetime.cpp:28, 171 *)
Definition day_names : list (list Z) :=
  [txt "Sunday"; txt "Monday"; txt "Tuesday"; txt "Wednesday"; txt "Thursday"; txt "Friday"; txt "Saturday"].
(** C library, for datetime.cpp:28, 171 *)
Definition month_names : list (list Z) :=
  [txt "January"; txt "February"; txt "March"; txt "April"; txt "May"; txt "June"; txt "July";
   txt "August"; txt "September"; txt "October"; txt "November"; txt "December"].
(** C library, for datetime.cpp:189 *)
Definition full (names : list (list Z)) (k : Z) : list Z := nth (Z.to_nat k) names [63].
(** C library, for datetime.cpp:171 *)
Definition abbr (names : list (list Z)) (k : Z) : list Z := firstn 3 (full names k).

(** * [strftime_l]. C library, for datetime.cpp:171 *)
Definition two (n : Z) : list Z := [48 + n / 10 mod 10; 48 + n mod 10].
(** Years have four digits here; see [date_printed] for the range. C library, for datetime.cpp:171 *)
Definition four (n : Z) : list Z := [48 + n / 1000 mod 10; 48 + n / 100 mod 10; 48 + n / 10 mod 10; 48 + n mod 10].
(** C library, for datetime.cpp:243 *)
Definition zone (off : Z) : list Z :=
  (if off <? 0 then 45 else 43) :: two (Z.abs off / 3600) ++ two (Z.abs off / 60 mod 60).

(** C library, for datetime.cpp:171, 189, 207, 225, 243: the conversions in these formats *)
Definition conv (c : Z) (b : tm) : list Z :=
  if c =? 97 then abbr day_names (wday b)                                   (* %a *)
  else if c =? 65 then full day_names (wday b)                              (* %A *)
  else if c =? 98 then abbr month_names (mon b - 1)                         (* %b *)
  else if c =? 100 then two (mday b)                                        (* %d *)
  else if c =? 101 then (if mday b <? 10 then [32; 48 + mday b] else two (mday b))  (* %e *)
  else if c =? 109 then two (mon b)                                         (* %m *)
  else if c =? 121 then two (year b mod 100)                                (* %y *)
  else if c =? 89 then four (year b)                                        (* %Y *)
  else if c =? 84 then two (hour b) ++ 58 :: two (minute b) ++ 58 :: two (second b)  (* %T *)
  else if c =? 122 then zone (gmtoff b)                                     (* %z *)
  else [].

(** C library; called at datetime.cpp:171, 189, 207, 225, 243 *)
Fixpoint strftime (f : list Z) (b : tm) : list Z :=
  match f with
  | [] => []
  | p :: f' =>
      if p =? 37 then match f' with c :: f'' => conv c b ++ strftime f'' b | [] => [] end
      else p :: strftime f' b
  end.

(** * [strptime_l] (glibc time/strptime_l.c).  A string ends at its null character, which is
    not in the list. C library, for datetime.cpp:28 *)
Definition digit (c : Z) : bool := (48 <=? c) && (c <=? 57).
(** C library, for datetime.cpp:28 *)
Definition space (c : Z) : bool := (c =? 32) || ((9 <=? c) && (c <=? 13)).
(** C library, for datetime.cpp:28 *)
Definition lower (c : Z) : Z := if (65 <=? c) && (c <=? 90) then c + 32 else c.

(** C library, for datetime.cpp:28 *)
Fixpoint skip (f : Z -> bool) (s : list Z) : list Z :=
  match s with [] => [] | c :: s' => if f c then skip f s' else s end.

(** [match_char] and [match_string], the latter ignoring case. C library, for datetime.cpp:28 *)
Definition match_char (c : Z) (s : list Z) : option (list Z) :=
  match s with x :: s' => if x =? c then Some s' else None | [] => None end.
(** C library, for datetime.cpp:28 *)
Fixpoint match_string (w s : list Z) : option (list Z) :=
  match w, s with
  | [], _ => Some s
  | c :: w', x :: s' => if lower c =? lower x then match_string w' s' else None
  | _ :: _, [] => None
  end.

(** The first name that matches, in full or abbreviated.  glibc takes the longest
    match; no two of these names begin with the same three letters. C library, for datetime.cpp:28 *)
Fixpoint match_names (k : Z) (names : list (list Z)) (s : list Z) : option (Z * list Z) :=
  match names with
  | [] => None
  | w :: names' =>
      match match_string w s with
      | Some s' => Some (k, s')
      | None =>
          match match_string (firstn 3 w) s with
          | Some s' => Some (k, s')
          | None => match_names (k + 1) names' s
          end
      end
  end.

(** The macro [get_number(from, to, n)]. C library, for datetime.cpp:28 *)
Fixpoint get_digits (n : nat) (hi val : Z) (s : list Z) : Z * list Z :=
  match n, s with
  | S n', c :: s' => if (val * 10 <=? hi) && digit c then get_digits n' hi (val * 10 + (c - 48)) s' else (val, s)
  | _, _ => (val, s)
  end.
(** C library, for datetime.cpp:28 *)
Definition get_number (lo hi : Z) (n : nat) (s : list Z) : option (Z * list Z) :=
  match skip (fun c => c =? 32) s with
  | c :: s' =>
      if digit c then
        let '(v, r) := get_digits (n - 1) hi (c - 48) s' in
        if (v <? lo) || (hi <? v) then None else Some (v, r)
      else None
  | [] => None
  end.

(** %T. C library, for datetime.cpp:28, 48, 68, 88, 108 *)
Definition get_time (b : tm) (s : list Z) : option (tm * list Z) :=
  match get_number 0 23 2 s with
  | None => None
  | Some (h, s) =>
      match match_char 58 s with
      | None => None
      | Some s =>
          match get_number 0 59 2 s with
          | None => None
          | Some (mi, s) =>
              match match_char 58 s with
              | None => None
              | Some s =>
                  match get_number 0 61 2 s with
                  | None => None
                  | Some (se, s) => Some (mkTm (year b) (mon b) (mday b) h mi se (wday b) (gmtoff b), s)
                  end
              end
          end
      end
  end.

(** %z: [n] digits are still allowed; a colon may follow the second one. C library, for datetime.cpp:119 *)
Fixpoint zone_digits (n : nat) (val : Z) (s : list Z) : nat * Z * list Z :=
  match n, s with
  | S n', c :: s' =>
      if digit c then
        match n', s' with
        | 2%nat, 58 :: d :: _ => if digit d then zone_digits n' (val * 10 + (c - 48)) (tl s') else zone_digits n' (val * 10 + (c - 48)) s'
        | _, _ => zone_digits n' (val * 10 + (c - 48)) s'
        end
      else (n, val, s)
  | _, _ => (n, val, s)
  end.
(** C library, for datetime.cpp:119 *)
Definition get_zone (b : tm) (s : list Z) : option (tm * list Z) :=
  let set o s := Some (mkTm (year b) (mon b) (mday b) (hour b) (minute b) (second b) (wday b) o, s) in
  match skip space s with
  | [] => None
  | c :: s' =>
      if c =? 90 then set 0 s'
      else if (c =? 43) || (c =? 45) then
        let '(more, val, r) := zone_digits 4 0 s' in
        let sign := if c =? 45 then -1 else 1 in
        match more with
        | 0%nat => if 60 <=? val mod 100 then None else set (sign * (val / 100 * 3600 + val mod 100 * 60)) r
        | 2%nat => set (sign * (val * 3600)) r
        | _ => None
        end
      else None
  end.

(** C library: the conversions in the formats of datetime.cpp:28, 48, 68, 88, 108, 119 *)
Definition pconv (c : Z) (b : tm) (s : list Z) : option (tm * list Z) :=
  let '(mkTm y m d h mi se w o) := b in
  if (c =? 97) || (c =? 65) then
    match match_names 0 day_names s with Some (k, s) => Some (mkTm y m d h mi se k o, s) | None => None end
  else if c =? 98 then
    match match_names 1 month_names s with Some (k, s) => Some (mkTm y k d h mi se w o, s) | None => None end
  else if (c =? 100) || (c =? 101) then
    match get_number 1 31 2 s with Some (k, s) => Some (mkTm y m k h mi se w o, s) | None => None end
  else if c =? 109 then
    match get_number 1 12 2 s with Some (k, s) => Some (mkTm y k d h mi se w o, s) | None => None end
  else if c =? 121 then
    match get_number 0 99 2 s with Some (k, s) => Some (mkTm (if 69 <=? k then 1900 + k else 2000 + k) m d h mi se w o, s) | None => None end
  else if c =? 89 then
    match get_number 0 9999 4 s with Some (k, s) => Some (mkTm k m d h mi se w o, s) | None => None end
  else if c =? 84 then get_time b s
  else if c =? 122 then get_zone b s
  else None.

(** C library; called at datetime.cpp:28, 48, 68, 88, 108, 119 *)
Fixpoint strptime (f : list Z) (b : tm) (s : list Z) : option (tm * list Z) :=
  match f with
  | [] => Some (b, s)
  | p :: f' =>
      if space p then strptime f' b (skip space s)
      else if p =? 37 then
        match f' with
        | c :: f'' => match pconv c b s with Some (b, s) => strptime f'' b s | None => None end
        | [] => None
        end
      else match match_char p s with Some s => strptime f' b s | None => None end
  end.

(** An uninitialized [struct tm]; the formats set all the fields that are used. datetime.cpp:27, 47, 67, 87, 107 *)
Definition garbage : tm := mkTm 0 0 0 0 0 0 0 0.

(** * Parsers.  [s] is the memory that the pointer refers to, up to the null character. *)

(** datetime.cpp:21-34: take at most [n] characters, which must match completely *)
Definition parse_gmt (f : list Z) (n : nat) (s : list Z) : parsed :=
  let temp := firstn n s in
  match strptime f garbage temp with
  | Some (b, []) => from_time_t (timegm b) (length temp)
  | _ => No
  end.

(** datetime.cpp:17-35 *)
Definition parse_rfc1123 := parse_gmt (txt "%a, %d %b %Y %T GMT") 29.
(** datetime.cpp:37-55 *)
Definition parse_rfc850 := parse_gmt (txt "%A, %d-%b-%y %T GMT") 33.
(** datetime.cpp:57-75 *)
Definition parse_asctime := parse_gmt (txt "%a %b %e %T %Y") 24.
(** datetime.cpp:77-95 *)
Definition parse_cookie := parse_gmt (txt "%a, %d-%b-%Y %T GMT") 29.

(** datetime.cpp:97-127; [mktime] depends on the local time zone *)
Definition parse_git (mktime : tm -> Z) (s : list Z) : parsed :=
  let temp := firstn 25 s in
  match strptime (txt "%Y-%m-%d %T") garbage temp with
  | None => No
  | Some (b, []) => from_time_t (mktime b) (length temp)
  | Some (b, r) =>
      match strptime (txt "%z") b r with
      | Some (b, []) => from_time_t (timegm b - gmtoff b) (length temp)
      | _ => No
      end
  end.

(** datetime.cpp:129-156 [parse]: [n] is the length of the view.  The length is zero
    when nothing matches and only then, so it is the same as [No]. *)
Definition or_else (p q : parsed) : parsed := match p with No => q | Ok _ 0 => q | _ => p end.
(** datetime.cpp:129-156 *)
Definition parse (mktime : tm -> Z) (s : list Z) (n : nat) : parsed :=
  or_else (if (29 <=? n)%nat then parse_rfc1123 s else No)
  (or_else (if (30 <=? n)%nat then parse_rfc850 s else No)
  (or_else (if (24 <=? n)%nat then parse_asctime s else No)
  (or_else (if (29 <=? n)%nat then parse_cookie s else No)
  (if (19 <=? n)%nat then parse_git mktime s else No)))).

(** * Printers *)

(** datetime.cpp:164-167 and likewise in the other printers *)
Definition clamp (x lo hi : Z) : Z := if x <? lo then lo else if hi <? x then hi else x.
(** datetime.cpp:164-167, and likewise in the other printers *)
Definition seconds (ns : Z) : Z := clamp (fst (timespec ns)) (-2208988800) 253402300799.

(** datetime.cpp:158-174 *)
Definition print_rfc1123 (ns : Z) : list Z := strftime (txt "%a, %d %b %Y %T GMT") (gmtime (seconds ns)).
(** datetime.cpp:176-192 *)
Definition print_rfc850 (ns : Z) : list Z := strftime (txt "%A, %d-%b-%y %T GMT") (gmtime (seconds ns)).
(** datetime.cpp:194-210 *)
Definition print_asctime (ns : Z) : list Z := strftime (txt "%a %b %e %T %Y") (gmtime (seconds ns)).
(** datetime.cpp:212-228 *)
Definition print_cookie (ns : Z) : list Z := strftime (txt "%a, %d-%b-%Y %T GMT") (gmtime (seconds ns)).
(** datetime.cpp:230-246; [off] is the offset of the local time zone at a given time *)
Definition print_git (off : Z -> Z) (ns : Z) : list Z :=
  let t := seconds ns in strftime (txt "%Y-%m-%d %T %z") (localtime (off t) t).
