(** Model of URI helpers: query strings ([HTTP_Query_Parser],
    [HTTP_C_Headers::encode_and_append_query]), paths
    ([HTTP_C_Headers::encode_and_set_path], [decode_and_canonicalize_uri_path]). *)
From Coq Require Import ZArith List Bool.
From Verif Require Import Base.
Import ListNotations.
Open Scope Z_scope.

(** http_c_headers.cpp:53-56: [dval + '0' + ((9 - dval) >> 15 & 7)]. *)
Definition udigit (d : Z) : Z := d + 48 + Z.land (Z.shiftr (9 - d) 15) 7.
(** http_c_headers.cpp:53-56: a byte that is written as a percent sign and two digits. *)
Definition escape (c : Z) : list Z := [37; udigit (Z.land (Z.shiftr c 4) 15); udigit (Z.land c 15)].

(** http_c_headers.cpp:39-49: the letters and digits that are written as they are. *)
Definition is_alnum (c : Z) : bool :=
  ((48 <=? c) && (c <=? 57)) || ((65 <=? c) && (c <=? 90)) || ((97 <=? c) && (c <=? 122)).

(** http_c_headers.cpp:39-49: '-', '_', '~', '.', '/'. *)
Definition path_safe (c : Z) : bool :=
  is_alnum c || (c =? 45) || (c =? 95) || (c =? 126) || (c =? 46) || (c =? 47).

(** http_c_headers.cpp:27-63, [encode_and_set_path]. *)
Definition encode_path (path : list Z) : list Z :=
  let raw := flat_map (fun c => if path_safe c then [c] else escape c) path in
  match raw with [] => [47] | _ => raw end.

(** http_c_headers.cpp:75-103 and 107-136: one character of a key or value;
    values also keep '='. *)
Definition encode_query_char (in_value : bool) (c : Z) : list Z :=
  if path_safe c || (in_value && (c =? 61)) then [c]
  else if c =? 32 then [43]
  else escape c.

(** http_c_headers.cpp:65-137, [encode_and_append_query]. *)
Definition append_query (raw : list Z) (kv : list Z * list Z) : list Z :=
  (match raw with [] => [] | _ => raw ++ [38] end)
  ++ flat_map (encode_query_char false) (fst kv) ++ [61] ++ flat_map (encode_query_char true) (snd kv).

(** http_c_headers.cpp:65-137, called once for each pair. *)
Definition encode_query (kvs : list (list Z * list Z)) : list Z := fold_left append_query kvs [].

(** Hexadecimal digits as in http_query_parser.cpp:91-113 and utils.cpp:470-486. *)
Definition hexv (c : Z) : option Z :=
  if (48 <=? c) && (c <=? 57) then Some (c - 48)
  else if (65 <=? c) && (c <=? 70) then Some (c - 65 + 10)
  else if (97 <=? c) && (c <=? 102) then Some (c - 97 + 10)
  else None.

(** http_query_parser.cpp:62: the bitmap of characters that are not allowed. *)
Definition bad_chars : list Z := [4294967295; 1342177293; 2013265920; 3087007745].
(** http_query_parser.cpp:62: the test of a bit of the table. *)
Definition bad_char (c : Z) : bool :=
  Z.odd (Z.shiftr (nth (Z.to_nat (c / 32)) bad_chars 0) (c mod 32)).

(** http_query_parser.cpp:70-138: the scan of one element.  [acc] is [m_name],
    [nlen] is [name_len] ([None] is SIZE_MAX).  The result carries the rest of
    the input, from the '&' on. *)
Inductive scan_result :=
  | ScanErr
  | ScanOk (name : list Z) (nlen : option nat) (rest : list Z).

(** http_query_parser.cpp:70-138: the loop. *)
Fixpoint scan (s : list Z) (acc : list Z) (nlen : option nat) : scan_result :=
  match s with
  | [] => ScanOk acc nlen []
  | c :: r =>
      if c <? 128 then
        if bad_char c then ScanErr
        else if c =? 38 then ScanOk acc nlen s
        else if c =? 37 then
          match r with
          | h1 :: h2 :: r' =>
              match hexv h1 with
              | None => ScanErr
              | Some v1 =>
                  match hexv h2 with
                  | None => ScanErr
                  | Some v2 => scan r' (acc ++ [Z.lor (Z.shiftl v1 4) v2]) nlen
                  end
              end
          | _ => ScanErr
          end
        else if c =? 43 then scan r (acc ++ [32]) nlen
        else if (c =? 61) && (match nlen with None => true | Some _ => false end)
        then scan r acc (Some (length acc))
        else scan r (acc ++ [c]) nlen
      else scan r (acc ++ [c]) nlen
  end.

(** http_query_parser.hpp:15-22; the value is null ([None]) or a string. *)
Record qparser := mkQ { q_str : list Z; q_pos : Z; q_name : list Z; q_value : option (list Z) }.

(** http_query_parser.hpp:15-22: the largest [size_t]. *)
Definition size_max : Z := 18446744073709551615.
(** http_query_parser.hpp:17: [static_cast<size_t>(-127)]. *)
Definition error_pos : Z := 18446744073709551489.

(** http_query_parser.cpp:32-41, [reload]. *)
Definition q_reload (raw : list Z) : qparser := mkQ raw size_max [] None.

(** http_query_parser.hpp:36-40, [error]. *)
Definition q_error (q : qparser) : bool := q_pos q =? error_pos.

(** http_query_parser.cpp:43-149, [next_element]. *)
Definition q_next (q : qparser) : qparser * bool :=
  let size := Z.of_nat (length (q_str q)) in
  if negb (q_pos q =? size_max) && (size <=? q_pos q) then (q, false)
  else
    let pos := (q_pos q + 1) mod two64 in
    match scan (skipn (Z.to_nat pos) (q_str q)) [] None with
    | ScanErr => (mkQ (q_str q) error_pos [] None, false)
    | ScanOk acc nlen rest =>
        let pos' := size - Z.of_nat (length rest) in
        match nlen with
        | None => (mkQ (q_str q) pos' acc None, true)
        | Some n => (mkQ (q_str q) pos' (firstn n acc) (Some (skipn n acc)), true)
        end
    end.

(** The loop that every user of the parser writes: the elements delivered, and
    whether the parser ended in an error. Not in the code: the loop of a user over http_query_parser.cpp:43-149 [next_element]. *)
Fixpoint q_run (fuel : nat) (q : qparser) : list (list Z * option (list Z)) * bool :=
  match fuel with
  | O => ([], false)
  | S f =>
      let '(q, more) := q_next q in
      if more then let '(es, e) := q_run f q in ((q_name q, q_value q) :: es, e)
      else ([], q_error q)
  end.

(** Not in the code: http_query_parser.cpp:32-41 [reload] and then every call of 43-149 [next_element]. *)
Definition parse_query (s : list Z) : list (list Z * option (list Z)) * bool :=
  q_run (length s + 2) (q_reload s).

(** ** Paths *)

(** utils.cpp:444-453, [do_pop_dot_dot].  The result string is kept reversed:
    its head is the last character. *)
Fixpoint pop_segment (r : list Z) : list Z :=
  match r with
  | [] => []
  | c :: r' => if c =? 47 then r else pop_segment r'
  end.
(** utils.cpp:444-453: a dot-dot segment takes away the segment before it. *)
Definition pop_dot_dot (npop : nat) (r : list Z) : list Z :=
  let r := skipn npop r in
  if (1 <? length r)%nat then pop_segment (tl r) else r.

(** [result.ends_with(...)] on the reversed string, given the reversed suffix. utils.cpp:457-461 and 500-508: the comparison of the last characters. *)
Fixpoint starts (p r : list Z) : bool :=
  match p, r with
  | [], _ => true
  | x :: p', y :: r' => (x =? y) && starts p' r'
  | _ :: _, [] => false
  end.

(** utils.cpp:457-462. *)
Definition canon_once (r : list Z) : list Z :=
  if starts [47; 47] r then skipn 1 r
  else if starts [47; 46; 47] r then skipn 2 r
  else if starts [47; 46; 46; 47] r then pop_dot_dot 3 r
  else r.

(** utils.cpp:500-509. *)
Definition canon_final (r : list Z) : list Z :=
  if starts [47; 47] r then skipn 1 r
  else if starts [46; 47] r then skipn 1 r
  else if starts [47; 46; 47] r then skipn 2 r
  else if starts [46; 46; 47] r then pop_dot_dot 2 r
  else if starts [47; 46; 46; 47] r then pop_dot_dot 3 r
  else r.

(** utils.cpp:455-497: the loop.  [inl] is the early return on a malformed
    escape, [inr] falls through to the final segment. *)
Fixpoint canon_loop (s : list Z) (r : list Z) : list Z + list Z :=
  match s with
  | [] => inr r
  | c :: s' =>
      let r := canon_once r in
      if c =? 37 then
        match s' with
        | h1 :: h2 :: s'' =>
            match hexv h1 with
            | None => inl r
            | Some v1 =>
                match hexv h2 with
                | None => inl r
                | Some v2 => canon_loop s'' (Z.lor (Z.shiftl v1 4) v2 :: r)
                end
            end
        | _ => inl r
        end
      else canon_loop s' (c :: r)
  end.

(** utils.cpp:437-514, [decode_and_canonicalize_uri_path]. *)
Definition canonicalize (path : list Z) : list Z :=
  match canon_loop path [47] with
  | inl r => rev r
  | inr r => rev (canon_final r)
  end.
