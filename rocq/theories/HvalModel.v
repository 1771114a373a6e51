(** Model of [HTTP_Value] (/repo/poseidon/src/http/http_value.cpp) as far as text is concerned:
    printing with quotes, and the parsers.  The conversions to numbers are not modelled. *)
From Coq Require Import ZArith List Lia Bool.
From Verif Require Import Base DateModel.
Import ListNotations.
Open Scope Z_scope.

(** http_value.cpp:12-24 [do_is_ctl_or_sep].  A [char] is signed, so octets above 127 are
    negative there and are not control characters. *)
Definition sep (c : Z) : bool :=
  ((0 <=? c) && (c <=? 32)) || (c =? 127)
  || (c =? 92) || (c =? 34)
  || (c =? 40) || (c =? 41) || (c =? 60) || (c =? 62)
  || (c =? 64) || (c =? 44) || (c =? 59) || (c =? 58)
  || (c =? 47) || (c =? 91) || (c =? 93) || (c =? 63)
  || (c =? 61) || (c =? 123) || (c =? 125).

(** http_value.cpp:26-33 [do_is_ctl_or_unquoted_sep] *)
Definition unquoted_sep (c : Z) : bool :=
  ((0 <=? c) && (c <=? 32)) || (c =? 127) || (c =? 44) || (c =? 59).

(** http_value.cpp:35-41 [do_is_ctl_or_ws] *)
Definition blank (c : Z) : bool := ((0 <=? c) && (c <=? 32)) || (c =? 127).

(** http_value.cpp:241-261: the loop that writes the rest of a string, character by
    character.  [skipping] says that blanks are being skipped (line 252). *)
Fixpoint escape (skipping : bool) (s : list Z) : list Z :=
  match s with
  | [] => []
  | c :: s' =>
      if skipping && blank c then escape true s'
      else if (c =? 92) || (c =? 34) then 92 :: c :: escape false s'
      else if blank c then 32 :: escape true s'
      else c :: escape false s'
  end.

(** [std::find_if]: what precedes the first match, and the rest. http_value.cpp:171, 187, 235 *)
Fixpoint until (f : Z -> bool) (s : list Z) : list Z * list Z :=
  match s with
  | [] => ([], [])
  | c :: s' => if f c then ([], s) else let '(a, b) := until f s' in (c :: a, b)
  end.

(** http_value.cpp:232-265 [print_to], for a value that is only text *)
Definition print_text (s : list Z) : list Z :=
  let '(a, b) := until sep s in
  match b with
  | [] => s
  | _ => 34 :: a ++ escape false b ++ [34]
  end.

(** http_value.cpp:115-146 [parse_quoted_string_partial].  [esc] is [plain == 0]; [n] characters
    have been accepted; [Oob] would be a read beyond the end. *)
Inductive quoted := QNo | QOk (text : list Z) (n : nat) | Oob.
(** http_value.cpp:125-141 *)
Fixpoint qloop (esc : bool) (s acc : list Z) (n : nat) : quoted :=
  match s with
  | [] => Oob
  | c :: s' =>
      if negb (c =? 34) || esc then
        let '(esc, acc) := if negb (c =? 92) || esc then (false, acc ++ [c]) else (true, acc) in
        match s' with
        | [] => QNo
        | _ => qloop esc s' acc (S n)
        end
      else QOk acc (S n)
  end.
(** http_value.cpp:115-146 *)
Definition parse_quoted (s : list Z) : quoted :=
  if (length s <? 2)%nat then QNo
  else match s with
       | c :: s' => if c =? 34 then qloop false s' [] 1 else QNo
       | [] => QNo
       end.

(** http_value.cpp:165-179 [parse_token_partial] and 181-195 [parse_unquoted_partial]: the
    text; zero characters are accepted if it is empty *)
Definition parse_token (s : list Z) : list Z := fst (until sep s).
(** http_value.cpp:181-195 *)
Definition parse_unquoted (s : list Z) : list Z := fst (until unquoted_sep s).

(** http_value.cpp:197-216 [parse], with 148-163 [parse_datetime_partial]: what was
    found, and the number of characters.  [s] is the whole text, which the null character follows. *)
Inductive found := Nothing | Text (t : list Z) (n : nat) | Date (ns : Z) (n : nat) | Undefined.
(** http_value.cpp:197-216 *)
Definition parse_value (mktime : tm -> Z) (s : list Z) : found :=
  let rest :=
    match DateModel.parse mktime s (length s) with
    | Overflow => Undefined
    | Ok ns (S n) => Date ns (S n)
    | _ => match parse_unquoted s with [] => Nothing | t => Text t (length t) end
    end in
  match s with
  | [] => Nothing
  | c :: _ =>
      if c =? 34 then
        match parse_quoted s with
        | Oob => Undefined
        | QOk t (S n) => Text t (S n)
        | _ => rest
        end
      else rest
  end.
