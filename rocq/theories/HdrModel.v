(** Model of [HTTP_Header_Parser] (/repo/poseidon/src/http/http_header_parser.cpp). *)
From Coq Require Import ZArith List Lia Bool.
From Verif Require Import Base DateModel HvalModel.
Import ListNotations.
Open Scope Z_scope.

(** http_header_parser.hpp:16-24: the position, as the rest of the header.  [Start] is [SIZE_MAX],
    [Bad] is [error_hpos]; [Ub] is undefined behaviour in a date. *)
Inductive pos := Start | At (rest : list Z) | Bad | Ub.

(** The value of an attribute: null without an equals sign. http_header_parser.hpp:16-24 *)
Inductive value := Null | Str (t : list Z) | Time (ns : Z).
(** http_header_parser.hpp:16-24 *)
Record st := mkS { hstr : list Z; at_ : pos; name : list Z; val : value }.

(** http_header_parser.cpp:32-41 [reload] *)
Definition reload (h : list Z) : st := mkS h Start [] Null.

(** http_header_parser.cpp:56-57, 76-77, 82-83, 95-96 *)
Definition ws (c : Z) : bool := (c =? 32) || (c =? 9).

(** A pointer to a null-terminated string as a view. http_header_parser.cpp:85 *)
Definition cstr (s : list Z) : list Z := fst (until (fun c => c =? 0) s).

(** http_header_parser.cpp:43-108 [do_next_attribute_from_separator], after the separator has
    been skipped; the end of the list is the null character.  The result is whether it is not negative. *)
Definition next_from (mktime : tm -> Z) (s : st) (rest : list Z) : st * bool :=
  let p := skip ws rest in
  let stop := (mkS (hstr s) (At rest) (name s) (val s), false) in
  let go :=
    let t := parse_token p in
    match t with
    | [] => (mkS (hstr s) Bad (name s) (val s), false)
    | _ =>
        let p := skip ws (skipn (length t) p) in
        let '(v, p, ub) :=
          match p with
          | 61 :: p =>
              let p := skip ws p in
              match parse_value mktime (cstr p) with
              | Nothing => (Str [], p, false)
              | Text u n => (Str u, skipn n p, false)
              | Date ns n => (Time ns, skipn n p, false)
              | Undefined => (Null, p, true)
              end
          | _ => (Null, p, false)
          end in
        if ub then (mkS (hstr s) Ub t v, false)
        else
          let p := skip ws p in
          match p with
          | [] => (mkS (hstr s) (At p) t v, true)
          | c :: _ => if (c =? 59) || (c =? 44) then (mkS (hstr s) (At p) t v, true) else (mkS (hstr s) Bad t v, false)
          end
    end in
  match p with
  | [] => stop
  | c :: _ => if (c =? 59) || (c =? 44) then stop else go
  end.

(** http_header_parser.cpp:110-135 [next_attribute] *)
Definition next_attribute (mktime : tm -> Z) (s : st) : st * bool :=
  match at_ s with
  | Start => next_from mktime s (hstr s)
  | At [] => (s, false)
  | At (c :: r) =>
      if c =? 44 then (s, false)
      else if c =? 59 then next_from mktime s r
      else (mkS (hstr s) Bad (name s) (val s), false)
  | Bad | Ub => (s, false)
  end.

(** http_header_parser.cpp:137-164 [next_element]: every turn of the loop consumes a character *)
Fixpoint element_loop (mktime : tm -> Z) (fuel : nat) (s : st) : st * bool :=
  match fuel with
  | O => (s, false)
  | S fuel =>
      match at_ s with
      | At (c :: r) =>
          if c =? 44 then next_from mktime s r
          else if c =? 59 then element_loop mktime fuel (fst (next_from mktime s r))
          else (mkS (hstr s) Bad (name s) (val s), false)
      | _ => (s, false)
      end
  end.
(** http_header_parser.cpp:137-164 *)
Definition next_element (mktime : tm -> Z) (s : st) : st * bool :=
  match at_ s with
  | Start => next_from mktime s (hstr s)
  | At r => element_loop mktime (S (length r)) s
  | Bad | Ub => (s, false)
  end.
