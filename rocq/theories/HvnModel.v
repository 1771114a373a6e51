(** Model of all the fields of [HTTP_Value]: /repo/poseidon/http/http_value.hpp and
    /repo/poseidon/src/http/http_value.cpp.  The parsers of texts and the printer of a value that is only text are
    those of HvalModel, dates are those of DateModel. *)
From Coq Require Import ZArith List Bool.
From Verif Require Import Base DateModel HvalModel AddrTextModel.
Import ListNotations.
Open Scope Z_scope.

Section Numbers.
  (** Doubles, and what asteria and the processor do with numbers; all of this is external.  [of_int]: a conversion,
      http_value.cpp:60.  [to_int]: [_mm_cvtsd_si64] and whether it raised no exception, http_value.cpp:72-74.
      [print_d]: [put_DD], http_value.cpp:68-69, 225.  [read_i]: [parse_I] when it accepts the whole text, and then
      [cast_I], http_value.cpp:96-99.  [read_d]: likewise, http_value.cpp:101-104.  [mktime]: see DateModel. *)
  Variables (D : Type) (zero : D) (of_int : Z -> D) (to_int : D -> Z * bool) (print_d : D -> list Z)
            (read_i : list Z -> option Z) (read_d : list Z -> option D) (mktime : tm -> Z).

  (** [m_str], [m_int], [m_dbl], [m_dt] (in nanoseconds), and the bits of [m_vm]. http_value.hpp:14-26 *)
  Record value := mkV { v_str : list Z; v_int : Z; v_dbl : D; v_dt : Z; f_str : bool; f_int : bool; f_dbl : bool; f_dt : bool }.

  (** http_value.hpp:22-26, 35-38: a new value; 211-219 [clear] gives the same *)
  Definition fresh : value := mkV [] 0 zero 0 false false false false.

  (** [put_DI], and [fmt << m_int]: a decimal number (asteria). http_value.cpp:55-57, 223 *)
  Definition put_di (n : Z) : list Z := if n <? 0 then 45 :: put_du 20 (- n) else put_du 20 n.

  (** [find_not_of] and [rfind_not_of] with a space and a tab: the text without the blanks at both ends;
      [None] if there is nothing else. http_value.cpp:91-93 *)
  Definition edge (c : Z) : bool := (c =? 32) || (c =? 9).
  (** http_value.cpp:91 *)
  Fixpoint strip (s : list Z) : list Z := match s with c :: r => if edge c then strip r else s | [] => [] end.
  (** http_value.cpp:93 *)
  Definition trim (s : list Z) : list Z := rev (strip (rev (strip s))).

  (** What [strnlen] sees: up to the null character. datetime.cpp:22, 42, 62, 82, 102 *)
  Definition c_str (s : list Z) : list Z := fst (until (fun c => c =? 0) s).

  (** http_value.cpp:51-113 [do_update_variants], last branch (lines 88-112): the text is [v_str v].  Fields that
      can not be read from the text are left alone.  [None] is an overflow of a date, which is undefined.  A date is stored
      even if it is not the whole text (line 106). *)
  Definition update_text (v : value) : option value :=
    let s := v_str v in
    let v := mkV s (v_int v) (v_dbl v) (v_dt v) true false false false in
    match trim s with
    | [] => Some v
    | sv =>
        let '(i, fi) := match read_i sv with Some n => (n, true) | None => (v_int v, false) end in
        let '(d, fd) := match read_d sv with Some x => (x, true) | None => (v_dbl v, false) end in
        match DateModel.parse mktime (c_str (strip s)) (length sv) with
        | Overflow => None
        | No => Some (mkV s i d (v_dt v) true fi fd false)
        | Ok ns n => Some (mkV s i d ns true fi fd (n =? length sv)%nat)
        end
    end.

  (** http_value.cpp:53-63: from an integer *)
  Definition update_int (n : Z) : value := mkV (put_di n) n (of_int n) 0 true true true false.
  (** http_value.cpp:64-78: from a double *)
  Definition update_dbl (d : D) : value :=
    let '(n, ok) := to_int d in mkV (print_d d) n d 0 true ok true false.
  (** http_value.cpp:79-88: from a date *)
  Definition update_dt (ns : Z) : value := mkV (print_rfc1123 ns) 0 zero ns true false false true.

  (** http_value.cpp:115-146 [parse_quoted_string_partial]; a value that could not be read is not modelled further, its
      contents are documented to be indeterminate.  The number is the result of the call. *)
  Definition with_text (t : list Z) : option value := update_text (mkV t 0 zero 0 true false false false).

  (** http_value.cpp:148-163 [parse_datetime_partial] when it succeeds: the other bits are not set *)
  Definition with_date (s : list Z) (ns : Z) (n : nat) : value := mkV (firstn n s) 0 zero ns false false false true.

  (** http_value.cpp:197-216 [parse]: [Some None] is a result of zero *)
  Definition parse (s : list Z) : option (option (value * nat)) :=
    match parse_value mktime s with
    | Undefined => None
    | Nothing => Some None
    | Text t n => match with_text t with Some v => Some (Some (v, n)) | None => None end
    | Date ns n => Some (Some (with_date s ns n, n))
    end.

  (** http_value.cpp:218-266 [print_to]; the four cases *)
  Definition print (v : value) : list Z :=
    if f_int v then put_di (v_int v)
    else if f_dbl v then print_d (v_dbl v)
    else if f_dt v then print_rfc1123 (v_dt v)
    else print_text (v_str v).

  (** The ways to give a value something new: assignments of a text (http_value.hpp:48-65, 77-86, also [set], 282-288), of an
      integer (97-105, 115-123, 133-141), of a double (151-159), of a date (169-177, 187-195), [clear] (211-219), and
      [parse] of a text that it accepts (http_value.cpp:197-216). *)
  Inductive op := SetText (s : list Z) | SetInt (n : Z) | SetDbl (d : D) | SetDate (ns : Z) | Clear | Parse (s : list Z).
  (** http_value.hpp:48-219, 282-288; [None] is undefined behaviour or a [parse] that fails *)
  Definition step (v : value) (o : op) : option value :=
    match o with
    | SetText s => update_text (mkV s (v_int v) (v_dbl v) (v_dt v) true false false false)
    | SetInt n => Some (update_int n)
    | SetDbl d => Some (update_dbl d)
    | SetDate ns => Some (update_dt ns)
    | Clear => Some fresh
    | Parse s => match parse s with Some (Some (v, _)) => Some v | _ => None end
    end.
  (** Any number of calls; http_value.hpp:48-219. *)
  Fixpoint run (v : value) (os : list op) : option value :=
    match os with
    | [] => Some v
    | o :: os => match step v o with Some v => run v os | None => None end
    end.
End Numbers.
Arguments v_str {D}. Arguments v_int {D}. Arguments v_dbl {D}. Arguments v_dt {D}.
Arguments f_str {D}. Arguments f_int {D}. Arguments f_dbl {D}. Arguments f_dt {D}.
Arguments SetText {D}. Arguments SetInt {D}. Arguments SetDbl {D}. Arguments SetDate {D}. Arguments Clear {D}. Arguments Parse {D}.
