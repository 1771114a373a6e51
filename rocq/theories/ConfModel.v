(** Model of configuration files: queries with paths, and getters.

    poseidon/src/base/config_file.cpp *)
From Coq Require Import List ZArith Bool.
From Verif Require Import Base RedisModel GeoModel.
Import ListNotations.
Open Scope list_scope.
Open Scope Z_scope.
Notation length := List.length.

(** [asteria::Value]. Reals are floating-point numbers, see GeoModel.v. The type of [m_root], config_file.hpp, that config_file.cpp:50-505 look at *)
Inductive value :=
  | Null
  | Bool (b : bool)
  | Int (n : Z)
  | Real (x : num)
  | Str (s : list Z)
  | Arr (l : list value)
  | Obj (l : list (list Z * value))
  | Other.

(** [V_object::ptr] and [V_array::ptr]. asteria, external; used at config_file.cpp:85 *)
Fixpoint member (l : list (list Z * value)) (k : list Z) : option value :=
  match l with
  | [] => None
  | (k', v) :: l => if text_eqb k' k then Some v else member l k
  end.

(** The states of the parser.
    poseidon/src/base/config_file.cpp:55-64 *)
Inductive state := Name_i | Name | Name_t | Index_i | Index | Index_t.

(** What happens: a value is found, there is none, so that a static null value
    is returned, or an exception is thrown. How config_file.cpp:50-286 ends *)
Inductive outcome := Found (v : value) | Missing | Throws.

(** config_file.cpp:112-113, 150-151, 176-177, 199-200, 230-231, 251-252 *)
Definition blank (c : Z) : bool := (c =? 32) || (c =? 9).
(** config_file.cpp:117-123 *)
Definition name_start (c : Z) : bool :=
  ((65 <=? c) && (c <=? 90)) || ((97 <=? c) && (c <=? 122)) || (c =? 95) || (c =? 45) || (c =? 36) || (c =? 64) || (c =? 42).
(** config_file.cpp:140, 204, 219 *)
Definition is_digit (c : Z) : bool := (48 <=? c) && (c <=? 57).
(** config_file.cpp:138-145 *)
Definition name_char (c : Z) : bool := name_start c || is_digit c.

Section query.
(** [m_root]. *)
Variable root : list (list Z * value).

(** [do_apply_subscript_name]; the result is the new [current].
    poseidon/src/base/config_file.cpp:72-88 *)
Definition apply_name (current : option value) (name : list Z) : outcome :=
  match current with
  | None => match member root name with Some v => Found v | None => Missing end
  | Some (Obj l) => match member l name with Some v => Found v | None => Missing end
  | Some _ => Throws
  end.

(** [do_apply_subscript_index]. Without [current] this would dereference a
    null pointer; it is never so, because a path begins with a name.
    poseidon/src/base/config_file.cpp:90-104 *)
Definition apply_index (current : option value) (index : Z) : outcome :=
  match current with
  | Some (Arr l) => match nth_error l (Z.to_nat index) with Some v => Found v | None => Missing end
  | _ => Throws
  end.

(** The loop, and what follows it. The arguments after the state are
    [current], [name], [index] and the rest of the path.
    poseidon/src/base/config_file.cpp:106-285 *)
Fixpoint run (ps : state) (current : option value) (name : list Z) (index : Z) (s : list Z) : outcome :=
  match s with
  | [] =>
    match ps with
    | Name => apply_name current name
    | Name_t => match current with Some v => Found v | None => Throws end
    | _ => Throws
    end
  | c :: s =>
    match ps with
    | Name_i =>
      if blank c then run Name_i current name index s
      else if name_start c then run Name current [c] index s
      else Throws
    | Name =>
      if name_char c then run Name current (name ++ [c]) index s
      else
        let next ps :=
          match apply_name current name with
          | Found v => run ps (Some v) name index s
          | o => o
          end in
        if blank c then next Name_t
        else if c =? 46 then next Name_i
        else if c =? 91 then next Index_i
        else Throws
    | Name_t =>
      if blank c then run Name_t current name index s
      else if c =? 46 then run Name_i current name index s
      else if c =? 91 then run Index_i current name index s
      else Throws
    | Index_i =>
      if blank c then run Index_i current name index s
      else if is_digit c then run Index current name (c - 48) s
      else Throws
    | Index =>
      if is_digit c then
        if 999999 <=? index then Throws
        else run Index current name ((index * 10 + (c - 48)) mod 4294967296) s
      else
        let next ps :=
          match apply_index current index with
          | Found v => run ps (Some v) name index s
          | o => o
          end in
        if blank c then next Index_t
        else if c =? 93 then next Name_t
        else Throws
    | Index_t =>
      if blank c then run Index_t current name index s
      else if c =? 93 then run Name_t current name index s
      else Throws
    end
  end.

(** [query].
    poseidon/src/base/config_file.cpp:50-286 *)
Definition query (s : list Z) : outcome := run Name_i None [] 0 s.

(** *** Getters *)

(** The result of a getter: the value, nothing, or an exception. How the getters, config_file.cpp:288-505, end *)
Inductive result (A : Type) := Got (x : A) | Nothing | Error.
Arguments Got {A} x.
Arguments Nothing {A}.
Arguments Error {A}.

(** The value that [query] returns. config_file.cpp:86-87, 102-103, 285: what is missing is null *)
Definition queried (s : list Z) : option value :=
  match query s with Found v => Some v | Missing => Some Null | Throws => None end.

(** The pattern of all getters: [check] tests the type and the range.
    [optional] tells whether null is allowed. config_file.cpp:288-505 *)
Definition get {A} (optional : bool) (check : value -> option A) (s : list Z) : result A :=
  match queried s with
  | None => Error
  | Some Null => if optional then Nothing else Error
  | Some v => match check v with Some x => Got x | None => Error end
  end.

(** poseidon/src/base/config_file.cpp:288-325 *)
Definition get_boolean o := get o (fun v => match v with Bool b => Some b | _ => None end).

(** poseidon/src/base/config_file.cpp:327-376 *)
Definition get_integer o (min max : Z) := get o (fun v =>
  match v with Int n => if (min <=? n) && (n <=? max) then Some n else None | _ => None end).

(** [as_real] of an integer. *)
Variable to_real : Z -> num.
(** The comparison at config_file.cpp:378-427 *)
Definition ge (x y : num) : bool := gt x y || eq x y.

(** [is_real] is also true for integers: the error message says so.
    poseidon/src/base/config_file.cpp:378-427 *)
Definition get_real o (min max : num) := get o (fun v =>
  match v with
  | Int n => if ge (to_real n) min && ge max (to_real n) then Some (to_real n) else None
  | Real x => if ge x min && ge max x then Some x else None
  | _ => None
  end).

(** poseidon/src/base/config_file.cpp:429-466 *)
Definition get_string o := get o (fun v => match v with Str s => Some s | _ => None end).

(** poseidon/src/base/config_file.cpp:468-505 *)
Definition get_array_size o := get o (fun v => match v with Arr l => Some (length l) | _ => None end).
End query.
