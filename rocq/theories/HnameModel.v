(** Model of [HTTP_Field_Name] (/repo/poseidon/src/http/http_field_name.cpp, http/http_field_name.hpp).
    [asteria::ascii_ci_compare] and [asteria::ascii_ci_hash] are in a submodule which is not there;
    they are modelled from their names and use: they look at octets after ASCII letters have
    been converted to one case. *)
From Coq Require Import ZArith List Lia Bool.
From Verif Require Import Base.
Import ListNotations.
Open Scope Z_scope.

(** One case for ASCII letters. Used by http_field_name.hpp:190-210 and http_field_name.cpp:32-37. *)
Definition lower (c : Z) : Z := if (65 <=? c) && (c <=? 90) then c + 32 else c.

(** [asteria::ascii_ci_compare]: the sign is the difference of the first octets that differ;
    otherwise the shorter text is less. Used by http_field_name.hpp:190-210. *)
Fixpoint ci_compare (a b : list Z) : Z :=
  match a, b with
  | [], [] => 0
  | [], _ :: _ => -1
  | _ :: _, [] => 1
  | x :: a', y :: b' => if lower x =? lower y then ci_compare a' b' else lower x - lower y
  end.

(** http_field_name.hpp:190-210 [equals] *)
Definition equals (a b : list Z) : bool :=
  if negb (length a =? length b)%nat then false else ci_compare a b =? 0.

(** http_field_name.cpp:32-37 [rdhash]: [h] folds octets into the hash (FNV-1a in asteria) *)
Definition rdhash (h : Z -> Z -> Z) (a : list Z) : Z := fold_left (fun v c => h v (lower c)) a 0.

(** http_field_name.cpp:39-61 [canonicalize]; [None] is the exception *)
Fixpoint canonicalize (s : list Z) : option (list Z) :=
  match s with
  | [] => Some []
  | c :: s' =>
      if ((97 <=? c) && (c <=? 122)) || ((48 <=? c) && (c <=? 57)) || (c =? 45) || (c =? 95) then
        match canonicalize s' with Some t => Some (c :: t) | None => None end
      else if (65 <=? c) && (c <=? 90) then
        match canonicalize s' with Some t => Some (Z.lor c 32 :: t) | None => None end
      else None
  end.
