(** What the theorems about configuration files say. *)
From Coq Require Import List ZArith Bool.
From Verif Require Import Base NetrefSpec GeoModel ConfModel.
Import ListNotations.
Open Scope list_scope.
Open Scope Z_scope.

(** A path is a list of names and subscripts. *)
Inductive step := By_name (n : list Z) | By_index (ds : list Z).

(** *** How a path is written *)

Definition blanks (s : list Z) : Prop := Forall (fun c => c = 32 \/ c = 9) s.

Definition letter (c : Z) : Prop :=
  65 <= c <= 90 \/ 97 <= c <= 122 \/ c = 95 \/ c = 45 \/ c = 36 \/ c = 64 \/ c = 42.

(** A name begins with a letter, or one of [_-$@*], and may have digits. *)
Inductive is_name : list Z -> Prop :=
  | name_made c s : letter c -> Forall (fun c => letter c \/ decimal c) s -> is_name (c :: s).

Inductive more : list step -> list Z -> Prop :=
  | more_end : more [] []
  | more_name b1 n b2 steps t : blanks b1 -> is_name n -> blanks b2 -> more steps t ->
      more (By_name n :: steps) ([46] ++ b1 ++ n ++ b2 ++ t)
  | more_index b1 ds b2 b3 steps t : blanks b1 -> ds <> [] -> Forall decimal ds -> blanks b2 -> blanks b3 -> more steps t ->
      more (By_index ds :: steps) ([91] ++ b1 ++ ds ++ b2 ++ [93] ++ b3 ++ t).

(** The text of a path, such as [a.b[3].c]. *)
Inductive path_text : list step -> list Z -> Prop :=
  | path_made b1 n b2 steps t : blanks b1 -> is_name n -> blanks b2 -> more steps t ->
      path_text (By_name n :: steps) (b1 ++ n ++ b2 ++ t).

(** *** Where it leads *)

(** A subscript is too large if it has another digit after 999999. *)
Definition too_large (ds : list Z) : Prop :=
  exists p q, ds = p ++ q /\ p <> [] /\ q <> [] /\ 999999 <= number p.

(** Values are looked up by name, or by position. *)
Definition has (l : list (list Z * value)) (k : list Z) (v : value) : Prop :=
  exists p q, l = p ++ (k, v) :: q /\ ~ In k (map fst p).

Inductive leads : value -> list step -> outcome -> Prop :=
  | leads_here v : leads v [] (Found v)
  | leads_name l n v steps o : has l n v -> leads v steps o -> leads (Obj l) (By_name n :: steps) o
  | leads_no_name l n steps : ~ In n (map fst l) -> leads (Obj l) (By_name n :: steps) Missing
  | leads_no_object v n steps : (forall l, v <> Obj l) -> leads v (By_name n :: steps) Throws
  | leads_index l ds v steps o : ~ too_large ds -> nth_error l (Z.to_nat (number ds)) = Some v -> leads v steps o ->
      leads (Arr l) (By_index ds :: steps) o
  | leads_no_index l ds steps : ~ too_large ds -> Z.of_nat (length l) <= number ds -> leads (Arr l) (By_index ds :: steps) Missing
  | leads_no_array v ds steps : (forall l, v <> Arr l) -> leads v (By_index ds :: steps) Throws
  | leads_too_large v ds steps : too_large ds -> leads v (By_index ds :: steps) Throws.

(** *** Getters *)

(** What a getter should do about the outcome of a query, if [accepts] relates
    the values that are of its type and in its range to the results. *)
Inductive expected {A} (optional : bool) (accepts : value -> A -> Prop) : outcome -> result A -> Prop :=
  | expected_value v x : v <> Null -> accepts v x -> expected optional accepts (Found v) (Got A x)
  | expected_unfit v : v <> Null -> (forall x, ~ accepts v x) -> expected optional accepts (Found v) (Error A)
  | expected_null o : o = Missing \/ o = Found Null -> optional = true -> expected optional accepts o (Nothing A)
  | expected_no_null o : o = Missing \/ o = Found Null -> optional = false -> expected optional accepts o (Error A)
  | expected_error : expected optional accepts Throws (Error A).

Inductive num_le : num -> num -> Prop :=
  | le_fin a b : a <= b -> num_le (Fin a) (Fin b)
  | le_minus x : x <> NaN -> num_le Minus_inf x
  | le_plus x : x <> NaN -> num_le x Plus_inf.

Definition a_boolean (v : value) (b : bool) : Prop := v = Bool b.
Definition an_integer (min max : Z) (v : value) (n : Z) : Prop := v = Int n /\ min <= n <= max.
Definition a_real (to_real : Z -> num) (min max : num) (v : value) (x : num) : Prop :=
  (v = Real x \/ exists n, v = Int n /\ x = to_real n) /\ num_le min x /\ num_le x max.
Definition a_string (v : value) (s : list Z) : Prop := v = Str s.
Definition an_array (v : value) (n : nat) : Prop := exists l, v = Arr l /\ n = length l.
