(** What the theorems about checking tables say. *)
From Coq Require Import List ZArith Bool.
From Coq Require Import String.
From Verif Require Import Base Text DateModel RedisModel HnameModel HnameProps MysqlModel CktModel.
Import ListNotations.
Open Scope list_scope.
Open Scope Z_scope.

Section spec.
(** How the texts of numbers are read. *)
Variable get_int : list Z -> option Z.
Variable get_real : list Z -> option Z.
Variable off : Z -> Z.

(** How the server may show the types. *)
Definition type_names (t : ctype) : list (list Z) :=
  match t with
  | Dropped => []
  | Varchar => [txt "varchar(255)"]
  | Boolean => [txt "tinyint"; txt "tinyint(1)"]
  | Integer => [txt "int"; txt "int(11)"]
  | Integer64 | Auto => [txt "bigint"; txt "bigint(20)"]
  | Real => [txt "double"]
  | Bytes => [txt "longblob"]
  | Moment => [txt "datetime(6)"]
  end.

(** The default value of a column, which the server shows as text, is the
    requested one. Time points are compared to the second. *)
Definition default_is (want have : value) : Prop :=
  match want with
  | Null => have = Null
  | Int n => exists s, have = Blob s /\ get_int s = Some n
  | Double x => exists s, have = Blob s /\ get_real s = Some x
  | Blob s => have = Blob s
  | Datetime ns => exists rest, have = Blob (firstn 19 (print_git off ns) ++ rest)
  end.

(** A column is as requested. *)
Definition column_is (c : column) (s : scol) : Prop :=
  s_name s = c_name c /\ In (s_type s) (type_names (c_type c)) /\
  match c_type c with
  | Auto => s_extra s = txt "auto_increment"
  | _ => s_extra s = [] /\ s_null s = c_null c /\ default_is (c_default c) (s_default s)
  end.

(** An index is as requested. *)
Definition index_is (i : index) (k : sidx) : Prop :=
  k_name k = i_name i /\ k_multi k = (match i_type i with I_multi => true | _ => false end)
  /\ Forall2 same_name (k_columns k) (i_columns i).

(** A table is as requested. It may have more columns and indexes. *)
Definition column_done (c : column) (t : table) : Prop :=
  match c_type c with
  | Dropped => forall s, In s (t_cols t) -> s_name s <> c_name c
  | _ => exists s, In s (t_cols t) /\ column_is c s
  end.
Definition index_done (i : index) (t : table) : Prop :=
  match i_type i with
  | I_dropped => forall k, In k (t_idxs t) -> k_name k <> i_name i
  | _ => exists k, In k (t_idxs t) /\ index_is i k
  end.
Definition satisfies (t : table) (r : request) : Prop :=
  Forall (fun c => column_done c t) (columns r) /\ Forall (fun i => index_done i t) (indexes r).

(** Default values have the types of their columns. *)
Definition typed (c : column) : Prop :=
  match c_type c, c_default c with
  | _, Null | Dropped, _ | Auto, _ => True
  | Varchar, Blob _ | Real, Double _ | Moment, Datetime _ => True
  | Boolean, Int n | Integer, Int n | Integer64, Int n => - 2 ^ 63 <= n < 2 ^ 63
  | _, _ => False
  end.

Definition distinct (names : list (list Z)) : Prop := NoDup (map (map lower) names).

(** A request makes sense: no name occurs twice, an index that is not to be dropped
    has columns and none of them is to be dropped, and a primary key is called so and is unique. *)
Record sensible (r : request) : Prop := {
  r_columns : distinct (map c_name (columns r));
  r_indexes : distinct (map i_name (indexes r));
  r_typed : Forall typed (columns r);
  r_used : forall i, In i (indexes r) -> i_type i <> I_dropped -> i_columns i <> [] /\
    forall n c, In n (i_columns i) -> In c (columns r) -> c_type c = Dropped -> ~ same_name (c_name c) n;
  r_primary : forall i, In i (indexes r) -> same_name (i_name i) primary -> i_name i = primary /\ i_type i <> I_multi }.

(** A table in the server. *)
Record proper (t : table) : Prop := {
  p_cols : distinct (map s_name (t_cols t));
  p_idxs : distinct (map k_name (t_idxs t));
  p_full : Forall (fun k => k_columns k <> []) (t_idxs t) }.

(** No column that is requested to be nullable is in the primary key. *)
Definition nullable_apart (r : request) (t : table) : Prop :=
  forall c k, In c (columns r) -> c_type c <> Dropped -> c_type c <> Auto -> c_null c = true ->
  In k (t_idxs t) -> same_name (k_name k) primary -> forall n, In n (k_columns k) -> ~ same_name n (c_name c).

(** No column that is requested to be nullable is requested to be in the
    primary key. *)
Definition keyed (r : request) : Prop :=
  forall c i, In c (columns r) -> c_type c <> Dropped -> c_type c <> Auto -> c_null c = true ->
  In i (indexes r) -> same_name (i_name i) primary -> forall n, In n (i_columns i) -> ~ same_name n (c_name c).

(** Names that are the same without regard to case are spelled alike. *)
Definition spelled (r : request) (t : table) : Prop :=
  (forall c s, In c (columns r) -> In s (t_cols t) -> same_name (c_name c) (s_name s) -> s_name s = c_name c) /\
  (forall i k, In i (indexes r) -> In k (t_idxs t) -> same_name (i_name i) (k_name k) -> k_name k = i_name i).

(** Default values of columns of a numeric type are numbers. *)
Definition readable (r : request) (t : table) : Prop :=
  forall c s, In c (columns r) -> In s (t_cols t) -> s_name s = c_name c -> In (s_type s) (type_names (c_type c)) ->
  match c_default c, s_default s with
  | Int _, Blob w => get_int w <> None
  | Double _, Blob w => get_real w <> None
  | _, _ => True
  end.

(** A column, except that it may have become one of the primary key. *)
Definition kept (s s' : scol) : Prop :=
  s_name s' = s_name s /\ s_type s' = s_type s /\ s_default s' = s_default s /\ s_extra s' = s_extra s /\ (s_null s' = s_null s \/ s_null s' = false).
End spec.
