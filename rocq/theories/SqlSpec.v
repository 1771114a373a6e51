(** How a server reads the statements that check a table. *)
From Coq Require Import List ZArith Bool.
From Coq Require Import String.
From Verif Require Import Base Text NetrefSpec RedisSpec DateSpec MysqlModel MysqlSpec CktModel SqlModel.
Import ListNotations.
Open Scope list_scope.
Open Scope Z_scope.
Notation length := List.length.

(** *** Tokens: words and numbers, names in backticks, texts in single quotes,
    and other characters ("Literal Values" and "Schema Object Names" in the
    manual of MySQL) *)
Inductive token := Word (w : list Z) | Name (n : list Z) | Text (t : list Z) | Mark (c : Z).

Definition blank (c : Z) : bool := (c =? 32) || ((9 <=? c) && (c <=? 13)).
(** Letters, digits, the underscore, points and signs. *)
Definition wordy (c : Z) : bool :=
  ((65 <=? c) && (c <=? 90)) || ((97 <=? c) && (c <=? 122)) || ((48 <=? c) && (c <=? 57))
  || (c =? 95) || (c =? 46) || (c =? 45) || (c =? 43).

Inductive mode :=
  | Idle | In_word (w : list Z) | In_name (n : list Z) | Name_end (n : list Z)
  | In_text (t : list Z) | Escape (t : list Z) | Text_end (t : list Z).

Definition start (c : Z) (out : list token) : mode * list token :=
  if blank c then (Idle, out)
  else if wordy c then (In_word [c], out)
  else if c =? 96 then (In_name [], out)
  else if c =? 39 then (In_text [], out)
  else (Idle, out ++ [Mark c]).

(** A backtick in a name and a quote in a text may be written twice; a
    backslash in a text changes the character after it. *)
Definition read (s : mode * list token) (c : Z) : mode * list token :=
  let (m, out) := s in
  match m with
  | Idle => start c out
  | In_word w => if wordy c then (In_word (w ++ [c]), out) else start c (out ++ [Word w])
  | In_name n => if c =? 96 then (Name_end n, out) else (In_name (n ++ [c]), out)
  | Name_end n => if c =? 96 then (In_name (n ++ [c]), out) else start c (out ++ [Name n])
  | In_text t => if c =? 39 then (Text_end t, out) else if c =? 92 then (Escape t, out) else (In_text (t ++ [c]), out)
  | Escape t => (In_text (t ++ unescape c), out)
  | Text_end t => if c =? 39 then (In_text (t ++ [c]), out) else start c (out ++ [Text t])
  end.

(** The tokens of a text, unless a name or a text has no end. *)
Definition tokens (s : list Z) : option (list token) :=
  let (m, out) := fold_left read s (Idle, []) in
  match m with
  | Idle => Some out
  | In_word w => Some (out ++ [Word w])
  | Name_end n => Some (out ++ [Name n])
  | Text_end t => Some (out ++ [Text t])
  | _ => None
  end.

(** *** Statements ("CREATE TABLE Statement" and "ALTER TABLE Statement") *)
Definition words (l : list string) : list token := map (fun w => Word (txt w)) l.

(** Items with commas between them. *)
Fixpoint listed (l : list (list token)) : list token :=
  match l with
  | [] => []
  | [a] => a
  | a :: l => a ++ [Mark 44] ++ listed l
  end.

Section grammar.
Variable double_text : Z -> option (list Z).
Variable off : Z -> Z.

(** A literal that means a value. *)
Inductive literal : value -> token -> Prop :=
  | lit_null : literal Null (Word (txt "NULL"))
  | lit_int n w : integer_text n w -> literal (Int n) (Word w)
  | lit_double x w : double_text x = Some w -> literal (Double x) (Word w)
  | lit_nan x : double_text x = None -> literal (Double x) (Word (txt "NULL"))
  | lit_text s : literal (Blob s) (Text s)
  | lit_time ns y m d h mi s t : datetime_text y m d h mi s t ->
      local_time (ns / 1000000000) (off (ns / 1000000000)) y m d h mi s -> literal (Datetime ns) (Text t).

(** Types, as they are shown, and as they are written. *)
Inductive type_written : list Z -> list token -> Prop :=
  | type_plain w : In w ["tinyint"; "int"; "bigint"; "double"; "longblob"]%string -> type_written (txt w) [Word (txt w)]
  | type_varchar : type_written (txt "varchar(255)") [Word (txt "varchar"); Mark 40; Word (txt "255"); Mark 41]
  | type_datetime : type_written (txt "datetime(6)") [Word (txt "datetime"); Mark 40; Word (txt "6"); Mark 41].

Inductive default_written : value -> list token -> Prop :=
  | default_none : default_written Null []
  | default_some v l : v <> Null -> literal v l -> default_written v [Word (txt "DEFAULT"); l].

Definition column_written (d : cdef) (l : list token) : Prop :=
  exists t v, type_written (d_type d) t /\ default_written (d_default d) v /\
    l = Name (d_name d) :: t ++ (if d_auto d then words ["AUTO_INCREMENT"%string] else [])
        ++ (if d_not_null d then words ["NOT"; "NULL"]%string else []) ++ v.

Definition index_written (x : xdef) : list token :=
  (if list_eq_dec Z.eq_dec (x_name x) (txt "PRIMARY") then words ["PRIMARY"; "KEY"]%string
   else (if x_unique x then words ["UNIQUE"; "INDEX"]%string else words ["INDEX"%string]) ++ [Name (x_name x)])
  ++ [Mark 40] ++ listed (map (fun c => [Name c]) (x_columns x)) ++ [Mark 41].

(** What is between the parentheses of a CREATE TABLE statement, *)
Inductive part_written : clause -> list token -> Prop :=
  | part_column d l : column_written d l -> part_written (Add_column d) l
  | part_index x : part_written (Add_index x) (index_written x).

(** and what there is in an ALTER TABLE statement. *)
Inductive clause_written : clause -> list token -> Prop :=
  | cl_add d l : column_written d l -> clause_written (Add_column d) (words ["ADD"; "COLUMN"]%string ++ l)
  | cl_modify d l : column_written d l -> clause_written (Modify_column d) (words ["MODIFY"; "COLUMN"]%string ++ l)
  | cl_drop n : clause_written (Drop_column n) (words ["DROP"; "COLUMN"]%string ++ [Name n])
  | cl_add_index x : clause_written (Add_index x) (words ["ADD"%string] ++ index_written x)
  | cl_drop_primary : clause_written (Drop_index (txt "PRIMARY")) (words ["DROP"; "PRIMARY"; "KEY"]%string)
  | cl_drop_index n : n <> txt "PRIMARY" -> clause_written (Drop_index n) (words ["DROP"; "INDEX"]%string ++ [Name n]).

Definition engine_name (e : engine) : list Z :=
  match e with Innodb => txt "InnoDB" | Myisam => txt "MyISAM" | Memory => txt "MEMORY" | Archive => txt "ARCHIVE" end.

(** The first value of an auto-increment column is an option of the table. *)
Inductive first_written : list column -> list token -> Prop :=
  | first_nil : first_written [] []
  | first_other c l ts : c_type c <> Auto \/ c_default c = Null -> first_written l ts -> first_written (c :: l) ts
  | first_auto c l ts t : c_type c = Auto -> c_default c <> Null -> literal (c_default c) t -> first_written l ts ->
      first_written (c :: l) ([Mark 44; Word (txt "AUTO_INCREMENT"); Mark 61; t] ++ ts).

Definition create_written (name : list Z) (e : engine) (r : request) (l : list token) : Prop :=
  exists parts first, Forall2 part_written (creation r) parts /\ first_written (columns r) first /\
    l = words ["CREATE"; "TABLE"; "IF"; "NOT"; "EXISTS"]%string ++ [Name name; Mark 40] ++ listed parts ++ [Mark 41]
        ++ [Word (txt "ENGINE"); Mark 61; Text (engine_name e); Mark 44; Word (txt "CHARSET"); Mark 61; Text (txt "utf8mb4")]
        ++ first.

Definition alter_written (name : list Z) (cls : list clause) (l : list token) : Prop :=
  exists parts, Forall2 clause_written cls parts /\
    l = words ["ALTER"; "TABLE"]%string ++ [Name name] ++ listed parts.

(** What the theorems are about: names without backticks, integers of 64 bits,
    times since 1900, and doubles that are written with digits, signs, points
    and letters. *)
Definition simple_name (n : list Z) : Prop := ~ In 96 n.
Definition ordinary (v : value) : Prop :=
  match v with
  | Int n => - 2 ^ 63 <= n < 2 ^ 63
  | Double x => match double_text x with Some t => t <> [] /\ forallb wordy t = true | None => True end
  | Datetime ns => - 2208988800 * 1000000000 <= ns < 2 ^ 63
  | _ => True
  end.
Definition writable (r : request) : Prop :=
  Forall (fun c => simple_name (c_name c) /\ ordinary (c_default c)) (columns r)
  /\ Forall (fun i => simple_name (i_name i) /\ Forall simple_name (i_columns i)) (indexes r).
End grammar.
