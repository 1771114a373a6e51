(** Model of how the structure of a MySQL table is checked and updated.

    poseidon/src/fiber/mysql_check_table_future.cpp *)
From Coq Require Import List ZArith Bool.
From Coq Require Import String.
From Verif Require Import Base Text DateModel RedisModel HnameModel MysqlModel.
Import ListNotations.
Open Scope list_scope.
Open Scope Z_scope.
Notation length := List.length.

(** *** What is requested *)

(** poseidon/mysql/enums.hpp:10-21 *)
Inductive ctype := Dropped | Varchar | Boolean | Integer | Integer64 | Real | Bytes | Moment | Auto.
(** poseidon/mysql/mysql_table_column.hpp:13-18 *)
Record column := mkColumn { c_name : list Z; c_type : ctype; c_null : bool; c_default : value }.
(** poseidon/mysql/enums.hpp:23-28 *)
Inductive itype := I_dropped | I_unique | I_multi.
(** poseidon/mysql/mysql_table_index.hpp:13-17 *)
Record index := mkIndex { i_name : list Z; i_type : itype; i_columns : list (list Z) }.
(** The engine is not compared with that of an existing table.
    poseidon/mysql/mysql_table_structure.hpp:13-18 *)
Record request := mkRequest { columns : list column; indexes : list index }.

(** *** What is sent to the server

    The parts of a statement, whose text is modelled in SqlModel. A column definition as composed at mysql_check_table_future.cpp:13-68 *)

Record cdef := mkCdef { d_name : list Z; d_type : list Z; d_auto : bool; d_not_null : bool; d_default : value }.
(** An index definition as composed at mysql_check_table_future.cpp:70-103 *)
Record xdef := mkXdef { x_name : list Z; x_unique : bool; x_columns : list (list Z) }.
(** The clauses composed at mysql_check_table_future.cpp:185-196, 499-508, 558-572 *)
Inductive clause :=
  | Add_column (d : cdef)
  | Modify_column (d : cdef)
  | Drop_column (name : list Z)
  | Add_index (x : xdef)
  | Drop_index (name : list Z).

(** [do_append_column_definition]. It is not called for columns to drop.
    poseidon/src/fiber/mysql_check_table_future.cpp:13-68 *)
Definition column_definition (c : column) : cdef :=
  let t := match c_type c with
    | Dropped => []
    | Varchar => txt "varchar(255)"
    | Boolean => txt "tinyint"
    | Integer => txt "int"
    | Integer64 => txt "bigint"
    | Real => txt "double"
    | Bytes => txt "longblob"
    | Moment => txt "datetime(6)"
    | Auto => txt "bigint"
    end in
  match c_type c with
  | Auto => mkCdef (c_name c) t true true Null
  | _ => mkCdef (c_name c) t false (negb (c_null c)) (c_default c)
  end.

(** [do_append_index_definition]. Names of indexes are compared without regard
    to case. A primary key is unique, and its name is a fixed one.
    poseidon/src/fiber/mysql_check_table_future.cpp:70-103 *)
Definition primary : list Z := txt "PRIMARY".
(** mysql_check_table_future.cpp:70-103; the name is a [HTTP_Field_Name], mysql_table_index.hpp:15 *)
Definition index_definition (i : index) : xdef :=
  if equals (i_name i) primary then mkXdef primary true (i_columns i)
  else mkXdef (i_name i) (match i_type i with I_multi => false | _ => true end) (i_columns i).

(** *** The server

    This part is not in the repository. It is what the documentation of MySQL
    says about CREATE TABLE, ALTER TABLE, SHOW COLUMNS and SHOW INDEXES. *)

(** A row of SHOW COLUMNS. Read at mysql_check_table_future.cpp:238-244 into [exColumn], 135-141 *)
Record scol := mkScol { s_name : list Z; s_type : list Z; s_null : bool; s_default : value; s_extra : list Z }.
(** An index, and the rows of SHOW INDEXES for it: the name, whether values may
    repeat, the name of a column, and its position, from one. Read at mysql_check_table_future.cpp:266-272 *)
Record sidx := mkSidx { k_name : list Z; k_multi : bool; k_columns : list (list Z) }.
(** What the server keeps and mysql_check_table_future.cpp:214-272 reads *)
Record table := mkTable { t_cols : list scol; t_idxs : list sidx }.
(** A row as read at mysql_check_table_future.cpp:266-271 *)
Definition row := (list Z * bool * list Z * nat)%type.
(** The server's answer to mysql_check_table_future.cpp:246-249 *)
Definition rows_of (k : sidx) : list row :=
  map (fun p => (k_name k, k_multi k, snd p, fst p)) (combine (seq 1 (length (k_columns k))) (k_columns k)).

Section server.
(** Whether types are shown with display widths, as by versions before 8.0. *)
Variable widths : bool.
(** How a double is shown. *)
Variable real_text : Z -> list Z.
(** The offset of the time zone of the client, which has composed the text of
    the time point. *)
Variable off : Z -> Z.

(** The server's answer that is read at mysql_check_table_future.cpp:240 *)
Definition show_type (t : list Z) : list Z :=
  if widths then
    if text_eqb t (txt "tinyint") then txt "tinyint(4)"
    else if text_eqb t (txt "int") then txt "int(11)"
    else if text_eqb t (txt "bigint") then txt "bigint(20)"
    else t
  else t.

(** The server's answer that is read at mysql_check_table_future.cpp:242 *)
Definition show_default (v : value) : value :=
  match v with
  | Null => Null
  | Int n => Blob (put_int n)
  | Double x => Blob (real_text x)
  | Blob s => Blob s
  | Datetime ns => Blob (firstn 19 (print_git off ns) ++ txt ".000000")
  end.

(** The server's answer that is read at mysql_check_table_future.cpp:238-244 *)
Definition show_column (d : cdef) : scol :=
  mkScol (d_name d) (show_type (d_type d)) (negb (d_not_null d)) (show_default (d_default d))
    (if d_auto d then txt "auto_increment" else []).

(** Names of columns and indexes are compared without regard to case. The server's reaction to the statements of mysql_check_table_future.cpp:208 and 579 *)
Definition has_column (n : list Z) (cs : list scol) : bool := existsb (fun s => equals (s_name s) n) cs.
(** The server's reaction to the statements of mysql_check_table_future.cpp:208 and 579 *)
Definition has_index (n : list Z) (ks : list sidx) : bool := existsb (fun k => equals (k_name k) n) ks.

(** What the server does with the clauses of mysql_check_table_future.cpp:499-508 *)
Definition apply_column (cl : clause) (cs : list scol) : option (list scol) :=
  match cl with
  | Add_column d => if has_column (d_name d) cs then None else Some (cs ++ [show_column d])
  | Modify_column d =>
    if has_column (d_name d) cs then Some (map (fun s => if equals (s_name s) (d_name d) then show_column d else s) cs) else None
  | Drop_column n =>
    if has_column n cs then Some (filter (fun s => negb (equals (s_name s) n)) cs) else None
  | _ => Some cs
  end.

(** What the server does with the clauses of mysql_check_table_future.cpp:563-566 *)
Definition drop_index (cl : clause) (ks : list sidx) : option (list sidx) :=
  match cl with
  | Drop_index n => if has_index n ks then Some (filter (fun k => negb (equals (k_name k) n)) ks) else None
  | _ => Some ks
  end.

(** What the server does with the clauses of mysql_check_table_future.cpp:559-560, 569-570 *)
Definition add_index (cl : clause) (ks : list sidx) : option (list sidx) :=
  match cl with
  | Add_index x => if has_index (x_name x) ks then None else Some (ks ++ [mkSidx (x_name x) (negb (x_unique x)) (x_columns x)])
  | _ => Some ks
  end.

(** The clauses of one statement, mysql_check_table_future.cpp:579, in order *)
Fixpoint each {A} (f : clause -> A -> option A) (cls : list clause) (x : A) : option A :=
  match cls with
  | [] => Some x
  | cl :: cls => match f cl x with Some x => each f cls x | None => None end
  end.

(** When a column is dropped, it is removed from all indexes, and an index that
    has no other column is removed. What the server does with mysql_check_table_future.cpp:508 *)
Definition dropped (cls : list clause) (n : list Z) : bool :=
  existsb (fun cl => match cl with Drop_column m => equals m n | _ => false end) cls.
(** What the server does with mysql_check_table_future.cpp:508 *)
Definition prune (cls : list clause) (ks : list sidx) : list sidx :=
  filter (fun k => match k_columns k with [] => false | _ => true end)
    (map (fun k => mkSidx (k_name k) (k_multi k) (filter (fun n => negb (dropped cls n)) (k_columns k))) ks).

(** Columns of the primary key cannot be null. What the server does with mysql_check_table_future.cpp:74, 94-102 *)
Definition in_primary (ks : list sidx) (n : list Z) : bool :=
  existsb (fun k => equals (k_name k) primary && existsb (fun m => equals m n) (k_columns k)) ks.
(** What the server does with mysql_check_table_future.cpp:74, 94-102 *)
Definition not_null (ks : list sidx) (s : scol) : scol :=
  if in_primary ks (s_name s) then mkScol (s_name s) (s_type s) false (s_default s) (s_extra s) else s.

(** A statement is executed as a whole. The server may reject more statements
    than this. What the server does at mysql_check_table_future.cpp:208 and 579 *)
Definition alter (cls : list clause) (t : table) : option table :=
  match each apply_column cls (t_cols t), each drop_index cls (t_idxs t) with
  | Some cs, Some ks =>
    match each add_index cls (prune cls ks) with
    | Some ks => Some (mkTable (map (not_null ks) cs) ks)
    | None => None
    end
  | _, _ => None
  end.
End server.

(** *** The check *)

Section check.
(** [ascii_numget], for integers and doubles. [None] if the text is not
    accepted; then the variable is not initialized. *)
Variable get_int : list Z -> option Z.
Variable get_real : list Z -> option Z.
Variable off : Z -> Z.

(** How a trip through the switch of mysql_check_table_future.cpp:287-488 ends: at 490, at 494, with an exception of [as_blob] and the like, or after reading a variable without a value (329, 357, 385, 412) *)
Inductive verdict := Same | Differs | Throws | Undefined.
(** One condition of mysql_check_table_future.cpp:287-488 after another *)
Definition and_then (a b : verdict) : verdict := match a with Same => b | _ => a end.
(** A condition with [goto do_alter_table_column_], mysql_check_table_future.cpp:287-488 *)
Definition when (b : bool) : verdict := if b then Same else Differs.

(** [strncmp(a, b, n) == 0], where the end of a string is a null character. C library; used at mysql_check_table_future.cpp:453 *)
Fixpoint same_prefix (n : nat) (a b : list Z) : bool :=
  match n with
  | O => true
  | S n => (hd 0 a =? hd 0 b) && ((hd 0 a =? 0) || same_prefix n (tl a) (tl b))
  end.

(** The first condition of each case, mysql_check_table_future.cpp:289-469 *)
Definition type_matches (t : ctype) (s : list Z) : bool :=
  match t with
  | Dropped => false
  | Varchar => text_eqb s (txt "varchar(255)")
  | Boolean => text_eqb s (txt "tinyint(1)") || text_eqb s (txt "tinyint")
  | Integer => text_eqb s (txt "int(11)") || text_eqb s (txt "int")
  | Integer64 => text_eqb s (txt "bigint(20)") || text_eqb s (txt "bigint")
  | Real => text_eqb s (txt "double")
  | Bytes => text_eqb s (txt "longblob")
  | Moment => text_eqb s (txt "datetime(6)")
  | Auto => text_eqb s (txt "bigint(20)") || text_eqb s (txt "bigint")
  end.

(** The comparison of default values in a case of the switch. mysql_check_table_future.cpp:299-307, 322-336, 350-364, 378-392, 405-419, 444-455 *)
Definition default_matches (t : ctype) (want have : value) : verdict :=
  match want with
  | Null => Same
  | _ =>
    match t with
    | Varchar =>
      match have with
      | Blob s => match want with Blob w => when (text_eqb s w) | _ => Throws end
      | _ => Differs
      end
    | Boolean | Integer | Integer64 =>
      match have with
      | Blob s => match get_int s with
                  | Some n => match want with Int w => when (n =? w) | _ => Throws end
                  | None => Undefined
                  end
      | _ => Differs
      end
    | Real =>
      match have with
      | Blob s => match get_real s with
                  | Some x => match want with Double w => when (x =? w) | _ => Throws end
                  | None => Undefined
                  end
      | _ => Differs
      end
    | Moment =>
      match have with
      | Blob s => match want with Datetime w => when (same_prefix 19 s (print_git off w)) | _ => Throws end
      | _ => Differs
      end
    | _ => Same
    end
  end.

(** [MySQL_Value::is_null], used at mysql_check_table_future.cpp:486 *)
Definition is_null (v : value) : bool := match v with Null => true | _ => false end.

(** The switch, and the condition behind it. The final condition does not
    apply to auto-increment columns.
    poseidon/src/fiber/mysql_check_table_future.cpp:287-489 *)
Definition column_matches (c : column) (s : scol) : verdict :=
  and_then (when (type_matches (c_type c) (s_type s)))
  (and_then (default_matches (c_type c) (c_default c) (s_default s))
  (and_then (when (text_eqb (s_extra s) (match c_type c with Auto => txt "auto_increment" | _ => [] end)))
  (match c_type c with
   | Auto => Same
   | _ => and_then (when (Bool.eqb (s_null s) (c_null c))) (when (Bool.eqb (is_null (s_default s)) (is_null (c_default c))))
   end))).

(** How mysql_check_table_future.cpp:172-581 ends: normally, with an exception, or with undefined behaviour *)
Inductive result (A : Type) := Ok (x : A) | Error | Undef.
Arguments Ok {A} x.
Arguments Error {A}.
Arguments Undef {A}.

(** [excolumns.find(column.name)]; keys of the dictionary are strings. mysql_check_table_future.cpp:281 *)
Definition find_column (n : list Z) (cs : list scol) : option scol := find (fun s => text_eqb (s_name s) n) cs.

(** One trip of the loop over columns.
    poseidon/src/fiber/mysql_check_table_future.cpp:280-509 *)
Definition check_column (cs : list scol) (c : column) : result (list clause) :=
  match find_column (c_name c) cs with
  | None => match c_type c with Dropped => Ok [] | _ => Ok [Add_column (column_definition c)] end
  | Some s =>
    match c_type c with
    | Dropped => Ok [Drop_column (c_name c)]
    | _ => match column_matches c s with
           | Same => Ok []
           | Differs => Ok [Modify_column (column_definition c)]
           | Throws => Error
           | Undefined => Undef
           end
    end
  end.

(** [exIndex] and the dictionary of indexes.
    poseidon/src/fiber/mysql_check_table_future.cpp:143-147, 266-272 *)
Definition dict := list (list Z * (bool * list (list Z))).
(** [find] of a dictionary, mysql_check_table_future.cpp:267, 512 *)
Definition lookup (n : list Z) (d : dict) : option (bool * list (list Z)) :=
  option_map snd (find (fun p => text_eqb (fst p) n) d).
(** The subscript operator of a dictionary, mysql_check_table_future.cpp:267 *)
Fixpoint update (n : list Z) (x : bool * list (list Z)) (d : dict) : dict :=
  match d with
  | [] => [(n, x)]
  | (m, y) :: d => if text_eqb m n then (m, x) :: d else (m, y) :: update n x d
  end.
(** mysql_check_table_future.cpp:270 *)
Definition resize (n : nat) (l : list (list Z)) : list (list Z) := l ++ repeat [] (n - length l).
(** mysql_check_table_future.cpp:271 *)
Fixpoint set_at (i : nat) (x : list Z) (l : list (list Z)) : list (list Z) :=
  match i, l with
  | _, [] => []
  | O, _ :: l => x :: l
  | S i, y :: l => y :: set_at i x l
  end.
(** mysql_check_table_future.cpp:267-271 *)
Definition add_row (d : dict) (r : row) : dict :=
  let '(n, multi, col, seq) := r in
  let old := match lookup n d with Some (_, l) => l | None => [] end in
  update n (multi, set_at (seq - 1) col (resize (Nat.max (length old) seq) old)) d.
(** mysql_check_table_future.cpp:266-272 *)
Definition read_indexes (rs : list row) : dict := fold_left add_row rs [].

(** Names of columns are compared without regard to case. mysql_check_table_future.cpp:542-547 *)
Fixpoint same_columns (a b : list (list Z)) : bool :=
  match a, b with
  | [], [] => true
  | x :: a, y :: b => equals y x && same_columns a b
  | _, _ => false
  end.

(** One trip of the loop over indexes.
    poseidon/src/fiber/mysql_check_table_future.cpp:511-573 *)
Definition check_index (d : dict) (i : index) : list clause :=
  match lookup (i_name i) d with
  | None => match i_type i with I_dropped => [] | _ => [Add_index (index_definition i)] end
  | Some (multi, cols) =>
    let name := if equals (i_name i) primary then primary else i_name i in
    match i_type i with
    | I_dropped => [Drop_index name]
    | t =>
      if Bool.eqb multi (match t with I_multi => true | _ => false end) && same_columns cols (i_columns i) then []
      else [Drop_index name; Add_index (index_definition i)]
    end
  end.

(** The loop of mysql_check_table_future.cpp:280-509, which an exception ends *)
Fixpoint gather {A} (f : A -> result (list clause)) (l : list A) : result (list clause) :=
  match l with
  | [] => Ok []
  | x :: l => match f x with
              | Ok a => match gather f l with Ok b => Ok (a ++ b) | e => e end
              | e => e
              end
  end.

(** The statement that alters the table.
    poseidon/src/fiber/mysql_check_table_future.cpp:274-573 *)
Definition clauses (r : request) (t : table) : result (list clause) :=
  match gather (check_column (t_cols t)) (columns r) with
  | Ok a => Ok (a ++ flat_map (check_index (read_indexes (flat_map rows_of (t_idxs t)))) (indexes r))
  | e => e
  end.

(** The statement that creates the table.
    poseidon/src/fiber/mysql_check_table_future.cpp:178-209 *)
Definition creation (r : request) : list clause :=
  map (fun c => Add_column (column_definition c)) (filter (fun c => match c_type c with Dropped => false | _ => true end) (columns r))
  ++ map (fun i => Add_index (index_definition i)) (filter (fun i => match i_type i with I_dropped => false | _ => true end) (indexes r)).

Variable widths : bool.
Variable real_text : Z -> list Z.

(** [do_on_abstract_future_initialize]. The result is the table, and whether it
    has been altered. It is an error if the server rejects a statement.
    poseidon/src/fiber/mysql_check_table_future.cpp:172-581 *)
Definition check (r : request) (old : option table) : result (table * bool) :=
  match (match old with Some t => Some t | None => alter widths real_text off (creation r) (mkTable [] []) end) with
  | None => Error
  | Some t =>
    match clauses r t with
    | Ok [] => Ok (t, false)
    | Ok cls => match alter widths real_text off cls t with Some t => Ok (t, true) | None => Error end
    | Error => Error
    | Undef => Undef
    end
  end.
End check.
Arguments Ok {A} x.
Arguments Error {A}.
Arguments Undef {A}.
