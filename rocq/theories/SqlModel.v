(** Model of the texts of the statements that check a MySQL table.

    poseidon/src/fiber/mysql_check_table_future.cpp

    Which clauses there are is modelled in CktModel; this is about how they are
    written. Values outside the enumerations, for which an exception is thrown
    (55, 87, 128), are not represented. *)
From Coq Require Import List ZArith Bool.
From Coq Require Import String.
From Verif Require Import Base Text HnameModel MysqlModel CktModel.
Import ListNotations.
Open Scope list_scope.
Open Scope Z_scope.
Notation length := List.length.

(** A line break, which the literals of mysql_check_table_future.cpp:181-203, 276, 499, 555, 570 have *)
Definition newline : list Z := [10].

Section text.
(** The text of a double, which is printed by asteria; [None] for NaN. *)
Variable double_text : Z -> option (list Z).
(** The offset of the local time zone. *)
Variable off : Z -> Z.
Notation print := (print double_text off).

(** The switch of [do_append_column_definition]. It is not called for columns to drop.
    poseidon/src/fiber/mysql_check_table_future.cpp:18-56 *)
Definition type_text (t : ctype) : list Z :=
  match t with
  | Dropped => []
  | Varchar => txt "varchar(255)"
  | Boolean => txt "tinyint"
  | Integer => txt "int"
  | Integer64 => txt "bigint"
  | Real => txt "double"
  | Bytes => txt "longblob"
  | Moment => txt "datetime(6)"
  | Auto => txt "bigint AUTO_INCREMENT NOT NULL"
  end.

(** [do_append_column_definition].
    poseidon/src/fiber/mysql_check_table_future.cpp:13-67 *)
Definition column_text (c : column) : list Z :=
  txt "`" ++ c_name c ++ txt "` " ++ type_text (c_type c) ++
  match c_type c with
  | Auto => []
  | _ =>
    (if c_null c then [] else txt " NOT NULL") ++
    (if is_null (c_default c) then [] else txt " DEFAULT " ++ print (c_default c))
  end.

(** The loop over the columns of an index; [n] is [ncolumns].
    poseidon/src/fiber/mysql_check_table_future.cpp:95-99 *)
Fixpoint index_columns (n : nat) (l : list (list Z)) : list Z :=
  match l with
  | [] => []
  | c :: l => (if Nat.eqb (S n) 1 then [] else txt ", ") ++ txt "`" ++ c ++ txt "`" ++ index_columns (S n) l
  end.

(** [do_append_index_definition].
    poseidon/src/fiber/mysql_check_table_future.cpp:69-102 *)
Definition index_text (i : index) : list Z :=
  (if equals (i_name i) primary then txt "PRIMARY KEY"
   else match i_type i with
        | I_multi => txt "INDEX `" ++ i_name i ++ txt "`"
        | _ => txt "UNIQUE INDEX `" ++ i_name i ++ txt "`"
        end)
  ++ txt " (" ++ index_columns 0 (i_columns i) ++ txt ")".

(** poseidon/mysql/enums.hpp:30-36 *)
Inductive engine := Innodb | Myisam | Memory | Archive.
(** [do_append_engine].
    poseidon/src/fiber/mysql_check_table_future.cpp:104-132 *)
Definition engine_text (e : engine) : list Z :=
  txt "ENGINE = '" ++
  match e with
  | Innodb => txt "InnoDB"
  | Myisam => txt "MyISAM"
  | Memory => txt "MEMORY"
  | Archive => txt "ARCHIVE"
  end ++ txt "'".

(** The loop over columns; [n] is [ncolumns].
    poseidon/src/fiber/mysql_check_table_future.cpp:184-189 *)
Fixpoint create_columns (n : nat) (l : list column) : list Z :=
  match l with
  | [] => []
  | c :: l =>
    match c_type c with
    | Dropped => create_columns n l
    | _ => (if Nat.eqb (S n) 1 then [] else txt "," ++ newline ++ txt "   ") ++ column_text c ++ create_columns (S n) l
    end
  end.

(** The loop over indexes.
    poseidon/src/fiber/mysql_check_table_future.cpp:191-195 *)
Definition create_indexes (l : list index) : list Z :=
  flat_map (fun i => match i_type i with I_dropped => [] | _ => txt "," ++ newline ++ txt "   " ++ index_text i end) l.

(** The loop for the first values of auto-increment columns.
    poseidon/src/fiber/mysql_check_table_future.cpp:201-203 *)
Definition create_first (l : list column) : list Z :=
  flat_map (fun c => match c_type c with
    | Auto => if is_null (c_default c) then [] else txt "," ++ newline ++ txt "  AUTO_INCREMENT = " ++ print (c_default c)
    | _ => []
    end) l.

(** The first statement.
    poseidon/src/fiber/mysql_check_table_future.cpp:180-203 *)
Definition create_text (name : list Z) (e : engine) (r : request) : list Z :=
  txt "CREATE TABLE IF NOT EXISTS `" ++ name ++ txt "`" ++ newline ++ txt "  (" ++
  create_columns 0 (columns r) ++ create_indexes (indexes r) ++ txt ")" ++ newline ++ txt "  " ++
  engine_text e ++ txt "," ++ newline ++ txt "  CHARSET = 'utf8mb4'" ++ create_first (columns r).

(** The two queries. mysql_check_table_future.cpp:213-214, 246-247 *)
Definition show_columns_text (name : list Z) : list Z := txt "SHOW COLUMNS FROM `" ++ name ++ txt "`".
(** mysql_check_table_future.cpp:246-247 *)
Definition show_indexes_text (name : list Z) : list Z := txt "SHOW INDEXES FROM `" ++ name ++ txt "`".

(** What a trip of the loop over columns writes, if it writes anything. Which
    branch is taken is decided as in [check_column].
    poseidon/src/fiber/mysql_check_table_future.cpp:497-508 *)
Definition column_change (cl : list clause) (c : column) : option (list Z) :=
  match cl with
  | Add_column _ :: _ => Some (txt "ADD COLUMN " ++ column_text c)
  | Modify_column _ :: _ => Some (txt "MODIFY COLUMN " ++ column_text c)
  | Drop_column _ :: _ => Some (txt "DROP COLUMN `" ++ c_name c ++ txt "`")
  | _ => None
  end.

(** poseidon/src/fiber/mysql_check_table_future.cpp:563-566 *)
Definition drop_index_text (i : index) : list Z :=
  if equals (i_name i) primary then txt "DROP PRIMARY KEY" else txt "DROP INDEX `" ++ i_name i ++ txt "`".

(** The same for the loop over indexes, as decided in [check_index].
    poseidon/src/fiber/mysql_check_table_future.cpp:553-572 *)
Definition index_change (cl : list clause) (i : index) : option (list Z) :=
  match cl with
  | [Add_index _] => Some (txt "ADD " ++ index_text i)
  | [Drop_index _] => Some (drop_index_text i)
  | Drop_index _ :: _ => Some (drop_index_text i ++ txt "," ++ newline ++ txt "   ADD " ++ index_text i)
  | _ => None
  end.

(** Both loops; [n] is [field_count]. mysql_check_table_future.cpp:498-499, 554-555 *)
Fixpoint changes (n : nat) (l : list (option (list Z))) : list Z :=
  match l with
  | [] => []
  | None :: l => changes n l
  | Some t :: l => (if Nat.eqb (S n) 1 then [] else txt "," ++ newline ++ txt "  ") ++ t ++ changes (S n) l
  end.

Variable get_int : list Z -> option Z.
Variable get_real : list Z -> option Z.

(** The loop over columns, which an exception ends. mysql_check_table_future.cpp:280-509 *)
Fixpoint column_changes (cs : list scol) (l : list column) : result (list (option (list Z))) :=
  match l with
  | [] => Ok []
  | c :: l =>
    match check_column get_int get_real off cs c with
    | Ok cl => match column_changes cs l with Ok b => Ok (column_change cl c :: b) | e => e end
    | Error => Error
    | Undef => Undef
    end
  end.

(** The statement that alters the table; [None] if there is nothing to change.
    poseidon/src/fiber/mysql_check_table_future.cpp:274-579 *)
Definition alter_text (name : list Z) (r : request) (t : table) : result (option (list Z)) :=
  match column_changes (t_cols t) (columns r) with
  | Ok a =>
    let b := map (fun i => index_change (check_index (read_indexes (flat_map rows_of (t_idxs t))) i) i) (indexes r) in
    Ok (if existsb (fun x => match x with Some _ => true | None => false end) (a ++ b)
        then Some (txt "ALTER TABLE `" ++ name ++ txt "`" ++ newline ++ txt "  " ++ changes 0 (a ++ b))
        else None)
  | Error => Error
  | Undef => Undef
  end.
End text.
