(** What a log record may contain, and how a reader undoes the escaping. *)
From Coq Require Import ZArith List.
From Verif Require Import LogModel.
Import ListNotations.
Open Scope Z_scope.

(** ASCII control characters. *)
Definition control (c : Z) : Prop := 0 <= c < 32 \/ c = 127.

Definition occurrences (c : Z) (l : list Z) : nat := count_occ Z.eq_dec l c.

(** A reader of a log without colours: ESC 'E' TAB is a line break within a
    message, and a backslash begins an escape sequence. *)
Definition unhex (c : Z) : Z := if c <? 58 then c - 48 else c - 55.
Fixpoint unescape (l : list Z) : list Z :=
  match l with
  | 27 :: 69 :: 9 :: l => 10 :: unescape l
  | 92 :: 48 :: l => 0 :: unescape l
  | 92 :: 97 :: l => 7 :: unescape l
  | 92 :: 98 :: l => 8 :: unescape l
  | 92 :: 118 :: l => 11 :: unescape l
  | 92 :: 102 :: l => 12 :: unescape l
  | 92 :: 114 :: l => 13 :: unescape l
  | 92 :: 120 :: a :: b :: l => unhex a * 16 + unhex b :: unescape l
  | c :: l => c :: unescape l
  | [] => []
  end.

(** The texts that were enqueued, in order, with their levels. *)
Fixpoint enqueues (es : list event) : list (nat * list Z) :=
  match es with
  | [] => []
  | Enqueue l t :: es => (l, t) :: enqueues es
  | _ :: es => enqueues es
  end.

(** What a file contains: the texts which were written to it and their levels, in
    order. *)
Definition contents (f : list Z) (d : list fate) : list (nat * list Z) :=
  flat_map (fun x => match f_out x with
                     | Some fs => map (fun _ => (m_level (f_msg x), m_text (f_msg x)))
                                      (filter (fun g => if list_eq_dec Z.eq_dec g f then true else false) fs)
                     | None => []
                     end) d.

Definition of_level (n : nat) (l : list (nat * list Z)) : list (nat * list Z) := filter (fun x => Nat.eqb (fst x) n) l.

(** The messages that wait to be written, in order. *)
Definition pending (s : st) : list (nat * list Z) :=
  map (fun m => (m_level m, m_text m)) (match writing s with Some w => w_todo w | None => [] end ++ queue s).
