(** Model of the logger: /repo/poseidon/src/static/logger.cpp.  The first part is
    the text of one message ([do_write_nothrow]); the second part is the queue
    ([enqueue], [thread_loop], [synchronize], [reload]). *)
From Coq Require Import ZArith List Lia Bool.
Import ListNotations.
Open Scope Z_scope.

(** * The text of a message *)

(** logger.cpp:33 [NEL_HT_]: ESC, 'E', TAB *)
Definition nel_ht : list Z := [27; 69; 9].

(** An upper-case hexadecimal digit. logger.cpp:35-69 *)
Definition hexd (v : Z) : Z := if v <? 10 then 48 + v else 55 + v.
(** A backslash, 'x' and two digits. logger.cpp:35-69 *)
Definition bs_x (c : Z) : list Z := [92; 120; hexd (c / 16); hexd (c mod 16)].

(** logger.cpp:35-69 [s_escapes] *)
Definition s_escapes (c : Z) : list Z :=
  if c =? 0 then [92; 48]
  else if c =? 7 then [92; 97]
  else if c =? 8 then [92; 98]
  else if c =? 9 then [9]
  else if c =? 10 then nel_ht
  else if c =? 11 then [92; 118]
  else if c =? 12 then [92; 102]
  else if c =? 13 then [92; 114]
  else if c <? 32 then bs_x c
  else if c =? 127 then bs_x c
  else if (c =? 192) || (c =? 193) || (245 <=? c) then bs_x c
  else [c].

(** logger.cpp:71-82 [do_color] *)
Definition do_color (color code : list Z) : list Z :=
  match color with
  | [] => []
  | _ => 27 :: 91 :: code ++ [109]
  end.

(** logger.cpp:130-145: one byte of the message *)
Definition put_byte (color : list Z) (c : Z) : list Z :=
  let seq := s_escapes c in
  if negb (hd 0 seq =? 92) then seq
  else match seq with
       | [x] => [x]
       | _ => do_color color [55] ++ seq ++ do_color color [50; 55]
       end.
(** logger.cpp:130-145 *)
Definition put_text (color text : list Z) : list Z := flat_map (put_byte color) text.

(** logger.cpp:147-149: remove spaces from the end *)
Definition is_space (c : Z) : bool := (c =? 32) || (c =? 9) || (c =? 13) || (c =? 10).
(** logger.cpp:147-149 *)
Fixpoint ltrim_rev (l : list Z) : list Z :=
  match l with
  | c :: l' => if is_space c then ltrim_rev l' else l
  | [] => []
  end.
(** logger.cpp:147-149 *)
Definition rtrim (l : list Z) : list Z := rev (ltrim_rev (rev l)).

(** Decimal digits, padded with zeroes to the width [w]: [put_DU] followed by
    taking [w] characters.  The values fit into the width (a year has four
    digits). logger.cpp:100-119 *)
Fixpoint digits (w : nat) (v : Z) : list Z :=
  match w with
  | O => []
  | S w => digits w (v / 10) ++ [48 + v mod 10]
  end.

(** The parts of a message that are not its text: the time, the tag, the decimal
    thread number and line number as text, the thread name, the function and the file. logger.cpp:22-31, 92-96, 122 *)
Record meta := mkM {
  year : Z; mon : Z; day : Z; hour : Z; minute : Z; sec : Z; nsec : Z;
  tag : list Z; lwpid : list Z; thrd : list Z; func : list Z; file : list Z; line : list Z }.

(** logger.cpp:98-128 *)
Definition put_head (color : list Z) (m : meta) : list Z :=
  do_color color color ++ digits 4 (year m) ++ [45] ++ digits 2 (mon m) ++ [45] ++ digits 2 (day m) ++ [32]
  ++ digits 2 (hour m) ++ [58] ++ digits 2 (minute m) ++ [58] ++ digits 2 (sec m) ++ [46] ++ digits 9 (nsec m) ++ [32]
  ++ do_color color [50; 50; 59; 55] ++ tag m ++ do_color color [48] ++ [32]
  ++ do_color color [48] ++ do_color color color.

(** logger.cpp:155-178: "@@ thread ", " [", "] ", "inside function `", "` at '",
    ":", "'" and the end, from which the TAB is removed again. *)
Definition put_tail (color : list Z) (m : meta) : list Z :=
  do_color color [57; 48] ++ [64; 64; 32; 116; 104; 114; 101; 97; 100; 32] ++ lwpid m ++ [32; 91] ++ thrd m ++ [93; 32]
  ++ do_color color [51; 52] ++ [105; 110; 115; 105; 100; 101; 32; 102; 117; 110; 99; 116; 105; 111; 110; 32; 96] ++ func m
  ++ [96; 32; 97; 116; 32; 39] ++ file m ++ [58] ++ line m ++ [39] ++ firstn 2 nel_ht
  ++ do_color color [48] ++ [10].

(** logger.cpp:84-178 [do_write_nothrow]: what is written to each file *)
Definition record_text (color : list Z) (m : meta) (text : list Z) : list Z :=
  rtrim (put_head color m ++ put_text color text) ++ do_color color [48] ++ nel_ht ++ put_tail color m.

(** * The queue *)

(** logger.cpp:22-31 [Message]; [m_no] is a ghost, the number of the [enqueue]
    call.  [m_text] stands for all that is written. *)
Record msg := mkMsg { m_no : nat; m_level : nat; m_text : list Z }.

(** logger.cpp:14-20 [Level_Config], without the colour and the tag *)
Record level := mkL { expendable : bool; files : list (list Z) }.

(** Which function writes: [thread_loop] or [synchronize]. logger.cpp:270-302, 327-356 *)
Inductive kind := ByLoop | BySync.

(** What became of a message: it was written to some files, or skipped.  The
    ghosts are who did it, the size of the batch and the configuration used. logger.cpp:289-296, 347-350 *)
Record fate := mkF { f_msg : msg; f_kind : kind; f_batch : nat; f_conf : list level; f_out : option (list (list Z)) }.

(** The thread which holds [m_sched_mutex]: its kind, the rest of
    [m_sched_queue], the size of the batch, the copy of the configuration, and,
    as a ghost, how many messages had been enqueued when it began. logger.cpp:274-287, 333-345 *)
Record writer := mkW { w_kind : kind; w_todo : list msg; w_batch : nat; w_conf : list level; w_seen : nat }.

(** [m_queue], the writer, [m_conf_levels]; as ghosts, what was done in order,
    how many messages were enqueued, and for each finished synchronization how
    many messages had been enqueued when it took the lock. logger.cpp:224-356 *)
Record st := mkS {
  queue : list msg; writing : option writer; conf : list level;
  done : list fate; enqueued : nat; synced : list nat }.

(** logger.cpp:213-217, with the configuration that [reload] sets before any thread is started. *)
Definition init (conf : list level) : st := mkS [] None conf [] 0 [].

(** [Enqueue] is logger.cpp:304-325.  [TakeLoop] and [TakeSync] are
    logger.cpp:274-287 and 333-345; [WriteOne] is one turn of the loop at
    logger.cpp:290 or 348; [Finish] is what follows it; [Reload] is
    logger.cpp:224-268, which holds [m_sched_mutex] too.  A thread which waits
    for [m_sched_mutex] keeps [m_queue_mutex], so that others cannot enqueue
    meanwhile; the model leaves this out and allows them to. *)
Inductive event :=
| Enqueue (level : nat) (text : list Z)
| TakeLoop | TakeSync | WriteOne | Finish
| Reload (conf : list level).

(** logger.cpp:304-325 *)
Definition enqueue (s : st) (l : nat) (t : list Z) : st :=
  mkS (queue s ++ [mkMsg (enqueued s) l t]) (writing s) (conf s) (done s) (S (enqueued s)) (synced s).

(** logger.cpp:274-287: nothing happens while the queue is empty *)
Definition take_loop (s : st) : option st :=
  match writing s, queue s with
  | None, _ :: _ =>
      Some (mkS [] (Some (mkW ByLoop (queue s) (length (queue s)) (conf s) (enqueued s))) (conf s) (done s) (enqueued s) (synced s))
  | _, _ => None
  end.

(** logger.cpp:333-345 *)
Definition take_sync (s : st) : option st :=
  match writing s, queue s with
  | Some _, _ => None
  | None, [] => Some (mkS [] None (conf s) (done s) (enqueued s) (synced s ++ [enqueued s]))
  | None, _ =>
      Some (mkS [] (Some (mkW BySync (queue s) (length (queue s)) (conf s) (enqueued s))) (conf s) (done s) (enqueued s) (synced s))
  end.

(** logger.cpp:290-296 and 348-350; logger.cpp:180-196 without failures: the
    message goes to each file whose name is not empty. *)
Definition decide (w : writer) (m : msg) : option (list (list Z)) :=
  match nth_error (w_conf w) (m_level m) with
  | None => None
  | Some l =>
      match w_kind w with
      | ByLoop => if (1000 <? Z.of_nat (w_batch w)) && expendable l then None
                  else Some (filter (fun f => match f with [] => false | _ => true end) (files l))
      | BySync => Some (filter (fun f => match f with [] => false | _ => true end) (files l))
      end
  end.
(** logger.cpp:290-296, 348-350 *)
Definition write_one (s : st) : option st :=
  match writing s with
  | None => None
  | Some w =>
      match w_todo w with
      | [] => None
      | m :: rest =>
          Some (mkS (queue s) (Some (mkW (w_kind w) rest (w_batch w) (w_conf w) (w_seen w))) (conf s)
                    (done s ++ [mkF m (w_kind w) (w_batch w) (w_conf w) (decide w m)]) (enqueued s) (synced s))
      end
  end.

(** logger.cpp:298-301 and 352-355 *)
Definition finish (s : st) : option st :=
  match writing s with
  | None => None
  | Some w =>
      match w_todo w with
      | _ :: _ => None
      | [] => Some (mkS (queue s) None (conf s) (done s) (enqueued s)
                        (match w_kind w with BySync => synced s ++ [w_seen w] | ByLoop => synced s end))
      end
  end.

(** logger.cpp:224-268, with the levels it has read *)
Definition reload (s : st) (c : list level) : option st :=
  match writing s with
  | Some _ => None
  | None => Some (mkS (queue s) None c (done s) (enqueued s) (synced s))
  end.

(** logger.cpp:224-356 *)
Definition step (s : st) (e : event) : option st :=
  match e with
  | Enqueue l t => Some (enqueue s l t)
  | TakeLoop => take_loop s
  | TakeSync => take_sync s
  | WriteOne => write_one s
  | Finish => finish s
  | Reload c => reload s c
  end.

(** Any number of events; logger.cpp:224-356. *)
Fixpoint run (s : st) (es : list event) : option st :=
  match es with
  | [] => Some s
  | e :: es => match step s e with Some s' => run s' es | None => None end
  end.
