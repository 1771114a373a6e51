(** Model of the texts of log messages and of exceptions: /repo/poseidon/src/utils.cpp:14-106. *)
From Coq Require Import ZArith List Bool String.
From Verif Require Import Base Text AddrTextModel.
Import ListNotations.
Open Scope list_scope.
Open Scope Z_scope.
Notation length := List.length.

(** The characters that are removed. utils.cpp:28, 42 *)
Definition is_blank (c : Z) : bool := (c =? 32) || (c =? 9) || (c =? 13) || (c =? 10).
(** How many characters are kept: one more than the position of the last character that is not such a one, or none if that is
    [npos]. utils.cpp:28, 42 *)
Fixpoint kept_size (s : list Z) : nat :=
  match s with
  | [] => 0
  | c :: r => match kept_size r with O => if is_blank c then 0 else 1 | S n => S (S n) end
  end.
(** [sbuf.erase(sbuf.find_last_not_of(" \t\r\n") + 1)]. utils.cpp:28, 42 *)
Definition erase_end (s : list Z) : list Z := firstn (kept_size s) s.

(** [do_push_log_message]: what is passed to [logger.enqueue]. utils.cpp:21-33 *)
Definition log_message (composed : list Z) : list Z := erase_end composed.

(** A frame of a stack: the instruction pointer; and, if [unw_get_proc_name] succeeds, a name and an offset. utils.cpp:81-99 *)
Record frame := mkFrame { ip : Z; symbol : option (list Z * Z) }.

Section Throw.
  (** [asteria::ascii_numput::put_XU] (external): a hexadecimal number. utils.cpp:82, 95 *)
  Variable put_xu : Z -> list Z.

  (** [reverse_copy(nump.begin(), nump.end(), numfield.mut_rbegin())]: the last characters of the field are replaced.  [None]: they
      are more than the field has. utils.cpp:73-74 *)
  Definition put_end (field num : list Z) : option (list Z) :=
    if (length field <? length num)%nat then None
    else Some (firstn (length field - length num) field ++ num).

  (** utils.cpp:79-99 *)
  Definition frame_text (f : frame) : list Z :=
    put_xu (ip f)
    ++ match symbol f with
       | None => txt " (unknown)"
       | Some (name, offset) => txt " `" ++ name ++ txt "`" ++ (if 0 <? offset then txt "+" ++ put_xu offset else [])
       end.

  (** The loop: [n] frames have been written, and [field] is what [numfield] contains. [None] is undefined. utils.cpp:68-100 *)
  Fixpoint frames_text (n : Z) (field : list Z) (fs : list frame) : option (list Z) :=
    match fs with
    | [] => Some []
    | f :: r =>
        match put_end field (put_du 20 (n + 1)) with
        | None => None
        | Some field =>
            match frames_text (n + 1) field r with
            | None => None
            | Some t => Some (10 :: txt "  " ++ field ++ txt ") " ++ frame_text f ++ t)
            end
        end
    end.

  (** What becomes of [do_create_runtime_error]: the exception with its text, another exception
      (a [static_vector<char, 8>] cannot have more than 8 elements), or undefined behavior. What utils.cpp:68-106 returns, or the exception that it ends with. *)
  Inductive made := Made (what : list Z) | Length_error | Undefined.

  (** [do_create_runtime_error]; [stack] is what libunwind says, if it says anything. utils.cpp:35-106 *)
  Definition create_error (func file : list Z) (line : Z) (composed : list Z) (stack : option (list frame)) : made :=
    let sbuf := erase_end composed ++ [10] ++ txt "[thrown from function `" ++ func ++ txt "` at '" ++ file ++ txt ":" ++ put_du 20 line ++ txt "']" in
    match stack with
    | None => Made sbuf
    | Some fs =>
        let width := length (put_du 20 (Z.of_nat (length fs))) in
        if (8 <? width)%nat then Length_error
        else match frames_text 0 (repeat 32 width) fs with
             | None => Undefined
             | Some t => Made (sbuf ++ [10] ++ txt "[stack backtrace:" ++ t ++ [10] ++ txt "  -- end of stack backtrace]")
             end
    end.
End Throw.
