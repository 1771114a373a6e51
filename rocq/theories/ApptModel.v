(** Model of appointments: numbers that are allocated to processes by locking
    a byte of a file.

    poseidon/src/base/appointment.cpp *)
From Coq Require Import List ZArith Bool.
Import ListNotations.
Open Scope list_scope.
Open Scope Z_scope.

(** An [Appointment] is not enrolled, or inside [enroll()], where it is about to
    try the byte [l_start], or enrolled. The first number is the open file
    description: locks belong to it, and not to the process, because of
    [F_OFD_SETLK]. appointment.cpp:21-53; [m_fd] and [m_index] of appointment.hpp *)
Inductive status :=
  | Idle
  | Scanning (fd : nat) (l_start : Z)
  | Held (fd : nat) (l_start : Z).

(** The locks on the file belong to the system. Every [open()] makes a new open
    file description. What appointment.cpp:30 and 41 act upon *)
Record state := mkState {
  locks : list (nat * Z);
  next_fd : nat;
  appt : nat -> status }.

(** Appointments without a file (appointment.hpp, the default constructor); appointment.cpp:10-14 is this followed by [Enroll] *)
Definition init : state := mkState [] 0 (fun _ => Idle).

(** Assignment to one appointment, appointment.cpp:25-26, 51-52, 60-61 *)
Definition set (st : nat -> status) (a : nat) (x : status) : nat -> status :=
  fun b => if (b =? a)%nat then x else st b.

(** Closing a file description releases its locks. It is not shared with
    another process: the flag [O_CLOEXEC] closes it in programs that are
    executed, and a process that merely forks is not modelled. [m_fd.reset()] at appointment.cpp:25 and 60, and the destructors at appointment.cpp:16-19 and of [fd] at 29 *)
Definition close (x : status) (l : list (nat * Z)) : list (nat * Z) :=
  match x with
  | Idle => l
  | Scanning fd _ | Held fd _ => filter (fun e => negb (fst e =? fd)%nat) l
  end.

(** [F_OFD_SETLK] fails with [EAGAIN] if another description holds the byte. appointment.cpp:38-42 *)
Definition locked (fd : nat) (k : Z) (l : list (nat * Z)) : bool :=
  existsb (fun e => negb (fst e =? fd)%nat && (snd e =? k)) l.

(** The parts of appointment.cpp:21-62 between which other processes may act *)
Inductive event :=
  | Enroll (a : nat)
  | Try (a : nat)
  | Fail (a : nat)
  | Withdraw (a : nat)
  | Die (p : nat).

Section machine.
(** The process where an appointment is, and the appointments of a process. *)
Variable of_process : nat -> list nat.

(** The end of a process closes all descriptions that it has. Applies [m_fd]'s destructor, appointment.cpp:16-19, to each *)
Definition close_all (st : nat -> status) (l : list nat) (ls : list (nat * Z)) : list (nat * Z) :=
  fold_left (fun ls a => close (st a) ls) l ls.
(** After that no appointment of the process is enrolled (appointment.cpp:16-19) *)
Definition set_all (st : nat -> status) (l : list nat) : nat -> status :=
  fun b => if existsb (Nat.eqb b) l then Idle else st b.

(** [enroll], until the file is open; each trip of its loop; other errors, which
    are thrown; [withdraw] and the destructor. Functions are not called while
    another one on the same appointment is running.
    poseidon/src/base/appointment.cpp:21-62 *)
Definition step (s : state) (e : event) : option state :=
  match e with
  | Enroll a =>
    match appt s a with
    | Scanning _ _ => None
    | x => Some (mkState (close x (locks s)) (S (next_fd s)) (set (appt s) a (Scanning (next_fd s) 0)))
    end
  | Try a =>
    match appt s a with
    | Scanning fd k =>
      if locked fd k (locks s) then Some (mkState (locks s) (next_fd s) (set (appt s) a (Scanning fd (k + 1))))
      else Some (mkState ((fd, k) :: locks s) (next_fd s) (set (appt s) a (Held fd k)))
    | _ => None
    end
  | Fail a =>
    match appt s a with
    | Scanning fd k => Some (mkState (close (Scanning fd k) (locks s)) (next_fd s) (set (appt s) a Idle))
    | _ => None
    end
  | Withdraw a =>
    match appt s a with
    | Scanning _ _ => None
    | x => Some (mkState (close x (locks s)) (next_fd s) (set (appt s) a Idle))
    end
  | Die p =>
    let l := of_process p in
    Some (mkState (close_all (appt s) l (locks s)) (next_fd s) (set_all (appt s) l))
  end.

(** Any sequence of calls of appointment.cpp:21-62 by any processes *)
Fixpoint run (s : state) (es : list event) : option state :=
  match es with
  | [] => Some s
  | e :: es => match step s e with Some s => run s es | None => None end
  end.
End machine.

(** [index()]: the position is converted to [int]; without an index it is -1.
    poseidon/base/appointment.hpp, poseidon/src/base/appointment.cpp:52 *)
Definition index (s : state) (a : nat) : Z :=
  match appt s a with
  | Held _ k => let y := k mod 2 ^ 32 in if y <? 2 ^ 31 then y else y - 2 ^ 32
  | _ => -1
  end.
