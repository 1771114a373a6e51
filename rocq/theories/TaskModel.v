(** Model of the task scheduler: /repo/poseidon/src/static/task_scheduler.cpp and
    /repo/poseidon/base/abstract_task.hpp.  Any number of threads run
    [thread_loop] (main.cpp starts five), and any thread can launch a task. *)
From Coq Require Import ZArith List Lia Bool.
Import ListNotations.

(** An element of a queue.  [j_task] is the task; the others are ghosts: the
    number of the [launch] call, and how many times the two queues had been
    swapped when it was made. task_scheduler.cpp:32, 56 *)
Record job := mkJ { j_no : nat; j_task : nat; j_batch : nat }.

(** [m_queue_front] and [m_queue_back]; the worker that holds the queue mutex
    while it waits for the mutex of a task (task_scheduler.cpp:37), with the task
    it has taken; the workers that are executing, with their tasks; the tasks
    which have been abandoned; and as ghosts, the jobs whose execution has
    finished, the jobs which were dropped because their task was abandoned, the
    jobs in the order in which they were taken off the queue, the jobs in the
    order in which their execution began, all jobs launched, and the number of
    swaps. *)
Record st := mkS {
  front : list job; back : list job; locker : option (nat * job); running : list (nat * job);
  gone : list nat; finished : list job; dropped : list job;
  taken : list job; begun : list job; launched : list job; swaps : nat }.

(** task_scheduler.cpp:10-14 *)
Definition init : st := mkS [] [] None [] [] [] [] [] [] [] 0.

(** [Launch] is a call of [launch] with a non-null pointer; [Take] is a call of
    [thread_loop] up to task_scheduler.cpp:35; [Begin] is when the task's mutex
    has been acquired, and the queue mutex is released; [End] is the end of the
    callback and of [thread_loop]; [Abandon] is abstract_task.hpp:43-46. *)
Inductive event := Launch (task : nat) | Take (w : nat) | Begin (w : nat) | End (w : nat) | Abandon (task : nat).

(** [back()] and [pop_back()]. task_scheduler.cpp:32-33 *)
Fixpoint pop_back {A} (l : list A) : option (list A * A) :=
  match l with
  | [] => None
  | x :: l =>
      match pop_back l with
      | Some (l', y) => Some (x :: l', y)
      | None => Some ([], x)
      end
  end.

(** task_scheduler.cpp:34 *)
Definition is_gone (s : st) (t : nat) : bool := existsb (Nat.eqb t) (gone s).
(** Not in the code: a thread runs task_scheduler.cpp:21-45 once at a time. *)
Definition busy (s : st) (w : nat) : bool := existsb (fun r => Nat.eqb (fst r) w) (running s).
(** The mutex [m_sched_mutex] of the task is held. task_scheduler.cpp:37 *)
Definition held (s : st) (t : nat) : bool := existsb (fun r => Nat.eqb (j_task (snd r)) t) (running s).

(** task_scheduler.cpp:47-58 [launch].  It needs the queue mutex. *)
Definition launch (s : st) (t : nat) : option st :=
  match locker s with
  | Some _ => None
  | None =>
      let j := mkJ (length (launched s)) t (swaps s) in
      Some (mkS (front s) (back s ++ [j]) None (running s) (gone s) (finished s) (dropped s) (taken s) (begun s)
                (launched s ++ [j]) (swaps s))
  end.

(** task_scheduler.cpp:25-35.  The wait at line 26 does nothing while both queues
    are empty. *)
Definition take (s : st) (w : nat) : option st :=
  match locker s with
  | Some _ => None
  | None =>
      if busy s w then None
      else
        let swapped := match front s with [] => true | _ => false end in
        let '(f, b, k) := if swapped then (back s, front s, S (swaps s)) else (front s, back s, swaps s) in
        match pop_back f with
        | None => None
        | Some (f, j) =>
            if is_gone s (j_task j)
            then Some (mkS f b None (running s) (gone s) (finished s) (dropped s ++ [j]) (taken s ++ [j]) (begun s) (launched s) k)
            else Some (mkS f b (Some (w, j)) (running s) (gone s) (finished s) (dropped s) (taken s ++ [j]) (begun s) (launched s) k)
        end
  end.

(** task_scheduler.cpp:37-39, when the task's mutex is free.  The worker is not
    executing anything, so that it cannot hold it itself. *)
Definition begin_ (s : st) (w : nat) : option st :=
  match locker s with
  | None => None
  | Some (v, j) =>
      if negb (Nat.eqb v w) then None
      else if held s (j_task j) then None
      else Some (mkS (front s) (back s) None ((w, j) :: running s) (gone s) (finished s) (dropped s) (taken s)
                     (begun s ++ [j]) (launched s) (swaps s))
  end.

(** task_scheduler.cpp:43-45.  Exceptions are swallowed. *)
Fixpoint remove_worker (w : nat) (l : list (nat * job)) : option (job * list (nat * job)) :=
  match l with
  | [] => None
  | (v, j) :: l =>
      if Nat.eqb v w then Some (j, l)
      else match remove_worker w l with Some (k, l') => Some (k, (v, j) :: l') | None => None end
  end.
(** task_scheduler.cpp:43-45 *)
Definition end_ (s : st) (w : nat) : option st :=
  match remove_worker w (running s) with
  | None => None
  | Some (j, l) => Some (mkS (front s) (back s) (locker s) l (gone s) (finished s ++ [j]) (dropped s) (taken s) (begun s) (launched s) (swaps s))
  end.

(** abstract_task.hpp:43-46 *)
Definition abandon (s : st) (t : nat) : st :=
  mkS (front s) (back s) (locker s) (running s) (t :: gone s) (finished s) (dropped s) (taken s) (begun s) (launched s) (swaps s).

(** One event; [None] if it cannot happen in this state. task_scheduler.cpp:21-58 *)
Definition step (s : st) (e : event) : option st :=
  match e with
  | Launch t => launch s t
  | Take w => take s w
  | Begin w => begin_ s w
  | End w => end_ s w
  | Abandon t => Some (abandon s t)
  end.

(** Any number of events; task_scheduler.cpp:21-58. *)
Fixpoint run (s : st) (es : list event) : option st :=
  match es with
  | [] => Some s
  | e :: es => match step s e with Some s' => run s' es | None => None end
  end.
