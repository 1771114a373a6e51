(** Model of one future: /repo/poseidon/src/fiber/abstract_future.cpp and
    /repo/poseidon/fiber/abstract_future.hpp, with the registration done by
    [do_fiber_yield_function] (/repo/poseidon/src/static/fiber_scheduler.cpp:212-221).
    Any number of threads call it at the same time. *)
From Coq Require Import ZArith List Lia Bool.
Import ListNotations.
Open Scope Z_scope.

(** How the callback [do_on_abstract_future_initialize] ends: it returns, it
    throws something derived from [std::exception], or it throws something else
    (which the handler at abstract_future.cpp:39 does not catch). *)
Inductive outcome := Returns | Throws (e : Z) | ThrowsForeign.

(** What can be seen: the initialization callback begins in a thread, a fiber's
    wait ends at once because the future is ready, a waiting fiber is notified,
    the finalization callback runs. abstract_future.cpp:37, 51-58; fiber_scheduler.cpp:216 *)
Inductive obs := InitBegins (t : nat) | AlreadyReady (w : nat) | Notified (w : nat) | Finalizes (t : nat).

(** [m_init], [m_init_except], the thread which holds [m_init_mutex] while it
    runs the callback, [m_waiters], the waiters that each finishing thread is
    yet to notify, the log. abstract_future.cpp:26-59 *)
Record st := mkS {
  m_init : bool; m_except : option Z; holder : option nat; m_waiters : list nat;
  pending : list (nat * list nat); log : list obs }.

(** A new future; abstract_future.cpp:9-13. *)
Definition init : st := mkS false None None [] [] [].

(** [Enter] is a call of [do_abstract_future_initialize_once] up to the callback;
    [Leave] is the end of the callback and the rest under the mutex; [NotifyOne]
    is one turn of the loop at abstract_future.cpp:52-54; [Final] is what follows.
    [Wait] is a fiber's attempt to wait.  The mutex is not recursive: [Enter] and
    [Wait] cannot happen while it is held. *)
Inductive event := Enter (t : nat) | Leave (t : nat) (o : outcome) | NotifyOne (t : nat) | Final (t : nat) | Wait (w : nat).

(** abstract_future.cpp:30-37 *)
Definition enter (s : st) (t : nat) : option st :=
  match holder s with
  | Some _ => None
  | None =>
      if m_init s then Some s
      else Some (mkS (m_init s) (m_except s) (Some t) (m_waiters s) (pending s) (log s ++ [InitBegins t]))
  end.

(** abstract_future.cpp:38-49.  An exception which is not caught unlocks the
    mutex and leaves the function. *)
Definition leave (s : st) (t : nat) (o : outcome) : option st :=
  match holder s with
  | None => None
  | Some h =>
      if negb (Nat.eqb h t) then None
      else
        match o with
        | ThrowsForeign => Some (mkS (m_init s) (m_except s) None (m_waiters s) (pending s) (log s))
        | _ =>
            let ex := match o with Throws e => Some e | _ => m_except s end in
            Some (mkS true ex None [] (pending s ++ [(t, m_waiters s)]) (log s))
        end
  end.

(** abstract_future.cpp:51-54 for the first entry of the thread. *)
Fixpoint pop_pending (t : nat) (l : list (nat * list nat)) : option (nat * list (nat * list nat)) :=
  match l with
  | [] => None
  | (u, ws) :: l =>
      if Nat.eqb u t then match ws with w :: ws => Some (w, (u, ws) :: l) | [] => None end
      else match pop_pending t l with Some (w, l') => Some (w, (u, ws) :: l') | None => None end
  end.
(** abstract_future.cpp:51-54 *)
Definition notify_one (s : st) (t : nat) : option st :=
  match pop_pending t (pending s) with
  | None => None
  | Some (w, l) => Some (mkS (m_init s) (m_except s) (holder s) (m_waiters s) l (log s ++ [Notified w]))
  end.

(** abstract_future.cpp:56-58 *)
Fixpoint drop_pending (t : nat) (l : list (nat * list nat)) : option (list (nat * list nat)) :=
  match l with
  | [] => None
  | (u, ws) :: l =>
      if Nat.eqb u t then match ws with [] => Some l | _ => None end
      else match drop_pending t l with Some l' => Some ((u, ws) :: l') | None => None end
  end.
(** abstract_future.cpp:56-58 *)
Definition final (s : st) (t : nat) : option st :=
  match drop_pending t (pending s) with
  | None => None
  | Some l => Some (mkS (m_init s) (m_except s) (holder s) (m_waiters s) l (log s ++ [Finalizes t]))
  end.

(** fiber_scheduler.cpp:212-221 *)
Definition wait (s : st) (w : nat) : option st :=
  match holder s with
  | Some _ => None
  | None =>
      if m_init s then Some (mkS (m_init s) (m_except s) (holder s) (m_waiters s) (pending s) (log s ++ [AlreadyReady w]))
      else Some (mkS (m_init s) (m_except s) (holder s) (m_waiters s ++ [w]) (pending s) (log s))
  end.

(** abstract_future.cpp:26-59; fiber_scheduler.cpp:212-221 *)
Definition step (s : st) (e : event) : option st :=
  match e with
  | Enter t => enter s t
  | Leave t o => leave s t o
  | NotifyOne t => notify_one s t
  | Final t => final s t
  | Wait w => wait s w
  end.

(** Any number of events; abstract_future.cpp:26-59. *)
Fixpoint run (s : st) (es : list event) : option st :=
  match es with
  | [] => Some s
  | e :: es => match step s e with Some s' => run s' es | None => None end
  end.

(** The result of a check. abstract_future.cpp:61-74 *)
Inductive check := Fine | NotReady | Rethrown (e : Z).

(** abstract_future.cpp:61-74 [do_abstract_future_check_success] *)
Definition do_check_success (s : st) : check :=
  if negb (m_init s) then NotReady
  else match m_except s with Some e => Rethrown e | None => Fine end.

(** abstract_future.hpp:74-82 [check_success].  The flag is read in state [s1];
    the other function is called in a later state [s2]. *)
Definition check_success (s1 s2 : st) : check :=
  if negb (m_init s1) then do_check_success s2 else Fine.

(** abstract_future.hpp:62-72 *)
Definition initialized (s : st) : bool := m_init s.
(** abstract_future.hpp:62-72 *)
Definition successful (s : st) : bool := m_init s && match m_except s with Some _ => false | None => true end.
