(** Model of a stream socket: /repo/poseidon/src/socket/tcp_socket.cpp and
    /repo/poseidon/src/socket/abstract_socket.cpp.  [ssl_send], [ssl_shut_down] and
    [do_abstract_socket_on_writeable] in /repo/poseidon/src/socket/ssl_socket.cpp
    have the same structure, with [SSL_write_ex] in the place of [send].

    [m_sched_mutex] is held from the beginning to the end of each critical section;
    the first test of [tcp_send] and [tcp_shut_down], and [quick_shut_down], are
    outside.  The mutex is recursive and the network thread calls the user while it
    holds it, so the model lets other calls happen between the two parts of
    [do_abstract_socket_on_writeable]. *)
From Coq Require Import ZArith List Lia Bool.
Import ListNotations.

(** socket/enums.hpp:22-28 [Socket_State] *)
Inductive sstate := Pending | Established | Closing | Closed.
(** socket/enums.hpp:22-28 *)
Definition rank (x : sstate) : nat := match x with Pending => 0 | Established => 1 | Closing => 2 | Closed => 3 end.

(** What [send] does: it takes some of the bytes, would block, or fails. tcp_socket.cpp:129-145, 199-221 *)
Inductive out := Wrote (n : nat) | Again | Error.
(** tcp_socket.cpp:118, 131, 140, 196, 201, 216 *)
Inductive outcome := Drained | Blocked | Failed.

(** [m_state], [m_sched_write_queue]; whether the system refuses to send
    because of [shutdown] or an error; as ghosts: the bytes that the system has
    taken, the calls of [tcp_send] and the number of calls of [tcp_shut_down] that
    have passed the first test, whether the network thread is inside
    [do_abstract_socket_on_writeable], whether the system owes a writability
    notification, and the completed calls of [tcp_send] with their results. abstract_socket.hpp:17-32; tcp_socket.cpp:94-258 *)
Record st := mkS {
  state : sstate; wq : list Z; down : bool; sent : list Z;
  flight : list (list Z); shuts : nat; writing : bool; armed : bool; log : list (list Z * bool) }.

(** A socket in [insert_weak]: its first notification is owed. network_scheduler.cpp:364-375 *)
Definition init : st := mkS Pending [] false [] [] 0 false true [].

(** tcp_socket.cpp:94-149, 179-258; abstract_socket.cpp:146-154 *)
Inductive event :=
| SendBegin (data : list Z)
| SendBody (k : nat) (outs : list out)
| ShutBegin | ShutBody
| QuickDown | QuickStore
| WriteBegin | WriteAbort | WriteLoop (outs : list out).

(** tcp_socket.cpp:117-148 and 195-224: both loops, with the results of [send].
    [None] if these cannot be the results. *)
Fixpoint loop (outs : list out) (w taken : list Z) : option (list Z * list Z * outcome) :=
  match w with
  | [] => match outs with [] => Some ([], taken, Drained) | _ => None end
  | _ =>
      match outs with
      | Wrote n :: outs => if (n <=? length w)%nat then loop outs (skipn n w) (taken ++ firstn n w) else None
      | [Again] => Some (w, taken, Blocked)
      | [Error] => Some (w, taken, Failed)
      | _ => None
      end
  end.

(** The system does not send when it has been told not to. tcp_socket.cpp:129, 199 *)
Definition possible (down : bool) (outs : list out) : bool :=
  if down then match outs with [] | [Error] => true | _ => false end else true.

(** Not in the code: one of the calls of tcp_socket.cpp:179-233 goes on. *)
Fixpoint remove_at {A} (k : nat) (l : list A) : list A :=
  match l, k with
  | [], _ => []
  | _ :: l, O => l
  | x :: l, S k => x :: remove_at k l
  end.

(** tcp_socket.cpp:183-184 *)
Definition send_begin (s : st) (d : list Z) : st :=
  if (2 <=? rank (state s))%nat then s
  else mkS (state s) (wq s) (down s) (sent s) (flight s ++ [d]) (shuts s) (writing s) (armed s) (log s).

(** tcp_socket.cpp:186-233 *)
Definition send_body (s : st) (k : nat) (outs : list out) : option st :=
  match nth_error (flight s) k with
  | None => None
  | Some d =>
      let fl := remove_at k (flight s) in
      match wq s, state s with
      | [], Established =>
          if possible (down s) outs then
            match loop outs d [] with
            | Some (rest, taken, Drained) =>
                Some (mkS (state s) [] (down s) (sent s ++ taken) fl (shuts s) (writing s) (armed s) (log s ++ [(d, true)]))
            | Some (rest, taken, Blocked) =>
                Some (mkS (state s) rest (down s) (sent s ++ taken) fl (shuts s) (writing s) true (log s ++ [(d, true)]))
            | Some (rest, taken, Failed) =>
                Some (mkS Closed [] true (sent s ++ taken) fl (shuts s) (writing s) (armed s) (log s ++ [(d, false)]))
            | None => None
            end
          else None
      | q, x =>
          match outs with
          | [] => Some (mkS x (q ++ d) (down s) (sent s) fl (shuts s) (writing s) (armed s) (log s ++ [(d, true)]))
          | _ => None
          end
      end
  end.

(** tcp_socket.cpp:240-241 *)
Definition shut_begin (s : st) : st :=
  if (2 <=? rank (state s))%nat then s
  else mkS (state s) (wq s) (down s) (sent s) (flight s) (S (shuts s)) (writing s) (armed s) (log s).

(** abstract_socket.hpp:51-57 [do_socket_test_change] *)
Definition test_change (x from to : sstate) : sstate := if (rank x =? rank from)%nat then to else x.

(** tcp_socket.cpp:243-258 *)
Definition shut_body (s : st) : option st :=
  match shuts s with
  | O => None
  | S n =>
      match wq s with
      | [] => Some (mkS Closed [] true (sent s) (flight s) n (writing s) (armed s) (log s))
      | q => Some (mkS (test_change (test_change (state s) Pending Closing) Established Closing) q
                       (down s) (sent s) (flight s) n (writing s) (armed s) (log s))
      end
  end.

(** abstract_socket.cpp:146-154 [quick_shut_down], in two steps.  An error or a
    hang-up that the network thread reports (network_scheduler.cpp:268-290) has the
    same effects. *)
Definition quick_down (s : st) : st :=
  mkS (state s) (wq s) true (sent s) (flight s) (shuts s) (writing s) (armed s) (log s).
(** abstract_socket.cpp:152 *)
Definition quick_store (s : st) : option st :=
  if down s then Some (mkS Closed (wq s) true (sent s) (flight s) (shuts s) (writing s) (armed s) (log s)) else None.

(** tcp_socket.cpp:94-104: the beginning of [do_abstract_socket_on_writeable]; the
    notification is no longer owed. *)
Definition write_begin (s : st) : option st :=
  if writing s then None
  else Some (mkS (test_change (state s) Pending Established) (wq s) (down s) (sent s) (flight s) (shuts s) true false (log s)).

(** tcp_socket.cpp:106-115: the user's callback has thrown an exception *)
Definition write_abort (s : st) : option st :=
  if writing s then Some (mkS Closed (wq s) true (sent s) (flight s) (shuts s) false (armed s) (log s)) else None.

(** tcp_socket.cpp:117-149 *)
Definition write_loop (s : st) (outs : list out) : option st :=
  if writing s && possible (down s) outs then
    match loop outs (wq s) [] with
    | Some (rest, taken, Drained) =>
        Some (mkS (test_change (state s) Closing Closed) [] (down s || (rank (state s) =? 2)%nat) (sent s ++ taken)
                  (flight s) (shuts s) false (armed s) (log s))
    | Some (rest, taken, Blocked) =>
        Some (mkS (state s) rest (down s) (sent s ++ taken) (flight s) (shuts s) false true (log s))
    | Some (rest, taken, Failed) =>
        Some (mkS Closed rest true (sent s ++ taken) (flight s) (shuts s) false (armed s) (log s))
    | None => None
    end
  else None.

(** tcp_socket.cpp:94-149, 179-258; abstract_socket.cpp:146-154 *)
Definition step (s : st) (e : event) : option st :=
  match e with
  | SendBegin d => Some (send_begin s d)
  | SendBody k outs => send_body s k outs
  | ShutBegin => Some (shut_begin s)
  | ShutBody => shut_body s
  | QuickDown => Some (quick_down s)
  | QuickStore => quick_store s
  | WriteBegin => write_begin s
  | WriteAbort => write_abort s
  | WriteLoop outs => write_loop s outs
  end.

(** Any number of steps; tcp_socket.cpp:94-258. *)
Fixpoint run (s : st) (es : list event) : option st :=
  match es with
  | [] => Some s
  | e :: es => match step s e with Some s' => run s' es | None => None end
  end.

(** * Receiving *)

(** What [recv] does: some bytes, the end of the stream, would block, or a failure. tcp_socket.cpp:50-67 *)
Inductive rd := Got (chunk : list Z) | Eof | RAgain | RError.

Section Receive.
  (** The user: a state, and the callback [do_on_tcp_stream], which is given the
      queue and the flag; it leaves a new state and what it did not remove, or
      throws an exception. *)
  Context {U : Type}.
  Variable cb : U -> list Z -> bool -> option (U * list Z).

  (** How a call to [do_abstract_socket_on_readable] ended: open or closed. tcp_socket.cpp:54, 63, 81, 87 *)
  Inductive rres := Open | Shut.

  (** tcp_socket.cpp:40-92, ssl_socket.cpp:69-138: [q] is [m_sched_read_queue]; the
      list tells what the callback was given. *)
  Fixpoint readable (rds : list rd) (q : list Z) (u : U) (seen : list (list Z * bool)) : option (list Z * U * list (list Z * bool) * rres) :=
    match rds with
    | [] => None
    | RAgain :: rest => match rest with [] => Some ([], u, seen, Open) | _ => None end
    | RError :: rest => match rest with [] => Some ([], u, seen, Shut) | _ => None end
    | Got c :: rest =>
        let q := [] in
        let q := q ++ c in
        match cb u q false with
        | None => match rest with [] => Some (q, u, seen ++ [(q, false)], Shut) | _ => None end
        | Some (u', q') => readable rest q' u' (seen ++ [(q, false)])
        end
    | Eof :: rest =>
        match rest with
        | [] => match cb u [] true with
                | None => Some ([], u, seen ++ [([], true)], Shut)
                | Some (u', q') => Some (q', u', seen ++ [([], true)], Shut)
                end
        | _ => None
        end
    end.

  (** One call after another, until the connection is closed. Any number of calls from network_scheduler.cpp:284. *)
  Fixpoint receive (calls : list (list rd)) (q : list Z) (u : U) (seen : list (list Z * bool)) : option (list Z * U * list (list Z * bool) * rres) :=
    match calls with
    | [] => Some (q, u, seen, Open)
    | c :: calls =>
        match readable c q u seen with
        | Some (q', u', seen', Open) => receive calls q' u' seen'
        | Some r => match calls with [] => Some r | _ => None end
        | None => None
        end
    end.
End Receive.
