(** Model of TLS sockets: /repo/poseidon/src/socket/ssl_socket.cpp and
    /repo/poseidon/src/socket/abstract_socket.cpp.

    The first part is one socket.  [m_sched_mutex] is held from the beginning to
    the end of each critical section; the first test of [ssl_send] and
    [ssl_shut_down], and [quick_shut_down], are outside.  The mutex is recursive and
    the network thread calls the user while it holds it, so the model lets other
    calls happen between the two parts of [do_abstract_socket_on_writeable] and
    between the rounds of [do_abstract_socket_on_readable].  The state keeps a trace
    of the calls of the TLS library, OpenSSL, which is external: an event carries
    what the library returns.

    The second part is the error queue of OpenSSL, which the sockets of a thread
    share. *)
From Coq Require Import ZArith List Lia Bool.
From Verif Require Import TcpModel.
Import ListNotations.

(** What [SSL_read_ex] does, as [SSL_get_error] tells it: it gives bytes, waits for
    the socket to be readable or writable, is at the end, or fails. ssl_socket.cpp:80-110 *)
Inductive rout := RGot | RWant_read | RWant_write | REnd | RFatal.

(** The calls of the library: [SSL_write_ex] with the bytes that it is passed,
    [SSL_read_ex], [SSL_shutdown] (ssl_socket.cpp:80, 171, 177, 253, 306); and, between
    them, the return of [ssl_send] with its argument (ssl_socket.cpp:234-291). *)
Inductive item := Write (buf : list Z) (o : out) | Read (r : rout) | Notify | Ret (data : list Z) (ok : bool).

(** [m_state], [m_sched_write_queue]; whether the system refuses to send
    because of [shutdown] or an error; the trace; and as ghosts: the calls of
    [ssl_send] and the number of calls of [ssl_shut_down] that have passed the first
    test, and whether the network thread is inside [do_abstract_socket_on_writeable].
    abstract_socket.hpp:17-32; ssl_socket.cpp:69-317 *)
Record st := mkS {
  state : sstate; wq : list Z; down : bool; trace : list item;
  flight : list (list Z); shuts : nat; writing : bool }.

(** A new socket. ssl_socket.cpp:14-52 *)
Definition init : st := mkS Pending [] false [] [] 0 false.

(** ssl_socket.cpp:69-202, 232-317; abstract_socket.cpp:146-154 *)
Inductive event :=
| SendBegin (data : list Z)
| SendBody (k : nat) (outs : list out)
| ShutBegin | ShutBody
| QuickDown | QuickStore
| WriteBegin | WriteAbort | WriteLoop (outs : list out)
| ReadOne (r : rout) (throws : bool).

(** ssl_socket.cpp:163-201 and 248-282: both loops, with the results of
    [SSL_write_ex].  [Again] stands for both [SSL_ERROR_WANT_READ] and
    [SSL_ERROR_WANT_WRITE].  It gives what is left, the calls and how the loop ends;
    [None] if these cannot be the results. *)
Fixpoint loop (outs : list out) (w : list Z) : option (list Z * list item * outcome) :=
  match w with
  | [] => match outs with [] => Some ([], [], Drained) | _ => None end
  | _ =>
      match outs with
      | Wrote n :: outs =>
          if (n <=? length w)%nat then
            match loop outs (skipn n w) with
            | Some (rest, l, o) => Some (rest, Write w (Wrote n) :: l, o)
            | None => None
            end
          else None
      | [Again] => Some (w, [Write w Again], Blocked)
      | [Error] => Some (w, [Write w Error], Failed)
      | _ => None
      end
  end.

(** ssl_socket.cpp:236-237 *)
Definition send_begin (s : st) (d : list Z) : st :=
  if (2 <=? rank (state s))%nat then s
  else mkS (state s) (wq s) (down s) (trace s) (flight s ++ [d]) (shuts s) (writing s).

(** ssl_socket.cpp:239-291; the failure of a write calls [quick_shut_down] *)
Definition send_body (s : st) (k : nat) (outs : list out) : option st :=
  match nth_error (flight s) k with
  | None => None
  | Some d =>
      let fl := remove_at k (flight s) in
      match wq s, state s with
      | [], Established =>
          if possible (down s) outs then
            match loop outs d with
            | Some (_, l, Drained) =>
                Some (mkS (state s) [] (down s) (trace s ++ l ++ [Ret d true]) fl (shuts s) (writing s))
            | Some (rest, l, Blocked) =>
                Some (mkS (state s) rest (down s) (trace s ++ l ++ [Ret d true]) fl (shuts s) (writing s))
            | Some (_, l, Failed) =>
                Some (mkS Closed [] true (trace s ++ l ++ [Ret d false]) fl (shuts s) (writing s))
            | None => None
            end
          else None
      | q, x =>
          match outs with
          | [] => Some (mkS x (q ++ d) (down s) (trace s ++ [Ret d true]) fl (shuts s) (writing s))
          | _ => None
          end
      end
  end.

(** ssl_socket.cpp:298-299 *)
Definition shut_begin (s : st) : st :=
  if (2 <=? rank (state s))%nat then s
  else mkS (state s) (wq s) (down s) (trace s) (flight s) (S (shuts s)) (writing s).

(** ssl_socket.cpp:301-316 *)
Definition shut_body (s : st) : option st :=
  match shuts s with
  | O => None
  | S n =>
      match wq s with
      | [] => Some (mkS Closed [] true (trace s ++ [Notify]) (flight s) n (writing s))
      | q => Some (mkS (test_change (test_change (state s) Pending Closing) Established Closing) q
                       (down s) (trace s) (flight s) n (writing s))
      end
  end.

(** abstract_socket.cpp:151: the first step of [quick_shut_down] *)
Definition quick_down (s : st) : st :=
  mkS (state s) (wq s) true (trace s) (flight s) (shuts s) (writing s).
(** abstract_socket.cpp:152 *)
Definition quick_store (s : st) : option st :=
  if down s then Some (mkS Closed (wq s) true (trace s) (flight s) (shuts s) (writing s)) else None.

(** ssl_socket.cpp:140-150: the beginning of [do_abstract_socket_on_writeable] *)
Definition write_begin (s : st) : option st :=
  if writing s then None
  else Some (mkS (test_change (state s) Pending Established) (wq s) (down s) (trace s) (flight s) (shuts s) true).

(** ssl_socket.cpp:152-161: the user's callback has thrown an exception *)
Definition write_abort (s : st) : option st :=
  if writing s then Some (mkS Closed (wq s) true (trace s) (flight s) (shuts s) false) else None.

(** ssl_socket.cpp:163-201 *)
Definition write_loop (s : st) (outs : list out) : option st :=
  if writing s && possible (down s) outs then
    match loop outs (wq s) with
    | Some (_, l, Drained) =>
        if (rank (state s) =? 2)%nat
        then Some (mkS Closed [] true (trace s ++ l ++ [Notify]) (flight s) (shuts s) false)
        else Some (mkS (state s) [] (down s) (trace s ++ l) (flight s) (shuts s) false)
    | Some (rest, l, Blocked) => Some (mkS (state s) rest (down s) (trace s ++ l) (flight s) (shuts s) false)
    | Some (rest, l, Failed) => Some (mkS Closed rest true (trace s ++ l) (flight s) (shuts s) false)
    | None => None
    end
  else None.

(** ssl_socket.cpp:76-137: one round of [do_abstract_socket_on_readable]; [throws]: the
    user's callback throws an exception *)
Definition read_one (s : st) (r : rout) (throws : bool) : st :=
  let t := trace s ++ [Read r] in
  match r, throws with
  | RGot, false | RWant_read, _ | RWant_write, _ => mkS (state s) (wq s) (down s) t (flight s) (shuts s) (writing s)
  | RGot, true | REnd, _ | RFatal, _ => mkS Closed (wq s) true t (flight s) (shuts s) (writing s)
  end.

(** ssl_socket.cpp:69-202, 232-317; abstract_socket.cpp:146-154 *)
Definition step (s : st) (e : event) : option st :=
  match e with
  | SendBegin d => Some (send_begin s d)
  | SendBody k outs => send_body s k outs
  | ShutBegin => Some (shut_begin s)
  | ShutBody => shut_body s
  | QuickDown => Some (quick_down s)
  | QuickStore => quick_store s
  | WriteBegin => write_begin s
  | WriteAbort => write_abort s
  | WriteLoop outs => write_loop s outs
  | ReadOne r t => Some (read_one s r t)
  end.

(** Any number of steps; ssl_socket.cpp:69-317. *)
Fixpoint run (s : st) (es : list event) : option st :=
  match es with
  | [] => Some s
  | e :: es => match step s e with Some s' => run s' es | None => None end
  end.

(** * The error queue *)

(** An entry of the error queue of OpenSSL: [SSL_R_UNEXPECTED_EOF_WHILE_READING], or
    another reason. ssl_socket.cpp:94 *)
Inductive err := Unexpected_eof | Other.

(** What happens to a connection in a call of the library, whatever [SSL_get_error]
    makes of it afterwards: progress (with bytes, for [SSL_read_ex]); it has to wait;
    the peer has closed the connection with an alert; the peer has closed it without
    one, which puts [Unexpected_eof] into the error queue; a failure, which puts some
    errors into it. External; called in ssl_socket.cpp:80, 177, 253 *)
Inductive fact := Progress (bytes : list Z) | Waits | Alert | Truncated | Failure (errs : list err).

(** A call: what happens, whether the library empties the queue at the beginning,
    which it does in a handshake, and whether the user's callback throws an exception.
    ssl_socket.cpp:80, 115-128 *)
Record call := mkC { what : fact; clears : bool; throws : bool }.

(** The error queue after a call. External; ssl_socket.cpp:80, 177 *)
Definition queue (q : list err) (c : call) : list err :=
  (if clears c then [] else q)
  ++ match what c with Truncated => [Unexpected_eof] | Failure es => es | _ => [] end.

(** What [SSL_get_error] returns.  External.  It looks at the oldest entry of the
    queue before it looks at the connection; OpenSSL requires that the queue be empty
    before the call. ssl_socket.cpp:82, 179 *)
Inductive class := Ok | Want | Zero_return | Ssl (e : err) | Syscall.
(** [SSL_get_error] and [ERR_peek_error], external; called in ssl_socket.cpp:82-94, 179 *)
Definition get_error (q : list err) (f : fact) : class :=
  match f with
  | Progress _ => Ok
  | _ =>
      match q with
      | e :: _ => Ssl e
      | [] => match f with Waits => Want | Alert => Zero_return | _ => Syscall end
      end
  end.

(** [ERR_get_error] takes the oldest entry; it is called if messages are logged for
    debugging. ssl_socket.cpp:101-105, 186-190; utils.hpp:14-17 *)
Definition logged (debug : bool) (q : list err) : list err := if debug then tl q else q.

(** A connection, as its user sees it: what [do_on_ssl_stream] has been given, and
    whether [quick_shut_down] has been called. ssl_socket.cpp:117; abstract_socket.cpp:146-154 *)
Record conn := mkK { seen : list (list Z * bool); shut : bool }.

(** ssl_socket.cpp:69-138 [do_abstract_socket_on_readable]: the queue and the
    connection afterwards.  [None] if these cannot be the calls. *)
Fixpoint readable (debug : bool) (cs : list call) (q : list err) (k : conn) : option (list err * conn) :=
  match cs with
  | [] => None
  | c :: cs =>
      let q := queue q c in
      let last r := match cs with [] => Some r | _ => None end in
      match get_error q (what c) with
      | Ok =>
          let bytes := match what c with Progress b => b | _ => [] end in
          let k' := mkK (seen k ++ [(bytes, false)]) (shut k) in
          if throws c then last (q, mkK (seen k') true) else readable debug cs q k'
      | Want => last (q, k)
      | Zero_return | Ssl Unexpected_eof => last (q, mkK (seen k ++ [([], true)]) true)
      | Ssl Other | Syscall => last (logged debug q, mkK (seen k) true)
      end
  end.

(** ssl_socket.cpp:163-201: the loop of [do_abstract_socket_on_writeable] *)
Fixpoint writeable (debug : bool) (cs : list call) (q : list err) (k : conn) : option (list err * conn) :=
  match cs with
  | [] => Some (q, k)
  | c :: cs =>
      let q := queue q c in
      let last r := match cs with [] => Some r | _ => None end in
      match get_error q (what c) with
      | Ok => writeable debug cs q k
      | Want => last (q, k)
      | _ => last (logged debug q, mkK (seen k) true)
      end
  end.

(** What the network thread does with the connections: the two callbacks, and
    [ssl_shut_down] from a callback of the user, in which [SSL_shutdown] puts some
    errors into the queue (one if the handshake is not over). ssl_socket.cpp:69-202, 304-308 *)
Inductive op := On_readable (id : nat) (cs : list call) | On_writeable (id : nat) (cs : list call) | Shut_down (id : nat) (errs : list err).

(** The error queue of the network thread, and the connections. ssl_socket.cpp:69-202 *)
Record world := mkW { errors : list err; conns : nat -> conn }.

(** ssl_socket.cpp:14-52: new connections *)
Definition new_world : world := mkW [] (fun _ => mkK [] false).

(** Not in the code: an update of one connection, for ssl_socket.cpp:69-202. *)
Definition put (w : world) (id : nat) (r : option (list err * conn)) : option world :=
  match r with
  | Some (q, k) => Some (mkW q (fun i => if Nat.eqb i id then k else conns w i))
  | None => None
  end.

(** ssl_socket.cpp:69-202, 304-308 *)
Definition act (debug : bool) (w : world) (o : op) : option world :=
  match o with
  | On_readable id cs => put w id (readable debug cs (errors w) (conns w id))
  | On_writeable id cs => put w id (writeable debug cs (errors w) (conns w id))
  | Shut_down id es => put w id (Some (errors w ++ es, mkK (seen (conns w id)) true))
  end.

(** Any number of steps; ssl_socket.cpp:69-202. *)
Fixpoint acts (debug : bool) (w : world) (os : list op) : option world :=
  match os with
  | [] => Some w
  | o :: os => match act debug w o with Some w' => acts debug w' os | None => None end
  end.
