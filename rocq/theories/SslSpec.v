(** Specification vocabulary for TLS sockets. *)
From Coq Require Import ZArith List Bool.
From Verif Require Import TcpModel SslModel.
Import ListNotations.

Definition prefix (a b : list Z) : Prop := exists c, b = a ++ c.

(** The bytes that the TLS library has taken, in order. *)
Definition taken (t : list item) : list Z :=
  flat_map (fun i => match i with Write b (Wrote n) => firstn n b | _ => [] end) t.

(** The data of all calls of [ssl_send] that went past the first test and have
    returned, and of those that have returned [true]. *)
Definition offered (t : list item) : list Z := flat_map (fun i => match i with Ret d _ => d | _ => [] end) t.
Definition accepted (t : list item) : list Z := flat_map (fun i => match i with Ret d true => d | _ => [] end) t.

Definition is_write (i : item) : bool := match i with Write _ _ => true | _ => false end.

(** A call has reported that the connection is broken. *)
Definition fatal (i : item) : bool :=
  match i with Write _ Error | Read RFatal => true | _ => false end.

(** Calls of [ssl_shut_down] which do not overlap with anything else. *)
Fixpoint undisturbed (es : list event) : bool :=
  match es with
  | [] => true
  | ShutBegin :: ShutBody :: es => undisturbed es
  | ShutBegin :: _ => false
  | _ :: es => undisturbed es
  end.

(** * The error queue *)

(** The calls of the library for a connection when it is read. *)
Definition reads_of (id : nat) (os : list op) : list call :=
  flat_map (fun o => match o with On_readable i cs => if Nat.eqb i id then cs else [] | _ => [] end) os.

(** All calls of the library, and the errors that shutting down leaves. *)
Definition calls_of (os : list op) : list call :=
  flat_map (fun o => match o with On_readable _ cs | On_writeable _ cs => cs | _ => [] end) os.
Definition shut_errors (os : list op) : list err :=
  flat_map (fun o => match o with Shut_down _ es => es | _ => [] end) os.

(** What happened to a connection is something that leaves no error. *)
Definition quiet (c : call) : bool := match what c with Progress _ | Waits | Alert => true | _ => false end.

(** What the user of a connection ought to be given: all of the bytes, and the end
    if the peer has ended. *)
Definition due (cs : list call) : list (list Z * bool) :=
  flat_map (fun c => match what c with Progress b => [(b, false)] | Alert | Truncated => [([], true)] | _ => [] end) cs.

(** The connection has to be shut down: the peer has ended, there has been a
    failure, or the user has asked for it or has thrown an exception. *)
Definition ends (id : nat) (o : op) : bool :=
  match o with
  | On_readable i cs => Nat.eqb i id && existsb (fun c => match what c with Progress _ => throws c | Waits => false | _ => true end) cs
  | On_writeable i cs => Nat.eqb i id && existsb (fun c => match what c with Progress _ | Waits => false | _ => true end) cs
  | Shut_down i _ => Nat.eqb i id
  end.
