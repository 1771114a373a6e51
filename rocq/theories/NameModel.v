(** Model of what a socket says about its own addresses, and of the multicast groups of UDP sockets:
    poseidon/src/socket/abstract_socket.cpp, poseidon/src/socket/udp_socket.cpp, poseidon/src/socket/tcp_acceptor.cpp.
    What the system answers is a parameter. *)
From Coq Require Import ZArith List Bool.
From Verif Require Import Base AddrModel AccModel.
Import ListNotations.
Open Scope Z_scope.

(** * [local_address] and [remote_address] *)

(** Which of them, as they differ in what they make of errors.  abstract_socket.cpp:84-113, 115-144 *)
Inductive which := Local | Remote.

(** What [getsockname] or [getpeername] does: an error, or an address; [in6] says that the family is AF_INET6 and
    that the structure is complete.  abstract_socket.cpp:96-102, 127-133 *)
Inductive kname := Failed (e : Z) | Named (in6 : bool) (sa : sockaddr).
(** Of Linux; compared at abstract_socket.cpp:129 *)
Definition ENOTCONN : Z := 107.

(** What is returned is a reference: to a constant, or to the member [m_sockname] or [m_peername].
    abstract_socket.cpp:90, 98, 102, 106, 112 *)
Inductive ref := Invalid | Unspecified | Member.

(** What [getsockname] says decides what is returned, or that it is stored.  The result has also the value of
    [errno] that the caller sees afterwards.  abstract_socket.cpp:93-106, 124-137 *)
Definition query (w : which) (errno : Z) (k : kname) : Z * (ref + sockaddr) :=
  let old_err := errno in
  match k with
  | Failed e =>
      let errno := e in
      match w with
      | Local => (old_err, inl Invalid)
      | Remote => let (errno, old_err) := (old_err, errno) in (errno, inl (if old_err =? ENOTCONN then Unspecified else Invalid))
      end
  | Named in6 sa =>
      if negb in6 then (errno, inl Invalid)
      else if load_be (sa_port sa) =? 0 then (errno, inl Unspecified)
      else (errno, inr sa)
  end.

(** A thread is outside; or it is about to ask the system; or about to store the address, the port, the flag.
    abstract_socket.cpp:89-112, 120-143 *)
Inductive pc := Idle | Ask | Store_addr (sa : sockaddr) | Store_port (sa : sockaddr) | Store_ready.
(** A thread: where it is, its [errno], the references to the member that it has got (if any), and the octets that it
    has read through one of them.  Not in the code: who calls abstract_socket.cpp:84-144 *)
Record thread := mkT { t_pc : pc; t_errno : Z; t_ref : bool; t_read : option (list Z) }.
(** What can be observed: a call has returned something; a thread has read an address through the reference.
    Not in the code: the log of abstract_socket.cpp:84-144 *)
Inductive obs := Returned (i : nat) (r : ref) | Saw (i : nat) (a : address).
(** The member and its flag; the system; threads.  abstract_socket.hpp:25-29 *)
Record state := mkS { m_addr : list Z; m_port : Z; ready : bool; system : kname; threads : list thread; log : list obs }.
(** A new socket, and [n] threads.  abstract_socket.hpp:25-29 *)
Definition init (k : kname) (n : nat) : state := mkS (repeat 0 16) 0 false k (repeat (mkT Idle 0 false None) n) [].

(** What happens next: a thread calls the function, or continues; it reads the octets of the address through the
    reference, then the port, since an address is not read atomically; its [errno] is changed by other code; the name
    of the socket changes.  abstract_socket.cpp:84-144 *)
Inductive event := Call (i : nat) | Step (i : nat) | Read_addr (i : nat) | Read_port (i : nat) | Errno (i : nat) (e : Z) | System (k : kname).

(** Not in the code: the status of one thread of abstract_socket.cpp:84-144 changes. *)
Fixpoint set_at {A} (i : nat) (x : A) (l : list A) : list A :=
  match i, l with
  | _, [] => []
  | O, _ :: l => x :: l
  | S i, y :: l => y :: set_at i x l
  end.
(** Not in the code: a thread goes on in abstract_socket.cpp:84-144. *)
Definition upd (s : state) (i : nat) (t : thread) (o : list obs) : state :=
  mkS (m_addr s) (m_port s) (ready s) (system s) (set_at i t (threads s)) (log s ++ o).

(** One event; what is not possible does nothing.  The accesses to the flag are atomic, and the others are not
    protected.  abstract_socket.cpp:84-144 *)
Definition step (w : which) (s : state) (x : event) : state :=
  match x with
  | Call i =>
      match nth_error (threads s) i with
      | Some (mkT Idle e r d) =>
          if ready s then upd s i (mkT Idle e true d) [Returned i Member] else upd s i (mkT Ask e r d) []
      | _ => s
      end
  | Step i =>
      match nth_error (threads s) i with
      | Some (mkT Ask e r d) =>
          match query w e (system s) with
          | (e, inl x) => upd s i (mkT Idle e r d) [Returned i x]
          | (e, inr sa) => upd s i (mkT (Store_addr sa) e r d) []
          end
      | Some (mkT (Store_addr sa) e r d) =>
          mkS (sa_addr sa) (m_port s) (ready s) (system s) (set_at i (mkT (Store_port sa) e r d) (threads s)) (log s)
      | Some (mkT (Store_port sa) e r d) =>
          mkS (m_addr s) (load_be (sa_port sa)) (ready s) (system s) (set_at i (mkT Store_ready e r d) (threads s)) (log s)
      | Some (mkT Store_ready e r d) =>
          mkS (m_addr s) (m_port s) true (system s) (set_at i (mkT Idle e true d) (threads s)) (log s ++ [Returned i Member])
      | _ => s
      end
  | Read_addr i =>
      match nth_error (threads s) i with
      | Some (mkT Idle e true _) => upd s i (mkT Idle e true (Some (m_addr s))) []
      | _ => s
      end
  | Read_port i =>
      match nth_error (threads s) i with
      | Some (mkT Idle e true (Some a)) => upd s i (mkT Idle e true None) [Saw i (mkAddr a (m_port s))]
      | _ => s
      end
  | Errno i e =>
      match nth_error (threads s) i with
      | Some (mkT Idle _ r d) => upd s i (mkT Idle e r d) []
      | _ => s
      end
  | System k => mkS (m_addr s) (m_port s) (ready s) k (threads s) (log s)
  end.
(** Any number of them; abstract_socket.cpp:84-144 *)
Definition run (w : which) (s : state) (xs : list event) : state := fold_left (step w) xs s.

(** * Descriptors of sockets that listen *)

(** What the system does with the calls: [false] is an error.  abstract_socket.cpp:36, 21-26; tcp_acceptor.cpp:24, 30 *)
Record calls := mkCalls { c_socket : bool; c_bind : bool; c_listen : bool }.
(** A descriptor: whether it is for streams, whether it blocks, where it is bound, whether it listens, the options
    SO_REUSEADDR and TCP_DEFER_ACCEPT.  Not in the code: the socket of abstract_socket.cpp:36 *)
Record desc := mkD { d_stream : bool; d_block : bool; d_name : option sockaddr; d_listen : bool; d_reuse : bool; d_defer : option Z }.

(** The constructors of [TCP_Acceptor] and of [UDP_Socket]: the descriptor, or an exception, in which case there is no
    descriptor any more.  tcp_acceptor.cpp:12-40; abstract_socket.cpp:32-49 *)
Definition tcp_acceptor (c : calls) (a : address) : option desc :=
  if negb (c_socket c) then None
  else
    let d := mkD true false None false true None in
    if negb (c_bind c) then None
    else
      let d := mkD (d_stream d) (d_block d) (Some (to_sockaddr a)) (d_listen d) (d_reuse d) (d_defer d) in
      if negb (c_listen c) then None
      else Some (mkD (d_stream d) (d_block d) (d_name d) true (d_reuse d) (d_defer d)).
(** udp_socket.cpp:12-34; abstract_socket.cpp:32-49 *)
Definition udp_socket (c : calls) (a : address) : option desc :=
  if negb (c_socket c) then None
  else
    let d := mkD false false None false true None in
    if negb (c_bind c) then None
    else Some (mkD (d_stream d) (d_block d) (Some (to_sockaddr a)) (d_listen d) (d_reuse d) (d_defer d)).
(** A UDP socket that is not bound; udp_socket.cpp:36-41; abstract_socket.cpp:32-49 *)
Definition udp_client (c : calls) : option desc :=
  if negb (c_socket c) then None else Some (mkD false false None false false None).

(** A connection that has been accepted: a descriptor, and whether it blocks; [None] for no descriptor.  [fcntl] may
    fail.  abstract_socket.cpp:12-30 *)
Definition adopt (fd : option desc) (getfl setfl : bool) : option desc :=
  match fd with
  | None => None
  | Some d =>
      if negb getfl then None
      else if d_block d then
        if negb setfl then None
        else Some (mkD (d_stream d) false (d_name d) (d_listen d) (d_reuse d) (d_defer d))
      else Some d
  end.

(** Of a 32-bit [int]. tcp_acceptor.cpp:128 *)
Definition INT_MAX : Z := 2147483647.
(** [defer_accept] with a number of seconds; [clamp_cast] is of asteria.  tcp_acceptor.cpp:124-135 *)
Definition defer_accept (ok : bool) (d : desc) (seconds : Z) : option desc :=
  let iv := if seconds <? 0 then 0 else if INT_MAX <? seconds then INT_MAX else seconds in
  if negb ok then None else Some (mkD (d_stream d) (d_block d) (d_name d) (d_listen d) (d_reuse d) (Some iv)).

(** * Multicast groups *)

(** What the system keeps for a UDP socket: groups of IPv4 and of IPv6 with interfaces, and for each of the two the
    number of hops and whether datagrams are looped back.  Not in the code: the effect of the options of udp_socket.cpp:135-184 *)
Record groups := mkG { g4 : list (list Z * Z); g6 : list (list Z * Z); ttl4 : Z; loop4 : Z; ttl6 : Z; loop6 : Z }.
(** [setsockopt] with the options; udp_socket.cpp:135, 143, 151, 163, 171, 179, 211, 223 *)
Inductive sockopt :=
| Add4 (group : list Z) (ifindex : Z) | Drop4 (group : list Z) (ifindex : Z) | Ttl4 (v : Z) | Loop4 (v : Z)
| Add6 (group : list Z) (ifindex : Z) | Drop6 (group : list Z) (ifindex : Z) | Ttl6 (v : Z) | Loop6 (v : Z).
(** Not in the code: two memberships are the same for the system; udp_socket.cpp:135-223. *)
Definition eqb_group (a b : list Z * Z) : bool := (memcmp (fst a) (fst b) =? 0) && (snd a =? snd b).
(** Not in the code: what the system does when it accepts an option of udp_socket.cpp:135-223 *)
Definition accept (g : groups) (o : sockopt) : groups :=
  match o with
  | Add4 m i => mkG ((m, i) :: g4 g) (g6 g) (ttl4 g) (loop4 g) (ttl6 g) (loop6 g)
  | Drop4 m i => mkG (filter (fun x => negb (eqb_group (m, i) x)) (g4 g)) (g6 g) (ttl4 g) (loop4 g) (ttl6 g) (loop6 g)
  | Ttl4 v => mkG (g4 g) (g6 g) v (loop4 g) (ttl6 g) (loop6 g)
  | Loop4 v => mkG (g4 g) (g6 g) (ttl4 g) v (ttl6 g) (loop6 g)
  | Add6 m i => mkG (g4 g) ((m, i) :: g6 g) (ttl4 g) (loop4 g) (ttl6 g) (loop6 g)
  | Drop6 m i => mkG (g4 g) (filter (fun x => negb (eqb_group (m, i) x)) (g6 g)) (ttl4 g) (loop4 g) (ttl6 g) (loop6 g)
  | Ttl6 v => mkG (g4 g) (g6 g) (ttl4 g) (loop4 g) v (loop6 g)
  | Loop6 v => mkG (g4 g) (g6 g) (ttl4 g) (loop4 g) (ttl6 g) v
  end.

Section Groups.
  (** Whether the system takes an option in a state; and the index of an interface, zero if there is none *)
  Variables (takes : groups -> sockopt -> bool) (if_nametoindex : list Z -> Z).

  (** Some [setsockopt] one after another, until one of them fails, which throws an exception ([false]).
      udp_socket.cpp:135-184 *)
  Fixpoint setsockopts (g : groups) (os : list sockopt) : groups * bool :=
    match os with
    | [] => (g, true)
    | o :: os => if takes g o then setsockopts (accept g o) os else (g, false)
    end.

  (** [safe_c_str] of rocket throws an exception if there is a null character.  udp_socket.cpp:121, 197 *)
  Definition has_null (s : list Z) : bool := existsb (fun c => c =? 0) s.
  (** udp_socket.cpp:129, 205 *)
  Definition is_ipv4 (a : address) : bool := memcmp (firstn 12 (a_addr a)) (firstn 12 (a_addr ipv4_unspecified)) =? 0.

  (** udp_socket.cpp:116-191 *)
  Definition join (g : groups) (maddr : address) (ifname : list Z) (ttl : Z) (loopback : bool) : groups * bool :=
    if has_null ifname then (g, false)
    else
      let ifindex := if_nametoindex ifname in
      if ifindex =? 0 then (g, false)
      else if is_ipv4 maddr then
        setsockopts g [Add4 (skipn 12 (a_addr maddr)) ifindex; Ttl4 ttl; Loop4 (if loopback then 1 else 0)]
      else setsockopts g [Add6 (a_addr maddr) ifindex; Ttl6 ttl; Loop6 (if loopback then 1 else 0)].

  (** udp_socket.cpp:193-235 *)
  Definition leave (g : groups) (maddr : address) (ifname : list Z) : groups * bool :=
    if has_null ifname then (g, false)
    else
      let ifindex := if_nametoindex ifname in
      if ifindex =? 0 then (g, false)
      else if is_ipv4 maddr then setsockopts g [Drop4 (skipn 12 (a_addr maddr)) ifindex]
      else setsockopts g [Drop6 (a_addr maddr) ifindex].
End Groups.
