(** Model of the sockets that are not streams and of the making of connections:
    /repo/poseidon/src/socket/tcp_acceptor.cpp, /repo/poseidon/src/socket/udp_socket.cpp,
    /repo/poseidon/src/fiber/dns_query_future.cpp and
    /repo/poseidon/src/socket/dns_connect_task.cpp.  What the system answers is a
    parameter; multicast groups, options and logging are left out. *)
From Coq Require Import ZArith List Bool.
From Verif Require Import Base AddrModel TcpModel.
Import ListNotations.
Open Scope Z_scope.

(** [sockaddr_in6]: [sin6_addr], and the two octets of [sin6_port]. The structure of tcp_acceptor.cpp:66, udp_socket.cpp:69, 244 and dns_connect_task.cpp:62-75; other members have fixed values *)
Record sockaddr := mkSA { sa_addr : list Z; sa_port : list Z }.

(** udp_socket.cpp:88-89, tcp_acceptor.cpp:83-84: [set_addr], [set_port] and [ntohs] *)
Definition of_sockaddr (sa : sockaddr) : address := mkAddr (sa_addr sa) (load_be (sa_port sa)).
(** udp_socket.cpp:244-247: [htons] *)
Definition to_sockaddr (a : address) : sockaddr := mkSA (a_addr a) (store_be 2 (a_port a)).

(** EAGAIN, which is EWOULDBLOCK; EINPROGRESS. Values of Linux, compared at tcp_acceptor.cpp:71 and udp_socket.cpp:75 *)
Definition EAGAIN : Z := 11.
(** Compared at dns_connect_task.cpp:70, 79 *)
Definition EINPROGRESS : Z := 115.

(** * tcp_acceptor.cpp:57-116 *)

(** What [accept4] does: a descriptor and the address of the peer, or an error. tcp_acceptor.cpp:66-72 *)
Inductive accepted := Accepted (fd : Z) (sa : sockaddr) | AcceptError (errno : Z).

(** What [do_accept_socket_opt] does with an address and a descriptor: it returns a
    null pointer, or throws an exception (the descriptor is closed), or returns
    a socket made of the descriptor.  [insert_weak] may throw too. tcp_acceptor.cpp:89-112 *)
Inductive answer := Null | Throws | Client | ClientNotInserted.

(** The sockets put into the network scheduler, the descriptors that were closed
    (in the last case if the user does not keep the socket), the calls made. The effects of tcp_acceptor.cpp:92 and 102, and of the destructor of [fd] *)
Record astate := mkA { inserted : list Z; dropped : list Z; asked : list (address * Z) }.

Section Accept.
  (** The first argument is the number of earlier calls. *)
  Variable user : nat -> address -> Z -> answer.

  (** The loop, as far as the results of [accept4] go; the flag tells whether it has
      returned. tcp_acceptor.cpp:65-115 *)
  Fixpoint accept_loop (rs : list accepted) (s : astate) : astate * bool :=
    match rs with
    | [] => (s, false)
    | AcceptError e :: rs => if e =? EAGAIN then (s, true) else accept_loop rs s
    | Accepted fd sa :: rs =>
        let from_addr := of_sockaddr sa in
        let r := user (length (asked s)) from_addr fd in
        let s := mkA (inserted s) (dropped s) (asked s ++ [(from_addr, fd)]) in
        match r with
        | Null => accept_loop rs (mkA (inserted s) (dropped s ++ [fd]) (asked s))
        | Throws => accept_loop rs (mkA (inserted s) (dropped s ++ [fd]) (asked s))
        | ClientNotInserted => accept_loop rs (mkA (inserted s) (dropped s ++ [fd]) (asked s))
        | Client => accept_loop rs (mkA (inserted s ++ [fd]) (dropped s) (asked s))
        end
    end.
End Accept.

(** * udp_socket.cpp:58-114, 237-261 *)

(** What [recvfrom] does: a datagram with its sender, or an error. udp_socket.cpp:69-73 *)
Inductive received := Packet (sa : sockaddr) (payload : list Z) | RecvError (errno : Z).

Section Datagram.
  (** The user's state, and [do_on_udp_packet], which is given an address and a
      buffer to which it may do what it likes; the flag tells of an exception. *)
  Context {U : Type}.
  Variable on_packet : U -> address -> list Z -> U * address * list Z * bool.

  (** [m_from_addr], [m_sched_read_queue], the user, the calls made. udp_socket.cpp:63-64 *)
  Record ustate := mkU { from_addr : address; queue : list Z; user : U; packets : list (address * list Z) }.

  (** The loop, as far as the results of [recvfrom] go.  [capacity] is what the
      buffer has room for, at least 0xFFFF; a longer datagram is cut. udp_socket.cpp:66-106 *)
  Fixpoint recv_loop (capacity : nat) (rs : list received) (s : ustate) : ustate * bool :=
    match rs with
    | [] => (s, false)
    | r :: rs =>
        let q := [] in
        match r with
        | RecvError e =>
            let s := mkU (from_addr s) q (user s) (packets s) in
            if e =? EAGAIN then (s, true) else recv_loop capacity rs s
        | Packet sa d =>
            let q := q ++ firstn capacity d in
            let a := of_sockaddr sa in
            let '(u, a', q', threw) := on_packet (user s) a q in
            recv_loop capacity rs (mkU a' q' u (packets s ++ [(a, q)]))
        end
    end.
End Datagram.

(** What happens to a socket: [do_abstract_socket_on_writeable] (109-114),
    [quick_shut_down], and [udp_send] with what [sendto] says *)
Inductive uop := Writeable | QuickShut | UdpSend (a : address) (d : list Z) (ok : bool).
(** The state of abstract_socket.hpp that udp_socket.cpp:113 and 241 use, what was sent, and what [udp_send] returned *)
Record usock := mkUS { ustat : sstate; wire : list (sockaddr * list Z); results : list bool }.

(** udp_socket.cpp:109-114, 237-261; [quick_shut_down] is abstract_socket.cpp's *)
Definition udp_step (s : usock) (o : uop) : usock :=
  match o with
  | Writeable => mkUS (test_change (ustat s) Pending Established) (wire s) (results s)
  | QuickShut => mkUS Closed (wire s) (results s)
  | UdpSend a d ok =>
      if (2 <=? rank (ustat s))%nat then mkUS (ustat s) (wire s) (results s ++ [false])
      else if ok then mkUS (ustat s) (wire s ++ [(to_sockaddr a, d)]) (results s ++ [true])
      else mkUS (ustat s) (wire s) (results s ++ [false])
  end.
(** Any sequence of such calls; a new socket is pending (udp_socket.cpp:12-41) *)
Definition udp_run (ops : list uop) : usock := fold_left udp_step ops (mkUS Pending [] []).

(** * dns_query_future.cpp:23-66 *)

(** The results of [getaddrinfo]: an IPv4 address, an IPv6 address, something else. dns_query_future.cpp:44-58 *)
Inductive info := Inet (b : list Z) | Inet6 (b : list Z) | OtherFamily.

(** dns_query_future.cpp:43-58 *)
Definition info_addr (port : Z) (i : info) : option address :=
  match i with
  | Inet b => Some (mkAddr (firstn 12 (a_addr ipv4_unspecified) ++ b) port)
  | Inet6 b => Some (mkAddr b port)
  | OtherFamily => None
  end.

(** dns_query_future.cpp:42-65 *)
Fixpoint dns_results (port : Z) (is : list info) (res : list address) : list address :=
  match is with
  | [] => res
  | i :: is =>
      match info_addr port i with
      | None => dns_results port is res
      | Some a => if existsb (equals a) res then dns_results port is res else dns_results port is (res ++ [a])
      end
  end.

(** * dns_connect_task.cpp:31-102 *)

(** How the task leaves the socket: the addresses that [connect] was called with,
    whether it is in the network scheduler, whether it was shut down. The effects of dns_connect_task.cpp:31-102 *)
Record cstate := mkC { tried : list sockaddr; in_network : bool; shut : bool }.

Section Connect.
  (** What [connect] does, after some earlier calls: 0, or the error number *)
  Variable connect : list sockaddr -> sockaddr -> Z.

  (** dns_connect_task.cpp:58-80 *)
  Fixpoint connect_loop (port : Z) (is : list info) (done : list sockaddr) : list sockaddr * bool :=
    match is with
    | [] => (done, false)
    | i :: is =>
        match i with
        | OtherFamily => connect_loop port is done
        | Inet b =>
            let sa := mkSA (firstn 12 (a_addr ipv4_unspecified) ++ b) (store_be 2 port) in
            let r := connect done sa in
            if (r =? 0) || (r =? EINPROGRESS) then (done ++ [sa], true) else connect_loop port is (done ++ [sa])
        | Inet6 b =>
            let sa := mkSA b (store_be 2 port) in
            let r := connect done sa in
            if (r =? 0) || (r =? EINPROGRESS) then (done ++ [sa], true) else connect_loop port is (done ++ [sa])
        end
    end.

  (** [lookup]: what [getaddrinfo] gives, [None] for an error.  [alive]: whether
      the socket still exists.  [inserts]: whether [insert_weak] succeeds. dns_connect_task.cpp:31-102 *)
  Definition dns_connect (lookup : option (list info)) (alive : bool) (inserts : bool) (port : Z) : option cstate :=
    match lookup with
    | None => if alive then Some (mkC [] false true) else None
    | Some is =>
        if alive then
          let '(done, success) := connect_loop port is [] in
          if success then
            if inserts then Some (mkC done true false) else Some (mkC done false true)
          else Some (mkC done false true)
        else None
    end.
End Connect.
