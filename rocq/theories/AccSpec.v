(** Specification vocabulary for acceptors, datagrams and connecting. *)
From Coq Require Import ZArith List Bool.
From Verif Require Import Base AddrModel AddrSpec TcpModel AccModel.
Import ListNotations.
Open Scope Z_scope.

(** The connections among some results of [accept4], with their peers *)
Definition connections (rs : list accepted) : list (address * Z) :=
  flat_map (fun r => match r with Accepted fd sa => [(of_sockaddr sa, fd)] | _ => [] end) rs.

(** The descriptors for whose calls the user has given an answer of some kind *)
Definition answered (user : nat -> address -> Z -> answer) (kind : answer -> bool) (calls : list (address * Z)) : list Z :=
  map (fun x => snd (snd x))
      (filter (fun x => kind (user (fst x) (fst (snd x)) (snd (snd x)))) (combine (seq 0 (length calls)) calls)).
Definition is_client (a : answer) : bool := match a with Client => true | _ => false end.

(** The datagrams among some results of [recvfrom], with their senders *)
Definition datagrams (rs : list received) : list (address * list Z) :=
  flat_map (fun r => match r with Packet sa d => [(of_sockaddr sa, d)] | _ => [] end) rs.

Definition is_sockaddr (sa : sockaddr) : Prop :=
  length (sa_addr sa) = 16%nat /\ bytes (sa_addr sa) /\ length (sa_port sa) = 2%nat /\ bytes (sa_port sa).

(** The address of a result of a look-up: an IPv4 address a.b.c.d is ::ffff:a.b.c.d *)
Definition names (i : info) (b16 : list Z) : Prop :=
  match i with
  | Inet b => b16 = [0;0;0;0;0;0;0;0;0;0;255;255] ++ b
  | Inet6 b => b16 = b
  | OtherFamily => False
  end.
Definition is_info (i : info) : Prop :=
  match i with
  | Inet b => length b = 4%nat /\ bytes b
  | Inet6 b => length b = 16%nat /\ bytes b
  | OtherFamily => True
  end.

(** The addresses to try, in the order of the look-up *)
Definition targets (port : Z) (is : list info) : list sockaddr :=
  flat_map (fun i => match i with
                     | Inet b => [to_sockaddr (mkAddr ([0;0;0;0;0;0;0;0;0;0;255;255] ++ b) port)]
                     | Inet6 b => [to_sockaddr (mkAddr b port)]
                     | OtherFamily => []
                     end) is.
(** The answers of [connect] that let a connection go on *)
Definition goes_on (r : Z) : Prop := r = 0 \/ r = EINPROGRESS.
