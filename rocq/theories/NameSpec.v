(** What the addresses of a socket are, and what it means to be in a group *)
From Coq Require Import ZArith List Bool.
From Verif Require Import Base AddrModel AccModel AccSpec NameModel.
Import ListNotations.
Open Scope Z_scope.

(** The name of a socket, if the system says that it has one with a port *)
Definition known (k : kname) : option address :=
  match k with
  | Named true sa => if load_be (sa_port sa) =? 0 then None else Some (of_sockaddr sa)
  | _ => None
  end.
(** What there is to say otherwise: the socket has no name yet, or something is wrong *)
Definition unnamed (w : which) (k : kname) : address :=
  match k with
  | Failed e => match w with Local => ipv6_invalid | Remote => if e =? ENOTCONN then ipv6_unspecified else ipv6_invalid end
  | Named in6 sa => if in6 then ipv6_unspecified else ipv6_invalid
  end.
(** The results of some calls, one after another: the first name that there is, is kept. *)
Fixpoint expected (w : which) (cache : option address) (ks : list kname) : list address :=
  match ks with
  | [] => []
  | k :: ks =>
      let now := match cache with Some a => Some a | None => known k end in
      match now with Some a => a | None => unnamed w k end :: expected w now ks
  end.
(** A call by the first thread, and a look at the result *)
Definition whole_call (k : kname) : list event :=
  [System k; Call 0; Step 0; Step 0; Step 0; Step 0; Read_addr 0; Read_port 0].
(** The addresses that have been returned and looked at *)
Definition results (l : list obs) : list address :=
  flat_map (fun o => match o with Returned _ Invalid => [ipv6_invalid] | Returned _ Unspecified => [ipv6_unspecified] | Returned _ Member => [] | Saw _ a => [a] end) l.

(** All that the system has said *)
Definition said (k : kname) (xs : list event) : list kname := k :: flat_map (fun x => match x with System k => [k] | _ => [] end) xs.
(** There is only one name. *)
Definition one_name (n : address) (ks : list kname) : Prop := forall k a, In k ks -> known k = Some a -> a = n.

(** Two threads access the member at the same time, and one of them changes it, which the C++ standard does not allow. *)
Definition changes (t : thread) : Prop := match t_pc t with Store_addr _ | Store_port _ => True | _ => False end.
Definition uses (t : thread) : Prop := changes t \/ t_pc t = Idle /\ t_ref t = true.
Definition data_race (s : state) : Prop :=
  exists i j t u, i <> j /\ nth_error (threads s) i = Some t /\ nth_error (threads s) j = Some u /\ changes t /\ uses u.

(** * Groups *)

(** An IPv4 address a.b.c.d is written as ::ffff:a.b.c.d. *)
Definition writes4 (m b : list Z) : Prop := m = [0;0;0;0;0;0;0;0;0;0;255;255] ++ b.
(** The socket is in the group with an address, on an interface. *)
Definition member (g : groups) (m : list Z) (i : Z) : Prop :=
  (exists b, writes4 m b /\ In (b, i) (g4 g)) \/ ((forall b, ~ writes4 m b) /\ In (m, i) (g6 g)).
(** How datagrams are sent to groups of IPv4, and of IPv6: hops and loop-back *)
Definition sends_as (m : list Z) (ttl : Z) (loopback : bool) (g g' : groups) : Prop :=
  ((exists b, writes4 m b) -> ttl4 g' = ttl /\ loop4 g' = (if loopback then 1 else 0) /\ ttl6 g' = ttl6 g /\ loop6 g' = loop6 g)
  /\ ((forall b, ~ writes4 m b) -> ttl6 g' = ttl /\ loop6 g' = (if loopback then 1 else 0) /\ ttl4 g' = ttl4 g /\ loop4 g' = loop4 g).
(** An address: 16 octets *)
Definition is_group (m : list Z) : Prop := length m = 16%nat /\ bytes m.
(** The system keeps addresses of IPv4 and of IPv6 *)
Definition groups_ok (g : groups) : Prop :=
  Forall (fun x => length (fst x) = 4%nat /\ bytes (fst x)) (g4 g) /\ Forall (fun x => is_group (fst x)) (g6 g).
