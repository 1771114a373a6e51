(** Model of [IPv6_Address::parse] and [IPv6_Address::print_partial]
    (poseidon/src/socket/ipv6_address.cpp:167-234).  [inet_ntop] and [inet_pton]
    are the C library's; here they are arguments. *)
From Coq Require Import ZArith List Bool.
From Verif Require Import Base AddrModel NetrefModel.
Import ListNotations.
Open Scope Z_scope.

(** [asteria::ascii_numput::put_DU] (external): decimal digits, at most [n]. Used at ipv6_address.cpp:229 *)
Fixpoint put_du (n : nat) (v : Z) : list Z :=
  match n with
  | O => []
  | S n => if v <? 10 then [48 + v] else put_du n (v / 10) ++ [48 + v mod 10]
  end.

Section Inet.
  (** [inet_ntop(AF_INET)], [inet_ntop(AF_INET6)]: text of 4 or 16 octets;
      [inet_pton]: octets of a text, or none. *)
  Variables ntop4 ntop6 : list Z -> list Z.
  Variables pton4 pton6 : list Z -> option (list Z).

  (** ipv6_address.cpp:203-234, [print_partial].  The byte past the 12 compared
      ones is read but masked out (C12). *)
  Definition print_addr (a : address) : list Z :=
    (if match_subnet 0 (a_addr a) [0;0;0;0;0;0;0;0;0;0;255;255] 96
     then ntop4 (skipn 12 (a_addr a))
     else [91] ++ ntop6 (a_addr a) ++ [93])
    ++ [58] ++ put_du 20 (a_port a).

  (** The member [n] of a [chars_view] of utils.hpp:159-168, read at ipv6_address.cpp:176-179 *)
  Definition view_len (v : option (nat * nat)) : nat := match v with Some (_, n) => n | None => O end.
  (** The text that ipv6_address.cpp:182-185 copies *)
  Definition view_text (s : list Z) (v : option (nat * nat)) : list Z :=
    match v with Some (o, n) => firstn n (skipn o s) | None => [] end.

  (** ipv6_address.cpp:167-202, [parse]: the address, if any, and the return
      value.  A part that was not written has length zero. *)
  Definition parse_addr (s : list Z) : option address * nat :=
    let '(c, aclen) := parse_ref s in
    if (view_len (r_host c) =? 0)%nat || (63 <? view_len (r_host c))%nat then (None, O)
    else if (view_len (r_port c) =? 0)%nat || negb (view_len (r_path c) =? 0)%nat
            || negb (view_len (r_query c) =? 0)%nat || negb (view_len (r_fragment c) =? 0)%nat then (None, O)
    else
      let host := view_text s (r_host c) in
      let port := match r_num c with Some v => v | None => 0 end in
      if r_v6 c then
        match pton6 host with
        | None => (None, O)
        | Some addr => (Some (mkAddr addr port), aclen)
        end
      else
        match pton4 host with
        | None => (None, O)
        | Some v4 => (Some (mkAddr ([0;0;0;0;0;0;0;0;0;0;255;255] ++ v4) port), aclen)
        end.

  (** ipv6_address.cpp:136-141: the constructor from text; [None] is the throw. *)
  Definition construct_addr (s : list Z) : option address :=
    let '(a, n) := parse_addr s in
    if (n =? length s)%nat then a else None.
End Inet.
