(** Specification of address classes: CIDR blocks over 32-bit and 128-bit
    numbers. *)
From Coq Require Import ZArith List Bool.
From Verif Require Import Base AddrModel.
Import ListNotations.
Open Scope Z_scope.

(** a.b.c.d *)
Definition ip4 (a b c d : Z) : Z := a * 2 ^ 24 + b * 2 ^ 16 + c * 2 ^ 8 + d.
(** The eight groups of an IPv6 address. *)
Definition ip6 (a b c d e f g h : Z) : Z :=
  a * 2 ^ 112 + b * 2 ^ 96 + c * 2 ^ 80 + d * 2 ^ 64 + e * 2 ^ 48 + f * 2 ^ 32 + g * 2 ^ 16 + h.

(** [in_block w base n a]: the [w]-bit address [a] is in [base/n]. *)
Definition in_block (w base n a : Z) : bool := (base <=? a) && (a <? base + 2 ^ (w - n)).

(** RFC 1122, 1918, 3927, 5771: the IPv4 blocks. *)
Definition class4 (a : Z) : ip_class :=
  if in_block 32 (ip4 0 0 0 0) 32 a then ip_unspecified
  else if in_block 32 (ip4 255 255 255 255) 32 a then ip_broadcast
  else if in_block 32 (ip4 0 0 0 0) 8 a then ip_reserved
  else if in_block 32 (ip4 10 0 0 0) 8 a then ip_private
  else if in_block 32 (ip4 127 0 0 0) 8 a then ip_loopback
  else if in_block 32 (ip4 172 16 0 0) 12 a then ip_private
  else if in_block 32 (ip4 169 254 0 0) 16 a then ip_link_local
  else if in_block 32 (ip4 192 168 0 0) 16 a then ip_private
  else if in_block 32 (ip4 224 0 0 0) 4 a then ip_multicast
  else if in_block 32 (ip4 240 0 0 0) 4 a then ip_reserved
  else ip_public.

(** The IPv6 blocks; mapped, translated and 6to4 addresses have the class of
    the IPv4 address they embed. *)
Definition class6 (a : Z) : ip_class :=
  if in_block 128 (ip6 0 0 0 0 0 65535 0 0) 96 a then class4 (a mod 2 ^ 32)               (* ::ffff:0:0/96 *)
  else if a =? 0 then ip_unspecified                                                      (* :: *)
  else if a =? 1 then ip_loopback                                                         (* ::1 *)
  else if in_block 128 (ip6 100 65435 0 0 0 0 0 0) 96 a then class4 (a mod 2 ^ 32)        (* 64:ff9b::/96 *)
  else if in_block 128 (ip6 100 65435 1 0 0 0 0 0) 48 a then class4 (a mod 2 ^ 32)        (* 64:ff9b:1::/48 *)
  else if in_block 128 (ip6 256 0 0 0 0 0 0 0) 64 a then ip_reserved                      (* 100::/64 *)
  else if in_block 128 (ip6 8193 3512 0 0 0 0 0 0) 32 a then ip_reserved                  (* 2001:db8::/32 *)
  else if in_block 128 (ip6 8194 0 0 0 0 0 0 0) 16 a then class4 (a / 2 ^ 80 mod 2 ^ 32)  (* 2002::/16 *)
  else if in_block 128 (ip6 64512 0 0 0 0 0 0 0) 7 a then ip_private                      (* fc00::/7 *)
  else if in_block 128 (ip6 65152 0 0 0 0 0 0 0) 10 a then ip_link_local                  (* fe80::/10 *)
  else if in_block 128 (ip6 65280 0 0 0 0 0 0 0) 8 a then ip_multicast                    (* ff00::/8 *)
  else ip_public.

(** The order of (address, port): by address number, then by port. *)
Definition number (a : address) : Z := load_be (a_addr a).
Definition is_address (a : address) : Prop :=
  length (a_addr a) = 16%nat /\ bytes (a_addr a) /\ 0 <= a_port a < 65536.
Definition before (a b : address) : Prop :=
  number a < number b \/ (number a = number b /\ a_port a < a_port b).
