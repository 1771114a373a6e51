(** Model of [IPv6_Address] (poseidon/socket/ipv6_address.hpp and
    poseidon/src/socket/ipv6_address.cpp): comparison and classification.
    An address is its 16 octets in network order plus a port. *)
From Coq Require Import ZArith List Bool.
From Verif Require Import Base.
Import ListNotations.
Open Scope Z_scope.

(** The members of [IPv6_Address], ipv6_address.hpp:15-19 *)
Record address := mkAddr { a_addr : list Z; a_port : Z }.

(** A [char] on x86-64 is signed. The operands of [^] at ipv6_address.cpp:18 are of this type *)
Definition schar (b : Z) : Z := if b <? 128 then b else b - 256.

(** [memcmp]: the sign of the first difference of two equally long ranges. C library; used at ipv6_address.cpp:17, 156 *)
Fixpoint memcmp (a b : list Z) : Z :=
  match a, b with
  | x :: a', y :: b' => if x <? y then -1 else if y <? x then 1 else memcmp a' b'
  | _, _ => 0
  end.

(** ipv6_address.cpp:11-19, [do_match_subnet].  [addr[bi]] may lie one past the
    end of the address (it then reads the port) and [mask[bi]] may be the
    literal's NUL; [beyond] stands for whatever is read there. *)
Definition match_subnet (beyond : Z) (addr mask : list Z) (bits : nat) : bool :=
  let bi := (bits / 8)%nat in
  (memcmp (firstn bi addr) (firstn bi mask) =? 0)
  && (Z.land (Z.land 255 (Z.shiftr 65280 (Z.of_nat (bits mod 8))))
             (Z.lxor (schar (nth bi addr beyond)) (schar (nth bi mask 0))) =? 0).

(** socket/enums.hpp:10-20. *)
Inductive ip_class :=
  | ip_unspecified | ip_reserved | ip_public | ip_loopback | ip_private
  | ip_link_local | ip_multicast | ip_broadcast.

(** ipv6_address.cpp:21-68, [do_classify_ipv4_generic]. *)
Definition classify_ipv4 (beyond : Z) (addr : list Z) : ip_class :=
  let m := match_subnet beyond addr in
  if m [0; 0; 0; 0] 32%nat then ip_unspecified
  else if m [255; 255; 255; 255] 32%nat then ip_broadcast
  else if m [0] 8%nat then ip_reserved
  else if m [10] 8%nat then ip_private
  else if m [127] 8%nat then ip_loopback
  else if m [172; 16] 12%nat then ip_private
  else if m [169; 254] 16%nat then ip_link_local
  else if m [192; 168] 16%nat then ip_private
  else if m [224] 4%nat then ip_multicast
  else if m [240] 4%nat then ip_reserved
  else ip_public.

(** ipv6_address.cpp:70-121, [do_classify_ipv6_generic].  [addr + 2] keeps the
    following octets: the IPv4 part is read from a longer range. *)
Definition classify_ipv6 (beyond : Z) (addr : list Z) : ip_class :=
  let m := match_subnet beyond addr in
  if m [0;0;0;0;0;0;0;0;0;0;255;255] 96%nat then classify_ipv4 beyond (skipn 12 addr)
  else if m [0;0;0;0;0;0;0;0;0;0;0;0;0;0;0;0] 128%nat then ip_unspecified
  else if m [0;0;0;0;0;0;0;0;0;0;0;0;0;0;0;1] 128%nat then ip_loopback
  else if m [0;100;255;155;0;0;0;0;0;0;0;0] 96%nat then classify_ipv4 beyond (skipn 12 addr)
  else if m [0;100;255;155;0;1] 48%nat then classify_ipv4 beyond (skipn 12 addr)
  else if m [1;0;0;0;0;0;0;0] 64%nat then ip_reserved
  else if m [32;1;13;184] 32%nat then ip_reserved
  else if m [32;2] 16%nat then classify_ipv4 beyond (skipn 2 addr)
  else if m [252;0] 7%nat then ip_private
  else if m [254;128] 10%nat then ip_link_local
  else if m [255;0] 8%nat then ip_multicast
  else ip_public.

(** ipv6_address.cpp:159-165, [classify]: octet 16 is the port's low octet
    (little-endian storage). *)
Definition classify (a : address) : ip_class := classify_ipv6 (a_port a mod 256) (a_addr a).

(** ipv6_address.cpp:143-157, [compare]. *)
Definition compare (a b : address) : Z :=
  memcmp (a_addr a ++ store_be 2 (a_port a)) (a_addr b ++ store_be 2 (a_port b)).

(** [_mm_movemask_epi8(_mm_cmpeq_epi16(a, b))]: two mask bits per 16-bit lane. Used at ipv6_address.hpp:104-137 *)
Fixpoint eq16_mask (a b : list Z) : Z :=
  match a, b with
  | x0 :: x1 :: a', y0 :: y1 :: b' =>
      (if (x0 =? y0) && (x1 =? y1) then 3 else 0) + 4 * eq16_mask a' b'
  | _, _ => 0
  end.

(** ipv6_address.hpp:104-114, [equals]. *)
Definition equals (a b : address) : bool :=
  Z.lor (Z.lxor (eq16_mask (a_addr a) (a_addr b)) 65535) (Z.lxor (a_port a) (a_port b)) =? 0.

(** ipv6_address.hpp:128-137, [is_v4mapped]. *)
Definition is_v4mapped (a : address) : bool :=
  Z.land (Z.lxor (eq16_mask (a_addr a) [0;0;0;0;0;0;0;0;0;0;255;255;0;0;0;0]) 65535) 4095 =? 0.

(** ipv6_address.cpp:125-134: the constants. *)
Definition ipv6_unspecified := mkAddr [0;0;0;0;0;0;0;0;0;0;0;0;0;0;0;0] 0.
(** ipv6_address.cpp:129 *)
Definition ipv6_loopback := mkAddr [0;0;0;0;0;0;0;0;0;0;0;0;0;0;0;1] 0.
(** ipv6_address.cpp:125, 130 *)
Definition ipv6_invalid := mkAddr [32;1;13;184;243;151;214;23;74;162;130;224;44;95;237;217] 0.
(** ipv6_address.cpp:126, 132 *)
Definition ipv4_unspecified := mkAddr [0;0;0;0;0;0;0;0;0;0;255;255;0;0;0;0] 0.
(** ipv6_address.cpp:126, 133 *)
Definition ipv4_loopback := mkAddr [0;0;0;0;0;0;0;0;0;0;255;255;127;0;0;1] 0.
(** ipv6_address.cpp:126, 134 *)
Definition ipv4_broadcast := mkAddr [0;0;0;0;0;0;0;0;0;0;255;255;255;255;255;255] 0.
