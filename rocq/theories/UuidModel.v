(** Model of [UUID] (poseidon/base/uuid.hpp, poseidon/src/base/uuid.cpp) and of
    [hex_encode_16_partial] (poseidon/src/utils.cpp).  A UUID is its list of 16
    octets, [m_bytes]. *)
From Coq Require Import ZArith List Bool.
From Verif Require Import Base.
Import ListNotations.
Open Scope Z_scope.

(** utils.cpp:249, [_mm_and_si128(_mm_srli_epi64(tval, 4), 15)]: a shift of each
    64-bit lane followed by AND 15 on every octet. *)
Definition high_nibbles (lane : list Z) : list Z :=
  map (fun b => Z.land b 15) (store_le 8 (Z.shiftr (load_le lane) 4)).
(** utils.cpp:250. *)
Definition low_nibbles (lane : list Z) : list Z := map (fun b => Z.land b 15) lane.
(** utils.cpp:254-257: [val + '0' + (-(val > 9) & 39)]. *)
Definition xdigit (v : Z) : Z := v + 48 + (if 9 <? v then 39 else 0).
(** utils.cpp:260-261, [_mm_unpacklo_epi8] and [_mm_unpackhi_epi8]. *)
Fixpoint interleave (a b : list Z) : list Z :=
  match a, b with
  | x :: a', y :: b' => x :: y :: interleave a' b'
  | _, _ => []
  end.
(** utils.cpp:243-263, [hex_encode_16_partial]: 32 digits and a NUL. *)
Definition hex_encode_16 (data : list Z) : list Z :=
  let hi := high_nibbles (firstn 8 data) ++ high_nibbles (skipn 8 data) in
  let lo := low_nibbles (firstn 8 data) ++ low_nibbles (skipn 8 data) in
  interleave (map xdigit hi) (map xdigit lo) ++ [0].

(** [memcpy(str + off, data, length data)] into a buffer. uuid.cpp:159-181: a store of bytes at an offset. *)
Definition put (off : nat) (data buf : list Z) : list Z :=
  firstn off buf ++ data ++ skipn (off + length data) buf.
(** uuid.cpp:159-181: bytes at an offset. *)
Definition sub (off n : nat) (s : list Z) : list Z := firstn n (skipn off s).

(** uuid.cpp:159-181, [print_partial].  [buf] is what the caller's buffer
    (37 bytes or more) holds before the call. *)
Definition print_partial (u buf : list Z) : list Z :=
  let h := hex_encode_16 u in
  let b := put 36 [0] buf in
  let b := put 20 (sub 16 16 h) b in
  let b := put 23 [45] b in
  let b := put 19 (sub 16 4 h) b in
  let b := put 18 [45] b in
  let b := put 14 (sub 12 4 h) b in
  let b := put 13 [45] b in
  let b := put 9 (sub 8 4 h) b in
  let b := put 8 [45] b in
  put 0 (sub 0 8 h) b.

(** uuid.cpp:183-201, [print_to] / [to_string]: the first 36 characters of a
    local (uninitialized) buffer. *)
Definition to_string (u buf : list Z) : list Z := firstn 36 (print_partial u buf).

(** uuid.cpp:125-135. *)
Definition hex_val (c : Z) : option Z :=
  if (48 <=? c) && (c <=? 57) then Some (c - 48)
  else if (65 <=? c) && (c <=? 70) then Some (c - 65 + 10)
  else if (97 <=? c) && (c <=? 102) then Some (c - 97 + 10)
  else None.

(** uuid.cpp:119: 0b100001000010000100000000. *)
Definition dash_mask : Z := 8659200.

(** uuid.cpp:115-140; [n] iterations are left, [k] is the index, [str] the
    characters from index [k] on.  Reading past the end of [str] cannot happen
    below [parse]; it is [None] here. *)
Fixpoint parse_loop (n : nat) (k : Z) (str : list Z) (high low : Z) : option (Z * Z) :=
  match n with
  | O => Some (high, low)
  | S n' =>
      match str with
      | [] => None
      | c :: r =>
          if negb (Z.land (Z.shiftl 1 k) dash_mask =? 0) then
            if c =? 45 then parse_loop n' (k + 1) r high low else None
          else
            match hex_val c with
            | None => None
            | Some v =>
                if k <? 19 then parse_loop n' (k + 1) r (Z.lor (Z.shiftl high 4 mod two64) v) low
                else parse_loop n' (k + 1) r high (Z.lor (Z.shiftl low 4 mod two64) v)
            end
      end
  end.

(** uuid.cpp:110-145, [parse_partial]; [None] is the return value 0, [Some u]
    the value 36. *)
Definition parse_partial (str : list Z) : option (list Z) :=
  match parse_loop 36 0 str 0 0 with
  | None => None
  | Some (high, low) => Some (store_be 8 high ++ store_be 8 low)
  end.

(** uuid.cpp:147-157, [parse]. *)
Definition parse (str : list Z) : option (list Z) :=
  if (36 <=? length str)%nat then parse_partial str else None.

(** uuid.cpp:21-26, [UUID(chars_view)]: succeeds only if all was consumed. *)
Definition construct (str : list Z) : option (list Z) :=
  match parse str with
  | Some u => if (36 =? length str)%nat then Some u else None
  | None => None
  end.

(** uuid.hpp:40-66, [UUID(const fields&)]. *)
Definition of_fields (xh xl y zh zl : Z) : list Z :=
  [Z.shiftr xh 24 mod 256; Z.shiftr xh 16 mod 256; Z.shiftr xh 8 mod 256; xh mod 256;
   Z.shiftr xl 8 mod 256; xl mod 256; Z.shiftr y 8 mod 256; y mod 256;
   Z.shiftr zh 8 mod 256; zh mod 256;
   Z.shiftr zl 40 mod 256; Z.shiftr zl 32 mod 256; Z.shiftr zl 24 mod 256;
   Z.shiftr zl 16 mod 256; Z.shiftr zl 8 mod 256; zl mod 256].

(** uuid.hpp:166-176, [equals]: all 16 octets equal. *)
Definition equals (a b : list Z) : bool := forallb (fun p => fst p =? snd p) (combine a b).

(** uuid.cpp:95-108, [compare].  After the octet reversal, octet [i] of the UUID
    is bit [15 - i] of the mask; XOR 0x80 makes the signed comparison an
    unsigned one. *)
Definition signed8 (b : Z) : Z := if b <? 128 then b else b - 256.
(** uuid.cpp:95-108: one lane of the signed comparison after the exclusive-or with 0x80. *)
Definition gt_lane (x y : Z) : bool := signed8 (Z.lxor y 128) <? signed8 (Z.lxor x 128).
(** [_mm_movemask_epi8] of octets given from the lowest lane up. uuid.cpp:95-108. *)
Fixpoint movemask (l : list bool) : Z :=
  match l with [] => 0 | b :: r => b2z b + 2 * movemask r end.
(** uuid.cpp:95-108 [compare]. *)
Definition compare (a b : list Z) : Z :=
  let ta := rev a in let ob := rev b in
  let gt := movemask (map (fun p => gt_lane (fst p) (snd p)) (combine ta ob)) in
  let lt := movemask (map (fun p => gt_lane (snd p) (fst p)) (combine ta ob)) in
  gt - lt.

(** uuid.cpp:44-66, [random_v4]; the arguments are the four 32-bit numbers
    drawn from the generator. *)
Definition random_v4 (z0 z1 z2 z3 : Z) : list Z :=
  let z1 := Z.lor (Z.land z1 4294905855) 16384 in          (* 0xFFFF0FFF, 0x4000 *)
  let z2 := Z.lor (Z.land z2 1073741823) 2147483648 in     (* 0x3FFFFFFF, 0x80000000 *)
  store_be 4 z0 ++ store_be 4 z1 ++ store_be 4 z2 ++ store_be 4 z3.

(** uuid.cpp:14-17: the generator's state. *)
Record gen := mkGen { g_time : Z; g_serial : Z }.
(** uuid.cpp:14-17: the initial values. *)
Definition gen_init : gen := mkGen 0 0.

(** One call's inputs: the clock ([tv_sec], [tv_nsec]) and the random numbers. uuid.cpp:74-81: what the clock and the random generator return in one call. *)
Record draw := mkDraw { d_sec : Z; d_nsec : Z; d_z2 : Z; d_z3 : Z }.

(** uuid.cpp:76. *)
Definition draw_time (d : draw) : Z :=
  (d_sec d mod two64 * 1000 + d_nsec d mod two32 / 1000000) mod two64.

(** uuid.cpp:68-93, [random_v7]; the lock makes calls atomic. *)
Definition random_v7 (pid : Z) (g : gen) (d : draw) : gen * list Z :=
  let time := draw_time d in
  let serial := if g_time g =? time then Z.land (g_serial g + 1) 4095 else 0 in
  let x0 := Z.lor (Z.lor (Z.shiftl time 16 mod two64) 28672) serial in
  let z2 := Z.lor (Z.lor 2147483648 (Z.shiftl (Z.land (pid mod two32) 16383) 16))
                  (Z.land (d_z2 d) 65535) in
  (mkGen time serial, store_be 8 x0 ++ store_be 4 z2 ++ store_be 4 (d_z3 d)).

(** uuid.cpp:68-93, called any number of times. *)
Fixpoint run_v7 (pid : Z) (g : gen) (ds : list draw) : list (list Z) :=
  match ds with
  | [] => []
  | d :: r => let '(g, u) := random_v7 pid g d in u :: run_v7 pid g r
  end.
