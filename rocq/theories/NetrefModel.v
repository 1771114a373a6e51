(** Model of [parse_network_reference] (poseidon/src/utils.cpp:283-435). *)
From Coq Require Import ZArith List Bool.
From Verif Require Import Base.
Import ListNotations.
Open Scope Z_scope.

(** utils.cpp:302-303, 326-327, 372-373, 394-395, 416-417 *)
Definition alnum (c : Z) : bool :=
  ((48 <=? c) && (c <=? 57)) || ((65 <=? c) && (c <=? 90)) || ((97 <=? c) && (c <=? 122)).

(** The character classes of utils.cpp:301-305, 325-329, 345-347, 371-380, 393-402,
    415-424. *)
Definition v6_class (c : Z) : bool := alnum c || (c =? 58) || (c =? 46).
(** utils.cpp:325-329 *)
Definition host_class (c : Z) : bool := alnum c || (c =? 45) || (c =? 46).
(** utils.cpp:345-347 *)
Definition digit_class (c : Z) : bool := (48 <=? c) && (c <=? 57).
(** utils.cpp:371-380 *)
Definition path_class (c : Z) : bool :=
  alnum c
  || (c =? 45) || (c =? 46) || (c =? 95) || (c =? 126)
  || (c =? 33) || (c =? 36) || (c =? 38) || (c =? 39)
  || (c =? 40) || (c =? 41) || (c =? 42) || (c =? 43)
  || (c =? 44) || (c =? 59) || (c =? 61)
  || (c =? 37) || (c =? 58) || (c =? 64)
  || (c =? 47).
(** utils.cpp:393-402 *)
Definition query_class (c : Z) : bool := path_class c || (c =? 63).
(** utils.cpp:415-424 *)
Definition fragment_class (c : Z) : bool := query_class c || (c =? 35).

(** [std::find_if_not]: how many characters match. utils.cpp:300, 324, 344, 370, 392, 414 *)
Fixpoint run (p : Z -> bool) (s : list Z) : nat :=
  match s with
  | [] => O
  | c :: r => if p c then S (run p r) else O
  end.

(** The fields of [Network_Reference] that have been written.  A view is an
    offset into the text and a length; [None] means the caller's value stays. utils.cpp:310-312, 334-335, 359-361, 382-383, 404-405, 426-427; utils.hpp:159-168 *)
Record netref := mkRef {
  r_host : option (nat * nat);
  r_v6 : bool;                        (** [is_ipv6] was set *)
  r_port : option (nat * nat);
  r_num : option Z;
  r_path : option (nat * nat);
  r_query : option (nat * nat);
  r_fragment : option (nat * nat) }.
(** Before anything is written, utils.cpp:287-294. *)
Definition no_ref : netref := mkRef None false None None None None None.

(** The character at [m], if it is not the end of the text. utils.cpp:296, 307, 341, 367, 389, 411 *)
Definition at_char (s : list Z) (m : nat) (c : Z) : bool :=
  match nth_error s m with Some x => x =? c | None => false end.

(** utils.cpp:352-357: [all_of] stops at the first excess; [port_num] is an [int]
    and never exceeds 655359.  [None] is [return 0]. *)
Fixpoint port_value (ds : list Z) (acc : Z) : option Z :=
  match ds with
  | [] => Some acc
  | c :: r => let acc := acc * 10 + c - 48 in
              if acc <=? 65535 then port_value r acc else None
  end.

(** utils.cpp:296-339.  [None] is [return 0] (here the host is not written). *)
Definition take_host (s : list Z) : option (netref * nat) :=
  if at_char s 0 91 then
    let n := run v6_class (skipn 1 s) in
    if (n =? 0)%nat || negb (at_char s (1 + n) 93) then None
    else Some (mkRef (Some (1%nat, n)) true None None None None None, (1 + n + 1)%nat)
  else
    let n := run host_class s in
    if (n =? 0)%nat then None
    else Some (mkRef (Some (0%nat, n)) false None None None None None, n).

(** utils.cpp:341-365.  The early returns at the end of the text are the same
    as falling through, since no test below holds there. *)
Definition take_port (s : list Z) (w : netref) (m : nat) : netref * option nat :=
  if at_char s m 58 then
    let n := run digit_class (skipn (S m) s) in
    if (n =? 0)%nat then (w, None)
    else match port_value (firstn n (skipn (S m) s)) 0 with
         | None => (w, None)
         | Some v => (mkRef (r_host w) (r_v6 w) (Some (S m, n)) (Some v) (r_path w) (r_query w) (r_fragment w),
                      Some (S m + n)%nat)
         end
  else (w, Some m).

(** utils.cpp:367-387. *)
Definition take_path (s : list Z) (w : netref) (m : nat) : netref * nat :=
  if at_char s m 47 then
    let n := run path_class (skipn m s) in
    (mkRef (r_host w) (r_v6 w) (r_port w) (r_num w) (Some (m, n)) (r_query w) (r_fragment w), (m + n)%nat)
  else (w, m).

(** utils.cpp:389-409. *)
Definition take_query (s : list Z) (w : netref) (m : nat) : netref * nat :=
  if at_char s m 63 then
    let n := run query_class (skipn (S m) s) in
    (mkRef (r_host w) (r_v6 w) (r_port w) (r_num w) (r_path w) (Some (S m, n)) (r_fragment w), (S m + n)%nat)
  else (w, m).

(** utils.cpp:411-431. *)
Definition take_fragment (s : list Z) (w : netref) (m : nat) : netref * nat :=
  if at_char s m 35 then
    let n := run fragment_class (skipn (S m) s) in
    (mkRef (r_host w) (r_v6 w) (r_port w) (r_num w) (r_path w) (r_query w) (Some (S m, n)), (S m + n)%nat)
  else (w, m).

(** utils.cpp:283-435: the fields written and the number of characters. *)
Definition parse_ref (s : list Z) : netref * nat :=
  match take_host s with
  | None => (no_ref, O)
  | Some (w, m) =>
      match take_port s w m with
      | (w, None) => (w, O)
      | (w, Some m) =>
          let '(w, m) := take_path s w m in
          let '(w, m) := take_query s w m in
          take_fragment s w m
      end
  end.
