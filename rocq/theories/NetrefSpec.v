(** Specification of network references: host[:port][/path][?query][#fragment]. *)
From Coq Require Import ZArith List Bool.
From Verif Require Import Base UriSpec.
Import ListNotations.
Open Scope Z_scope.

Record reference := mkReference {
  host : list Z;
  bracketed : bool;                (** an IPv6 address in brackets *)
  port : option (list Z);
  path : option (list Z);
  query : option (list Z);
  fragment : option (list Z) }.

(** The text of a reference. *)
Definition opt_text {A} (f : A -> list Z) (o : option A) : list Z :=
  match o with Some x => f x | None => [] end.
Definition text_of (r : reference) : list Z :=
  (if bracketed r then [91] ++ host r ++ [93] else host r)
  ++ opt_text (fun p => [58] ++ p) (port r)
  ++ opt_text (fun p => p) (path r)
  ++ opt_text (fun q => [63] ++ q) (query r)
  ++ opt_text (fun f => [35] ++ f) (fragment r).

Definition letter_or_digit (c : Z) : Prop := 48 <= c <= 57 \/ 65 <= c <= 90 \/ 97 <= c <= 122.
Definition decimal (c : Z) : Prop := 48 <= c <= 57.

(** The number that a string of decimal digits denotes. *)
Definition number (ds : list Z) : Z := fold_left (fun a c => 10 * a + (c - 48)) ds 0.

Definition when {A} (o : option A) (P : A -> Prop) : Prop := match o with Some x => P x | None => True end.

Definition valid (r : reference) : Prop :=
  host r <> []
  /\ Forall (fun c => letter_or_digit c \/ (if bracketed r then c = 58 else c = 45) \/ c = 46) (host r)
  /\ when (port r) (fun ds => ds <> [] /\ Forall decimal ds /\ number ds <= 65535)
  /\ when (path r) (fun p => (exists q, p = 47 :: q) /\ Forall (fun c => path_char c = true) p)
  /\ when (query r) (Forall (fun c => query_char c = true))
  /\ when (fragment r) (Forall (fun c => query_char c = true \/ c = 35)).

(** The part of a text that a view designates. *)
Definition view (s : list Z) (v : nat * nat) : list Z := firstn (snd v) (skipn (fst v) s).
