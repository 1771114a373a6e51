(** What is assumed of zlib, and what is claimed about its wrappers.

    A raw stream is a sequence of blocks.  [decode s] is what the octets of the
    stream that begins with [s] stand for so far, and [None] if no stream begins
    with [s] (or if the stream has a final block).  [flushed s]: [s] is empty or
    it ends after an empty block without compression, at an octet boundary. *)
From Coq Require Import ZArith List Bool.
From Verif Require Import Base BaseLemmas DeflModel.
Import ListNotations.
Open Scope Z_scope.

(** The two properties of the format (RFC 1951, 3.2.3 and 3.2.4) that matter:
    streams can be chained after a flush; and whatever follows a flush up to
    another one ends with [00 00 FF FF]. *)
Record language (decode : list Z -> option (list Z)) (flushed : list Z -> Prop) : Prop := {
  lang_nil : flushed [] /\ decode [] = Some [];
  lang_chain : forall a b x y,
    flushed a -> decode a = Some x -> decode b = Some y -> decode (a ++ b) = Some (x ++ y);
  lang_chain_flushed : forall a b, flushed a -> flushed b -> flushed (a ++ b);
  lang_marker : forall a b, flushed a -> flushed (a ++ b) -> b <> [] ->
    exists c, b = c ++ [0; 0; 255; 255] }.

Definition fine (e : status) : Prop := e = Z_ok \/ e = Z_buf_error.

(** [deflate] (zlib.h).  [fed] and [made] are all that a stream has taken and all
    that it has written since it was last reset; [sane] are the states that calls
    with enough room lead to.  A call may fail; then nothing but a reset is
    possible. *)
Record deflate_contract (dst : Type) (deflate : dst -> mode -> nat -> list Z -> answer dst)
    (reset : dst -> dst) (decode : list Z -> option (list Z)) (flushed : list Z -> Prop)
    (sane : dst -> Prop) (fed made : dst -> list Z) (bound : nat -> nat) : Prop := {
  d_reset : forall st, sane (reset st) /\ fed (reset st) = [] /\ made (reset st) = [];
  (* nothing is lost or made up *)
  d_account : forall st m avail input st' n out err,
    sane st -> (6 < avail)%nat -> m <> Finish -> deflate st m avail input = (st', n, out, err) -> fine err ->
    sane st' /\ (n <= length input)%nat /\ (length out <= avail)%nat /\ bytes out /\
    fed st' = fed st ++ firstn n input /\ made st' = made st ++ out;
  (* "deflate compresses as much data as possible, and stops when the input
     buffer becomes empty or the output buffer becomes full" *)
  d_takes : forall st avail input st' n out err,
    sane st -> (6 < avail)%nat -> deflate st No_flush avail input = (st', n, out, err) -> fine err ->
    (length out < avail)%nat -> n = length input;
  (* "If the parameter flush is set to Z_SYNC_FLUSH, all pending output is
     flushed to the output buffer and the output is aligned on a byte boundary,
     so that the decompressor can get all input data available so far"; "until
     the flush is complete (deflate returns with non-zero avail_out)"; "If flush
     is set to Z_FULL_FLUSH, all output is flushed as with Z_SYNC_FLUSH" *)
  d_flushes : forall st m avail st' n out err,
    sane st -> (6 < avail)%nat -> m = Sync_flush \/ m = Full_flush ->
    deflate st m avail [] = (st', n, out, err) -> fine err ->
    (length out < avail)%nat -> flushed (made st') /\ decode (made st') = Some (fed st');
  (* "Z_OK if some progress has been made", "Z_BUF_ERROR if no progress is
     possible" *)
  d_progress : forall st m avail input st' n out err,
    sane st -> (6 < avail)%nat -> (m = No_flush /\ input <> [] \/ m = Sync_flush \/ m = Full_flush) ->
    deflate st m avail input = (st', n, out, err) ->
    (err = Z_ok -> n <> 0%nat \/ out <> []) /\ (err = Z_buf_error -> n = 0%nat /\ out = []);
  (* the output is not unlimited *)
  d_bound : forall st, sane st -> (length (made st) <= bound (length (fed st)))%nat;
  d_bound_mono : forall a b, (a <= b)%nat -> (bound a <= bound b)%nat }.

(** [inflate] with [Z_SYNC_FLUSH].  [eaten] and [got] are all that a stream has
    taken and all that it has written. *)
Record inflate_contract (ist : Type) (inflate : ist -> nat -> list Z -> answer ist)
    (decode : list Z -> option (list Z)) (sane : ist -> Prop) (eaten got : ist -> list Z)
    (bound : nat -> nat) : Prop := {
  i_account : forall st avail input st' n out err,
    sane st -> (0 < avail)%nat -> inflate st avail input = (st', n, out, err) -> fine err ->
    sane st' /\ (n <= length input)%nat /\ (length out <= avail)%nat /\
    eaten st' = eaten st ++ firstn n input /\ got st' = got st ++ out;
  (* what is written is right, as far as it goes *)
  i_right : forall st more d, sane st -> decode (eaten st ++ more) = Some d ->
    exists r, d = got st ++ r;
  (* "inflate decompresses as much data as possible, and stops when the input
     buffer becomes empty or the output buffer becomes full" *)
  i_takes : forall st avail input st' n out err,
    sane st -> (0 < avail)%nat -> inflate st avail input = (st', n, out, err) -> fine err ->
    (length out < avail)%nat -> n = length input /\ decode (eaten st') = Some (got st');
  i_progress : forall st avail input st' n out err,
    sane st -> (0 < avail)%nat -> inflate st avail input = (st', n, out, err) ->
    (err = Z_ok -> n <> 0%nat \/ out <> []) /\ (err = Z_buf_error -> n = 0%nat /\ out = []);
  i_bound : forall st, sane st -> (length (got st) <= bound (length (eaten st)))%nat;
  i_bound_mono : forall a b, (a <= b)%nat -> (bound a <= bound b)%nat }.

(** No call fails if the input is the beginning of a stream; this excludes
    exhaustion of memory. *)
Definition inflate_never_fails (ist : Type) (inflate : ist -> nat -> list Z -> answer ist)
    (decode : list Z -> option (list Z)) (sane : ist -> Prop) (eaten : ist -> list Z) : Prop :=
  forall st avail input st' n out err more d,
    sane st -> (0 < avail)%nat -> inflate st avail input = (st', n, out, err) ->
    decode (eaten st ++ input ++ more) = Some d -> fine err.

(** ** An exchange of messages

    Each message is sent and received, one after another.  [sizes]: how much
    more than is asked for the output buffers have, for the two loops of the
    sender and the two of the receiver. *)
Definition sizes := (list nat * list nat * list nat * list nat)%type.
Definition long_enough (n : nat) (z : sizes) : Prop :=
  match z with (a, b, c, d) =>
    (n <= length a)%nat /\ (n <= length b)%nat /\ (n <= length c)%nat /\ (n <= length d)%nat end.

Section Exchange.
  Variable dst ist : Type.
  Variable send : dst -> Z -> list Z -> list nat -> list nat -> outcome (dst * (Z * list Z)).
  Variable receive : ist -> bool -> list Z -> list nat -> list nat -> outcome (ist * list Z).

  (** The messages that the receiver gets, or [Threw] or [Hungry].  The bits of
      the first octet of a frame: [128] FIN, [64] RSV1, [15] the opcode. *)
  Fixpoint exchange (s : dst) (r : ist) (ms : list (Z * list Z)) (zs : list sizes)
    : outcome (list (Z * list Z)) :=
    match ms, zs with
    | [], _ => Done []
    | _, [] => Hungry
    | (op, data) :: ms, (a, b, c, d) :: zs =>
        match send s op data a b with
        | Threw => Threw
        | Hungry => Hungry
        | Done (s, (octet, payload)) =>
            match receive r (Z.testbit octet 6) payload c d with
            | Threw => Threw
            | Hungry => Hungry
            | Done (r, got) =>
                match exchange s r ms zs with
                | Done l => Done ((Z.land octet 15, got) :: l)
                | o => o
                end
            end
        end
    end.
End Exchange.

(** ** Whole streams *)

(** [whole s x]: [s] is a complete stream that stands for [x]; no stream is a
    part of another one. *)
Definition prefix_free (whole : list Z -> list Z -> Prop) : Prop :=
  forall a x b y r, whole a x -> whole b y -> b = a ++ r -> r = [] /\ x = y.

Record finish_contract (dst : Type) (deflate : dst -> mode -> nat -> list Z -> answer dst)
    (whole : list Z -> list Z -> Prop) (sane : dst -> Prop) (fed made : dst -> list Z)
    (bound : nat -> nat) : Prop := {
  f_account : forall st m avail input st' n out err,
    sane st -> (6 < avail)%nat -> deflate st m avail input = (st', n, out, err) -> err <> Z_error ->
    sane st' /\ (n <= length input)%nat /\ (length out <= avail)%nat /\
    fed st' = fed st ++ firstn n input /\ made st' = made st ++ out;
  f_takes : forall st avail input st' n out err,
    sane st -> (6 < avail)%nat -> deflate st No_flush avail input = (st', n, out, err) -> fine err ->
    (length out < avail)%nat -> n = length input;
  (* "If the parameter flush is set to Z_FINISH, pending input is processed,
     pending output is flushed and deflate returns with Z_STREAM_END if there was
     enough output space"; "Z_STREAM_END if all input has been consumed and all
     output has been produced (only when flush is set to Z_FINISH)" *)
  f_end : forall st avail input st' n out,
    sane st -> (6 < avail)%nat -> deflate st Finish avail input = (st', n, out, Z_stream_end) ->
    n = length input /\ whole (made st') (fed st');
  f_only : forall st m avail input st' n out err,
    sane st -> (6 < avail)%nat -> deflate st m avail input = (st', n, out, err) ->
    err = Z_stream_end -> m = Finish;
  f_progress : forall st m avail input st' n out err,
    sane st -> (6 < avail)%nat -> (m = No_flush -> input <> []) -> deflate st m avail input = (st', n, out, err) ->
    (err = Z_ok -> n <> 0%nat \/ out <> []) /\ (err = Z_buf_error -> n = 0%nat /\ out = []) /\
    (m = Finish -> err <> Z_buf_error);
  f_bound : forall st, sane st -> (length (made st) <= bound (length (fed st)))%nat;
  f_bound_mono : forall a b, (a <= b)%nat -> (bound a <= bound b)%nat }.

(** [inflate] on whole streams: it stops at the end of one. *)
Record whole_contract (ist : Type) (inflate : ist -> nat -> list Z -> answer ist)
    (whole : list Z -> list Z -> Prop) (sane : ist -> Prop) (eaten got : ist -> list Z)
    (bound : nat -> nat) : Prop := {
  w_account : forall st avail input st' n out err,
    sane st -> (0 < avail)%nat -> inflate st avail input = (st', n, out, err) -> err <> Z_error ->
    sane st' /\ (n <= length input)%nat /\ (length out <= avail)%nat /\
    eaten st' = eaten st ++ firstn n input /\ got st' = got st ++ out;
  w_end : forall st avail input st' n out,
    sane st -> (0 < avail)%nat -> inflate st avail input = (st', n, out, Z_stream_end) ->
    whole (eaten st') (got st');
  (* with some room left, it has either taken everything or come to the end *)
  w_takes : forall st avail input st' n out err,
    sane st -> (0 < avail)%nat -> inflate st avail input = (st', n, out, err) -> fine err ->
    (length out < avail)%nat -> n = length input /\ forall x, ~ whole (eaten st') x;
  w_progress : forall st avail input st' n out err,
    sane st -> (0 < avail)%nat -> inflate st avail input = (st', n, out, err) ->
    (err = Z_ok -> n <> 0%nat \/ out <> []) /\ (err = Z_buf_error -> n = 0%nat /\ out = []);
  (* it never takes more than a stream *)
  w_within : forall st s x, sane st -> whole s x -> forall r, eaten st = s ++ r -> r = [];
  w_bound : forall st, sane st -> (length (got st) <= bound (length (eaten st)))%nat;
  w_bound_mono : forall a b, (a <= b)%nat -> (bound a <= bound b)%nat }.

(** ** Use of the public classes

    Data are put in pieces; a deflator may be flushed in between.  The lists of
    sizes are those of the buffers that the derived class supplies, for one call
    each. *)
Inductive op := Put (data : list Z) | Sync_call | Full_call.
Definition data_of (o : op) : list Z := match o with Put d => d | _ => [] end.

Section Use.
  Variable st : Type.
  Variable put : st -> room -> list Z -> list nat -> outcome (st * room * nat).
  Variable sync full : st -> room -> list nat -> outcome (st * room * bool).

  (** What the calls return: the number of octets that have been taken, or
      whether a flush has succeeded. *)
  Fixpoint use (s : st) (b : room) (os : list (op * list nat)) : outcome (st * room * list (nat + bool)) :=
    match os with
    | [] => Done (s, b, [])
    | (o, sz) :: os =>
        let next r :=
          match r with
          | Done (s, b, v) =>
              match use s b os with Done (s, b, vs) => Done (s, b, v :: vs) | e => e end
          | Threw => Threw
          | Hungry => Hungry
          end in
        match o with
        | Put d => next (match put s b d sz with Done (s, b, k) => Done (s, b, inl k) | Threw => Threw | Hungry => Hungry end)
        | Sync_call => next (match sync s b sz with Done (s, b, r) => Done (s, b, inr r) | Threw => Threw | Hungry => Hungry end)
        | Full_call => next (match full s b sz with Done (s, b, r) => Done (s, b, inr r) | Threw => Threw | Hungry => Hungry end)
        end
    end.
End Use.

(** Everything has been taken; every flush has succeeded. *)
Definition all_well (os : list (op * list nat)) : list (nat + bool) :=
  map (fun o => match fst o with Put d => inl (length d) | _ => inr true end) os.
Definition pieces (ds : list (list Z * list nat)) : list (op * list nat) :=
  map (fun d => (Put (fst d), snd d)) ds.

(** ** The stream callback of a session

    There, all that inflation of some octets yields comes at once. *)
Definition prefixes (decode : list Z -> option (list Z)) : Prop :=
  forall a b y, decode (a ++ b) = Some y -> exists x t, decode a = Some x /\ y = x ++ t.
Definition stream_decoder (zst : Type) (inflate : zst -> list Z -> option (zst * list Z))
    (decode : list Z -> option (list Z)) (seen : zst -> list Z) : Prop :=
  forall st data x y, decode (seen st) = Some x -> decode (seen st ++ data) = Some (x ++ y) ->
    exists st', inflate st data = Some (st', y) /\ seen st' = seen st ++ data.

(** The frames for some messages; for each, the sizes of the buffers. *)
Fixpoint send_all (dst M : Type) (send : dst -> M -> list nat -> list nat -> outcome (dst * list Z))
    (s : dst) (ms : list M) (zs : list (list nat * list nat)) : outcome (list (list Z)) :=
  match ms, zs with
  | [], _ => Done []
  | _, [] => Hungry
  | m :: ms, (a, b) :: zs =>
      match send s m a b with
      | Threw => Threw
      | Hungry => Hungry
      | Done (s, w) => match send_all dst M send s ms zs with Done ws => Done (w :: ws) | e => e end
      end
  end.
