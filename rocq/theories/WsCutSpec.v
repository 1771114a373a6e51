(** Specification of what is received when the transport delivers the frames of
    a WebSocket connection in arbitrary pieces, written without reference to the
    model. *)
From Coq Require Import ZArith List Bool Arith.
From Verif Require Import Base WsSpec.
Import ListNotations.
Open Scope Z_scope.

(** The positions in the byte stream at which a piece ends, if the first piece
    starts at position [at0]. *)
Fixpoint cuts (at0 : nat) (pieces : list (list Z)) : list nat :=
  match pieces with
  | [] => []
  | c :: cs => (at0 + length c)%nat :: cuts (at0 + length c) cs
  end.

(** The size of the header of frame [f] that is [w] on the wire. *)
Definition header_size (f : frame) (w : list Z) : nat := (length w - length (f_payload f))%nat.

(** The cuts at or after [lo], and before [hi]. *)
Definition cuts_in (lo hi : nat) (ps : list nat) : list nat :=
  filter (fun p => (lo <=? p)%nat && (p <? hi)%nat) ps.

(** The stream is cut after the second byte of a header and before its end, and
    the header is of a kind that does not survive this: the frame starts or ends
    a message of several frames. [base] is where the frame starts. *)
Definition torn (f : frame) (w : list Z) (base : nat) (ps : list nat) : bool :=
  negb (resumable (f_fin f) (f_opcode f)) &&
  negb (Nat.eqb (length (cuts_in (base + 2) (base + header_size f w) ps)) 0).

(** What follows the last cut inside the payload; [w] is the whole frame and
    ends with the payload. *)
Definition after_last_cut (payload w : list Z) (base : nat) (ps : list nat) : list Z :=
  let lo := (base + (length w - length payload))%nat in
  skipn (fold_right Nat.max lo (cuts_in lo (base + length w) ps) - lo) payload.

(** What is left of the payload: of a TEXT or BINARY frame, what follows the last
    cut inside the payload; of other frames, everything. *)
Definition kept (f : frame) (w : list Z) (base : nat) (ps : list nat) : list Z :=
  if is_data (f_opcode f) then after_last_cut (f_payload f) w base ps else f_payload f.

(** Reception of frames (each with its form on the wire), the first of which
    starts at position [base], when the stream is cut at [ps]. *)
Fixpoint receive_cut (srv pmce : bool) (open : option (Z * list Z)) (base : nat) (ps : list nat)
                     (fs : list (frame * list Z)) : list app_event :=
  match fs with
  | [] => []
  | (f, w) :: r =>
      let next := (base + length w)%nat in
      if negb (frame_allowed srv pmce (option_map fst open) f) then [ProtocolError]
      else if torn f w base ps then [ProtocolError]
      else if f_opcode f =? 8 then [close_info (f_payload f)]
      else if f_opcode f =? 9 then Ping (f_payload f) :: receive_cut srv pmce open next ps r
      else if f_opcode f =? 10 then Pong (f_payload f) :: receive_cut srv pmce open next ps r
      else
        let op := match open with Some (o, _) => o | None => f_opcode f end in
        let sofar := match open with Some (_, d) => d | None => [] end ++ kept f w base ps in
        if f_fin f then Message op sofar :: receive_cut srv pmce None next ps r
        else receive_cut srv pmce (Some (op, sofar)) next ps r
  end.

(** The cuts that do no harm to a frame: those that neither tear its header nor
    fall inside the payload of a TEXT or BINARY frame. *)
Definition harmless_frame (f : frame) (w : list Z) (base : nat) (ps : list nat) : Prop :=
  forall p, In p ps -> (base < p < base + length w)%nat ->
    (p < base + 2)%nat \/
    ((p < base + header_size f w)%nat /\ resumable (f_fin f) (f_opcode f) = true) \/
    p = (base + header_size f w)%nat \/
    ((base + header_size f w < p)%nat /\ is_data (f_opcode f) = false).

Fixpoint harmless (base : nat) (ps : list nat) (fs : list (frame * list Z)) : Prop :=
  match fs with
  | [] => True
  | (f, w) :: r => harmless_frame f w base ps /\ harmless (base + length w) ps r
  end.

(** What arrives of messages, pings and pongs (opcode and contents) that were
    sent as one frame each. *)
Fixpoint arrives (base : nat) (ps : list nat) (ms : list (Z * list Z)) (ws : list (list Z))
  : list app_event :=
  match ms, ws with
  | (op, d) :: ms', w :: ws' =>
      (if op =? 9 then Ping d else if op =? 10 then Pong d
       else Message op (after_last_cut d w base ps))
      :: arrives (base + length w) ps ms' ws'
  | _, _ => []
  end.

(** No TEXT or BINARY message is cut strictly inside its payload. *)
Fixpoint whole_payloads (base : nat) (ps : list nat) (ms : list (Z * list Z)) (ws : list (list Z))
  : Prop :=
  match ms, ws with
  | (op, d) :: ms', w :: ws' =>
      (is_data op = true -> forall p, In p ps ->
         ~ (base + (length w - length d) < p < base + length w)%nat) /\
      whole_payloads (base + length w) ps ms' ws'
  | _, _ => True
  end.
