(** Independent specification of WebSocket framing (RFC 6455, sections 5.2-5.5),
    written with plain arithmetic and without reference to the model. *)
From Coq Require Import ZArith List Bool.
From Verif Require Import Base.
Import ListNotations.
Open Scope Z_scope.

(** A frame as RFC 6455 describes it.  [f_mask] is the four octets of the
    masking key, if the frame is masked; [f_payload] is the payload before
    masking. *)
Record frame := mkFrame {
  f_fin : bool; f_rsv1 : bool; f_rsv2 : bool; f_rsv3 : bool;
  f_opcode : Z; f_mask : option Z; f_payload : list Z }.

(** The big-endian octets of a number: the value is the polynomial in 256. *)
Definition be_value (s : list Z) : Z := fold_left (fun a b => 256 * a + b) s 0.

(** RFC 6455, 5.2: first octet. *)
Definition rfc_octet0 (fin r1 r2 r3 : bool) (op : Z) : Z :=
  128 * b2z fin + 64 * b2z r1 + 32 * b2z r2 + 16 * b2z r3 + op.

(** RFC 6455, 5.2: a string is a payload length field for length [n] with mask
    bit [m] in its minimal form. *)
Definition rfc_length_field (m : bool) (n : Z) (s : list Z) : Prop :=
  (n <= 125 /\ s = [128 * b2z m + n]) \/
  (126 <= n <= 65535 /\ exists e, s = (128 * b2z m + 126) :: e /\ length e = 2%nat /\ bytes e /\ be_value e = n) \/
  (65536 <= n /\ exists e, s = (128 * b2z m + 127) :: e /\ length e = 8%nat /\ bytes e /\ be_value e = n).

(** RFC 6455, 5.3: octet [i] of the masked data is octet [i] of the data XOR
    octet [i mod 4] of the key (which is sent in big-endian order). *)
Definition rfc_key_octet (key : Z) (i : nat) : Z :=
  nth (i mod 4) [key / 16777216 mod 256; key / 65536 mod 256; key / 256 mod 256; key mod 256] 0.

Definition rfc_masked (key : Z) (data out : list Z) : Prop :=
  length out = length data /\
  forall i, (i < length data)%nat ->
            nth i out 0 = Z.lxor (nth i data 0) (rfc_key_octet key i).

(** ** Which frames a peer may send (RFC 6455, 5.1, 5.2, 5.4, 5.5) *)

Definition is_control (op : Z) : bool := (op =? 8) || (op =? 9) || (op =? 10).
Definition is_data (op : Z) : bool := (op =? 1) || (op =? 2).

(** [srv]: the receiver is a server. [pmce]: permessage-deflate is in use.
    [open]: the opcode of the message being continued, if any. The payload
    length enters through [len7], the 7-bit length field. *)
Definition allowed (srv pmce : bool) (open : option Z)
                   (fin r1 r2 r3 : bool) (op : Z) (masked : bool) (len7 : Z) : bool :=
  (negb srv || masked) &&
  (if is_data op then
     match open with None => true | Some _ => false end
     && (negb r1 || pmce) && negb r2 && negb r3
   else if op =? 0 then
     match open with None => false | Some _ => true end && negb r1 && negb r2 && negb r3
   else if is_control op then
     negb r1 && negb r2 && negb r3 && fin && (len7 <=? 125)
   else false).

(** The message that is open after an allowed frame. *)
Definition open_after (open : option Z) (fin : bool) (op : Z) : option Z :=
  if is_data op then (if fin then None else Some op)
  else if op =? 0 then (if fin then None else open)
  else open.

Definition len7_of (n : Z) : Z :=
  if n <=? 125 then n else if n <=? 65535 then 126 else 127.

Definition frame_allowed (srv pmce : bool) (open : option Z) (f : frame) : bool :=
  allowed srv pmce open (f_fin f) (f_rsv1 f) (f_rsv2 f) (f_rsv3 f) (f_opcode f)
          (match f_mask f with Some _ => true | None => false end)
          (len7_of (Z.of_nat (length (f_payload f)))).

(** ** What the application sees *)

Inductive app_event :=
  | Message (opcode : Z) (data : list Z)   (* a complete TEXT/BINARY message *)
  | Ping (data : list Z)
  | Pong (data : list Z)
  | PeerClosed (status : Z) (reason : list Z)   (* a CLOSE frame *)
  | ProtocolError.

(** RFC 6455, 5.5.1 and 7.1.5: the body of a CLOSE frame is empty (status 1005,
    "no status received") or starts with a two-octet status. *)
Definition close_info (payload : list Z) : app_event :=
  match payload with
  | a :: b :: reason => PeerClosed (256 * a + b) reason
  | _ => PeerClosed 1005 []
  end.

(** The specification of reception: the open message's opcode and the payload
    collected so far, and the remaining frames. Nothing is reported after the
    connection was closed. *)
Fixpoint receive (srv pmce : bool) (open : option (Z * list Z)) (fs : list frame)
  : list app_event :=
  match fs with
  | [] => []
  | f :: r =>
      if negb (frame_allowed srv pmce (option_map fst open) f) then [ProtocolError]
      else if f_opcode f =? 8 then [close_info (f_payload f)]
      else if f_opcode f =? 9 then Ping (f_payload f) :: receive srv pmce open r
      else if f_opcode f =? 10 then Pong (f_payload f) :: receive srv pmce open r
      else
        let op := match open with Some (o, _) => o | None => f_opcode f end in
        let sofar := match open with Some (_, d) => d | None => [] end ++ f_payload f in
        if f_fin f then Message op sofar :: receive srv pmce None r
        else receive srv pmce (Some (op, sofar)) r
  end.

(** ** Frames on the wire *)

(** [s] is frame [f] in the layout of RFC 6455, 5.2. *)
Definition wire (f : frame) (s : list Z) : Prop :=
  exists lf ks body : list Z,
    s = rfc_octet0 (f_fin f) (f_rsv1 f) (f_rsv2 f) (f_rsv3 f) (f_opcode f) :: lf ++ ks ++ body /\
    rfc_length_field (match f_mask f with Some _ => true | None => false end)
                     (Z.of_nat (length (f_payload f))) lf /\
    match f_mask f with
    | None => ks = [] /\ body = f_payload f
    | Some k => length ks = 4%nat /\ bytes ks /\ be_value ks = k /\ rfc_masked k (f_payload f) body
    end.

(** Several frames, one after another. *)
Inductive wires : list frame -> list Z -> Prop :=
  | wires_nil : wires [] []
  | wires_cons f fs w ws : wire f w -> wires fs ws -> wires (f :: fs) (w ++ ws).

(** A frame whose fields fit: 4-bit opcode, octets as payload; a CLOSE body is
    not a single octet (RFC 6455, 5.5.1). *)
Definition frame_ok (f : frame) : Prop :=
  0 <= f_opcode f < 16 /\ bytes (f_payload f) /\
  (f_opcode f = 8 -> length (f_payload f) <> 1%nat).

(** Every frame and every message in [fs] is at most [maxlen] octets long;
    [sofar] is the length of the message under way. *)
Fixpoint fits (maxlen sofar : Z) (fs : list frame) : Prop :=
  match fs with
  | [] => True
  | f :: r =>
      let n := Z.of_nat (length (f_payload f)) in
      n <= maxlen /\
      (if is_data (f_opcode f) then fits maxlen (if f_fin f then 0 else n) r
       else if f_opcode f =? 0
            then sofar + n <= maxlen /\ fits maxlen (if f_fin f then 0 else sofar + n) r
            else fits maxlen sofar r)
  end.

(** Headers whose delivery in pieces does no harm (see the theorems on split
    headers): final frames of TEXT/BINARY messages that consist of one frame,
    middle frames of fragmented messages, and control frames. *)
Definition resumable (fin : bool) (op : Z) : bool :=
  if is_data op then fin else if op =? 0 then negb fin else true.
