(** Model of the WebSocket frame codec, the frame parser and the receiving half
    of a WebSocket server session. *)
From Coq Require Import ZArith List Bool.
From Verif Require Import Base.
Import ListNotations.
Open Scope Z_scope.

(** Result of a C++ function which may throw. Not in the code: what a function that can throw gives (websocket_frame_parser.cpp:594-630, for one). *)
Inductive res (A : Type) := Ret (a : A) | Throw.
Arguments Ret {A}. Arguments Throw {A}.

(** poseidon/http/websocket_frame_header.hpp:11-30, [WebSocket_Frame_Header].
    Bit-fields of width 1 are [bool]; [opcode] is a 4-bit field; [reserved_2]
    is never read and is left out. *)
Record hdr := mkHdr {
  h_fin : bool; h_rsv1 : bool; h_rsv2 : bool; h_rsv3 : bool;
  h_opcode : Z;
  h_masked : bool; h_res1 : Z;
  h_key : Z; h_len : Z }.

(** poseidon/http/websocket_frame_header.hpp:47-53, [clear]. *)
Definition hdr_zero : hdr := mkHdr false false false false 0 false 0 0 0.

(** poseidon/src/http/websocket_frame_header.cpp:23-24, the opcode byte. *)
Definition opcode_byte (h : hdr) : Z :=
  Z.lor (Z.lor (Z.lor (Z.lor (Z.shiftl (b2z (h_fin h)) 7) (Z.shiftl (b2z (h_rsv1 h)) 6))
                      (Z.shiftl (b2z (h_rsv2 h)) 5))
               (Z.shiftl (b2z (h_rsv3 h)) 4))
        (h_opcode h) mod 256.

(** poseidon/src/http/websocket_frame_header.cpp:9-51, [encode].  The writes
    into [bytes] at [ntotal] are list appends. *)
Definition encode (h : hdr) : list Z :=
  let m := Z.shiftl (b2z (h_masked h)) 7 in
  let len_part :=
    if h_len h <=? 125 then [Z.lor m (h_len h) mod 256]
    else if h_len h <=? 65535 then Z.lor m 126 :: store_be 2 (h_len h)
    else Z.lor m 127 :: store_be 8 (h_len h) in
  let key_part := if h_masked h then store_be 4 (h_key h) else [] in
  opcode_byte h :: len_part ++ key_part.

(** poseidon/src/http/websocket_frame_header.cpp:73 and :97,
    [key = key << 8 | key >> 24] on [uint32_t]. *)
Definition rotl8 (key : Z) : Z := Z.lor (Z.shiftl key 8 mod two32) (Z.shiftr key 24).

(** poseidon/src/http/websocket_frame_header.cpp:69-76, the alignment loop.  It
    stops when the address is a multiple of 4 or when no byte is left. *)
Fixpoint mask_align (addr key : Z) (data : list Z) : list Z * Z * list Z :=
  match data with
  | [] => ([], key, [])
  | b :: r =>
      if addr mod 4 =? 0 then ([], key, data)
      else
        let key' := rotl8 key in
        let '(out, k2, rest) := mask_align (addr + 1) key' r in
        (Z.lxor b (key' mod 256) :: out, k2, rest)
  end.

(** poseidon/src/http/websocket_frame_header.cpp:80, [load_be] of the native
    representation of [key]: a byte swap. *)
Definition bswap32 (key : Z) : Z := load_be (store_le 4 key).

(** poseidon/src/http/websocket_frame_header.cpp:89-93 ([*wcur ^= bekey]). *)
Definition xor_word (bekey : Z) (w : list Z) : list Z :=
  store_le 4 (Z.lxor (load_le w) bekey).

(** poseidon/src/http/websocket_frame_header.cpp:83-87: XOR of 32 bytes with the
    broadcast of [bekey], i.e. of eight consecutive 32-bit lanes. *)
Fixpoint xor_lanes (n : nat) (bekey : Z) (v : list Z) : list Z :=
  match n with
  | O => []
  | S n' => xor_word bekey (firstn 4 v) ++ xor_lanes n' bekey (skipn 4 v)
  end.

(** The two SIMD/word loops, lines 83-93, as one: the first while loop takes 32
    bytes at a time, the second 4 bytes at a time.  [fuel] bounds the number of
    iterations; [length data] is always enough (every iteration removes at
    least 4 bytes). *)
Fixpoint mask_words (fuel : nat) (bekey : Z) (data : list Z) : list Z * list Z :=
  match fuel with
  | O => ([], data)
  | S fuel' =>
      if (32 <=? length data)%nat then
        let '(out, rest) := mask_words fuel' bekey (skipn 32 data) in
        (xor_lanes 8 bekey (firstn 32 data) ++ out, rest)
      else if (4 <=? length data)%nat then
        let '(out, rest) := mask_words fuel' bekey (skipn 4 data) in
        (xor_word bekey (firstn 4 data) ++ out, rest)
      else ([], data)
  end.

(** poseidon/src/http/websocket_frame_header.cpp:96-100, the tail loop. *)
Fixpoint mask_tail (key : Z) (data : list Z) : list Z * Z :=
  match data with
  | [] => ([], key)
  | b :: r =>
      let key' := rotl8 key in
      let '(out, k2) := mask_tail key' r in
      (Z.lxor b (key' mod 256) :: out, k2)
  end.

(** poseidon/src/http/websocket_frame_header.cpp:53-104, [mask_payload].  The
    first argument is the address of the buffer.  Returns the new contents of
    the buffer and the new header. *)
Definition set_key (h : hdr) (k : Z) : hdr :=
  mkHdr (h_fin h) (h_rsv1 h) (h_rsv2 h) (h_rsv3 h) (h_opcode h) (h_masked h) (h_res1 h) k (h_len h).

(** websocket_frame_header.cpp:53-104 [mask_payload]. *)
Definition mask_payload (addr : Z) (h : hdr) (data : list Z) : list Z * hdr :=
  if negb (h_masked h) || (h_key h =? 0) then (data, h)
  else
    let '(out1, k1, rest1) := mask_align addr (h_key h) data in
    let '(out2, rest2) := mask_words (length rest1) (bswap32 k1) rest1 in
    let '(out3, k3) := mask_tail k1 rest2 in
    (out1 ++ out2 ++ out3, set_key h k3).

(** poseidon/http/websocket_frame_parser.hpp:22-28. *)
Inductive wshs := wshs_pending | wshs_c_req_sent | wshs_s_accepted | wshs_c_accepted.

(** poseidon/http/websocket_frame_parser.hpp:30-36; the order of the values is
    new < header_done < payload_done < error. *)
Inductive wsf := wsf_new | wsf_header_done | wsf_payload_done | wsf_error.

(** The descriptions stored into [m_error_desc]
    (poseidon/src/http/websocket_frame_parser.cpp:447-554). *)
Inductive errdesc :=
  | e_must_mask | e_continuation_expected | e_rsv_data | e_rsv_cont | e_dangling
  | e_rsv_control | e_control_length | e_control_fragment | e_unknown_opcode.

(** poseidon/http/websocket_frame_parser.hpp:11-59, [WebSocket_Frame_Parser],
    without the fields that only concern the handshake and the compressor. *)
Record parser := mkParser {
  p_max : Z;                  (* m_max_message_length *)
  p_hdr : hdr;                (* m_frm_header *)
  p_payload : list Z;         (* m_frm_payload *)
  p_rem : Z;                  (* m_frm_payload_rem *)
  p_err : option errdesc;     (* m_error_desc *)
  p_wshs : wshs;              (* m_wshs *)
  p_send_bits : Z;            (* m_pmce_send_window_bits *)
  p_wsf : wsf;                (* m_wsf *)
  p_opcode : Z; p_rsv3 : bool; p_rsv2 : bool; p_rsv1 : bool; p_fin : bool }.

(** Not in the code: an assignment to a member (websocket_frame_parser.hpp:11-59). *)
Definition set_hdr (p : parser) (h : hdr) : parser :=
  mkParser (p_max p) h (p_payload p) (p_rem p) (p_err p) (p_wshs p) (p_send_bits p) (p_wsf p)
           (p_opcode p) (p_rsv3 p) (p_rsv2 p) (p_rsv1 p) (p_fin p).
(** Not in the code: an assignment to a member (websocket_frame_parser.hpp:11-59). *)
Definition set_msg (p : parser) (op : Z) (r3 r2 r1 fin : bool) : parser :=
  mkParser (p_max p) (p_hdr p) (p_payload p) (p_rem p) (p_err p) (p_wshs p) (p_send_bits p)
           (p_wsf p) op r3 r2 r1 fin.
(** Not in the code: the assignments to members on an error (websocket_frame_parser.hpp:11-59). *)
Definition set_error (p : parser) (e : errdesc) : parser :=
  mkParser (p_max p) (p_hdr p) (p_payload p) (p_rem p) (Some e) (p_wshs p) (p_send_bits p)
           wsf_error (p_opcode p) (p_rsv3 p) (p_rsv2 p) (p_rsv1 p) (p_fin p).
(** Not in the code: an assignment to a member (websocket_frame_parser.hpp:11-59). *)
Definition set_wsf (p : parser) (f : wsf) : parser :=
  mkParser (p_max p) (p_hdr p) (p_payload p) (p_rem p) (p_err p) (p_wshs p) (p_send_bits p)
           f (p_opcode p) (p_rsv3 p) (p_rsv2 p) (p_rsv1 p) (p_fin p).
(** Not in the code: an assignment to a member (websocket_frame_parser.hpp:11-59). *)
Definition set_payload (p : parser) (pl : list Z) (rem : Z) : parser :=
  mkParser (p_max p) (p_hdr p) pl rem (p_err p) (p_wshs p) (p_send_bits p)
           (p_wsf p) (p_opcode p) (p_rsv3 p) (p_rsv2 p) (p_rsv1 p) (p_fin p).

(** Not in the code: the handshake is over (websocket_frame_parser.cpp:401-592, the first test). *)
Definition accepted (p : parser) : bool :=
  match p_wshs p with wshs_s_accepted | wshs_c_accepted => true | _ => false end.
(** Not in the code: the side that the parser is on (websocket_frame_parser.cpp:401-592). *)
Definition is_server (p : parser) : bool :=
  match p_wshs p with wshs_s_accepted => true | _ => false end.
Definition header_complete (p : parser) : bool :=   (* hpp:169-173 *)
  match p_wsf p with wsf_new => false | _ => true end.
Definition payload_complete (p : parser) : bool :=  (* hpp:193-196 *)
  match p_wsf p with wsf_payload_done | wsf_error => true | _ => false end.
Definition in_error (p : parser) : bool :=          (* hpp:82-85 *)
  match p_wsf p with wsf_error => true | _ => false end.

(** websocket_frame_parser.cpp:401-592: a bit of a byte of the header. *)
Definition bit (x : Z) (n : Z) : bool := negb (Z.land (Z.shiftr x n) 1 =? 0).

(** poseidon/src/http/websocket_frame_parser.cpp:413-421. *)
Definition forget_finished (p : parser) : parser :=
  if p_fin p then set_msg p 0 false false false false else p.

(** poseidon/src/http/websocket_frame_parser.cpp:434-440; the fields
    [masking_key] and [payload_len] keep their old values. *)
Definition unpack (old : hdr) (x : Z) : hdr :=
  mkHdr (bit x 7) (bit x 6) (bit x 5) (bit x 4) (Z.land x 15)
        (bit x 15) (Z.land (Z.shiftr x 8) 127) (h_key old) (h_len old).

(** poseidon/src/http/websocket_frame_parser.cpp:451-556, the switch over the
    opcode.  [x] is [mask_len_rsv_opcode].  [inl] is a protocol error. *)
Definition check_opcode (p : parser) (x : Z) : errdesc + parser :=
  let h := p_hdr p in
  let op := h_opcode h in
  if (op =? 1) || (op =? 2) then
    if negb (p_opcode p =? 0) then inl e_continuation_expected
    else
      let rej := Z.land x 112 in
      let rej := if (negb (rej =? 0)) && negb (p_send_bits p =? 0) then Z.land rej 48 else rej in
      if negb (rej =? 0) then inl e_rsv_data
      else inr (set_msg p op (h_rsv3 h) (h_rsv2 h) (h_rsv1 h) (h_fin h))
  else if op =? 0 then
    if negb (Z.land x 112 =? 0) then inl e_rsv_cont
    else if p_opcode p =? 0 then inl e_dangling
    else if negb (Z.land x 128 =? 0)
      then inr (set_msg p (p_opcode p) (p_rsv3 p) (p_rsv2 p) (p_rsv1 p) true)
      else inr p
  else if (op =? 8) || (op =? 9) || (op =? 10) then
    if negb (Z.land x 112 =? 0) then inl e_rsv_control
    else if 125 <? h_res1 h then inl e_control_length
    else if negb (h_fin h) then inl e_control_fragment
    else inr p
  else inl e_unknown_opcode.

(** Not in the code: an assignment to [payload_len] (websocket_frame_parser.cpp:558-586). *)
Definition set_len (h : hdr) (n : Z) : hdr :=
  mkHdr (h_fin h) (h_rsv1 h) (h_rsv2 h) (h_rsv3 h) (h_opcode h) (h_masked h) (h_res1 h) (h_key h) n.

(** [data.data() + off] read as [n] bytes; only used when enough bytes exist. websocket_frame_parser.cpp:558-586: bytes at an offset of the data. *)
Definition slice (off n : nat) (data : list Z) : list Z := firstn n (skipn off data).

(** poseidon/src/http/websocket_frame_parser.cpp:558-577.  The new header and
    [ntotal], or [None] for "not enough data yet". *)
Definition read_len (h : hdr) (data : list Z) : option (hdr * nat) :=
  if h_res1 h <=? 125 then Some (set_len h (h_res1 h), 2%nat)
  else if h_res1 h =? 126 then
    if (length data <? 4)%nat then None
    else Some (set_len h (load_be (slice 2 2 data)), 4%nat)
  else
    if (length data <? 10)%nat then None
    else Some (set_len h (load_be (slice 2 8 data)), 10%nat).

(** poseidon/src/http/websocket_frame_parser.cpp:579-586. *)
Definition read_key (h : hdr) (ntotal : nat) (data : list Z) : option (hdr * nat) :=
  if h_masked h then
    if (length data <? ntotal + 4)%nat then None
    else Some (set_key h (load_be (slice ntotal 4 data)), (ntotal + 4)%nat)
  else Some (h, ntotal).

(** poseidon/src/http/websocket_frame_parser.cpp:401-592,
    [parse_frame_header_from_stream].  Returns the parser and the unconsumed
    data. *)
Definition parse_header (p : parser) (data : list Z) : res (parser * list Z) :=
  if negb (accepted p) then Throw
  else if header_complete p then Ret (p, data)
  else
    let p := forget_finished p in
    match data with
    | b0 :: b1 :: _ =>
        let x := Z.lor (Z.shiftl b1 8) b0 in
        let p := set_hdr p (unpack (p_hdr p) x) in
        if is_server p && negb (h_masked (p_hdr p)) then Ret (set_error p e_must_mask, data)
        else
          match check_opcode p x with
          | inl e => Ret (set_error p e, data)
          | inr p =>
              match read_len (p_hdr p) data with
              | None => Ret (p, data)
              | Some (h, ntotal) =>
                  let p := set_hdr p h in
                  match read_key h ntotal data with
                  | None => Ret (p, data)
                  | Some (h, ntotal) =>
                      let p := set_payload (set_hdr p h) (p_payload p) (h_len h) in
                      Ret (set_wsf p wsf_header_done, skipn ntotal data)
                  end
              end
          end
    | _ => Ret (p, data)
    end.

(** How the parser is meant to be driven
    (poseidon/http/websocket_frame_parser.hpp:163-164): the caller keeps the
    unconsumed bytes and appends newly received ones. *)
Fixpoint feed (p : parser) (pending : list Z) (pieces : list (list Z)) : res (parser * list Z) :=
  match pieces with
  | [] => Ret (p, pending)
  | c :: cs =>
      match parse_header p (pending ++ c) with
      | Throw => Throw
      | Ret (p', rest) => feed p' rest cs
      end
  end.

(** poseidon/src/http/websocket_frame_parser.cpp:594-630,
    [parse_frame_payload_from_stream].  [addr] is the address of [data]. *)
Definition parse_payload (addr : Z) (p : parser) (data : list Z) : res (parser * list Z) :=
  if negb (accepted p) then Throw
  else if payload_complete p then Ret (p, data)
  else if negb (header_complete p) then Throw
  else
    let navail := Z.min (Z.of_nat (length data)) (p_rem p) in
    let go :=
      if navail =? 0 then Some (p, data)
      else if p_max p <? Z.of_nat (length (p_payload p)) + navail then None
      else
        let n := Z.to_nat navail in
        let '(out, h) := mask_payload addr (p_hdr p) (firstn n data) in
        Some (set_payload (set_hdr p h) (p_payload p ++ out) (p_rem p - navail), skipn n data) in
    match go with
    | None => Throw
    | Some (p, data) =>
        if p_rem p =? 0 then Ret (set_wsf p wsf_payload_done, data) else Ret (p, data)
    end.

(** poseidon/http/websocket_frame_parser.hpp:238-249, [next_frame]. *)
Definition next_frame (p : parser) : parser :=
  set_wsf (set_payload (set_hdr p hdr_zero) [] 0) wsf_new.

(** The parser right after a successful handshake
    (poseidon/src/http/websocket_frame_parser.cpp:316-319 and 395-398). *)
Definition parser_accepted (role : wshs) (maxlen send_bits : Z) : parser :=
  mkParser maxlen hdr_zero [] 0 None role send_bits wsf_new 0 false false false false.

(** ** The receiving half of a WebSocket server session *)

(** Calls made by the session, in order.
    [EvData]: [do_on_ws_message_data_stream]; [EvFinish]:
    [do_on_ws_message_finish]; [EvClose]: [do_on_ws_close]; [EvSend]: a raw
    frame passed to [tcp_send]; [EvShutDown]: [ws_shut_down]. What a session does that a user or a peer sees (ws_server_session.cpp:76-198). *)
Inductive ev :=
  | EvData (opcode : Z) (buf : list Z)
  | EvFinish (opcode : Z) (payload : list Z)
  | EvClose (status : Z) (reason : list Z)
  | EvCloseError (status : Z) (e : option errdesc)  (* reason = parser description *)
  | EvSend (raw : list Z)
  | EvShutDown (status : Z).

Section Session.
  (** zlib's [inflate] (external): a state and a function from input octets to
      output octets; [None] is a data error, on which poseidon throws. *)
  Variable zst : Type.
  Variable inflate : zst -> list Z -> option (zst * list Z).
  (** The address of the receive buffer: an arbitrary function of the bytes
      still in it. *)
  Variable addr_of : list Z -> Z.

  (** [m_pmce_opt]: inflate state and [m_inf_buf]
      (poseidon/src/http/websocket_deflator.cpp). websocket_deflator.cpp: the state of the decompressor and what it has put out; ws_server_session.cpp:76-198 reads it. *)
  Record pmce := mkPmce { z_state : zst; z_out : list Z }.

  (** WS_Server_Session: [m_parser], [m_msg], [m_pmce_opt],
      [m_closure_notified]. ws_server_session.cpp:76-198: the members that are read and written. *)
  Record session := mkSession {
    s_parser : parser; s_msg : list Z; s_pmce : option pmce; s_closed : bool }.

  (** Not in the code: an assignment to a member of the session (ws_server_session.cpp:76-198). *)
  Definition set_parser (s : session) (p : parser) : session :=
    mkSession p (s_msg s) (s_pmce s) (s_closed s).

  (** poseidon/src/http/websocket_deflator.cpp:95-130,
      [inflate_message_stream].  The loop over 1024-byte output blocks is one
      call of the oracle; the length check after each block is a check of the
      total. *)
  Definition inflate_message_stream (z : pmce) (data : list Z) (maxlen : Z) : option pmce :=
    match data with
    | [] => Some z
    | _ => match inflate (z_state z) data with
           | None => None
           | Some (st, out) =>
               if maxlen <? Z.of_nat (length (z_out z ++ out)) then None
               else Some (mkPmce st (z_out z ++ out))
           end
    end.

  (** poseidon/src/http/websocket_deflator.cpp:132-158,
      [inflate_message_finish]. *)
  Definition inflate_message_finish (z : pmce) : option pmce :=
    match inflate (z_state z) [0; 0; 255; 255] with
    | None => None
    | Some (st, out) => Some (mkPmce st (z_out z ++ out))
    end.

  (** poseidon/src/socket/ws_server_session.cpp:260-277,
      [do_ws_send_raw_frame]. *)
  Definition raw_frame (rsv_opcode : Z) (data : list Z) : list Z :=
    encode (mkHdr (bit rsv_opcode 7) (bit rsv_opcode 6) (bit rsv_opcode 5) (bit rsv_opcode 4)
                  (Z.land rsv_opcode 15) false 0 0 (Z.of_nat (length data))) ++ data.

  (** poseidon/src/socket/ws_server_session.cpp:20-31,
      [do_call_on_ws_close_once]; [e] is the event that reports the closure. *)
  Definition close_once (s : session) (e : ev) : session * list ev :=
    if s_closed s then (s, [])
    else (mkSession (s_parser s) (s_msg s) (s_pmce s) true, [e; EvShutDown 1000]).

  (** Lines 170-178: the status and the reason of a CLOSE frame.  [getn] reads
      at most two bytes over the default 1005 (0x03ED). *)
  Definition close_status (payload : list Z) : Z :=
    load_be (firstn 2 payload ++ skipn (length (firstn 2 payload)) [3; 237]).
  (** ws_server_session.cpp:76-198: the bytes of a CLOSE frame after the status. *)
  Definition close_reason (payload : list Z) : list Z := skipn 2 payload.

  (** Outcome of one data-frame step (lines 111-148): a new session and the
      event, an orderly closure, or an exception. *)
  Inductive data_out := DOk (s : session) (payload : list Z) | DNoPmce | DThrow.

  (** Lines 114-141. *)
  Definition data_frame (s : session) (payload : list Z) : data_out :=
    let p := s_parser s in
    let s := if h_opcode (p_hdr p) =? 0 then s
             else mkSession p [] (match s_pmce s with
                                  | None => None
                                  | Some z => Some (mkPmce (z_state z) [])
                                  end) (s_closed s) in
    if p_rsv1 p then
      match s_pmce s with
      | None => DNoPmce
      | Some z =>
          match inflate_message_stream z payload (p_max p) with
          | None => DThrow
          | Some z =>
              match (if p_fin p then inflate_message_finish z else Some z) with
              | None => DThrow
              | Some z =>  (* payload.swap(out_buf) *)
                  DOk (mkSession p (s_msg s) (Some (mkPmce (z_state z) payload)) (s_closed s))
                      (z_out z)
              end
          end
      end
    else DOk s payload.

  (** Lines 143-148: [splice_buffers(m_msg, move(payload))] (utils.hpp:117-135)
      and the default [do_on_ws_message_data_stream]
      (ws_server_session.cpp:207-219), which throws if the message is too long
      and leaves the data alone. *)
  Definition splice (s : session) (payload : list Z) : session :=
    mkSession (set_payload (s_parser s) [] (p_rem (s_parser s)))
              (s_msg s ++ payload) (s_pmce s) (s_closed s).

  (** Lines 153-192: the handling of a complete frame. [inl] ends the call. *)
  Definition frame_done (s : session) : (session * list ev) + (session * list ev) :=
    let p := s_parser s in
    let h := p_hdr p in
    if h_fin h then
      if (h_opcode h =? 0) || (h_opcode h =? 1) || (h_opcode h =? 2) then
        inr (mkSession p [] (s_pmce s) (s_closed s), [EvFinish (p_opcode p) (s_msg s)])
      else if h_opcode h =? 8 then
        inl (mkSession p (s_msg s) (s_pmce s) true,
             [EvClose (close_status (p_payload p)) (close_reason (p_payload p))])
      else if h_opcode h =? 9 then
        inr (s, [EvSend (raw_frame 138 (p_payload p)); EvFinish 9 (p_payload p)])
      else if h_opcode h =? 10 then
        inr (s, [EvFinish 10 (p_payload p)])
      else inr (s, [])
    else inr (s, []).

  (** Result of a call: the session, unconsumed data, and the events.  [SThrow]
      is an exception; the session is as the exception leaves it. Not in the code: what ws_server_session.cpp:76-198 gives.  [SThrow] is an exception; the theorems exclude [SFuel]. *)
  Inductive sres :=
    | SRet (s : session) (rest : list Z) (evs : list ev)
    | SThrow (s : session) (evs : list ev)
    | SFuel.

  (** Not in the code: events in front of a result of ws_server_session.cpp:76-198. *)
  Definition emit (evs : list ev) (r : sres) : sres :=
    match r with
    | SRet s d e => SRet s d (evs ++ e)
    | SThrow s e => SThrow s (evs ++ e)
    | SFuel => SFuel
    end.

  (** Not in the code: the events of a result of ws_server_session.cpp:76-198. *)
  Definition events_of (r : sres) : list ev :=
    match r with SRet _ _ e => e | SThrow _ e => e | SFuel => [] end.

  (** poseidon/src/socket/ws_server_session.cpp:76-198,
      [do_on_http_upgraded_stream]; the [for] loop, one unit of fuel per
      iteration. *)
  Fixpoint stream_loop (fuel : nat) (s : session) (data : list Z) : sres :=
    match fuel with
    | O => SFuel
    | S fuel' =>
      if in_error (s_parser s) || s_closed s then SRet s [] []
      else
        match (if header_complete (s_parser s) then Ret (s_parser s, data)
               else parse_header (s_parser s) data) with
        | Throw => SThrow s []
        | Ret (p, data) =>
          let s := set_parser s p in
          if in_error p then
            let '(s, e) := close_once s (EvCloseError 1002 (p_err p)) in SRet s [] e
          else if negb (header_complete p) then SRet s data []
          else if payload_complete p then
            stream_loop fuel' (set_parser s (next_frame p)) data
          else
            match parse_payload (addr_of data) p data with
            | Throw => SThrow s []
            | Ret (p, data) =>
              let s := set_parser s p in
              let step :=
                if h_opcode (p_hdr p) <=? 7 then
                  match data_frame s (p_payload p) with
                  | DThrow => inl (SThrow s [])
                  | DNoPmce =>
                      let '(s, e) := close_once s (EvClose 1011 []) in inl (SRet s [] e)
                  | DOk s payload =>
                      let s := splice s payload in
                      if p_max p <? Z.of_nat (length (s_msg s))
                      then inl (SThrow s [EvData (p_opcode p) (s_msg s)])
                      else inr (s, [EvData (p_opcode p) (s_msg s)])
                  end
                else inr (s, []) in
              match step with
              | inl r => r
              | inr (s, evs1) =>
                  if negb (payload_complete (s_parser s)) then SRet s data evs1
                  else
                    match frame_done s with
                    | inl (s, evs2) => SRet s [] (evs1 ++ evs2)
                    | inr (s, evs2) =>
                        emit (evs1 ++ evs2)
                             (stream_loop fuel' (set_parser s (next_frame (s_parser s))) data)
                    end
              end
            end
        end
    end.

  (** Every iteration but the first needs a new header of at least two bytes,
      so this much fuel is never exhausted (proved as [stream_no_fuel]). ws_server_session.cpp:76-198 [do_on_http_upgraded_stream]. *)
  Definition on_stream (s : session) (data : list Z) : sres :=
    stream_loop (S (S (length data))) s data.

  (** The stream callback over successive pieces of the TCP stream, with
      unconsumed bytes preserved between calls, as the comment at
      websocket_frame_parser.hpp:163-164 requires. *)
  Fixpoint on_chunks (s : session) (pending : list Z) (chunks : list (list Z)) : sres :=
    match chunks with
    | [] => SRet s pending []
    | c :: cs =>
        match on_stream s (pending ++ c) with
        | SRet s rest evs => emit evs (on_chunks s rest cs)
        | r => r
        end
    end.

  (** What happens to a session after the handshake: a call of the stream
      callback with some buffer contents, or the notification that the socket
      was closed (ws_server_session.cpp:33-39, status 1006). *)
  Inductive sop := OpStream (buf : list Z) | OpSocketClosed.

  (** ws_server_session.cpp:33-39: the text. *)
  Definition no_close_frame_reason : list Z :=  (* "no CLOSE frame received" *)
    [110;111;32;67;76;79;83;69;32;102;114;97;109;101;32;114;101;99;101;105;118;101;100].

  (** ws_server_session.cpp:33-39 and 76-198: one callback. *)
  Definition life_step (s : session) (o : sop) : option (session * list ev) :=
    match o with
    | OpStream buf =>
        match on_stream s buf with
        | SRet s _ evs => Some (s, evs)
        | SThrow s evs => Some (s, evs)
        | SFuel => None
        end
    | OpSocketClosed => Some (close_once s (EvClose 1006 no_close_frame_reason))
    end.

  (** All events of a history of such operations. Not in the code: a series of the callbacks ws_server_session.cpp:33-39 and 76-198. *)
  Fixpoint life (s : session) (ops : list sop) : option (session * list ev) :=
    match ops with
    | [] => Some (s, [])
    | o :: r =>
        match life_step s o with
        | None => None
        | Some (s, evs) =>
            match life s r with
            | None => None
            | Some (s, evs') => Some (s, evs ++ evs')
            end
        end
    end.

  (** A session right after the handshake
      (ws_server_session.cpp:228-258). *)
  Definition session_new (role : wshs) (maxlen send_bits : Z) (z : option zst) : session :=
    mkSession (parser_accepted role maxlen send_bits) []
              (match z with None => None | Some st => Some (mkPmce st []) end) false.
End Session.

(** ** The sending half *)

(** poseidon/src/socket/ws_client_session.cpp:228-249,
    [do_ws_send_raw_frame] of a client: the frame is masked with [key] (there
    [0x80 | random()]) in the output buffer, whose payload is at [addr]. *)
Definition raw_frame_client (key addr : Z) (rsv_opcode : Z) (data : list Z) : list Z :=
  let h := mkHdr (bit rsv_opcode 7) (bit rsv_opcode 6) (bit rsv_opcode 5) (bit rsv_opcode 4)
                 (Z.land rsv_opcode 15) true 0 key (Z.of_nat (length data)) in
  encode h ++ fst (mask_payload addr h data).

(** poseidon/src/socket/ws_server_session.cpp:279-348, [ws_send] without
    permessage-deflate: TEXT/BINARY as they are, PING/PONG unless longer than
    125 bytes, everything else throws.  [raw] is [do_ws_send_raw_frame]. *)
Definition ws_send (raw : Z -> list Z -> list Z) (opcode : Z) (data : list Z) : res (list Z) :=
  if (opcode =? 1) || (opcode =? 2) then Ret (raw (Z.lor 128 opcode) data)
  else if (opcode =? 9) || (opcode =? 10) then
    if 125 <? Z.of_nat (length data) then Throw else Ret (raw (Z.lor 128 opcode) data)
  else Throw.

(** poseidon/src/socket/ws_server_session.cpp:350-379,
    [ws_shut_down(WS_Status, chars_view)] on an upgraded session: the payload of
    the CLOSE frame.  [store_be<uint16_t>] keeps the low 16 bits. *)
Definition close_payload (status : Z) (reason : list Z) : list Z :=
  store_be 2 (status mod two16) ++ firstn (Nat.min (length reason) (125 - 2)) reason.
(** ws_server_session.cpp:350-379 [ws_shut_down]: the frame. *)
Definition close_frame (raw : Z -> list Z -> list Z) (status : Z) (reason : list Z) : list Z :=
  raw (Z.lor 128 8) (close_payload status reason).

(** poseidon/src/socket/ws_server_session.cpp:381-390,
    [ws_shut_down(int, chars_view)]. *)
Definition real_status (status : Z) : Z :=
  if (1000 <=? status) && (status <=? 4999) then status else 1008.
(** ws_server_session.cpp:381-390 [ws_shut_down]. *)
Definition shut_down_frame (raw : Z -> list Z -> list Z) (status : Z) (reason : list Z) : list Z :=
  close_frame raw (real_status status) reason.

