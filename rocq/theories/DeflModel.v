(** The wrappers of zlib: [WebSocket_Deflator], which compresses and restores
    the payloads of WebSocket messages, and the public classes
    [Abstract_Deflator] and [Abstract_Inflator].

    zlib itself is not a part of the code: its two functions are variables here
    (the contracts that they are assumed to obey are in [DeflSpec]).  Memory
    exhaustion in the buffers is not modelled. *)
From Coq Require Import ZArith List Bool.
From Verif Require Import Base WsModel.
Import ListNotations.
Open Scope Z_scope.

(** The status codes of zlib.h that the code distinguishes; [Z_error] is any
    other one. Compared at websocket_deflator.cpp:54, 60, 82, 118, 151 and abstract_deflator.cpp:58, 96, 134, 172 *)
Inductive status := Z_ok | Z_buf_error | Z_stream_end | Z_error.
(** The arguments at websocket_deflator.cpp:49, 77 and abstract_deflator.cpp:52, 90, 128, 166 *)
Inductive mode := No_flush | Sync_flush | Full_flush | Finish.

(** A call leaves a new state, the number of octets that have been taken off the
    input, the octets that have been written to the output, and a status. As [get_buffers] tells, websocket_deflator.cpp:49-52 *)
Definition answer (st : Type) := (st * nat * list Z * status)%type.

(** What a loop comes to: it ends; it throws; or it would need still more output
    buffers than those in the list of the sizes that are to be granted to it. The loops of websocket_deflator.cpp:44-157 and of abstract_deflator.cpp:40-178 *)
Inductive outcome (A : Type) := Done (a : A) | Threw | Hungry.
Arguments Done {A} _. Arguments Threw {A}. Arguments Hungry {A}.

(** poseidon/details/zlib_fwd.hpp:82-90 and 159-167 [set_buffers]: the sizes are
    clamped to [INT_MAX]. *)
Definition int_max : Z := 2147483647.
(** zlib_fwd.hpp:82-90, 159-167 *)
Definition clamped (n : nat) : nat := if Z.of_nat n <=? int_max then n else Z.to_nat int_max.
(** The input that zlib is given, zlib_fwd.hpp:82-90, 159-167 *)
Definition window (input : list Z) : list Z := firstn (clamped (length input)) input.

(** Comparison with a status, websocket_deflator.cpp:60 *)
Definition is_ok (e : status) : bool := match e with Z_ok => true | _ => false end.
(** Comparison with a status, abstract_deflator.cpp:181 *)
Definition is_end (e : status) : bool := match e with Z_stream_end => true | _ => false end.
(** Comparison with a status, abstract_deflator.cpp:105 *)
Definition is_buf (e : status) : bool := match e with Z_buf_error => true | _ => false end.
(** [in_ptr == in_end], websocket_deflator.cpp:60; [data.n == 0], 36 *)
Definition is_nil (l : list Z) : bool := match l with [] => true | _ => false end.

(** websocket_deflator.cpp:91, 138 *)
Definition marker : list Z := [0; 0; 255; 255].

(** poseidon/src/http/websocket_deflator.cpp:90-92: four octets are taken off the
    end if they are the marker. *)
Definition strip_marker (buf : list Z) : list Z :=
  let n := (length buf - 4)%nat in
  if (4 <=? length buf)%nat && (if list_eq_dec Z.eq_dec (skipn n buf) marker then true else false)
  then firstn n buf else buf.

Section Zlib.
  Variable dst ist : Type.
  (** [deflate] with a state, a mode, the size of the output buffer and the
      input; [deflateReset]; [inflate] with [Z_SYNC_FLUSH], which is the only
      mode in which it is called. *)
  Variable deflate : dst -> mode -> nat -> list Z -> answer dst.
  Variable deflate_reset : dst -> dst.
  Variable inflate : ist -> nat -> list Z -> answer ist.

  (** * [WebSocket_Deflator] *)

  (** websocket_deflator.cpp:44-60, the loop of [deflate_message_stream].
      [extras]: [reserve_after_end] yields the room that has been asked for and
      some more, which is the next element of the list. *)
  Fixpoint deflate_loop (st : dst) (buf input : list Z) (extras : list nat) : outcome (dst * list Z) :=
    match extras with
    | [] => Hungry
    | extra :: extras =>
        let '(st, n, out, err) := deflate st No_flush (clamped (1024 + extra)) (window input) in
        let buf := buf ++ out in
        let input := skipn n input in
        match err with
        | Z_ok => if negb (is_nil input) then deflate_loop st buf input extras else Done (st, buf)
        | Z_buf_error => Done (st, buf)
        | _ => Threw
        end
    end.

  (** websocket_deflator.cpp:32-61 [deflate_message_stream] *)
  Definition deflate_message_stream (st : dst) (buf data : list Z) (extras : list nat) : outcome (dst * list Z) :=
    if is_nil data then Done (st, buf) else deflate_loop st buf data extras.

  (** websocket_deflator.cpp:72-88, the loop of [deflate_message_finish] *)
  Fixpoint sync_loop (st : dst) (buf : list Z) (extras : list nat) : outcome (dst * list Z) :=
    match extras with
    | [] => Hungry
    | extra :: extras =>
        let '(st, n, out, err) := deflate st Sync_flush (clamped (16 + extra)) [] in
        let buf := buf ++ out in
        match err with
        | Z_ok => sync_loop st buf extras
        | Z_buf_error => Done (st, buf)
        | _ => Threw
        end
    end.

  (** websocket_deflator.cpp:63-93 [deflate_message_finish] *)
  Definition deflate_message_finish (st : dst) (buf : list Z) (extras : list nat) : outcome (dst * list Z) :=
    match sync_loop st buf extras with
    | Done (st, buf) => Done (st, strip_marker buf)
    | Threw => Threw
    | Hungry => Hungry
    end.

  (** websocket_deflator.cpp:108-129, the loop of [inflate_message_stream] *)
  Fixpoint inflate_loop (maxlen : Z) (st : ist) (buf input : list Z) (extras : list nat) : outcome (ist * list Z) :=
    match extras with
    | [] => Hungry
    | extra :: extras =>
        let '(st, n, out, err) := inflate st (clamped (1024 + extra)) (window input) in
        let buf := buf ++ out in
        let input := skipn n input in
        match err with
        | Z_ok =>
            if maxlen <? Z.of_nat (length buf) then Threw
            else if negb (is_nil input) then inflate_loop maxlen st buf input extras else Done (st, buf)
        | Z_buf_error => if maxlen <? Z.of_nat (length buf) then Threw else Done (st, buf)
        | _ => Threw
        end
    end.

  (** websocket_deflator.cpp:95-130 [inflate_message_stream] *)
  Definition inflate_message_stream (maxlen : Z) (st : ist) (buf data : list Z) (extras : list nat)
    : outcome (ist * list Z) :=
    if is_nil data then Done (st, buf) else inflate_loop maxlen st buf data extras.

  (** websocket_deflator.cpp:141-157, the loop of [inflate_message_finish]; the
      input is never checked for exhaustion *)
  Fixpoint drain_loop (st : ist) (buf input : list Z) (extras : list nat) : outcome (ist * list Z) :=
    match extras with
    | [] => Hungry
    | extra :: extras =>
        let '(st, n, out, err) := inflate st (clamped (16 + extra)) (window input) in
        let buf := buf ++ out in
        let input := skipn n input in
        match err with
        | Z_ok => drain_loop st buf input extras
        | Z_buf_error => Done (st, buf)
        | _ => Threw
        end
    end.

  (** websocket_deflator.cpp:132-158 [inflate_message_finish] *)
  Definition inflate_message_finish (st : ist) (buf : list Z) (extras : list nat) : outcome (ist * list Z) :=
    drain_loop st buf marker extras.

  (** * The sessions *)

  (** poseidon/src/socket/ws_server_session.cpp:285-326 and
      ws_client_session.cpp:257-298: what [ws_send] passes to
      [do_ws_send_raw_frame] for a TEXT or BINARY message on an upgraded
      connection with compression: the first octet and the payload.  [nct]:
      [pmce_send_no_context_takeover]; [xs], [ys]: the sizes of buffers.
      [Hungry] is an outcome of the loops only. *)
  Definition send_data (nct : bool) (st : dst) (opcode : Z) (data : list Z) (xs ys : list nat)
    : outcome (dst * (Z * list Z)) :=
    let plain st := Done (st, (Z.lor 128 opcode, data)) in
    let threshold := if nct then 1024 else 64 in
    if threshold <=? Z.of_nat (length data) then
      let st := if nct then deflate_reset st else st in
      match deflate_message_stream st [] data xs with
      | Done (st, buf) =>
          match deflate_message_finish st buf ys with
          | Done (st, buf) => Done (st, (Z.lor 192 opcode, buf))
          | Threw => plain (deflate_reset st)
          | Hungry => Hungry
          end
      | Threw => plain (deflate_reset st)
      | Hungry => Hungry
      end
    else plain st.

  (** ws_server_session.cpp:279-348 and ws_client_session.cpp:251-320 [ws_send] on
      an upgraded connection with compression; [raw] is [do_ws_send_raw_frame].
      The result of [tcp_send] is left out: the frame is. *)
  Definition ws_send_deflated (raw : Z -> list Z -> list Z) (nct : bool) (st : dst) (opcode : Z) (data : list Z)
      (xs ys : list nat) : outcome (dst * list Z) :=
    if (opcode =? 1) || (opcode =? 2) then
      match send_data nct st opcode data xs ys with
      | Done (st, (octet, payload)) => Done (st, raw octet payload)
      | Threw => Threw
      | Hungry => Hungry
      end
    else if (opcode =? 9) || (opcode =? 10) then
      if 125 <? Z.of_nat (length data) then Threw else Done (st, raw (Z.lor 128 opcode) data)
    else Threw.

  (** ws_server_session.cpp:109-141 and ws_client_session.cpp:109-141 for a final
      TEXT or BINARY frame that has arrived whole: the output buffer is cleared
      (lines 114-121), a compressed payload is restored (lines 124-141), another
      one is taken as it is.  [rsv1]: the bit of the frame that announces
      compression. *)
  Definition restore (maxlen : Z) (st : ist) (rsv1 : bool) (payload : list Z) (xs ys : list nat)
    : outcome (ist * list Z) :=
    if rsv1 then
      match inflate_message_stream maxlen st [] payload xs with
      | Done (st, buf) => inflate_message_finish st buf ys
      | Threw => Threw
      | Hungry => Hungry
      end
    else Done (st, payload).

  (** * [Abstract_Deflator] and [Abstract_Inflator] *)

  (** The buffer of a derived class; [None] is an octet that has not been
      written.  [do_on_..._resize_output_buffer] appends room; zlib writes to the
      beginning of this room; [do_on_..._truncate_output_buffer] takes octets off
      the end. What derived classes do for abstract_deflator.cpp:44 and 56 *)
  Definition room := list (option Z).
  (** abstract_deflator.cpp:44 *)
  Definition grow (b : room) (n : nat) : room := b ++ repeat None n.
  (** What [deflate] does at abstract_deflator.cpp:52 *)
  Definition fill (b : room) (pos : nat) (out : list Z) : room :=
    firstn pos b ++ map Some out ++ skipn (pos + length out) b.
  (** abstract_deflator.cpp:55-56 *)
  Definition truncate (b : room) (n : nat) : room := firstn (length b - n) b.

  (** poseidon/src/base/abstract_deflator.cpp:41-56 (and 79-94, 117-132, 155-170),
      abstract_inflator.cpp:41-55 (and 78-93): one turn of a loop.  [granted] is
      the size that the callback gives; [None]: it is less than has been asked
      for. *)
  Definition turn (st : Type) (call : st -> nat -> list Z -> answer st) (request granted : nat)
             (s : st) (b : room) (input : list Z) : option (st * nat * room * status) :=
    if (granted <? request)%nat then None
    else
      let pos := length b in
      let b := grow b granted in
      let '(s, n, out, err) := call s (clamped granted) (window input) in
      let b := fill b pos out in
      let left := (granted - length out)%nat in
      Some (s, n, if (left =? 0)%nat then b else truncate b left, err).

  (** abstract_deflator.cpp:29-68 [deflate]: the number of octets that have been
      consumed *)
  Fixpoint abs_deflate_loop (st : dst) (b : room) (taken : nat) (input : list Z) (grants : list nat)
    : outcome (dst * room * nat) :=
    match grants with
    | [] => Hungry
    | g :: grants =>
        match turn dst (fun s avail i => deflate s No_flush avail i) 128 g st b input with
        | None => Threw
        | Some (st, n, b, err) =>
            let input := skipn n input in
            match err with
            | Z_ok => if negb (is_nil input) then abs_deflate_loop st b (taken + n) input grants
                      else Done (st, b, (taken + n)%nat)
            | Z_buf_error => Done (st, b, (taken + n)%nat)
            | _ => Threw
            end
        end
    end.
  (** abstract_deflator.cpp:29-68 *)
  Definition abs_deflate (st : dst) (b : room) (data : list Z) (grants : list nat) : outcome (dst * room * nat) :=
    if is_nil data then Done (st, b, 0%nat) else abs_deflate_loop st b 0 data grants.

  (** abstract_deflator.cpp:70-106 [sync_flush] and 108-144 [full_flush], which
      differ in [m] *)
  Fixpoint abs_flush (m : mode) (st : dst) (b : room) (grants : list nat) : outcome (dst * room * bool) :=
    match grants with
    | [] => Hungry
    | g :: grants =>
        match turn dst (fun s avail i => deflate s m avail i) 16 g st b [] with
        | None => Threw
        | Some (st, n, b, err) =>
            match err with
            | Z_ok => abs_flush m st b grants
            | Z_buf_error => Done (st, b, is_buf err)
            | _ => Threw
            end
        end
    end.

  (** abstract_deflator.cpp:146-182 [finish] *)
  Fixpoint abs_finish (st : dst) (b : room) (grants : list nat) : outcome (dst * room * bool) :=
    match grants with
    | [] => Hungry
    | g :: grants =>
        match turn dst (fun s avail i => deflate s Finish avail i) 16 g st b [] with
        | None => Threw
        | Some (st, n, b, err) =>
            match err with
            | Z_ok => abs_finish st b grants
            | Z_buf_error | Z_stream_end => Done (st, b, is_end err)
            | Z_error => Threw
            end
        end
    end.

  (** poseidon/src/base/abstract_inflator.cpp:29-67 [inflate] *)
  Fixpoint abs_inflate_loop (st : ist) (b : room) (taken : nat) (input : list Z) (grants : list nat)
    : outcome (ist * room * nat) :=
    match grants with
    | [] => Hungry
    | g :: grants =>
        match turn ist inflate 128 g st b input with
        | None => Threw
        | Some (st, n, b, err) =>
            let input := skipn n input in
            match err with
            | Z_ok => if negb (is_nil input) then abs_inflate_loop st b (taken + n) input grants
                      else Done (st, b, (taken + n)%nat)
            | Z_buf_error | Z_stream_end => Done (st, b, (taken + n)%nat)
            | Z_error => Threw
            end
        end
    end.
  (** abstract_inflator.cpp:29-67 *)
  Definition abs_inflate (st : ist) (b : room) (data : list Z) (grants : list nat) : outcome (ist * room * nat) :=
    if is_nil data then Done (st, b, 0%nat) else abs_inflate_loop st b 0 data grants.

  (** abstract_inflator.cpp:69-105 [finish] *)
  Fixpoint abs_inflate_finish (st : ist) (b : room) (grants : list nat) : outcome (ist * room * bool) :=
    match grants with
    | [] => Hungry
    | g :: grants =>
        match turn ist inflate 16 g st b [] with
        | None => Threw
        | Some (st, n, b, err) =>
            match err with
            | Z_ok => abs_inflate_finish st b grants
            | Z_buf_error | Z_stream_end => Done (st, b, is_end err)
            | Z_error => Threw
            end
        end
    end.
End Zlib.
