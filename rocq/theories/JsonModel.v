(** Model of the writing of JSON strings.

    poseidon/src/utils.cpp:174-241 *)
From Coq Require Import List ZArith Bool.
From Coq Require Import String.
From Verif Require Import Base Text HoutModel.
Import ListNotations.
Open Scope list_scope.
Open Scope Z_scope.
Notation length := List.length.

(** [asteria::utf8_decode]: the code point at the beginning of a string and
    the number of bytes it takes; [None] if there is no valid sequence. It
    belongs to asteria; this is the definition of UTF-8 in RFC 3629.
    poseidon/src/utils.cpp:181-184 *)
Definition continuation (c : Z) : bool := (128 <=? c) && (c <? 192).

(** Called at poseidon/src/utils.cpp:181-184. *)
Definition utf8_decode (s : list Z) : option (Z * nat) :=
  match s with
  | [] => None
  | a :: s =>
    if a <? 128 then Some (a, 1%nat)
    else if a <? 192 then None
    else if a <? 224 then
      match s with
      | b :: _ =>
        let cp := (a - 192) * 64 + (b - 128) in
        if continuation b && (128 <=? cp) then Some (cp, 2%nat) else None
      | _ => None
      end
    else if a <? 240 then
      match s with
      | b :: c :: _ =>
        let cp := (a - 224) * 4096 + (b - 128) * 64 + (c - 128) in
        if continuation b && continuation c && (2048 <=? cp) && negb ((55296 <=? cp) && (cp <? 57344))
        then Some (cp, 3%nat) else None
      | _ => None
      end
    else if a <? 248 then
      match s with
      | b :: c :: d :: _ =>
        let cp := (a - 240) * 262144 + (b - 128) * 4096 + (c - 128) * 64 + (d - 128) in
        if continuation b && continuation c && continuation d && (65536 <=? cp) && (cp <? 1114112)
        then Some (cp, 4%nat) else None
      | _ => None
      end
    else None
  end.

(** [asteria::utf16_encode].
    poseidon/src/utils.cpp:225-227 *)
Definition utf16_encode (cp : Z) : list Z :=
  if cp <? 65536 then [cp] else [55296 + (cp - 65536) / 1024; 56320 + (cp - 65536) mod 1024].

(** The eight digits that [put_XU(v, 8)] writes. poseidon/src/utils.cpp:229-230 *)
Fixpoint hex_digits (n : nat) (v : Z) : list Z :=
  match n with
  | O => []
  | S n => hex_digits n (v / 16) ++ [hex_digit (v mod 16)]
  end.

Section quoting.
(** What [put_XU(v, 8)] stores. Where chunk headers are written, the first two
    characters are skipped, so there it writes [0x] before the digits
    (http_server_session.cpp:261-262). *)
Variable put_xu8 : Z -> list Z.
(** The value that the uninitialized [ustr[1]] happens to have. *)
Variable junk : Z.

(** The [default] case.
    poseidon/src/utils.cpp:223-237 *)
Definition escape (cp : Z) : list Z :=
  let ustr := utf16_encode cp in
  let nump := put_xu8 (nth 0 ustr junk * 65536 + nth 1 ustr junk) in
  firstn (length ustr * 6) (txt "\u" ++ firstn 4 nump ++ txt "\u" ++ firstn 4 (skipn 4 nump)).

(** The [switch].
    poseidon/src/utils.cpp:186-238 *)
Definition quote_code_point (cp : Z) : list Z :=
  if cp =? 8 then txt "\b"
  else if cp =? 12 then txt "\f"
  else if cp =? 10 then txt "\n"
  else if cp =? 13 then txt "\r"
  else if cp =? 9 then txt "\t"
  else if (cp =? 34) || (cp =? 92) then [92; cp]
  else if (32 <=? cp) && (cp <=? 126) then [cp]
  else escape cp.

(** The loop. [fuel] is the size of the string; each trip consumes a byte at
    least.
    poseidon/src/utils.cpp:179-239 *)
Fixpoint quote_loop (fuel : nat) (s : list Z) : list Z :=
  match fuel, s with
  | S fuel, _ :: t =>
    match utf8_decode s with
    | Some (cp, n) => quote_code_point cp ++ quote_loop fuel (skipn n s)
    | None => quote_code_point 65533 ++ quote_loop fuel t
    end
  | _, _ => []
  end.

(** [quote_json_string]. poseidon/src/utils.cpp:174-241 *)
Definition quote_json_string (s : list Z) : list Z := [34] ++ quote_loop (length s) s ++ [34].
End quoting.
