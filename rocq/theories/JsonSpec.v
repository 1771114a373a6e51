(** JSON strings (RFC 8259) and UTF-8 (RFC 3629). *)
From Coq Require Import List ZArith Bool.
From Verif Require Import Base.
Import ListNotations.
Open Scope Z_scope.

(** Unicode scalar values. *)
Definition scalar (cp : Z) : Prop := 0 <= cp < 55296 \/ 57344 <= cp < 1114112.

(** Their UTF-8 sequences. *)
Definition utf8 (cp : Z) : list Z :=
  if cp <? 128 then [cp]
  else if cp <? 2048 then [192 + cp / 64; 128 + cp mod 64]
  else if cp <? 65536 then [224 + cp / 4096; 128 + cp / 64 mod 64; 128 + cp mod 64]
  else [240 + cp / 262144; 128 + cp / 4096 mod 64; 128 + cp / 64 mod 64; 128 + cp mod 64].

(** The characters of a string of bytes, where a byte at which no valid
    sequence starts counts as U+FFFD. *)
Inductive characters : list Z -> list Z -> Prop :=
  | characters_end : characters [] []
  | characters_valid cp s cps : scalar cp -> characters s cps -> characters (utf8 cp ++ s) (cp :: cps)
  | characters_invalid b s cps : (forall cp t, scalar cp -> b :: s <> utf8 cp ++ t) ->
      characters s cps -> characters (b :: s) (65533 :: cps).

(** The value of a hexadecimal digit. *)
Definition hex_value (c : Z) : option Z :=
  if (48 <=? c) && (c <=? 57) then Some (c - 48)
  else if (65 <=? c) && (c <=? 70) then Some (c - 55)
  else if (97 <=? c) && (c <=? 102) then Some (c - 87)
  else None.

Definition four_digits (a b c d : Z) : option Z :=
  match hex_value a, hex_value b, hex_value c, hex_value d with
  | Some a, Some b, Some c, Some d => Some (a * 4096 + b * 256 + c * 16 + d)
  | _, _, _, _ => None
  end.

(** What the character after a backslash stands for. *)
Definition simple_escape (c : Z) : option Z :=
  if (c =? 34) || (c =? 92) || (c =? 47) then Some c
  else if c =? 98 then Some 8
  else if c =? 102 then Some 12
  else if c =? 110 then Some 10
  else if c =? 114 then Some 13
  else if c =? 116 then Some 9
  else None.

(** Reading the inside of a JSON string which consists of ASCII characters:
    its UTF-16 code units, and what follows the closing quote. *)
Fixpoint json_units (s : list Z) : option (list Z * list Z) :=
  match s with
  | [] => None
  | c :: s =>
    if c =? 34 then Some ([], s)
    else if c =? 92 then
      match s with
      | e :: s =>
        if e =? 117 then
          match s with
          | d1 :: d2 :: d3 :: d4 :: s =>
            match four_digits d1 d2 d3 d4, json_units s with
            | Some u, Some (us, r) => Some (u :: us, r)
            | _, _ => None
            end
          | _ => None
          end
        else match simple_escape e, json_units s with
             | Some u, Some (us, r) => Some (u :: us, r)
             | _, _ => None
             end
      | [] => None
      end
    else if (32 <=? c) && (c <? 128) then
      match json_units s with Some (us, r) => Some (c :: us, r) | None => None end
    else None
  end.

(** A JSON string. *)
Definition json_string (s : list Z) : option (list Z * list Z) :=
  match s with
  | c :: s => if c =? 34 then json_units s else None
  | [] => None
  end.

(** The characters that a list of UTF-16 code units denotes; unpaired
    surrogates are refused. *)
Fixpoint utf16_characters (us : list Z) : option (list Z) :=
  match us with
  | [] => Some []
  | u :: us =>
    if (55296 <=? u) && (u <? 56320) then
      match us with
      | v :: us =>
        if (56320 <=? v) && (v <? 57344) then
          option_map (cons (65536 + (u - 55296) * 1024 + (v - 56320))) (utf16_characters us)
        else None
      | [] => None
      end
    else if (56320 <=? u) && (u <? 57344) then None
    else option_map (cons u) (utf16_characters us)
  end.

(** A JSON string is read as these characters. *)
Definition json_reads (s cps rest : list Z) : Prop :=
  exists us, json_string s = Some (us, rest) /\ utf16_characters us = Some cps.
