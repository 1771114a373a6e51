(** What the theorems about MongoDB values say. *)
From Coq Require Import List ZArith Bool.
From Coq Require Import String.
From Verif Require Import Base Text NetrefSpec JsonSpec RedisSpec MongoModel.
Import ListNotations.
Open Scope list_scope.
Open Scope Z_scope.

(** A BSON element represents a value. Integers are stored in 32 bits if they
    fit; time points are in milliseconds; the keys of arrays are subscripts. *)
Inductive represents : bson -> value -> Prop :=
  | represents_null : represents B_null Null
  | represents_bool b : represents (B_bool b) (Bool b)
  | represents_int32 n : - 2 ^ 31 <= n < 2 ^ 31 -> represents (B_int32 n) (Int n)
  | represents_int64 n : ~ (- 2 ^ 31 <= n < 2 ^ 31) -> represents (B_int64 n) (Int n)
  | represents_double x : represents (B_double x) (Double x)
  | represents_utf8 s : represents (B_utf8 s) (Utf8 s)
  | represents_binary s : represents (B_binary s) (Binary s)
  | represents_array l vs :
      Forall2 (fun kb v => represents (snd kb) v) l vs ->
      (forall i k b, nth_error l i = Some (k, b) -> digits (Z.of_nat i) k) ->
      represents (B_array l) (Arr vs)
  | represents_document l vs :
      Forall2 (fun kb kv => fst kb = fst kv /\ represents (snd kb) (snd kv)) l vs ->
      represents (B_document l) (Doc vs)
  | represents_oid s : represents (B_oid s) (Oid s)
  | represents_date ms ns :
      (0 <= ns -> ms * 1000000 <= ns < (ms + 1) * 1000000) ->
      (ns < 0 -> (ms - 1) * 1000000 < ns <= ms * 1000000) -> represents (B_date_time ms) (Date ns).

(** A value which can be sent: no string is too long for BSON, and sizes are
    64-bit. *)
Inductive sendable : value -> Prop :=
  | sendable_utf8 s : Z.of_nat (length s) <= 2147483647 -> sendable (Utf8 s)
  | sendable_binary s : Z.of_nat (length s) <= 4294967295 -> sendable (Binary s)
  | sendable_array l : Forall sendable l -> Z.of_nat (length l) < 2 ^ 64 -> sendable (Arr l)
  | sendable_document l : Forall (fun kv => sendable (snd kv)) l -> sendable (Doc l)
  | sendable_other v :
      match v with Null | Bool _ | Int _ | Double _ | Oid _ | Date _ => True | _ => False end -> sendable v.

(** The value which a BSON element should be converted into. Other types
    become null values. *)
Inductive means : bson -> value -> Prop :=
  | means_array l vs : Forall2 (fun kb v => means (snd kb) v) l vs -> means (B_array l) (Arr vs)
  | means_document l vs :
      Forall2 (fun kb kv => fst kb = fst kv /\ means (snd kb) (snd kv)) l vs ->
      means (B_document l) (Doc vs)
  | means_null : means B_null Null
  | means_other : means B_other Null
  | means_bool b : means (B_bool b) (Bool b)
  | means_int32 n : means (B_int32 n) (Int n)
  | means_int64 n : means (B_int64 n) (Int n)
  | means_double x : means (B_double x) (Double x)
  | means_utf8 s : means (B_utf8 s) (Utf8 s)
  | means_binary s : means (B_binary s) (Binary s)
  | means_oid s : means (B_oid s) (Oid s)
  | means_date ms : means (B_date_time ms) (Date (ms * 1000000)).

(** An array or a document with elements. *)
Definition filled (b : bson) : Prop :=
  match b with B_array (_ :: _) | B_document (_ :: _) => True | _ => False end.

(** Elements among which only the last one may be filled, at all levels. *)
Inductive trailing : list (list Z * bson) -> Prop :=
  | trailing_end : trailing []
  | trailing_last k b : trailing_in b -> trailing [(k, b)]
  | trailing_next k b l : ~ filled b -> trailing l -> trailing ((k, b) :: l)
with trailing_in : bson -> Prop :=
  | trailing_array l : trailing l -> trailing_in (B_array l)
  | trailing_document l : trailing l -> trailing_in (B_document l)
  | trailing_scalar b : match b with B_array _ | B_document _ => False | _ => True end -> trailing_in b.

(** What becomes of elements: those which follow a filled one end up inside of
    it. *)
Inductive flows : list (list Z * bson) -> list (list Z * value) -> Prop :=
  | flows_end : flows [] []
  | flows_plain k b x l r : ~ filled b -> means b x -> flows l r -> flows ((k, b) :: l) ((k, x) :: r)
  | flows_array k l0 l r0 r : l0 <> [] -> flows l0 r0 -> flows l r ->
      flows ((k, B_array l0) :: l) [(k, Arr (map snd (r0 ++ r)))]
  | flows_document k l0 l r0 r : l0 <> [] -> flows l0 r0 -> flows l r ->
      flows ((k, B_document l0) :: l) [(k, Doc (r0 ++ r))].

(** *** Text *)

(** The value of a base64 digit. *)
Definition base64_value (c : Z) : option Z :=
  if (65 <=? c) && (c <=? 90) then Some (c - 65)
  else if (97 <=? c) && (c <=? 122) then Some (c - 71)
  else if (48 <=? c) && (c <=? 57) then Some (c + 4)
  else if c =? 43 then Some 62
  else if c =? 47 then Some 63
  else None.

(** Decoding of base64 (RFC 4648); padding is required, and is only allowed at
    the end. *)
Fixpoint base64_decode (s : list Z) : option (list Z) :=
  match s with
  | [] => Some []
  | a :: b :: c :: d :: s =>
    match base64_value a, base64_value b with
    | Some x, Some y =>
      if (c =? 61) && (d =? 61) then
        match s with [] => if y mod 16 =? 0 then Some [x * 4 + y / 16] else None | _ => None end
      else
        match base64_value c with
        | Some z =>
          if d =? 61 then
            match s with
            | [] => if z mod 4 =? 0 then Some [x * 4 + y / 16; y mod 16 * 16 + z / 4] else None
            | _ => None
            end
          else
            match base64_value d, base64_decode s with
            | Some w, Some r => Some (x * 4 + y / 16 :: y mod 16 * 16 + z / 4 :: z mod 4 * 64 + w :: r)
            | _, _ => None
            end
        | None => None
        end
    | _, _ => None
    end
  | _ => None
  end.

(** Two hexadecimal digits for each byte. *)
Inductive hex_text : list Z -> list Z -> Prop :=
  | hex_end : hex_text [] []
  | hex_next b s x y t : hex_value x = Some (b / 16) -> hex_value y = Some (b mod 16) ->
      hex_text s t -> hex_text (b :: s) (x :: y :: t).

Section texts.
(** How strings and doubles are written. *)
Variable quote : list Z -> list Z.
Variable double_text : Z -> list Z.

(** The text of a value. The number of milliseconds may be off by one. *)
Inductive text_of : value -> list Z -> Prop :=
  | text_null : text_of Null (txt "null")
  | text_true : text_of (Bool true) (txt "true")
  | text_false : text_of (Bool false) (txt "false")
  | text_int n t : integer_text n t -> text_of (Int n) t
  | text_double x : text_of (Double x) (double_text x)
  | text_utf8 s : text_of (Utf8 s) (quote s)
  | text_binary s t : base64_decode t = Some s -> text_of (Binary s) (txt "{$base64:""" ++ t ++ txt """}")
  | text_oid s t : hex_text s t -> text_of (Oid s) (txt "{$oid:""" ++ t ++ txt """}")
  | text_date ns ms t : - 1010000 < ns - ms * 1000000 < 1010000 -> integer_text ms t ->
      text_of (Date ns) (txt "{$date:{$numberLong:""" ++ t ++ txt """}}")
  | text_array l ts : Forall2 text_of l ts -> text_of (Arr l) ([91] ++ comma_separated ts ++ [93])
  | text_document l ts :
      Forall2 (fun kv t => exists u, t = quote (fst kv) ++ [58] ++ u /\ text_of (snd kv) u) l ts ->
      text_of (Doc l) ([123] ++ comma_separated ts ++ [125]).
End texts.

(** A value that exists in the program: integers are of 64 bits, strings
    consist of bytes. *)
Inductive proper : value -> Prop :=
  | proper_int n : - 2 ^ 63 <= n < 2 ^ 63 -> proper (Int n)
  | proper_binary s : Forall byte s -> proper (Binary s)
  | proper_oid s : Forall byte s -> proper (Oid s)
  | proper_date ns : - 2 ^ 63 <= ns < 2 ^ 63 -> proper (Date ns)
  | proper_array l : Forall proper l -> proper (Arr l)
  | proper_document l : Forall (fun kv => proper (snd kv)) l -> proper (Doc l)
  | proper_other v : match v with Null | Bool _ | Double _ | Utf8 _ => True | _ => False end -> proper v.
