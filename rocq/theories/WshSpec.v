(** Specification vocabulary for the opening handshake (RFC 6455, 4) and for the negotiation of compression (RFC 7692, 7.1). *)
From Coq Require Import ZArith List Bool String.
From Verif Require Import Text DateModel HvalModel HdrModel HdrSpec HoutSpec.
Import ListNotations.
Open Scope list_scope.
Open Scope Z_scope.
Notation length := List.length.

(** A header with a list (RFC 6455, 9.1): elements are separated with commas, and an element has parameters, which semicolons
    precede.  How they are written is property C51 (HdrSpec). *)
Record element := mkE { e_name : list Z; e_value : value; e_params : list (list Z * value) }.
Definition flat (e : element) : list (bool * list Z * value) :=
  (true, e_name e, e_value e) :: map (fun p => (false, fst p, snd p)) (e_params e).
Definition header (mktime : tm -> Z) (h : list Z) (es : list element) : Prop :=
  Forall is_ws h /\ es = [] \/
  exists a v l m, h = written a ++ tail_text l /\ attribute mktime a (tail_text l) v /\ attributes mktime l m /\
                  (true, label a, v) :: m = List.concat (map flat es).

(** The elements of all headers with this name; [parsed] gives the elements of one.  [lookup] ignores case (HoutSpec). *)
Definition elements (parsed : list Z -> list element) (n : list Z) (fs : list (list Z * list Z)) : list element :=
  flat_map parsed (lookup n fs).
(** The headers with lists can be read. *)
Definition readable (mktime : tm -> Z) (parsed : list Z -> list element) (fs : list (list Z * list Z)) : Prop :=
  forall h, In h (lookup (txt "Connection") fs) \/ In h (lookup (txt "Sec-WebSocket-Extensions") fs) -> header mktime h (parsed h).
Definition mentions (n : list Z) (es : list element) : Prop := Exists (fun e => same n (e_name e) = true) es.

(** The last header with this name that has [len] characters *)
Definition last_of_length (n : list Z) (len : nat) (fs : list (list Z * list Z)) (k : list Z) : Prop :=
  exists l r, lookup n fs = l ++ k :: r /\ length k = len /\ Forall (fun x => length x <> len) r.

(** An opening request with the key [k] (RFC 6455, 4.2.1).  Neither the method, nor [Host], nor [Connection: Upgrade] matter. *)
Definition asks (fs : list (list Z * list Z)) (k : list Z) : Prop :=
  In (txt "websocket") (lookup (txt "Upgrade") fs) /\ In (txt "13") (lookup (txt "Sec-WebSocket-Version") fs) /\
  last_of_length (txt "Sec-WebSocket-Key") 24 fs k /\ nth 0 k 0 <> 0.

(** Base64 (RFC 4648, 4): a decoder *)
Definition alphabet : list Z := txt "ABCDEFGHIJKLMNOPQRSTUVWXYZabcdefghijklmnopqrstuvwxyz0123456789+/".
Fixpoint index (c : Z) (l : list Z) : option Z :=
  match l with [] => None | x :: l => if x =? c then Some 0 else match index c l with Some n => Some (n + 1) | None => None end end.
Fixpoint decode64 (s : list Z) : option (list Z) :=
  match s with
  | [] => Some []
  | a :: b :: c :: d :: s =>
      match index a alphabet, index b alphabet with
      | Some a, Some b =>
          match index c alphabet, index d alphabet with
          | Some c, Some d =>
              match decode64 s with
              | Some r => Some (a * 4 + b / 16 :: b mod 16 * 16 + c / 4 :: c mod 4 * 64 + d :: r)
              | None => None
              end
          | Some c, None => if (d =? 61) then match s with [] => if c mod 4 =? 0 then Some [a * 4 + b / 16; b mod 16 * 16 + c / 4] else None | _ => None end else None
          | None, _ => if (c =? 61) && (d =? 61) then match s with [] => if b mod 16 =? 0 then Some [a * 4 + b / 16] else None | _ => None end else None
          end
      | _, _ => None
      end
  | _ => None
  end.
(** The proof that a server has received the key (RFC 6455, 4.2.2) *)
Definition proves (sha1 : list Z -> list Z) (k v : list Z) : Prop :=
  decode64 v = Some (sha1 (k ++ txt "258EAFA5-E914-47DA-95CA-C5AB0DC85B11")).

(** Parameters of [permessage-deflate] that can be accepted.  A date instead of a value counts as none. *)
Definition valueless (v : value) : Prop := match v with Str _ => False | _ => True end.
Definition known (names : list (list Z)) (n : list Z) : Prop := Exists (fun m => same m n = true) names.
Inductive usable (integer : list Z -> Z) : list Z * value -> Prop :=
| u_takeover n v : known [txt "server_no_context_takeover"; txt "client_no_context_takeover"] n -> valueless v -> usable integer (n, v)
| u_default n v : known [txt "server_max_window_bits"; txt "client_max_window_bits"] n -> valueless v -> usable integer (n, v)
| u_bits n t : known [txt "server_max_window_bits"; txt "client_max_window_bits"] n -> 9 <= integer t <= 15 -> usable integer (n, Str t).
Definition acceptable (integer : list Z -> Z) (e : element) : Prop :=
  same (txt "permessage-deflate") (e_name e) = true /\ Forall (usable integer) (e_params e).

(** What is agreed upon: whether each side promises not to reuse its compression context, and the sizes of their windows.  The last
    of several values counts. *)
Record terms := mkT { t_server_nct : bool; t_client_nct : bool; t_server_bits : Z; t_client_bits : Z }.
Definition sets (n : list Z) (p : list Z * value) : Prop := same n (fst p) = true /\ ~ valueless (snd p).
Definition window (integer : list Z -> Z) (n : list Z) (ps : list (list Z * value)) (b : Z) : Prop :=
  Forall (fun p => ~ sets n p) ps /\ b = 15 \/
  exists l m t r, ps = l ++ (m, Str t) :: r /\ same n m = true /\ Forall (fun p => ~ sets n p) r /\ b = integer t.
Definition flagged (n : list Z) (ps : list (list Z * value)) : Prop := Exists (fun p => same n (fst p) = true) ps.
Definition terms_of (integer : list Z -> Z) (ps : list (list Z * value)) (t : terms) : Prop :=
  (t_server_nct t = true <-> flagged (txt "server_no_context_takeover") ps) /\
  (t_client_nct t = true <-> flagged (txt "client_no_context_takeover") ps) /\
  window integer (txt "server_max_window_bits") ps (t_server_bits t) /\
  window integer (txt "client_max_window_bits") ps (t_client_bits t).

(** The first offer that is acceptable is taken; none with a compression level of zero. *)
Definition negotiates (integer : list Z -> Z) (level : Z) (es : list element) (o : option terms) : Prop :=
  match o with
  | None => level = 0 \/ Forall (fun e => ~ acceptable integer e) es
  | Some t => level <> 0 /\ exists l e r, es = l ++ e :: r /\ Forall (fun e => ~ acceptable integer e) l /\ acceptable integer e /\
                                          terms_of integer (e_params e) t
  end.

(** The parameters in the response of a server *)
Definition decimal (n : Z) : list Z := if n <? 10 then [48 + n] else [48 + n / 10; 48 + n mod 10].
Definition response_params (t : terms) : list (list Z * value) :=
  (if t_client_nct t then [(txt "client_no_context_takeover", Null)] else [])
  ++ (if t_server_bits t =? 15 then [] else [(txt "server_max_window_bits", Str (decimal (t_server_bits t)))])
  ++ (if t_client_bits t =? 15 then [] else [(txt "client_max_window_bits", Str (decimal (t_client_bits t)))]).

(** No part of a header reads as a date that does not fit (property C42); up to a null character, if there is one *)
Definition calm (mktime : tm -> Z) (h : list Z) : Prop :=
  forall a u, h = a ++ u -> DateModel.parse mktime (cstr u) (length (cstr u)) <> Overflow.
