(** Specification of the reception of HTTP requests. *)
From Coq Require Import ZArith List Bool String.
From Verif Require Import Base Text UriSpec NetrefSpec HreqModel.
From Verif Require HoutSpec.
Import ListNotations.
Open Scope list_scope.
Open Scope Z_scope.
Notation length := List.length.

(** A request: what a client has sent.  Trailers follow a chunked body. *)
Record message := mkM { m_method : list Z; m_target : list Z; m_fields : list (list Z * list Z); m_body : list Z;
                        m_trailers : list (list Z * list Z); m_keep : bool }.

(** A text is given to the application of the parser library in pieces, of any number and size: they depend on how
    the stream has been cut.  There is at least one piece, except that of a body there may be none. *)
Definition pieces (k : list Z -> call) (t : list Z) (cs : list call) : Prop :=
  exists ps, ps <> [] /\ List.concat ps = t /\ cs = map k ps.
Definition body_pieces (t : list Z) (cs : list call) : Prop := exists ps, List.concat ps = t /\ cs = map Body ps.
Definition field_calls (f : list Z * list Z) (cs : list call) : Prop :=
  exists a b, pieces Field (fst f) a /\ pieces Value (snd f) b /\ cs = a ++ b.
Definition fields_calls (fs : list (list Z * list Z)) (cs : list call) : Prop :=
  exists css, Forall2 field_calls fs css /\ cs = List.concat css.
Definition head_calls (m : message) (cs : list call) : Prop :=
  exists u f, pieces Url (m_target m) u /\ fields_calls (m_fields m) f /\ cs = u ++ f.
Definition tail_calls (m : message) (cs : list call) : Prop :=
  exists b f, body_pieces (m_body m) b /\ fields_calls (m_trailers m) f /\ cs = b ++ f.
Definition message_calls (m : message) (cs : list call) : Prop :=
  exists h t, head_calls m h /\ tail_calls m t
    /\ cs = h ++ [Headers_complete (m_method m) (m_keep m)] ++ t ++ [Message_complete].

(** What a request is about *)
Record resource := mkRes { q_proxy : bool; q_ssl : bool; q_port : Z; q_host : list Z; q_user : list Z; q_path : list Z; q_query : list Z }.

Definition or_else (o : option (list Z)) (d : list Z) : list Z := match o with Some x => x | None => d end.
(** The first at sign or slash, if any, is a slash. *)
Fixpoint slash_first (s : list Z) : Prop :=
  match s with [] => True | c :: r => c = 47 \/ (c <> 64 /\ slash_first r) end.
Definition occurs (p s : list Z) : Prop := exists a b, s = a ++ p ++ b.

(** The absolute form (RFC 9112, 3.2.2): a scheme, maybe user information, and a reference.  The port is the one of
    the reference or of the scheme. *)
Definition absolute_form (t : list Z) (q : resource) : Prop :=
  exists (scheme : list Z) (user : option (list Z)) (r : reference),
    valid r
    /\ t = scheme ++ txt "://" ++ opt_text (fun u => u ++ [64]) user ++ text_of r
    /\ (match user with Some u => ~ In 64 u /\ ~ In 47 u | None => slash_first (text_of r) end)
    /\ ((HoutSpec.same scheme (txt "http") = true /\ q_ssl q = false /\ q_port q = match NetrefSpec.port r with Some d => number d | None => 80 end)
        \/ (HoutSpec.same scheme (txt "https") = true /\ q_ssl q = true /\ q_port q = match NetrefSpec.port r with Some d => number d | None => 443 end))
    /\ q_proxy q = true /\ q_host q = host r /\ q_user q = or_else user []
    /\ q_path q = or_else (path r) (txt "/") /\ q_query q = or_else (query r) [].

(** The origin form (RFC 9112, 3.2.1): a path and maybe a query.  The host is in the headers.  A fragment
    is tolerated. *)
Definition origin_form (fs : list (list Z * list Z)) (t : list Z) (q : resource) : Prop :=
  exists (p : list Z) (qu fr : option (list Z)),
    t = p ++ opt_text (fun x => [63] ++ x) qu ++ opt_text (fun x => [35] ++ x) fr
    /\ ~ occurs (txt "://") t
    /\ (exists p', p = 47 :: p') /\ Forall (fun c => path_char c = true) p
    /\ when qu (Forall (fun c => query_char c = true)) /\ when fr (Forall (fun c => query_char c = true \/ c = 35))
    /\ HoutSpec.lookup (txt "Host") fs = [q_host q]
    /\ q_proxy q = false /\ q_ssl q = false /\ q_port q = 0 /\ q_user q = [] /\ q_path q = p /\ q_query q = or_else qu [].

Definition request_target (fs : list (list Z * list Z)) (t : list Z) (q : resource) : Prop :=
  absolute_form t q \/ origin_form fs t q.

(** The headers that an application sees *)
Definition some_fields (fs : list (list Z * list Z)) : list (list Z * option (list Z)) := map (fun f => (fst f, Some (snd f))) fs.
Definition headers_of (m : message) (q : resource) (fs : list (list Z * list Z)) : headers :=
  mkH (m_method m) (q_proxy q) (q_ssl q) (q_port q) (q_host q) (q_user q) (q_path q) (q_query q) (some_fields fs).
(** Only the methods that have a meaning for a payload have one. *)
Definition payload_of (m : message) : list Z :=
  if in_dec (list_eq_dec Z.eq_dec) (m_method m) [txt "POST"; txt "PUT"; txt "PATCH"] then m_body m else [].

Definition field_size (fs : list (list Z * list Z)) : Z :=
  fold_right (fun f n => 4 + Z.of_nat (length (fst f)) + Z.of_nat (length (snd f)) + n) 0 fs.
Definition resource_size (q : resource) : Z :=
  Z.of_nat (length (q_host q)) + Z.of_nat (length (q_user q)) + Z.of_nat (length (q_path q)) + Z.of_nat (length (q_query q)).

(** A head that a server accepts, and the limits *)
Definition head_fits (L : limits) (m : message) : Prop :=
  Z.of_nat (length (m_target m)) + field_size (m_fields m) <= max_header_length L.
Definition acceptable_head (L : limits) (m : message) (q : resource) : Prop :=
  (length (m_method m) <= 7)%nat
  /\ request_target (m_fields m) (m_target m) q /\ q_host q <> [] /\ head_fits L m.
Definition tail_fits (L : limits) (m : message) (q : resource) : Prop :=
  (m_trailers m = [] \/ resource_size q + field_size (m_fields m) + field_size (m_trailers m) <= max_header_length L)
  /\ Z.of_nat (length (payload_of m)) <= max_content_length L.

(** A target which means nothing: neither form fits, nor is it a scheme, maybe with user information, and nothing more *)
Definition no_target (fs : list (list Z * list Z)) (t : list Z) : Prop :=
  (forall q, ~ request_target fs t q)
  /\ ~ exists s u, (HoutSpec.same s (txt "http") = true \/ HoutSpec.same s (txt "https") = true) /\ t = s ++ txt "://" ++ opt_text (fun u => u ++ [64]) u.

(** What the application is told at the end of a head and at the end of a message, and the
    status of an error *)
Definition told_head (m : message) (q : resource) : event := On_headers (headers_of m q (m_fields m)) (negb (m_keep m)).
Definition told_end (m : message) (q : resource) : event :=
  On_finish (headers_of m q (m_fields m ++ m_trailers m)) (payload_of m) (negb (m_keep m)).
Definition told (mq : message * resource) : list event := [told_head (fst mq) (snd mq); told_end (fst mq) (snd mq)].
Definition error_status (e : errno) : Z :=
  match e with
  | HPE_INVALID_VERSION => 505
  | HPE_INVALID_METHOD => 405
  | HPE_INVALID_TRANSFER_ENCODING => 411
  | _ => 400
  end.
Definition was_head (m : message) : bool := if list_eq_dec Z.eq_dec (m_method m) (txt "HEAD") then true else false.

(** What a client may send, and what the application shall be told.  Messages that are accepted follow each other;
    then the stream may end, or something may be wrong, and what follows does not matter:
    - there is an error in a head;
    - a method is too long;
    - a target means nothing;
    - a head is too long;
    - there is an error after a head;
    - a body or a trailer is too long; this supposes that the application does not take parts of the payload. *)
Inductive stream (L : limits) (A : application) : list call -> list event -> Prop :=
| S_end : stream L A [] []
| S_head m q h tl evs : head_calls m h -> acceptable_head L m q -> tail_stream L A m q tl evs ->
    stream L A (h ++ Headers_complete (m_method m) (m_keep m) :: tl) (told_head m q :: evs)
| S_error m h h2 e junk : head_calls m (h ++ h2) -> head_fits L m ->
    stream L A (h ++ Fail e :: junk) [On_error false (error_status e)]
| S_method m h junk : head_calls m h -> head_fits L m -> (8 <= length (m_method m))%nat ->
    stream L A (h ++ Headers_complete (m_method m) (m_keep m) :: junk) [On_error false 405]
| S_target m h junk : head_calls m h -> head_fits L m -> (length (m_method m) <= 7)%nat -> no_target (m_fields m) (m_target m) ->
    stream L A (h ++ Headers_complete (m_method m) (m_keep m) :: junk) [On_error (was_head m) 400]
| S_long m h junk : head_calls m h -> ~ head_fits L m -> stream L A (h ++ junk) [Exception]
with tail_stream (L : limits) (A : application) : message -> resource -> list call -> list event -> Prop :=
| T_end m q t rest evs : tail_calls m t -> tail_fits L m q -> stream L A rest evs ->
    tail_stream L A m q (t ++ Message_complete :: rest) (told_end m q :: evs)
| T_error m q t t2 e junk : tail_calls m (t ++ t2) -> tail_fits L m q ->
    tail_stream L A m q (t ++ Fail e :: junk) [On_error (was_head m) (error_status e)]
| T_long m q t junk : tail_calls m t -> ~ tail_fits L m q -> (forall tr, a_take A tr = O) ->
    tail_stream L A m q (t ++ junk) [Exception].

(** A request that a server accepts *)
Definition acceptable (L : limits) (m : message) (q : resource) : Prop := acceptable_head L m q /\ tail_fits L m q.

(** A history in which what the application has taken from the buffer is given back: the payload
    of a request is what was taken before its end and what remained then. *)
Fixpoint whole_payloads (taken : list Z) (tr : list event) : list event :=
  match tr with
  | [] => []
  | On_stream t :: tr => whole_payloads (taken ++ t) tr
  | On_finish h d e :: tr => On_finish h (taken ++ d) e :: whole_payloads [] tr
  | e :: tr => e :: whole_payloads taken tr
  end.

(** How many heads and messages end within some calls *)
Definition marks (cs : list call) : nat :=
  length (filter (fun c => match c with Headers_complete _ _ | Message_complete => true | _ => false end) cs).

(** An application that leaves headers alone and stays with HTTP *)
Definition plain (A : application) : Prop :=
  (forall tr h, fst (a_headers A tr h) = h /\ snd (a_headers A tr h) <> Payload_connect)
  /\ forall tr, a_switched A tr = false.

Definition data (css : list (list call)) : list input := map Data css.
