(** What the parser library http_parser is relied upon to do, after its documentation: for plain HTTP/1.1 messages it
    makes the calls that convey their parts, in order, however the stream is cut.  The library is not in
    the repository.  Nothing here refers to the code that writes messages. *)
From Coq Require Import ZArith List Bool String.
From Verif Require Import Base Text NetrefSpec HoutSpec.
From Verif Require HreqModel HreqSpec HrespModel HrespSpec.
Import ListNotations.
Open Scope list_scope.
Open Scope Z_scope.
Notation length := List.length.

Definition eol : list Z := [13; 10].

(** Fields (RFC 9110, 5): the name is a token; the value has visible characters and spaces, but no spaces at its
    ends. *)
Definition token_char (c : Z) : Prop := letter_or_digit c \/ In c (txt "!#$%&'*+-.^_`|~").
Definition text_char (c : Z) : Prop := 32 <= c <= 126.
Definition proper_field (f : list Z * list Z) : Prop :=
  fst f <> [] /\ Forall token_char (fst f) /\ Forall text_char (snd f) /\ neat (snd f) /\ neat (rev (snd f)).
Definition field_text (f : list Z * list Z) : list Z := fst f ++ txt ": " ++ snd f ++ eol.
Definition head_text (start : list Z) (fs : list (list Z * list Z)) : list Z :=
  start ++ eol ++ List.concat (map field_text fs) ++ eol.

(** A body in chunks (RFC 9112, 7.1): every chunk has its size in hexadecimal before it. *)
Inductive chunks : list Z -> list Z -> Prop :=
| chunks_end : chunks [] (txt "0" ++ eol ++ eol)
| chunks_more l d ds t : d <> [] -> integer 16 l = Some (Z.of_nat (length d)) -> chunks ds t ->
    chunks (d ++ ds) (l ++ eol ++ d ++ eol ++ t).
(** A body whose length is known (RFC 9112, 6.3) *)
Inductive body_text (fs : list (list Z * list Z)) : list Z -> list Z -> Prop :=
| body_sized l d : lookup (txt "Transfer-Encoding") fs = [] -> lookup (txt "Content-Length") fs = [l] ->
    integer 10 l = Some (Z.of_nat (length d)) -> body_text fs d d
| body_chunks d t : lookup (txt "Transfer-Encoding") fs = [txt "chunked"] -> lookup (txt "Content-Length") fs = [] ->
    chunks d t -> body_text fs d t.
Definition no_length (fs : list (list Z * list Z)) : Prop :=
  lookup (txt "Transfer-Encoding") fs = [] /\ lookup (txt "Content-Length") fs = [].

(** Whether the connection is to be closed after the message (RFC 9112, 9.6) *)
Fixpoint split_at (c : Z) (s : list Z) : list (list Z) :=
  match s with
  | [] => [[]]
  | x :: s => if x =? c then [] :: split_at c s
              else match split_at c s with w :: ws => (x :: w) :: ws | [] => [[x]] end
  end.
Definition closing (fs : list (list Z * list Z)) : bool :=
  existsb (fun v => existsb (fun t => same (trim t) (txt "close")) (split_at 44 v)) (lookup (txt "Connection") fs).

(** Heads that the library takes: not too long, without the old [Proxy-Connection] *)
Definition proper_head (start : list Z) (fs : list (list Z * list Z)) : Prop :=
  Forall proper_field fs /\ lookup (txt "Proxy-Connection") fs = [] /\ Z.of_nat (length (head_text start fs)) <= 80 * 1024.

(** * Requests *)
Definition methods : list (list Z) :=
  [txt "GET"; txt "HEAD"; txt "POST"; txt "PUT"; txt "DELETE"; txt "OPTIONS"; txt "TRACE"; txt "PATCH"].
Definition authority_char (c : Z) : Prop := letter_or_digit c \/ In c (txt "-._~!$&'()*+,;=:%").
Definition target_char (c : Z) : Prop := 33 <= c <= 126.
(** A path, or a URI that has one *)
Definition proper_target (t : list Z) : Prop :=
  (exists p, t = 47 :: p /\ Forall target_char p)
  \/ (exists s u h p, (s = txt "http" \/ s = txt "https")
        /\ t = s ++ txt "://" ++ opt_text (fun u => u ++ [64]) u ++ h ++ 47 :: p
        /\ when u (Forall authority_char) /\ h <> [] /\ Forall authority_char h /\ Forall target_char p).
Definition request_start (q : request) : list Z := q_method q ++ [32] ++ q_target q ++ txt " HTTP/1.1".
Definition request_text (q : request) (t : list Z) : Prop :=
  exists b, (no_length (q_fields q) /\ q_body q = [] /\ b = [] \/ body_text (q_fields q) (q_body q) b)
            /\ t = head_text (request_start q) (q_fields q) ++ b.
Definition proper_request (q : request) : Prop :=
  In (q_method q) methods /\ proper_target (q_target q) /\ lookup (txt "Upgrade") (q_fields q) = []
  /\ proper_head (request_start q) (q_fields q).
Definition request_message (q : request) : HreqSpec.message :=
  HreqSpec.mkM (q_method q) (q_target q) (q_fields q) (q_body q) [] (negb (closing (q_fields q))).

(** [lib] gives the calls that are made for each piece of a stream.  The messages may be followed by
    others unless they close the connection. *)
Definition request_library (lib : list (list Z) -> list (list HreqModel.call)) : Prop :=
  forall qs ts pieces,
  Forall proper_request qs -> Forall (fun q => closing (q_fields q) = false) (removelast qs) ->
  Forall2 request_text qs ts -> List.concat pieces = List.concat ts ->
  length (lib pieces) = length pieces /\
  exists css, Forall2 (fun q cs => HreqSpec.message_calls (request_message q) cs) qs css
              /\ List.concat (lib pieces) = List.concat css.

(** * Responses *)
Definition response_start (st : list Z) (r : response) : list Z := txt "HTTP/1.1 " ++ st ++ [32] ++ r_reason r.
(** [head] says that it answers a HEAD request. *)
Definition response_text (head : bool) (r : response) (t : list Z) : Prop :=
  exists st b, length st = 3%nat /\ integer 10 st = Some (r_status r)
    /\ (if (r_status r <? 200) || (r_status r =? 204) || (r_status r =? 304) then no_length (r_fields r) /\ r_body r = [] /\ b = []
        else if head then r_body r = [] /\ b = [] /\ exists d t, body_text (r_fields r) d t
        else body_text (r_fields r) (r_body r) b)
    /\ t = head_text (response_start st r) (r_fields r) ++ b
    /\ Z.of_nat (length (head_text (response_start st r) (r_fields r))) <= 80 * 1024.
Definition proper_response (r : response) : Prop :=
  100 <= r_status r <= 999 /\ r_status r <> 101 /\ Forall text_char (r_reason r)
  /\ Forall proper_field (r_fields r) /\ lookup (txt "Proxy-Connection") (r_fields r) = [].
Definition response_message (r : response) : HrespSpec.message :=
  HrespSpec.mkM (r_status r) (r_reason r) (r_fields r) (r_body r) [] (negb (closing (r_fields r))).

(** [heads] tells of each response whether the library has been told that it has no body. *)
Definition response_library (lib : list bool -> list (list Z) -> list (list HrespModel.call)) : Prop :=
  forall heads rs ts pieces,
  length heads = length rs ->
  Forall proper_response rs -> Forall (fun r => closing (r_fields r) = false) (removelast rs) ->
  Forall2 (fun hr t => response_text (fst hr) (snd hr) t) (combine heads rs) ts ->
  List.concat pieces = List.concat ts ->
  length (lib heads pieces) = length pieces /\
  exists css, Forall2 (fun r cs => HrespSpec.message_calls (response_message r) cs) rs css
              /\ List.concat (lib heads pieces) = List.concat css.

(** An application of a client that tells the library so: it answers "no payload" to the heads of those
    responses. *)
Definition is_headers (e : HrespModel.event) : bool := match e with HrespModel.On_headers _ => true | _ => false end.
Definition announces (heads : list bool) (A : HrespModel.application) : Prop :=
  forall tr h, snd (HrespModel.a_headers A tr h)
    = if nth (length (filter is_headers tr) - 1) heads false then HrespModel.Payload_empty else HrespModel.Payload_normal.
