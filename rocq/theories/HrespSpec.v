(** Specification of the reception of HTTP responses. *)
From Coq Require Import ZArith List Bool String.
From Verif Require Import Base Text HrespModel.
Import ListNotations.
Open Scope list_scope.
Open Scope Z_scope.
Notation length := List.length.

(** A response: what a server has sent.  Trailers follow a chunked body. *)
Record message := mkM { m_status : Z; m_reason : list Z; m_fields : list (list Z * list Z); m_body : list Z;
                        m_trailers : list (list Z * list Z); m_keep : bool }.

(** A text is given to the application of the parser library in pieces, of any number and size: they depend on how
    the stream has been cut.  There is at least one piece, except that of a body there may be none. *)
Definition pieces (k : list Z -> call) (t : list Z) (cs : list call) : Prop :=
  exists ps, ps <> [] /\ List.concat ps = t /\ cs = map k ps.
Definition body_pieces (t : list Z) (cs : list call) : Prop := exists ps, List.concat ps = t /\ cs = map Body ps.
Definition field_calls (f : list Z * list Z) (cs : list call) : Prop :=
  exists a b, pieces Field (fst f) a /\ pieces Value (snd f) b /\ cs = a ++ b.
Definition fields_calls (fs : list (list Z * list Z)) (cs : list call) : Prop :=
  exists css, Forall2 field_calls fs css /\ cs = List.concat css.
Definition head_calls (m : message) (cs : list call) : Prop :=
  exists u f, pieces (Status (m_status m)) (m_reason m) u /\ fields_calls (m_fields m) f /\ cs = u ++ f.
Definition tail_calls (m : message) (cs : list call) : Prop :=
  exists b f, body_pieces (m_body m) b /\ fields_calls (m_trailers m) f /\ cs = b ++ f.
Definition message_calls (m : message) (cs : list call) : Prop :=
  exists h t, head_calls m h /\ tail_calls m t
    /\ cs = h ++ [Headers_complete (m_keep m)] ++ t ++ [Message_complete].

Definition some_fields (fs : list (list Z * list Z)) : list (list Z * option (list Z)) := map (fun f => (fst f, Some (snd f))) fs.
Definition headers_of (m : message) (fs : list (list Z * list Z)) : headers := mkH (m_status m) (m_reason m) (some_fields fs).

Definition field_size (fs : list (list Z * list Z)) : Z :=
  fold_right (fun f n => 4 + Z.of_nat (length (fst f)) + Z.of_nat (length (snd f)) + n) 0 fs.

(** The limits.  The status line alone has no limit; with headers, it counts as its reason and twelve more. *)
Definition head_fits (L : limits) (m : message) : Prop :=
  m_fields m = [] \/ 12 + Z.of_nat (length (m_reason m)) + field_size (m_fields m) <= max_header_length L.
Definition tail_fits (L : limits) (m : message) : Prop :=
  (m_trailers m = [] \/ 12 + Z.of_nat (length (m_reason m)) + field_size (m_fields m) + field_size (m_trailers m) <= max_header_length L)
  /\ Z.of_nat (length (m_body m)) <= max_content_length L.

(** What the application is told of a response; the connection is shut down after it if it does not stay alive. *)
Definition told_head (m : message) : event := On_headers (headers_of m (m_fields m)).
Definition told_end (m : message) : list event :=
  On_finish (headers_of m (m_fields m ++ m_trailers m)) (m_body m) :: if m_keep m then [] else [Shut_down].

(** What the application answers to a head *)
Definition tunnels (A : application) (m : message) : Prop :=
  forall tr, snd (a_headers A tr (headers_of m (m_fields m))) = Payload_connect.
Definition no_tunnel (A : application) (m : message) : Prop :=
  forall tr, snd (a_headers A tr (headers_of m (m_fields m))) <> Payload_connect.

(** What has been received of a server so far, and what shall have happened.  Responses follow each other; the last one may be
    incomplete.  The protocol may be switched by a response with the status 101, or by the application when it is
    told of a head, after which all goes to the other protocol.  Or something may be wrong, and what follows does not matter:
    - there is an error in a head;
    - a head is too long;
    - there is an error after a head;
    - a body or a trailer is too long; this supposes that the application does not take parts of the payload. *)
Inductive stream (L : limits) (A : application) : list call -> list event -> Prop :=
| S_part m h h2 : head_calls m (h ++ h2) -> head_fits L m -> stream L A h []
| S_head m h tl evs : head_calls m h -> head_fits L m -> no_tunnel A m -> tail_stream L A m tl evs ->
    stream L A (h ++ Headers_complete (m_keep m) :: tl) (told_head m :: evs)
| S_tunnel m h rest : head_calls m h -> head_fits L m -> tunnels A m ->
    stream L A (h ++ Headers_complete (m_keep m) :: rest) [told_head m; On_upgraded rest]
| S_error m h h2 junk : head_calls m (h ++ h2) -> head_fits L m ->
    stream L A (h ++ Fail :: junk) [Quick_shut_down]
| S_long m h junk : head_calls m h -> ~ head_fits L m -> stream L A (h ++ junk) [Exception]
with tail_stream (L : limits) (A : application) : message -> list call -> list event -> Prop :=
| T_part m t t2 : tail_calls m (t ++ t2) -> tail_fits L m -> tail_stream L A m t []
| T_end m t rest evs : tail_calls m t -> tail_fits L m -> m_status m <> 101 -> stream L A rest evs ->
    tail_stream L A m (t ++ Message_complete :: rest) (told_end m ++ evs)
| T_switch m t rest : tail_calls m t -> tail_fits L m -> m_status m = 101 ->
    tail_stream L A m (t ++ Message_complete :: rest) (told_end m ++ [On_upgraded rest])
| T_error m t t2 junk : tail_calls m (t ++ t2) -> tail_fits L m ->
    tail_stream L A m (t ++ Fail :: junk) [Quick_shut_down]
| T_long m t junk : tail_calls m t -> ~ tail_fits L m -> (forall tr, a_take A tr = O) ->
    tail_stream L A m (t ++ junk) [Exception].

(** A history in which what the application has taken from the buffer is given back, and what has gone to another
    protocol is joined. *)
Fixpoint upgrades (tr : list event) : list call :=
  match tr with [] => [] | On_upgraded cs :: tr => cs ++ upgrades tr | _ :: tr => upgrades tr end.
Fixpoint whole_payloads (taken : list Z) (tr : list event) : list event :=
  match tr with
  | [] => []
  | On_stream t :: tr => whole_payloads (taken ++ t) tr
  | On_finish h d :: tr => On_finish h (taken ++ d) :: whole_payloads [] tr
  | On_upgraded cs :: tr => On_upgraded (cs ++ upgrades tr) :: nil
  | e :: tr => e :: whole_payloads taken tr
  end.

(** An application that leaves headers alone *)
Definition plain (A : application) : Prop := forall tr h, fst (a_headers A tr h) = h.
