(** What the easy HTTP and WebSocket servers and clients are for, in terms of events and what is done to a session *)
From Coq Require Import ZArith List Bool String.
From Verif Require Import EsModel Text.
From Verif Require HreqModel HreqSpec HrespModel HrespSpec.
Import ListNotations.
Open Scope list_scope.
Open Scope Z_scope.
Notation length := List.length.

(** Events until the first one that closes *)
Fixpoint upto {E} (closes : E -> bool) (es : list E) : list E :=
  match es with [] => [] | e :: es => e :: if closes e then [] else upto closes es end.

Section Queue.
  Context {E X : Type}.

  (** What the network thread has had to say, in order *)
  Definition pushes (xs : list (event E X)) : list E := flat_map (fun x => match x with Push e _ => [e] | _ => [] end) xs.
  (** No exception in the network thread, and nobody has stopped the server. *)
  Definition undisturbed (xs : list (event E X)) : Prop :=
    Forall (fun x => match x with Push _ Fine | Pop _ | Act _ _ | Return _ _ | Send _ => True | _ => False end) xs.
  (** No fiber is left. *)
  Definition quiet (st : state E X) : Prop := Forall (fun f => f = None) (fibers st).

  (** What fibers have done, without what the network thread has done *)
  Definition by_fibers (l : list (item E X)) : list (item E X) := filter (fun i => match i with Network _ => false | _ => true end) l.

  (** A turn: a fiber takes an event, the callback does something, the fiber itself does what is due, and is done. *)
  Record turn := mkTurn { t_fiber : nat; t_event : E; t_user : list X; t_own : list X }.
  Definition whole (t : turn) : list (item E X) :=
    Began (t_fiber t) (t_event t) :: map (User (t_fiber t)) (t_user t) ++ map (Own (t_fiber t)) (t_own t) ++ [Ended (t_fiber t) (t_event t)].
  Definition unfinished (t : turn) : list (item E X) := Began (t_fiber t) (t_event t) :: map (User (t_fiber t)) (t_user t).
  (** What a callback does, and what is due after it *)
  Definition proper (K : kind E X) (t : turn) : Prop :=
    (served K (t_event t) = false -> t_user t = []) /\ exists threw, t_own t = finish K (t_event t) threw.

  (** Turns follow each other; the last one may be unfinished. *)
  Definition takes_turns (K : kind E X) (l : list (item E X)) (ts : list turn) (now : option turn) : Prop :=
    by_fibers l = flat_map whole ts ++ match now with Some t => unfinished t | None => [] end
    /\ Forall (proper K) ts
    /\ match now with Some t => served K (t_event t) = false -> t_user t = [] | None => True end.
  Definition events_of (ts : list turn) (now : option turn) : list E :=
    map t_event ts ++ match now with Some t => [t_event t] | None => [] end.

  (** What fibers have taken, and what the callback has been called for *)
  Definition taken (l : list (item E X)) : list E := flat_map (fun i => match i with Began _ e => [e] | _ => [] end) l.
  Definition calls (K : kind E X) (l : list (item E X)) : list E := filter (served K) (taken l).
  (** What has been done to the session by fibers *)
  Definition done_to (l : list (item E X)) : list X := flat_map (fun i => match i with User _ x | Own _ x => [x] | _ => [] end) l.
  Definition prefix_of {A} (a b : list A) : Prop := exists c, b = a ++ c.
End Queue.
Arguments turn : clear implicits.

(** ** HTTP *)

(** What the callback of a server sees of requests: the kind of the event, headers and payload *)
Definition sees (e : server_event) : Z * HreqModel.headers * list Z := (se_type e, se_req e, se_data e).
Definition request_of (mq : HreqSpec.message * HreqSpec.resource) : Z * HreqModel.headers * list Z :=
  (easy_http_message, HreqSpec.headers_of (fst mq) (snd mq) (HreqSpec.m_fields (fst mq) ++ HreqSpec.m_trailers (fst mq)), HreqSpec.payload_of (fst mq)).
Definition opening : Z * HreqModel.headers * list Z := (easy_http_open, HreqModel.no_headers, []).
Definition closing (err : list Z) : Z * HreqModel.headers * list Z := (easy_http_close, HreqModel.no_headers, err).

(** How many requests are complete *)
Definition whole_requests (cs : list HreqModel.call) : nat :=
  length (filter (fun c => match c with HreqModel.Message_complete => true | _ => false end) cs).

(** The same for responses and a client *)
Definition sees_c (e : client_event) : Z * HrespModel.headers * list Z := (ce_type e, ce_resp e, ce_data e).
Definition response_of (m : HrespSpec.message) : Z * HrespModel.headers * list Z :=
  (easy_http_message, HrespSpec.headers_of m (HrespSpec.m_fields m ++ HrespSpec.m_trailers m), HrespSpec.m_body m).

(** ** WebSocket *)
Definition is_open (e : ws_event) : bool := match e with Ws_open _ => true | _ => false end.
Definition is_ws_close (e : ws_event) : bool := match e with Ws_close _ _ => true | _ => false end.
Definition is_message (e : ws_event) : bool := match e with Ws_text _ | Ws_binary _ | Ws_pong _ => true | _ => false end.
Definition is_plain (e : ws_event) : bool := match e with Ws_get _ | Ws_head _ => true | _ => false end.
(** Plain requests, if at all; then the connection may be opened, and messages follow; it may be closed at any time, which is the end.  *)
Definition ws_conversation (es : list ws_event) : Prop :=
  exists plain opened messages closed, es = plain ++ opened ++ messages ++ closed
    /\ forallb is_plain plain = true /\ forallb is_open opened = true /\ forallb is_message messages = true /\ forallb is_ws_close closed = true
    /\ (length opened <= 1)%nat /\ (length closed <= 1)%nat /\ (messages = [] \/ opened <> []).
(** A message that a peer sends is an opcode and data: text, binary data, PING or PONG.  The application is not told of PINGs. *)
Definition message_told (m : Z * list Z) : list ws_event :=
  if fst m =? 1 then [Ws_text (snd m)] else if fst m =? 2 then [Ws_binary (snd m)] else if fst m =? 10 then [Ws_pong (snd m)] else [].
