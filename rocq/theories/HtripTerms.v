(** What is demanded of the applications that send HTTP messages, and what is to arrive of them. *)
From Coq Require Import ZArith List Bool String.
From Verif Require Import Base Text NetrefSpec AddrTextModel HoutModel HoutSpec HoutProofs HoutProps HtripSpec.
From Verif Require HreqModel HreqSpec HreqProps HrespModel HrespSpec UriSpec.
Import ListNotations.
Open Scope list_scope.
Open Scope Z_scope.
Notation length := List.length.

Section Requests.
  (** The host of the session and the text of the remote address *)
  Variables default remote : list Z.

  (** What is demanded of a request: it has a method, a target and headers that are in order. *)
  Definition fine (x : sending) : Prop :=
    let h := head_for x in let q := request_of default remote x in
    In (method_text (method h)) methods
    /\ Forall (fun c => UriSpec.path_char c = true) (raw_path h) /\ Forall (fun c => UriSpec.query_char c = true) (raw_query h)
    /\ (if is_proxy h then
          raw_host h <> [] /\ Forall (fun c => letter_or_digit c \/ c = 45 \/ c = 46) (raw_host h)
          /\ 0 <= port h <= 65535 /\ Forall authority_char (raw_userinfo h)
        else
          let v := chosen h default remote in
          ~ HreqSpec.occurs (txt "://") (target h) /\ (length (lookup (txt "Host") (c_fields h)) <= 1)%nat
          /\ v <> [] /\ Forall text_char v /\ neat v /\ neat (rev v))
    /\ Forall (fun f => fst f = [] \/ proper_field f) (c_fields h)
    /\ (forall n, In n [txt "Transfer-Encoding"; txt "Content-Length"; txt "Upgrade"; txt "Proxy-Connection"] -> lookup n (c_fields h) = [])
    /\ (match x with Plain _ data => fits data | Pieces _ ds => Forall fits ds end)
    /\ Z.of_nat (length (head_text (request_start q) (q_fields q))) <= 80 * 1024.

  (** What a server of the given limits takes *)
  Definition within (L : HreqModel.limits) (x : sending) : Prop :=
    let q := request_of default remote x in
    Z.of_nat (length (q_target q)) + HreqSpec.field_size (q_fields q) <= HreqModel.max_header_length L
    /\ (In (q_method q) [txt "POST"; txt "PUT"; txt "PATCH"] -> Z.of_nat (length (q_body q)) <= HreqModel.max_content_length L).

  (** What the request is about *)
  Definition about (x : sending) : HreqSpec.resource := HreqProps.meant (head_for x) (chosen (head_for x) default remote).

  (** What the application of the server is told: the method, the resource, the headers and, for the methods for which it
      means something, the body *)
  Definition arrived (x : sending) : list HreqModel.event :=
    let q := request_of default remote x in
    let r := about x in
    let h := HreqModel.mkH (q_method q) (HreqSpec.q_proxy r) (HreqSpec.q_ssl r) (HreqSpec.q_port r) (HreqSpec.q_host r) (HreqSpec.q_user r)
               (HreqSpec.q_path r) (HreqSpec.q_query r) (HreqSpec.some_fields (q_fields q)) in
    [HreqModel.On_headers h (closing (q_fields q));
     HreqModel.On_finish h (if in_dec (list_eq_dec Z.eq_dec) (q_method q) [txt "POST"; txt "PUT"; txt "PATCH"] then q_body q else []) (closing (q_fields q))].
End Requests.

Section Responses.
  (** [http_status_str] *)
  Variable str : Z -> list Z.

  Definition status_bodyless (st : Z) : bool := (st <? 200) || (st =? 204) || (st =? 304).
  (** What is demanded of a response *)
  Definition sound (x : exchange) : Prop :=
    let h := header_of x in let r := message_of str x in
    100 <= status h <= 999 /\ status h <> 101 /\ Forall text_char (the_reason str h)
    /\ Forall (fun f => fst f = [] \/ proper_field f) (s_fields h)
    /\ (forall n, In n [txt "Transfer-Encoding"; txt "Content-Length"; txt "Proxy-Connection"] -> lookup n (s_fields h) = [])
    /\ (match x with
        | Whole _ _ data => fits data
        | Chunked _ ds => status_bodyless (status h) = false /\ Forall fits ds
        | Bare _ => status_bodyless (status h) = true
        end)
    /\ Z.of_nat (length (head_text (response_start (put_du 20 (status h)) r) (r_fields r))) <= 80 * 1024.

  (** What a client of the given limits takes *)
  Definition taken_within (L : HreqModel.limits) (x : exchange) : Prop :=
    let r := message_of str x in
    (r_fields r = [] \/ 12 + Z.of_nat (length (r_reason r)) + HrespSpec.field_size (r_fields r) <= HreqModel.max_header_length L)
    /\ Z.of_nat (length (r_body r)) <= HreqModel.max_content_length L.

  (** What the application of the client is told, and whether the connection is shut down then *)
  Definition returned (x : exchange) : list HrespModel.event :=
    let r := message_of str x in
    let h := HrespModel.mkH (r_status r) (r_reason r) (HrespSpec.some_fields (r_fields r)) in
    [HrespModel.On_headers h; HrespModel.On_finish h (r_body r)] ++ if closing (r_fields r) then [HrespModel.Shut_down] else [].

End Responses.
