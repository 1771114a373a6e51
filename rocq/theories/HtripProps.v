(** * C84: HTTP messages arrive end to end *)
From Coq Require Import ZArith List Lia Bool ZifyBool String.
From Verif Require Import Base Text NetrefSpec AddrTextModel HoutModel HoutSpec HoutProofs HoutProps HtripSpec HtripTerms HtripProofs.
From Verif Require HreqModel HreqSpec HrespModel HrespSpec DateModel UriSpec.
Import ListNotations.
Open Scope list_scope.
Open Scope Z_scope.
Notation length := List.length.

(** Requests that are made on a client session, in whole or in pieces, are told to the application of a server session
    exactly as they were made, in order, however the network has cut the stream.  All but the
    last one leave the connection open. *)
Theorem requests_end_to_end lib default remote L A xs pcs :
  request_library lib -> HreqSpec.plain A -> 0 <= HreqModel.max_content_length L ->
  Forall (fine default remote) xs -> Forall (within default remote L) xs ->
  Forall (fun q => closing (q_fields q) = false) (removelast (map (request_of default remote) xs)) ->
  exists wire oks,
    client_run default remote (mkSess false false []) (flat_map calls_for xs) = Some (mkSess false false wire, oks)
    /\ Forall (fun ok => ok = true) oks
    /\ (List.concat pcs = wire ->
        HreqSpec.whole_payloads [] (HreqModel.trace (HreqModel.run L A HreqModel.start (HreqSpec.data (lib pcs))))
        = flat_map (arrived default remote) xs).
Proof.
  intros HL HA L0 F W C. exists (flat_map (request_octets default remote) xs), (repeat true (length (flat_map calls_for xs))).
  split; [|split].
  - assert (G : forall o, client_run default remote (mkSess false false o) (flat_map calls_for xs) = Some (mkSess false false (o ++ flat_map (request_octets default remote) xs), repeat true (length (flat_map calls_for xs)))).
    { clear. induction xs as [|x xs IH]; intros o; [cbn; now rewrite app_nil_r|]. cbn [flat_map].
      rewrite (client_app default remote _ _ _ _ _ (client_exchange default remote x o)). rewrite IH. rewrite app_length, repeat_app, <- app_assoc. reflexivity. }
    apply (G []).
  - apply Forall_forall. intros b I. now apply repeat_spec in I.
  - intros E. now apply (trip default remote lib L A xs pcs).
Qed.

(** Responses that are made on a server session, in whole, in chunks or without a body, are told to the application of a
    client session exactly as they were made, in order, however the network has cut the
    stream; of HEAD requests the application must know that the responses have no body. *)
Theorem responses_end_to_end lib mktime str L A xs pcs :
  response_library lib -> HrespSpec.plain A -> announces (map head_of xs) A -> 0 <= HreqModel.max_content_length L ->
  Forall (sound str) xs -> Forall (taken_within str L) xs ->
  Forall (fun x => closes mktime (s_fields (header_of x)) = false) xs ->
  Forall (fun r => closing (r_fields r) = false) (removelast (map (message_of str) xs)) ->
  exists wire oks,
    server_run mktime str (mkSess false false []) (flat_map calls_of xs) = Some (mkSess false false wire, oks)
    /\ Forall (fun ok => ok = true) oks
    /\ (List.concat pcs = wire ->
        HrespSpec.whole_payloads [] (HrespModel.trace (HrespModel.run L A HrespModel.start (lib (map head_of xs) pcs)))
        = flat_map (returned str) xs).
Proof.
  intros HL HA HN L0 F W K C. exists (flat_map (octets str) xs), (repeat true (length (flat_map calls_of xs))).
  split; [|split].
  - assert (G : forall o, server_run mktime str (mkSess false false o) (flat_map calls_of xs) = Some (mkSess false false (o ++ flat_map (octets str) xs), repeat true (length (flat_map calls_of xs)))).
    { clear -F K. induction xs as [|x xs IH]; intros o; [cbn; now rewrite app_nil_r|]. inversion_clear F as [|? ? F1 F2]. inversion_clear K as [|? ? K1 K2]. cbn [flat_map].
      assert (P : persists mktime x) by (split; [apply F1|exact K1]).
      rewrite (run_app mktime str _ _ _ _ _ (run_exchange mktime str x o P)). rewrite IH by assumption. rewrite app_length, repeat_app, <- app_assoc. reflexivity. }
    apply (G []).
  - apply Forall_forall. intros b I. now apply repeat_spec in I.
  - intros E. now apply (trip_back str lib L A xs pcs).
Qed.

(** The last response may close the connection, if it is made in whole: everything before has been sent. *)
Theorem closing_response_end_to_end lib mktime str L A xs hd h data pcs :
  response_library lib -> HrespSpec.plain A -> announces (map head_of xs ++ [hd]) A -> 0 <= HreqModel.max_content_length L ->
  Forall (sound str) (xs ++ [Whole hd h data]) -> Forall (taken_within str L) (xs ++ [Whole hd h data]) ->
  Forall (fun x => closes mktime (s_fields (header_of x)) = false) xs ->
  Forall (fun r => closing (r_fields r) = false) (map (message_of str) xs) ->
  exists wire oks,
    server_run mktime str (mkSess false false []) (flat_map calls_of xs ++ [Response hd h data])
    = Some (mkSess false (closes mktime (s_fields h)) wire, oks)
    /\ Forall (fun ok => ok = true) oks
    /\ (List.concat pcs = wire ->
        HrespSpec.whole_payloads [] (HrespModel.trace (HrespModel.run L A HrespModel.start (lib (map head_of xs ++ [hd]) pcs)))
        = flat_map (returned str) (xs ++ [Whole hd h data])).
Proof.
  intros HL HA HN L0 F W K C. exists (flat_map (octets str) xs ++ octets str (Whole hd h data)), (repeat true (length (flat_map calls_of xs)) ++ [true]).
  split; [|split].
  - assert (F0 : Forall (sound str) xs) by (apply Forall_app in F; apply F).
    assert (G : forall o, server_run mktime str (mkSess false false o) (flat_map calls_of xs) = Some (mkSess false false (o ++ flat_map (octets str) xs), repeat true (length (flat_map calls_of xs)))).
    { clear -F0 K. induction xs as [|x xs IH]; intros o; [cbn; now rewrite app_nil_r|]. inversion_clear F0 as [|? ? F1 F2]. inversion_clear K as [|? ? K1 K2]. cbn [flat_map].
      assert (P : persists mktime x) by (split; [apply F1|exact K1]).
      rewrite (run_app mktime str _ _ _ _ _ (run_exchange mktime str x o P)). rewrite IH by assumption. rewrite app_length, repeat_app, <- app_assoc. reflexivity. }
    rewrite (run_app mktime str _ _ _ _ _ (G [])). cbn [app server_run server ack octets].
    assert (N : status h <> 101) by (apply Forall_app in F as [_ F]; inversion_clear F as [|? ? X _]; apply X).
    destruct ((status h <=? 199) || (status h =? 204) || (status h =? 304)); rewrite raw_open by reflexivity; cbn [out status s_fields with_field].
    + rewrite app_nil_r. replace (status h =? 101) with false by lia. reflexivity.
    + rewrite closes_app by reflexivity. replace (status h =? 101) with false by lia. reflexivity.
  - apply Forall_app. split; [|repeat constructor]. apply Forall_forall. intros b I. now apply repeat_spec in I.
  - intros E. replace (map head_of xs ++ [hd]) with (map head_of (xs ++ [Whole hd h data])) in * by (rewrite map_app; reflexivity).
    apply (trip_back str lib L A (xs ++ [Whole hd h data]) pcs); try assumption.
    + rewrite map_app. cbn [map]. rewrite removelast_last. exact C.
    + rewrite E, flat_map_app. cbn [flat_map]. now rewrite app_nil_r.
Qed.

(** There are libraries that do what is demanded of them. *)
Example libraries_exist : request_library sample_requests /\ response_library sample_responses.
Proof. split; [exact sample_requests_ok|exact sample_responses_ok]. Qed.

(** A GET request for a proxy and a POST request in chunks on one connection: they meet the premises, and this is what
    arrives if every octet comes on its own. *)
Definition get_request : sending := Plain (mkCH (txt "GET" ++ [0;0;0;0;0]) true false 8080 (txt "x.org") (txt "u") (txt "a") (txt "b=c") [(txt "Accept", txt "*/*")]) [].
Definition post_request : sending := Pieces (mkCH (txt "POST" ++ [0;0;0;0]) false false 0 [] [] (txt "/p") [] [(txt "Connection", txt "close")]) [txt "hel"; []; txt "lo"].
Definition octet_by_octet (s : list Z) : list (list Z) := map (fun c => [c]) s.
Lemma all_chars (P : Z -> Prop) (f : Z -> bool) (s : list Z) : (forall c, f c = true -> P c) -> forallb f s = true -> Forall P s.
Proof. intros H F. apply Forall_forall. intros c I. rewrite forallb_forall in F. auto. Qed.
Ltac chars_of := cbn; repeat (apply Forall_cons; [unfold text_char, token_char, authority_char, letter_or_digit; cbn; lia|]); apply Forall_nil.
Example requests_trip_case :
  let default := txt "h.org" in let remote := txt "1.2.3.4:80" in let xs := [get_request; post_request] in
  Forall (fine default remote) xs /\ Forall (within default remote (HreqModel.mkL 100 10)) xs
  /\ Forall (fun q => closing (q_fields q) = false) (removelast (map (request_of default remote) xs))
  /\ let A := HreqModel.mkA (fun _ h => (h, HreqModel.Payload_normal)) (fun _ => 2%nat) (fun _ => false) in
     HreqSpec.plain A
     /\ HreqSpec.whole_payloads [] (HreqModel.trace (HreqModel.run (HreqModel.mkL 100 10) A HreqModel.start
          (HreqSpec.data (sample_requests (octet_by_octet (flat_map (request_octets default remote) xs))))))
        = let g := HreqModel.mkH (txt "GET") true false 8080 (txt "x.org") (txt "u") (txt "/a") (txt "b=c") [(txt "Accept", Some (txt "*/*"))] in
          let p := HreqModel.mkH (txt "POST") false false 0 (txt "h.org") [] (txt "/p") []
                     [(txt "Connection", Some (txt "close")); (txt "Host", Some (txt "h.org")); (txt "Transfer-Encoding", Some (txt "chunked"))] in
          [HreqModel.On_headers g false; HreqModel.On_finish g [] false; HreqModel.On_headers p true; HreqModel.On_finish p (txt "hello") true].
Proof.
  cbv zeta. split; [|split; [|split; [|split]]].
  - apply Forall_cons; [|apply Forall_cons; [|apply Forall_nil]].
    + unfold fine. cbv zeta. split; [left; reflexivity|]. do 2 (split; [apply all_chars with (fun c => UriSpec.path_char c); [unfold UriSpec.path_char, UriSpec.query_char; intros c ->; reflexivity|reflexivity]|]).
      split; [cbn [get_request head_for is_proxy raw_host port raw_userinfo]; split; [discriminate|]; split; [chars_of|]; split; [lia|]; chars_of|].
      split; [|split; [|split; [unfold fits; cbn; lia|vm_compute; discriminate]]].
      * constructor; [|constructor]. right. split; [discriminate|]. split; [chars_of|]. split; [chars_of|]. split; reflexivity.
      * intros n I. cbn [In] in I. repeat (destruct I as [<-|I]; [reflexivity|]). destruct I.
    + unfold fine. cbv zeta. split; [do 2 right; left; reflexivity|]. do 2 (split; [apply all_chars with (fun c => UriSpec.path_char c); [unfold UriSpec.path_char, UriSpec.query_char; intros c ->; reflexivity|reflexivity]|]).
      split; [cbn [post_request head_for is_proxy]; split; [|split; [vm_compute; repeat constructor|split; [discriminate|split; [chars_of|split; reflexivity]]]]|].
      * intros (a & b & E). change (target _) with [47; 112] in E. change (txt "://") with [58; 47; 47] in E. destruct a as [|a1 [|a2 [|a3 a]]]; cbn in E; try discriminate.
      * split; [|split; [|split; [|vm_compute; discriminate]]].
        -- constructor; [|constructor]. right. split; [discriminate|]. split; [chars_of|]. split; [chars_of|]. split; reflexivity.
        -- intros n I. cbn [In] in I. repeat (destruct I as [<-|I]; [reflexivity|]). destruct I.
        -- repeat (apply Forall_cons; [unfold fits; cbn; lia|]). apply Forall_nil.
  - repeat (apply Forall_cons; [split; [vm_compute; discriminate|intros _; vm_compute; discriminate]|]). apply Forall_nil.
  - repeat (apply Forall_cons; [reflexivity|]). apply Forall_nil.
  - split; [|reflexivity]. intros tr h. split; [reflexivity|discriminate].
  - vm_compute. reflexivity.
Qed.

(** A response to a HEAD request, a chunked one and one that closes the connection *)
Definition head_response : exchange := Whole true (mkSH 200 [] [(txt "A", txt "b")]) (txt "unsent").
Definition chunk_response : exchange := Chunked (mkSH 404 (txt "No") []) [txt "ab"; txt "c"].
Definition last_response : exchange := Whole false (mkSH 200 [] [(txt "Connection", txt "close")]) (txt "bye").
Example responses_trip_case :
  let str := fun _ => txt "OK" in let xs := [head_response; chunk_response] in let ys := xs ++ [last_response] in
  Forall (sound str) ys /\ Forall (taken_within str (HreqModel.mkL 100 10)) ys
  /\ Forall (fun x => closes (fun _ => 0) (s_fields (header_of x)) = false) xs
  /\ Forall (fun r => closing (r_fields r) = false) (map (message_of str) xs)
  /\ let A := HrespModel.mkA (fun tr h => (h, if nth (length (filter is_headers tr) - 1) [true; false; false] false then HrespModel.Payload_empty else HrespModel.Payload_normal)) (fun _ => 2%nat) in
     HrespSpec.plain A /\ announces (map head_of ys) A
     /\ HrespSpec.whole_payloads [] (HrespModel.trace (HrespModel.run (HreqModel.mkL 100 10) A HrespModel.start
          (sample_responses (map head_of ys) (octet_by_octet (flat_map (octets str) ys)))))
        = let a := HrespModel.mkH 200 (txt "OK") [(txt "A", Some (txt "b")); (txt "Content-Length", Some (txt "6"))] in
          let b := HrespModel.mkH 404 (txt "No") [(txt "Transfer-Encoding", Some (txt "chunked"))] in
          let c := HrespModel.mkH 200 (txt "OK") [(txt "Connection", Some (txt "close")); (txt "Content-Length", Some (txt "3"))] in
          [HrespModel.On_headers a; HrespModel.On_finish a []; HrespModel.On_headers b; HrespModel.On_finish b (txt "abc");
           HrespModel.On_headers c; HrespModel.On_finish c (txt "bye"); HrespModel.Shut_down].
Proof.
  cbv zeta. split; [|split; [|split; [|split; [|split; [|split]]]]].
  - assert (N : forall fs, lookup (txt "Transfer-Encoding") fs = [] -> lookup (txt "Content-Length") fs = [] -> lookup (txt "Proxy-Connection") fs = [] ->
      forall n, In n [txt "Transfer-Encoding"; txt "Content-Length"; txt "Proxy-Connection"] -> lookup n fs = []).
    { intros fs H1 H2 H3 n I. cbn [In] in I. repeat (destruct I as [<-|I]; [assumption|]). destruct I. }
    cbn [app]. apply Forall_cons; [|apply Forall_cons; [|apply Forall_cons; [|apply Forall_nil]]]; unfold sound; cbv zeta; cbn [head_response chunk_response last_response header_of status s_fields];
      (split; [lia|]); (split; [lia|]); (split; [chars_of|]).
    + split; [constructor; [|constructor]; right; split; [discriminate|]; split; [chars_of|]; split; [chars_of|]; split; reflexivity|].
      split; [apply N; reflexivity|]. split; [unfold fits; cbn; lia|vm_compute; discriminate].
    + split; [constructor|]. split; [apply N; reflexivity|]. split; [|vm_compute; discriminate]. split; [reflexivity|]. repeat (apply Forall_cons; [unfold fits; cbn; lia|]). apply Forall_nil.
    + split; [constructor; [|constructor]; right; split; [discriminate|]; split; [chars_of|]; split; [chars_of|]; split; reflexivity|].
      split; [apply N; reflexivity|]. split; [unfold fits; cbn; lia|vm_compute; discriminate].
  - cbn [app]. repeat (apply Forall_cons; [split; [right; vm_compute; discriminate|vm_compute; discriminate]|]). apply Forall_nil.
  - repeat (apply Forall_cons; [vm_compute; reflexivity|]). apply Forall_nil.
  - repeat (apply Forall_cons; [vm_compute; reflexivity|]). apply Forall_nil.
  - intros tr h. reflexivity.
  - intros tr h. reflexivity.
  - vm_compute. reflexivity.
Qed.

Print Assumptions requests_end_to_end.
Print Assumptions responses_end_to_end.
Print Assumptions closing_response_end_to_end.
