(** Proofs about HTTP messages on their way from the session that writes them to the application that receives them. *)
From Coq Require Import ZArith List Lia Bool ZifyBool String.
From Verif Require Import Base BaseLemmas Text NetrefSpec AddrTextModel AddrTextProofs HnameModel HnameProps HoutModel HoutSpec HoutProofs HoutProps HtripSpec HtripTerms.
From Verif Require HreqModel HreqSpec HreqProofs HreqProps HrespModel HrespSpec HrespProofs HrespProps UriSpec.
Import ListNotations.
Open Scope list_scope.
Open Scope Z_scope.
Notation length := List.length.

(** * Texts *)
Lemma head_lines start fs r : start ++ crlf ++ lines fs ++ crlf ++ r = head_text start fs ++ r.
Proof.
  unfold head_text. rewrite <- !app_assoc. change crlf with eol. do 2 f_equal. f_equal.
  unfold lines. f_equal. apply map_ext. intros f. unfold field_text, written. now rewrite <- !app_assoc.
Qed.
Lemma encode_head start fs r : (start ++ encode_fields fs ++ crlf ++ crlf) ++ r = head_text start (filter nonempty fs) ++ r.
Proof. rewrite <- head_lines. rewrite <- !app_assoc. f_equal. apply encode_lines. Qed.

Lemma chunks_pieces ds : Forall fits ds -> chunks (List.concat ds) (pieces ds ++ last_chunk).
Proof.
  unfold pieces. induction 1 as [|d ds F _ IH]; [exact chunks_end|]. cbn [map List.concat]. destruct d as [|c d]; [exact IH|].
  destruct (size_line (c :: d) F) as (_ & _ & I). unfold chunk. rewrite <- !app_assoc. change crlf with eol. apply chunks_more; [discriminate|exact I|exact IH].
Qed.
Lemma text_sized fs data : fits data -> lookup (txt "Transfer-Encoding") fs = [] -> lookup (txt "Content-Length") fs = [] ->
  body_text (fs ++ [length_field data]) data data.
Proof.
  intros F T C. apply body_sized with (put_du 20 (Z.of_nat (length data))).
  - rewrite lookup_app, T. reflexivity.
  - rewrite lookup_app, C. reflexivity.
  - unfold fits in F. apply integer_du. change (10 ^ 20) with 100000000000000000000. lia.
Qed.
Lemma text_chunks fs ds : Forall fits ds -> lookup (txt "Transfer-Encoding") fs = [] -> lookup (txt "Content-Length") fs = [] ->
  body_text (fs ++ [chunked_field]) (List.concat ds) (pieces ds ++ last_chunk).
Proof.
  intros F T C. apply body_chunks.
  - rewrite lookup_app, T. reflexivity.
  - rewrite lookup_app, C. reflexivity.
  - now apply chunks_pieces.
Qed.
Lemma lookup_named n fs : n <> [] -> lookup n (named fs) = lookup n fs.
Proof.
  intros N. unfold lookup, named. induction fs as [|[m v] fs IH]; [reflexivity|]. cbn [filter fst]. destruct m as [|c m].
  - destruct n as [|d n]; [congruence|]. cbn [length Nat.eqb negb HoutSpec.same]. exact IH.
  - cbn [length Nat.eqb negb filter fst]. destruct (same n (c :: m)); cbn [map]; rewrite IH; reflexivity.
Qed.

Lemma proper_chars s : Forall (fun c => UriSpec.query_char c = true) s -> Forall target_char s.
Proof.
  intros H. eapply Forall_impl; [|exact H]. intros c. unfold target_char, UriSpec.query_char, UriSpec.pchar, UriSpec.unreserved, UriSpec.sub_delim. cbn [existsb].
  intros X. lia.
Qed.
Lemma path_query s : Forall (fun c => UriSpec.path_char c = true) s -> Forall (fun c => UriSpec.query_char c = true) s.
Proof. intros H. eapply Forall_impl; [|exact H]. intros c. unfold UriSpec.path_char, UriSpec.query_char. intros ->. reflexivity. Qed.

(** * Requests *)
Section Requests.
  Variables default remote : list Z.

  Lemma host_lookup h n : HoutSpec.same n (txt "Host") = false -> n <> [] ->
    lookup n (named (c_fields (set_request_host h default remote))) = lookup n (c_fields h).
  Proof.
    intros N E. rewrite lookup_named by exact E. destruct (is_proxy h) eqn:P; [unfold set_request_host; now rewrite P|]. now apply request_host.
  Qed.
  Lemma host_found h : is_proxy h = false -> (length (lookup (txt "Host") (c_fields h)) <= 1)%nat ->
    lookup (txt "Host") (named (c_fields (set_request_host h default remote))) = [chosen h default remote].
  Proof.
    intros P L. rewrite lookup_named by discriminate. destruct (request_host h default remote P) as (H & _). cbn zeta in H. rewrite H.
    destruct (lookup (txt "Host") (c_fields h)) as [|a [|b r]]; [reflexivity|reflexivity|cbn in L; lia].
  Qed.
  Lemma named_proper fs : Forall (fun f => fst f = [] \/ proper_field f) fs -> Forall proper_field (named fs).
  Proof.
    induction 1 as [|f fs F _ IH]; [constructor|]. unfold named. cbn [filter]. destruct f as [[|c n] v].
    - exact IH.
    - cbn [fst length Nat.eqb negb]. constructor; [|exact IH]. destruct F as [F|F]; [discriminate|exact F].
  Qed.
  Lemma host_proper h : is_proxy h = false -> Forall (fun f => fst f = [] \/ proper_field f) (c_fields h) ->
    Forall text_char (chosen h default remote) -> neat (chosen h default remote) -> neat (rev (chosen h default remote)) ->
    Forall (fun f => fst f = [] \/ proper_field f) (c_fields (set_request_host h default remote)).
  Proof.
    intros P F V1 V2 V3. unfold set_request_host. rewrite P. set (v := match raw_host h with [] => _ | r => r end).
    assert (V : v = chosen h default remote) by (unfold v, chosen; destruct (raw_host h), default; reflexivity).
    rewrite V. cbn [c_fields set_fields]. set (w := chosen h default remote) in *.
    pose proof (replace_host_spec (c_fields h) w) as R. destruct (replace_host (c_fields h) w) as [f|].
    - destruct R as (a & n & x & b & E & -> & _ & _). rewrite E in F. apply Forall_app in F as [F1 F2]. inversion_clear F2 as [|? ? F3 F4].
      apply Forall_app. split; [exact F1|]. constructor; [|exact F4]. destruct F3 as [F3|F3]; [left; exact F3|right].
      unfold proper_field in *. cbn [fst snd] in *. tauto.
    - apply Forall_app. split; [exact F|]. constructor; [|constructor]. right. unfold proper_field. cbn [fst snd]. split; [discriminate|].
      split; [|tauto]. cbn. repeat (apply Forall_cons; [left; unfold letter_or_digit; lia|]). apply Forall_nil.
  Qed.
  Lemma length_proper data : fits data -> proper_field (length_field data).
  Proof.
    intros F. destruct (length_lined data F) as (_ & _ & N1 & N2). unfold proper_field. split; [discriminate|]. split; [|split; [|split; assumption]].
    - cbn. repeat (apply Forall_cons; [unfold token_char, letter_or_digit; cbn; lia|]). apply Forall_nil.
    - cbn [length_field snd]. unfold fits in F. destruct (put_du_spec 20 (Z.of_nat (length data))) as (_ & D & _); [change (10 ^ Z.of_nat 20) with 100000000000000000000; lia|lia|].
      eapply Forall_impl; [|exact D]. unfold decimal, text_char. intros; lia.
  Qed.
  Lemma chunked_proper : proper_field chunked_field.
  Proof.
    unfold proper_field, chunked_field. cbn [fst snd]. split; [discriminate|]. split; [|split; [|split; reflexivity]].
    - cbn. repeat (apply Forall_cons; [unfold token_char, letter_or_digit; cbn; lia|]). apply Forall_nil.
    - cbn. repeat (apply Forall_cons; [unfold text_char; lia|]). apply Forall_nil.
  Qed.

  (** The fields that are sent *)
  Definition extra (x : sending) : list (list Z * list Z) :=
    match x with Plain _ [] => [] | Plain _ data => [length_field data] | Pieces _ _ => [chunked_field] end.
  Lemma sent_fields x : q_fields (request_of default remote x) = named (c_fields (set_request_host (head_for x) default remote)) ++ extra x.
  Proof. destruct x as [h [|c data]|h ds]; reflexivity. Qed.
  Lemma sent_method x : q_method (request_of default remote x) = method_text (method (head_for x)).
  Proof. destruct x as [h data|h ds]; cbn [request_of q_method head_for]; now rewrite host_method. Qed.
  Lemma sent_target x : q_target (request_of default remote x) = target (head_for x).
  Proof. destruct x; reflexivity. Qed.
  Lemma sent_body x : q_body (request_of default remote x) = match x with Plain _ data => data | Pieces _ ds => List.concat ds end.
  Proof. destruct x; reflexivity. Qed.

  Lemma sent_octets x : exists b,
    request_octets default remote x = head_text (request_start (request_of default remote x)) (q_fields (request_of default remote x)) ++ b
    /\ b = match x with Plain _ data => data | Pieces _ ds => pieces ds ++ last_chunk end.
  Proof.
    eexists. split; [|reflexivity]. unfold request_start. rewrite sent_method, sent_target, sent_fields.
    assert (E : forall h r, encode_c h ++ r = head_text (method_text (method h) ++ [32] ++ target h ++ txt " HTTP/1.1") (named (c_fields h)) ++ r).
    { intros h r. unfold encode_c. replace (method_text (method h) ++ [32] ++ target h ++ txt " HTTP/1.1" ++ encode_fields (c_fields h) ++ crlf ++ crlf)
        with ((method_text (method h) ++ [32] ++ target h ++ txt " HTTP/1.1") ++ encode_fields (c_fields h) ++ crlf ++ crlf) by now rewrite <- !app_assoc.
      rewrite encode_head, named_eq. reflexivity. }
    unfold request_octets. set (h := set_request_host (head_for x) default remote).
    assert (Em : method h = method (head_for x)) by apply host_method. assert (Et : target h = target (head_for x)) by apply host_target.
    destruct x as [h0 data|h0 ds]; cbn [head_for extra] in *.
    - destruct data as [|c data]; rewrite E.
      + rewrite !app_nil_r, Em, Et. reflexivity.
      + rewrite fields_target. cbn [method set_fields c_fields]. rewrite Em, Et, !named_eq, filter_snoc by reflexivity. reflexivity.
    - rewrite E, fields_target. cbn [method set_fields c_fields]. rewrite Em, Et, !named_eq, filter_snoc by reflexivity. reflexivity.
  Qed.

  Lemma sent_lookup x n : HoutSpec.same n (txt "Host") = false -> n <> [] -> lookup n (q_fields (request_of default remote x)) = lookup n (c_fields (head_for x)) ++ lookup n (extra x).
  Proof. intros N E. rewrite sent_fields, lookup_app, host_lookup by assumption. reflexivity. Qed.

  Lemma fine_text x : fine default remote x -> request_text (request_of default remote x) (request_octets default remote x).
  Proof.
    intros (_ & _ & _ & _ & _ & N & X & _). destruct (sent_octets x) as (b & E & Eb). exists b. split; [|exact E].
    assert (T : lookup (txt "Transfer-Encoding") (named (c_fields (set_request_host (head_for x) default remote))) = []).
    { rewrite host_lookup by (reflexivity || discriminate). apply N. cbn. tauto. }
    assert (C : lookup (txt "Content-Length") (named (c_fields (set_request_host (head_for x) default remote))) = []).
    { rewrite host_lookup by (reflexivity || discriminate). apply N. cbn. tauto. }
    rewrite sent_fields, sent_body. subst b. destruct x as [h0 [|c data]|h0 ds]; cbn [extra head_for] in *.
    - left. rewrite app_nil_r. split; [split; assumption|]. split; reflexivity.
    - right. apply text_sized; assumption.
    - right. apply text_chunks; assumption.
  Qed.

  Lemma fine_proper x : fine default remote x -> proper_request (request_of default remote x).
  Proof.
    intros (M & P & Q & T & F & N & X & S). unfold proper_request. rewrite sent_method, sent_target. split; [exact M|]. split; [|split; [|split; [|split]]].
    - unfold proper_target, target. rewrite HreqProps.slashed_spec. set (p := HreqProps.slashed _).
      assert (Hp : exists r, p = 47 :: r /\ Forall target_char r).
      { destruct (HreqProps.slashed_head (raw_path (head_for x))) as [r Hr]. exists r. split; [exact Hr|].
        pose proof (HreqProps.slashed_chars (raw_path (head_for x)) P) as C. fold p in C, Hr. rewrite Hr in C. inversion_clear C. apply proper_chars, path_query. assumption. }
      assert (Hq : Forall target_char (match raw_query (head_for x) with [] => [] | q => 63 :: q end)).
      { destruct (raw_query (head_for x)); [constructor|]. constructor; [unfold target_char; lia|apply proper_chars; exact Q]. }
      destruct Hp as (r & Ep & Hr). rewrite Ep. destruct (is_proxy (head_for x)) eqn:Px.
      + right. destruct T as (T1 & T2 & T3 & T4).
        exists (if is_ssl (head_for x) then txt "https" else txt "http"), (match raw_userinfo (head_for x) with [] => None | u => Some u end),
          (raw_host (head_for x) ++ if negb (port (head_for x) =? 0) then 58 :: put_du 20 (port (head_for x)) else []),
          (r ++ match raw_query (head_for x) with [] => [] | q => 63 :: q end).
        split; [destruct (is_ssl (head_for x)); auto|]. split; [|split; [|split; [|split]]].
        * destruct (is_ssl (head_for x)); destruct (raw_userinfo (head_for x)); cbn [opt_text]; rewrite <- ?app_assoc; reflexivity.
        * destruct (raw_userinfo (head_for x)); [exact I|exact T4].
        * destruct (raw_host (head_for x)); [congruence|discriminate].
        * apply Forall_app. split.
          -- eapply Forall_impl; [|exact T2]. intros c [H|[->| ->]]; [left; exact H|right; cbn; tauto|right; cbn; tauto].
          -- destruct (negb (port (head_for x) =? 0)); [|constructor]. constructor; [right; cbn; tauto|].
             destruct (put_du_spec 20 (port (head_for x))) as (_ & D & _); [change (10 ^ Z.of_nat 20) with 100000000000000000000; lia|lia|].
             eapply Forall_impl; [|exact D]. unfold decimal, authority_char, letter_or_digit. intros; lia.
        * apply Forall_app. split; assumption.
      + left. exists (r ++ match raw_query (head_for x) with [] => [] | q => 63 :: q end). split; [reflexivity|]. apply Forall_app. split; assumption.
    - rewrite sent_lookup by (reflexivity || discriminate). rewrite N by (cbn; tauto). destruct x as [h0 [|c data]|h0 ds]; reflexivity.
    - rewrite sent_fields. apply Forall_app. split.
      + apply named_proper. destruct (is_proxy (head_for x)) eqn:Px; [unfold set_request_host; rewrite Px; exact F|]. cbn zeta in T. apply host_proper; tauto.
      + destruct x as [h0 [|c data]|h0 ds]; cbn [extra]; [constructor|constructor; [apply length_proper; exact X|constructor]|constructor; [apply chunked_proper|constructor]].
    - rewrite sent_lookup by (reflexivity || discriminate). rewrite N by (cbn; tauto). destruct x as [h0 [|c data]|h0 ds]; reflexivity.
    - exact S.
  Qed.

  Lemma fine_acceptable L x : 0 <= HreqModel.max_content_length L -> fine default remote x -> within default remote L x ->
    HreqSpec.acceptable L (request_message (request_of default remote x)) (about default remote x).
  Proof.
    intros L0 (M & P & Q & T & F & N & X & S) [W1 W2]. unfold HreqSpec.acceptable, HreqSpec.acceptable_head, HreqSpec.tail_fits, HreqSpec.head_fits, request_message.
    cbn [HreqSpec.m_method HreqSpec.m_target HreqSpec.m_fields HreqSpec.m_body HreqSpec.m_trailers]. split; [split; [|split; [|split]]|split].
    - rewrite sent_method. unfold methods in M. cbn [In] in M. repeat (destruct M as [<-|M]; [vm_compute; lia|]). destruct M.
    - rewrite sent_target. unfold about. destruct (is_proxy (head_for x)) eqn:Px.
      + pose proof (HreqProps.target_round_trip (head_for x) (q_fields (request_of default remote x))) as R. rewrite Px in R.
        replace (HreqProps.meant (head_for x) (chosen (head_for x) default remote)) with (HreqProps.meant (head_for x) (List.hd [] (lookup (txt "Host") (q_fields (request_of default remote x))))) by (unfold HreqProps.meant; now rewrite Px).
        destruct T as (T1 & T2 & T3 & T4).
        assert (G : forall c, authority_char c -> c <> 64 /\ c <> 47) by (intros c [H|H]; [unfold letter_or_digit in H; lia|cbn in H; lia]).
        apply R; auto. repeat (split; [assumption|]). rewrite Forall_forall in T4.
        split; intros I; destruct (G _ (T4 _ I)); congruence.
      + cbn zeta in T. destruct T as (T1 & T2 & T3 & _). assert (E : lookup (txt "Host") (q_fields (request_of default remote x)) = [chosen (head_for x) default remote]).
        { rewrite sent_fields, lookup_app, host_found by assumption. destruct x as [h0 [|c data]|h0 ds]; reflexivity. }
        pose proof (HreqProps.target_round_trip (head_for x) (q_fields (request_of default remote x))) as R. rewrite Px, E in R. apply R; auto.
    - unfold about, HreqProps.meant. destruct (is_proxy (head_for x)); [apply T|cbn zeta in T; apply T].
    - exact W1.
    - left. reflexivity.
    - unfold HreqSpec.payload_of. cbn [HreqSpec.m_method HreqSpec.m_body]. destruct (in_dec _ _ _) as [I|I]; [apply W2; exact I|cbn; lia].
  Qed.

  Lemma told_arrived x : HreqSpec.told (request_message (request_of default remote x), about default remote x) = arrived default remote x.
  Proof.
    unfold HreqSpec.told, arrived, HreqSpec.told_head, HreqSpec.told_end, HreqSpec.headers_of, HreqSpec.payload_of, request_message. cbn [fst snd HreqSpec.m_method HreqSpec.m_fields HreqSpec.m_body HreqSpec.m_keep HreqSpec.m_trailers].
    rewrite app_nil_r, negb_involutive. reflexivity.
  Qed.

  Lemma trip lib L A xs pcs :
    request_library lib -> HreqSpec.plain A -> 0 <= HreqModel.max_content_length L ->
    Forall (fine default remote) xs -> Forall (within default remote L) xs ->
    Forall (fun q => closing (q_fields q) = false) (removelast (map (request_of default remote) xs)) ->
    List.concat pcs = flat_map (request_octets default remote) xs ->
    length (lib pcs) = length pcs /\
    HreqSpec.whole_payloads [] (HreqModel.trace (HreqModel.run L A HreqModel.start (HreqSpec.data (lib pcs)))) = flat_map (arrived default remote) xs.
  Proof.
    intros HL HA L0 F W C E. destruct (HL (map (request_of default remote) xs) (map (request_octets default remote) xs) pcs) as (Hn & css & H2 & Ec).
    - apply Forall_forall. intros q I. apply in_map_iff in I as (x & <- & I). apply fine_proper. rewrite Forall_forall in F. auto.
    - exact C.
    - clear -F. induction F as [|x xs Fx _ IH]; cbn [map]; constructor; [now apply fine_text|exact IH].
    - rewrite E. apply flat_map_concat_map.
    - split; [exact Hn|].
      pose proof (HreqProps.messages_stream L A (map (fun x => (request_message (request_of default remote x), about default remote x)) xs) css) as St.
      destruct (HreqProps.requests_arrive L A (lib pcs) [] (flat_map HreqSpec.told (map (fun x => (request_message (request_of default remote x), about default remote x)) xs)) HA L0) as (rem & R1 & R2).
      + rewrite app_nil_r, Ec. apply St.
        * apply Forall_forall. intros mq I. apply in_map_iff in I as (x & <- & I). cbn [fst snd]. rewrite Forall_forall in F, W. apply fine_acceptable; auto.
        * clear -H2. remember (map (request_of default remote) xs) as qs eqn:Eq. revert xs Eq. induction H2 as [|q cs qs css H _ IH]; intros [|x xs] Eq; try discriminate; cbn [map]; [constructor|].
          injection Eq as -> ->. constructor; [exact H|]. apply IH. reflexivity.
      + rewrite R2, app_nil_r in R1 by reflexivity. rewrite R1. clear. induction xs as [|x xs IH]; [reflexivity|]. cbn [map flat_map]. rewrite told_arrived, IH. reflexivity.
  Qed.
End Requests.

(** * Responses *)
Section Responses.
  Variable str : Z -> list Z.

  Definition more (x : exchange) : list (list Z * list Z) :=
    match x with
    | Whole _ h data => if status_bodyless (status h) then [] else [length_field data]
    | Chunked _ _ => [chunked_field]
    | Bare _ => []
    end.
  Lemma resp_fields x : r_fields (message_of str x) = named (s_fields (header_of x)) ++ more x.
  Proof.
    destruct x as [b h data|h ds|h]; cbn [message_of header_of more]; [|reflexivity|now rewrite app_nil_r].
    unfold status_bodyless. destruct (_ || _); [now rewrite app_nil_r|reflexivity].
  Qed.
  Lemma resp_status x : r_status (message_of str x) = status (header_of x).
  Proof. destruct x as [b h data|h ds|h]; cbn [message_of header_of]; [|reflexivity|reflexivity]. destruct (_ || _); reflexivity. Qed.
  Lemma resp_reason x : r_reason (message_of str x) = the_reason str (header_of x).
  Proof. destruct x as [b h data|h ds|h]; cbn [message_of header_of]; [|reflexivity|reflexivity]. destruct (_ || _); reflexivity. Qed.

  Lemma resp_octets x : exists b,
    octets str x = head_text (response_start (put_du 20 (status (header_of x))) (message_of str x)) (r_fields (message_of str x)) ++ b
    /\ b = match x with
           | Whole hd h data => if status_bodyless (status h) then [] else if hd then [] else data
           | Chunked _ ds => pieces ds ++ last_chunk
           | Bare _ => []
           end.
  Proof.
    eexists. split; [|reflexivity]. unfold response_start. rewrite resp_reason, resp_fields.
    assert (E : forall h r, encode_s str h ++ r = head_text (txt "HTTP/1.1 " ++ put_du 20 (status h) ++ [32] ++ the_reason str h) (named (s_fields h)) ++ r).
    { intros h r. rewrite named_eq, reason_eq, <- (encode_head _ (s_fields h) r). unfold encode_s, why. rewrite <- !app_assoc. reflexivity. }
    assert (E0 : forall h, encode_s str h = head_text (txt "HTTP/1.1 " ++ put_du 20 (status h) ++ [32] ++ the_reason str h) (named (s_fields h)) ++ []).
    { intros h. rewrite <- E. now rewrite app_nil_r. }
    destruct x as [b h data|h ds|h]; cbn [octets header_of more].
    - replace (status h <=? 199) with (status h <? 200) by lia. fold (status_bodyless (status h)). destruct (status_bodyless (status h)).
      + rewrite E0, !app_nil_r. reflexivity.
      + rewrite E. unfold with_field, the_reason. cbn [status reason s_fields]. rewrite !named_eq, filter_snoc by reflexivity. reflexivity.
    - rewrite E. unfold with_field, the_reason. cbn [status reason s_fields]. rewrite !named_eq, filter_snoc by reflexivity. reflexivity.
    - rewrite E0, !app_nil_r. reflexivity.
  Qed.

  Lemma sound_text x : sound str x -> response_text (head_of x) (message_of str x) (octets str x).
  Proof.
    intros (S1 & S2 & _ & _ & N & X & Len). destruct (resp_octets x) as (b & E & Eb).
    exists (put_du 20 (status (header_of x))), b. rewrite resp_status, resp_fields. rewrite resp_fields in E, Len.
    split; [rewrite three_digits by exact S1; reflexivity|]. split; [apply integer_du; change (10 ^ 20) with 100000000000000000000; lia|].
    split; [|split; [exact E|exact Len]].
    assert (T : lookup (txt "Transfer-Encoding") (named (s_fields (header_of x))) = []) by (rewrite lookup_named by discriminate; apply N; cbn; tauto).
    assert (C : lookup (txt "Content-Length") (named (s_fields (header_of x))) = []) by (rewrite lookup_named by discriminate; apply N; cbn; tauto).
    fold (status_bodyless (status (header_of x))). subst b.
    destruct x as [hd h data|h ds|h]; cbn [header_of head_of message_of more] in *.
    - change ((status h <? 200) || (status h =? 204) || (status h =? 304)) with (status_bodyless (status h)). destruct (status_bodyless (status h)).
      + rewrite app_nil_r. split; [split; assumption|]. split; reflexivity.
      + cbn [r_body]. destruct hd.
        * split; [reflexivity|]. split; [reflexivity|]. exists data, data. apply text_sized; assumption.
        * apply text_sized; assumption.
    - destruct X as [X1 X2]. rewrite X1. apply text_chunks; assumption.
    - rewrite X, app_nil_r. split; [split; assumption|]. split; reflexivity.
  Qed.
  Lemma sound_proper x : sound str x -> proper_response (message_of str x).
  Proof.
    intros (S1 & S2 & R & F & N & X & _). unfold proper_response. rewrite resp_status, resp_reason, resp_fields. split; [exact S1|]. split; [exact S2|]. split; [exact R|]. split.
    - apply Forall_app. split; [now apply named_proper|]. destruct x as [hd h data|h ds|h]; cbn [more].
      + destruct (status_bodyless _); [constructor|]. constructor; [apply length_proper; exact X|constructor].
      + constructor; [apply chunked_proper|constructor].
      + constructor.
    - rewrite lookup_app, lookup_named by discriminate. rewrite N by (cbn; tauto). destruct x as [hd h data|h ds|h]; cbn [more]; [|reflexivity|reflexivity]. destruct (status_bodyless _); reflexivity.
  Qed.

  Lemma told_returned x : HrespSpec.told_head (response_message (message_of str x)) :: HrespSpec.told_end (response_message (message_of str x)) = returned str x.
  Proof.
    unfold returned, HrespSpec.told_head, HrespSpec.told_end, HrespSpec.headers_of, response_message. cbn [HrespSpec.m_status HrespSpec.m_reason HrespSpec.m_fields HrespSpec.m_body HrespSpec.m_keep HrespSpec.m_trailers].
    rewrite app_nil_r. destruct (closing _); reflexivity.
  Qed.

  Lemma trip_back lib L A xs pcs :
    response_library lib -> HrespSpec.plain A -> announces (map head_of xs) A -> 0 <= HreqModel.max_content_length L ->
    Forall (sound str) xs -> Forall (taken_within str L) xs ->
    Forall (fun r => closing (r_fields r) = false) (removelast (map (message_of str) xs)) ->
    List.concat pcs = flat_map (octets str) xs ->
    length (lib (map head_of xs) pcs) = length pcs /\
    HrespSpec.whole_payloads [] (HrespModel.trace (HrespModel.run L A HrespModel.start (lib (map head_of xs) pcs))) = flat_map (returned str) xs.
  Proof.
    intros HL HA HN L0 F W C E. destruct (HL (map head_of xs) (map (message_of str) xs) (map (octets str) xs) pcs) as (Hn & css & H2 & Ec).
    - now rewrite !map_length.
    - apply Forall_forall. intros q I. apply in_map_iff in I as (x & <- & I). apply sound_proper. rewrite Forall_forall in F. auto.
    - exact C.
    - clear -F. induction F as [|x xs Fx _ IH]; cbn [map combine]; constructor; [now apply sound_text|exact IH].
    - rewrite E. apply flat_map_concat_map.
    - split; [exact Hn|].
      rewrite (HrespProps.responses_complete L A (map (fun x => response_message (message_of str x)) xs) css); [|exact HA|exact L0| | |exact Ec].
      + clear. induction xs as [|x xs IH]; [reflexivity|]. cbn [map flat_map]. rewrite told_returned, IH. reflexivity.
      + apply Forall_forall. intros m I. apply in_map_iff in I as (x & <- & I). rewrite Forall_forall in F, W. specialize (F x I). specialize (W x I). destruct W as [W1 W2].
        unfold HrespProps.acceptable, HrespSpec.head_fits, HrespSpec.tail_fits, response_message. cbn [HrespSpec.m_status HrespSpec.m_reason HrespSpec.m_fields HrespSpec.m_body HrespSpec.m_trailers].
        split; [exact W1|]. split; [split; [left; reflexivity|exact W2]|]. split.
        * intros tr. rewrite HN. destruct (nth _ _ _); discriminate.
        * rewrite resp_status. apply F.
      + clear -H2. remember (map (message_of str) xs) as qs eqn:Eq. revert xs Eq. induction H2 as [|q cs qs css H _ IH]; intros [|x xs] Eq; try discriminate; cbn [map]; [constructor|].
        injection Eq as -> ->. constructor; [exact H|]. apply IH. reflexivity.
  Qed.
End Responses.

(** * Libraries as they are supposed to be exist: they may make all calls with the last piece. *)
Lemma digits_printable b s : forall acc v, digits b acc s = Some v -> printable s.
Proof.
  induction s as [|c s IH]; intros acc v H; [constructor|]. cbn [digits] in H. unfold digit_value in H.
  destruct ((48 <=? c) && (c <=? 57)) eqn:E1; [|destruct ((65 <=? c) && (c <=? 70)) eqn:E2; [|destruct ((97 <=? c) && (c <=? 102)) eqn:E3; [|discriminate]]];
    (destruct (_ <? b); [|discriminate]); (constructor; [lia|eapply IH; exact H]).
Qed.
Lemma integer_printable b s v : integer b s = Some v -> printable s.
Proof. unfold integer. destruct s; [discriminate|]. apply digits_printable. Qed.
Lemma dechunk_chunks d t : chunks d t -> forall fuel r, (length t < fuel)%nat -> dechunk fuel (t ++ r) = Some (d, r).
Proof.
  induction 1 as [|l d ds t N I H IH]; intros fuel r L.
  - destruct fuel as [|[|fuel]]; [cbn in L; lia|cbn in L; lia|]. exact (dechunk_last fuel r).
  - destruct fuel as [|fuel]; [lia|]. rewrite <- !app_assoc. cbn [dechunk]. change eol with crlf in *. rewrite line_app by (eapply integer_printable; exact I). rewrite I.
    assert (P : 0 < Z.of_nat (length d)) by (destruct d; [congruence|cbn [length]; lia]).
    replace (Z.of_nat (length d) =? 0) with false by lia.
    match goal with |- context [Z.of_nat (length ?x) <? _] => replace (Z.of_nat (length x) <? Z.of_nat (length d)) with false by (symmetry; apply Z.ltb_ge; rewrite !app_length; lia) end.
    rewrite Nat2Z.id, skipn_len, firstn_len. change ([13; 10]) with crlf. rewrite strip_app.
    rewrite IH; [reflexivity|]. rewrite !app_length in L. cbn [length crlf] in L. lia.
Qed.
Lemma body_read close fs d t r : body_text fs d t -> body close fs (t ++ r) = Some (d, r).
Proof.
  intros [l d' T C I|d' t' T C H]; unfold body; rewrite T, C.
  - rewrite I. replace (Z.of_nat (length (d' ++ r)) <? Z.of_nat (length d')) with false by (symmetry; apply Z.ltb_ge; rewrite app_length; lia).
    rewrite Nat2Z.id, firstn_len, skipn_len. reflexivity.
  - change (same (txt "chunked") (txt "chunked")) with true. cbv iota. apply dechunk_chunks; [exact H|]. rewrite app_length. lia.
Qed.
Lemma proper_lined f : proper_field f -> lined f /\ nonempty f = true.
Proof.
  intros (N & T & V & A & B). split; [|unfold nonempty; destruct (fst f); congruence]. unfold lined. split; [|split; [|split; assumption]].
  - eapply Forall_impl; [|exact T]. intros c [H|H]; [unfold letter_or_digit, white in *; lia|cbn in H; unfold white; lia].
  - eapply Forall_impl; [|exact V]. unfold text_char. intros; lia.
Qed.
Lemma fields_read fs r : Forall proper_field fs -> field_lines (S (length (lines fs ++ crlf ++ r))) (lines fs ++ crlf ++ r) = Some (fs, r).
Proof.
  intros F. apply field_lines_back.
  - eapply Forall_impl; [|exact F]. intros f H. apply (proper_lined f H).
  - eapply Forall_impl; [|exact F]. intros f H. apply (proper_lined f H).
  - pose proof (lines_length fs). rewrite app_length. lia.
Qed.
Lemma request_read q t r : proper_request q -> request_text q t -> receive_request (t ++ r) = Some (q, r).
Proof.
  intros (M & T & _ & F & _) (b & B & ->). unfold receive_request. rewrite <- app_assoc, <- head_lines.
  assert (Mw : Forall (fun c => c <> 32 /\ c <> 13 /\ c <> 10) (q_method q) /\ q_method q <> []).
  { unfold methods in M. cbn [In] in M. repeat (destruct M as [<-|M]; [split; [cbn; repeat (apply Forall_cons; [lia|]); apply Forall_nil|discriminate]|]). destruct M. }
  assert (Tw : Forall (fun c => c <> 32 /\ c <> 13 /\ c <> 10) (q_target q) /\ q_target q <> []).
  { assert (TC : forall p, Forall target_char p -> Forall (fun c => c <> 32 /\ c <> 13 /\ c <> 10) p) by (intros p H; eapply Forall_impl; [|exact H]; unfold target_char; intros; lia).
    assert (AC : forall p, Forall authority_char p -> Forall (fun c => c <> 32 /\ c <> 13 /\ c <> 10) p).
    { intros p H. eapply Forall_impl; [|exact H]. intros c [X|X]; [unfold letter_or_digit in X; lia|cbn in X; lia]. }
    destruct T as [(p & -> & H)|(s & u & h & p & S & -> & U & Hn & Hh & Hp)].
    - split; [constructor; [lia|auto]|discriminate].
    - split; [|destruct S as [-> | ->]; discriminate]. apply Forall_app. split; [destruct S as [-> | ->]; cbn; repeat (apply Forall_cons; [lia|]); apply Forall_nil|].
      apply Forall_app. split; [cbn; repeat (apply Forall_cons; [lia|]); apply Forall_nil|]. apply Forall_app. split.
      + destruct u; cbn [opt_text]; [|constructor]. apply Forall_app. split; [auto|]. constructor; [lia|constructor].
      + apply Forall_app. split; [auto|]. constructor; [lia|auto]. }
  destruct Mw as [Mw Mn]. destruct Tw as [Tw Tn].
  rewrite line_app.
  2:{ unfold request_start. apply Forall_app. split; [eapply Forall_impl; [|exact Mw]; cbn; tauto|]. constructor; [lia|]. apply Forall_app. split; [eapply Forall_impl; [|exact Tw]; cbn; tauto|].
      cbn; repeat (apply Forall_cons; [lia|]); apply Forall_nil. }
  unfold request_line, request_start. change (q_method q ++ [32] ++ q_target q ++ txt " HTTP/1.1") with (q_method q ++ 32 :: (q_target q ++ 32 :: txt "HTTP/1.1")).
  rewrite cut_app by (eapply Forall_impl; [|exact Mw]; cbn; tauto). rewrite cut_app by (eapply Forall_impl; [|exact Tw]; cbn; tauto).
  change (strip (txt "HTTP/1.1") (txt "HTTP/1.1")) with (Some (@nil Z)).
  destruct (q_method q) as [|m0 m] eqn:Em; [congruence|]. destruct (q_target q) as [|t0 t] eqn:Et; [congruence|].
  rewrite fields_read by exact F. assert (Bd : body false (q_fields q) (b ++ r) = Some (q_body q, r)).
  { destruct B as [([N1 N2] & -> & ->)|B]; [unfold body; rewrite N1, N2; reflexivity|now apply body_read]. }
  rewrite Bd, <- Em, <- Et. destruct q; reflexivity.
Qed.
Lemma response_read head x t r : proper_response x -> response_text head x t -> receive_response head (t ++ r) = Some (x, r).
Proof.
  intros (S1 & S2 & R & F & _) (st & b & L & I & B & -> & _). unfold receive_response. rewrite <- app_assoc, <- head_lines.
  rewrite line_app.
  2:{ unfold response_start. apply Forall_app. split; [cbn; repeat (apply Forall_cons; [lia|]); apply Forall_nil|]. apply Forall_app. split; [eapply integer_printable; exact I|].
      constructor; [lia|]. eapply Forall_impl; [|exact R]. unfold text_char. intros; lia. }
  unfold status_line, response_start. rewrite strip_app. destruct st as [|d1 [|d2 [|d3 [|]]]]; try discriminate. cbn [app firstn skipn]. rewrite I.
  change ((32 =? 32) && (length [d1; d2; d3] =? 3)%nat) with true. cbv iota. rewrite fields_read by exact F.
  rewrite <- !orb_assoc in *. destruct ((r_status x <? 200) || ((r_status x =? 204) || (r_status x =? 304))).
  - destruct B as (_ & E & ->). rewrite orb_true_r. destruct x; cbn in *; subst; reflexivity.
  - rewrite orb_false_r. destruct head.
    + destruct B as (E & -> & _). destruct x; cbn in *; subst; reflexivity.
    + rewrite (body_read true _ _ _ r B). destruct x; reflexivity.
Qed.

Definition last_piece {A} (pcs : list (list Z)) (calls : list A) : list (list A) :=
  match pcs with [] => [] | _ :: r => repeat [] (length r) ++ [calls] end.
Lemma last_piece_length {A} pcs (calls : list A) : length (last_piece pcs calls) = length pcs.
Proof. destruct pcs as [|p r]; [reflexivity|]. cbn [last_piece length]. rewrite app_length, repeat_length. cbn. lia. Qed.
Lemma last_piece_concat {A} pcs (calls : list A) : (pcs = [] -> calls = []) -> List.concat (last_piece pcs calls) = calls.
Proof.
  intros H. destruct pcs as [|p r]; [rewrite H; reflexivity|]. cbn [last_piece]. rewrite concat_app. cbn [List.concat]. rewrite app_nil_r.
  assert (E : forall n, List.concat (repeat (@nil A) n) = []) by (induction n; [reflexivity|exact IHn]). rewrite E. reflexivity.
Qed.

Fixpoint read_requests (fuel : nat) (s : list Z) : list request :=
  match fuel with
  | O => []
  | S fuel => match receive_request s with Some (q, r) => q :: read_requests fuel r | None => [] end
  end.
Definition request_calls (q : request) : list HreqModel.call :=
  [HreqModel.Url (q_target q)] ++ flat_map (fun f => [HreqModel.Field (fst f); HreqModel.Value (snd f)]) (q_fields q)
  ++ [HreqModel.Headers_complete (q_method q) (negb (closing (q_fields q)))] ++ [HreqModel.Body (q_body q)] ++ [HreqModel.Message_complete].
Definition sample_requests (pcs : list (list Z)) : list (list HreqModel.call) :=
  last_piece pcs (flat_map request_calls (read_requests (length (List.concat pcs)) (List.concat pcs))).
Lemma one_piece {A} (k : list Z -> A) (t : list Z) : exists ps, ps <> [] /\ List.concat ps = t /\ [k t] = map k ps.
Proof. exists [t]. split; [discriminate|]. cbn. now rewrite app_nil_r. Qed.
Lemma read_requests_all qs ts : Forall proper_request qs -> Forall2 request_text qs ts -> forall fuel, (length (List.concat ts) <= fuel)%nat -> read_requests fuel (List.concat ts) = qs.
Proof.
  intros P H. induction H as [|q t qs ts Hq _ IH]; intros fuel L.
  - destruct fuel; reflexivity.
  - inversion_clear P as [|? ? P1 P2]. cbn [List.concat] in *. assert (T : (0 < length t)%nat).
    { destruct Hq as (b & _ & ->). unfold head_text. rewrite !app_length. cbn [length eol]. lia. }
    rewrite app_length in L. destruct fuel as [|fuel]; [lia|]. cbn [read_requests]. rewrite (request_read q t _ P1 Hq). f_equal. apply IH; [exact P2|]. lia.
Qed.
Theorem sample_requests_ok : request_library sample_requests.
Proof.
  intros qs ts pcs P _ H E. split; [apply last_piece_length|]. exists (map request_calls qs). split.
  - clear. induction qs as [|q qs IH]; cbn [map]; constructor; [|exact IH].
    exists (HreqModel.Url (q_target q) :: flat_map (fun f => [HreqModel.Field (fst f); HreqModel.Value (snd f)]) (q_fields q)), [HreqModel.Body (q_body q)].
    split; [|split; [|reflexivity]].
    + exists [HreqModel.Url (q_target q)], (flat_map (fun f => [HreqModel.Field (fst f); HreqModel.Value (snd f)]) (q_fields q)). split; [apply one_piece|]. split; [|reflexivity].
      exists (map (fun f => [HreqModel.Field (fst f); HreqModel.Value (snd f)]) (q_fields q)). split; [|symmetry; rewrite <- flat_map_concat_map; reflexivity].
      cbn [request_message HreqSpec.m_fields]. generalize (q_fields q). induction l as [|f l IHl]; cbn [map]; constructor; [|exact IHl].
      exists [HreqModel.Field (fst f)], [HreqModel.Value (snd f)]. split; [apply one_piece|]. split; [apply one_piece|reflexivity].
    + exists [HreqModel.Body (q_body q)], []. split; [exists [q_body q]; cbn; rewrite app_nil_r; split; reflexivity|]. split; [exists []; split; [constructor|reflexivity]|reflexivity].
  - unfold sample_requests. rewrite E, (read_requests_all qs ts P H) by lia. rewrite last_piece_concat; [apply flat_map_concat_map|].
    intros ->. cbn in E. destruct H as [|q t qs ts (b & _ & ->) _]; [reflexivity|]. exfalso. unfold head_text in E. apply (f_equal (@length Z)) in E. cbn [List.concat length] in E. rewrite !app_length in E. cbn [length eol] in E. lia.
Qed.

Definition response_calls (x : response) : list HrespModel.call :=
  [HrespModel.Status (r_status x) (r_reason x)] ++ flat_map (fun f => [HrespModel.Field (fst f); HrespModel.Value (snd f)]) (r_fields x)
  ++ [HrespModel.Headers_complete (negb (closing (r_fields x)))] ++ [HrespModel.Body (r_body x)] ++ [HrespModel.Message_complete].
Definition sample_responses (heads : list bool) (pcs : list (list Z)) : list (list HrespModel.call) :=
  last_piece pcs (match receive_responses heads (List.concat pcs) with Some (rs, _) => flat_map response_calls rs | None => [] end).
Theorem sample_responses_ok : response_library sample_responses.
Proof.
  intros heads rs ts pcs HL P _ H E. split; [apply last_piece_length|]. exists (map response_calls rs).
  assert (R : receive_responses heads (List.concat ts) = Some (rs, [])).
  { clear E. revert rs ts HL P H. induction heads as [|h heads IH]; intros rs ts HL P H; (destruct rs as [|r rs]; [|try discriminate]); [|discriminate|]; cbn [combine] in H; inversion H; subst; [reflexivity|].
    inversion_clear P as [|? ? P1 P2]. cbn [List.concat receive_responses fst snd] in *. rewrite (response_read h r y _ P1) by assumption. rewrite (IH rs l'); auto. }
  split.
  - clear. induction rs as [|q qs IH]; cbn [map]; constructor; [|exact IH].
    exists (HrespModel.Status (r_status q) (r_reason q) :: flat_map (fun f => [HrespModel.Field (fst f); HrespModel.Value (snd f)]) (r_fields q)), [HrespModel.Body (r_body q)].
    split; [|split; [|reflexivity]].
    + exists [HrespModel.Status (r_status q) (r_reason q)], (flat_map (fun f => [HrespModel.Field (fst f); HrespModel.Value (snd f)]) (r_fields q)). split; [apply one_piece|]. split; [|reflexivity].
      exists (map (fun f => [HrespModel.Field (fst f); HrespModel.Value (snd f)]) (r_fields q)). split; [|symmetry; rewrite <- flat_map_concat_map; reflexivity].
      cbn [response_message HrespSpec.m_fields]. generalize (r_fields q). induction l as [|f l IHl]; cbn [map]; constructor; [|exact IHl].
      exists [HrespModel.Field (fst f)], [HrespModel.Value (snd f)]. split; [apply one_piece|]. split; [apply one_piece|reflexivity].
    + exists [HrespModel.Body (r_body q)], []. split; [exists [r_body q]; cbn; rewrite app_nil_r; split; reflexivity|]. split; [exists []; split; [constructor|reflexivity]|reflexivity].
  - unfold sample_responses. rewrite E, R. rewrite last_piece_concat; [apply flat_map_concat_map|].
    intros ->. cbn in E. destruct rs as [|r rs]; [reflexivity|]. destruct heads as [|h heads]; [discriminate|]. cbn [combine] in H. inversion H as [|? t ? ts' Ht _ E1 E2]. subst ts. destruct Ht as (st & b & _ & _ & _ & X & _). exfalso.
    apply (f_equal (@length Z)) in E. cbn [List.concat length] in E. rewrite X in E. unfold head_text in E. rewrite !app_length in E. cbn [length eol] in E. lia.
Qed.
