(** C39, C52: what a session writes is read by a recipient that follows RFC 9112. *)
From Coq Require Import ZArith List Lia Bool ZifyBool String.
From Verif Require Import Base BaseLemmas Text DateModel HvalModel HvalProofs HdrModel HnameModel HnameProps AddrTextModel NetrefSpec AddrTextProofs HoutModel HoutSpec HoutProofs HvalSpec HdrSpec HdrProofs HdrProps CktProofs.
Import ListNotations.
Open Scope list_scope.
Open Scope Z_scope.
Notation length := List.length.

(** Chunks are decoded to what was sent, and the message is terminated once, whatever follows. *)
Theorem chunked_roundtrip ds r : Forall fits ds ->
  dechunk (S (S (length (List.concat (map (fun d => match d with [] => [] | _ => chunk d end) ds))))) (List.concat (map (fun d => match d with [] => [] | _ => chunk d end) ds) ++ last_chunk ++ r)
  = Some (List.concat ds, r).
Proof.
  intros F. fold (pieces ds). rewrite <- pieces_filter, <- concat_filter. apply dechunk_pieces.
  - apply Forall_forall. intros d I. apply filter_In in I as [I _]. rewrite Forall_forall in F. auto.
  - rewrite pieces_filter. pose proof (pieces_length ds). lia.
Qed.
Print Assumptions chunked_roundtrip.

Section Server.
  Variables (mktime : tm -> Z) (str : Z -> list Z).

  (** A response as the application makes it: in one piece, in chunks, or an interim or empty response without
      a body. *)
  Inductive exchange := Whole (head : bool) (h : s_head) (data : list Z) | Chunked (h : s_head) (ds : list (list Z)) | Bare (h : s_head).
  Definition calls_of (x : exchange) : list call :=
    match x with
    | Whole head h data => [Response head h data]
    | Chunked h ds => Start_chunked h :: map Send_chunk ds ++ [Finish_chunked]
    | Bare h => [Headers_only h]
    end.
  Definition head_of (x : exchange) : bool := match x with Whole head _ _ => head | _ => false end.
  Definition header_of (x : exchange) : s_head := match x with Whole _ h _ | Chunked h _ | Bare h => h end.
  Definition bodyless (st : Z) : Prop := st < 200 \/ st = 204 \/ st = 304.

  (** The recipient is to see the status, the reason, the headers that have a name, and the body. *)
  Definition named (fs : list (list Z * list Z)) : list (list Z * list Z) := filter (fun f => negb (length (fst f) =? 0)%nat) fs.
  Definition the_reason (h : s_head) : list Z := if (length (reason h) =? 0)%nat then str (status h) else reason h.
  Definition message_of (x : exchange) : response :=
    let h := header_of x in
    match x with
    | Whole head _ data =>
        if (status h <? 200) || (status h =? 204) || (status h =? 304) then mkR (status h) (the_reason h) (named (s_fields h)) []
        else mkR (status h) (the_reason h) (named (s_fields h) ++ [(txt "Content-Length", put_du 20 (Z.of_nat (length data)))]) (if head then [] else data)
    | Chunked _ ds => mkR (status h) (the_reason h) (named (s_fields h) ++ [(txt "Transfer-Encoding", txt "chunked")]) (List.concat ds)
    | Bare _ => mkR (status h) (the_reason h) (named (s_fields h)) []
    end.

  (** What is demanded of the application *)
  Definition good_head (h : s_head) : Prop := 100 <= status h <= 999 /\ printable (the_reason h) /\ Forall good_field (s_fields h).
  Definition good (x : exchange) : Prop :=
    good_head (header_of x) /\
    match x with
    | Whole _ _ data => fits data
    | Chunked h ds => ~ bodyless (status h) /\ Forall fits ds
    | Bare h => bodyless (status h)
    end.
  (** The connection remains in use afterwards. *)
  Definition persists (x : exchange) : Prop := status (header_of x) <> 101 /\ closes mktime (s_fields (header_of x)) = false.

  Lemma named_eq fs : named fs = filter nonempty fs.
  Proof. unfold named. apply filter_ext. intros [[|c n] v]; reflexivity. Qed.
  Lemma reason_eq h : the_reason h = why str h.
  Proof. unfold the_reason, why. destruct (reason h); reflexivity. Qed.

  (** The octets that an exchange adds, and the state after it *)
  Definition octets (x : exchange) : list Z :=
    match x with
    | Whole head h data =>
        if (status h <=? 199) || (status h =? 204) || (status h =? 304) then encode_s str h
        else encode_s str (with_field h (txt "Content-Length") (put_du 20 (Z.of_nat (length data)))) ++ if head then [] else data
    | Chunked h ds => encode_s str (with_field h (txt "Transfer-Encoding") (txt "chunked")) ++ pieces ds ++ last_chunk
    | Bare h => encode_s str h
    end.
  Lemma receive_octets x r : good x -> receive_response (head_of x) (octets x ++ r) = Some (message_of x, r).
  Proof.
    intros [(S & P & G) X]. rewrite reason_eq in P. assert (L : Forall lined (s_fields (header_of x))) by (eapply Forall_impl; [|exact G]; apply good_lined).
    destruct x as [head h data|h ds|h]; cbn [header_of head_of octets message_of] in *; rewrite ?named_eq, ?reason_eq.
    - replace (status h <=? 199) with (status h <? 200) by lia. destruct ((status h <? 200) || (status h =? 204) || (status h =? 304)) eqn:B.
      + rewrite receive_head by auto. rewrite <- !orb_assoc in *. rewrite B, orb_true_r. reflexivity.
      + rewrite <- app_assoc. rewrite receive_head; [|auto|auto|apply Forall_app; split; [exact L|constructor; [apply length_lined; exact X|constructor]]].
        unfold with_field. cbn [status reason s_fields]. unfold why. cbn [status reason s_fields]. fold (why str h). rewrite filter_snoc by reflexivity. rewrite <- !orb_assoc in *. rewrite B, orb_false_r.
        destruct head; [reflexivity|]. change ((txt "Content-Length", put_du 20 (Z.of_nat (length data)))) with (length_field data). rewrite body_length by auto. reflexivity.
    - destruct X as [N F]. rewrite <- !app_assoc. rewrite receive_head; [|auto|auto|apply Forall_app; split; [exact L|constructor; [apply chunked_lined|constructor]]].
      unfold with_field. cbn [status reason s_fields]. unfold why. cbn [status reason s_fields]. fold (why str h). rewrite filter_snoc by reflexivity.
      replace (false || (status h <? 200) || (status h =? 204) || (status h =? 304)) with false by (unfold bodyless in N; lia).
      change ((txt "Transfer-Encoding", txt "chunked")) with chunked_field. rewrite body_chunked by auto. reflexivity.
    - rewrite receive_head by auto. replace (false || (status h <? 200) || (status h =? 204) || (status h =? 304)) with true by (unfold bodyless in X; lia). reflexivity.
  Qed.

  Lemma closes_app fs n v : equals n (txt "Connection") = false -> closes mktime (fs ++ [(n, v)]) = closes mktime fs.
  Proof. intros H. unfold closes. rewrite existsb_app. cbn [existsb fst snd]. rewrite H. cbn. now rewrite orb_false_r. Qed.
  Lemma raw_open s h data : closed s = false -> ack s = false ->
    raw_response mktime str s h data = (mkSess (status h =? 101) (closes mktime (s_fields h)) (out s ++ encode_s str h ++ data), true).
  Proof.
    intros C A. unfold raw_response, tcp_send. rewrite C. destruct (status h =? 101), (closes mktime (s_fields h)); unfold tcp_shut_down; cbn [ack closed out]; rewrite ?A; reflexivity.
  Qed.
  Lemma run_app s a : forall b s1 l1, server_run mktime str s a = Some (s1, l1) ->
    server_run mktime str s (a ++ b) = match server_run mktime str s1 b with Some (s2, l2) => Some (s2, l1 ++ l2) | None => None end.
  Proof.
    revert s. induction a as [|c a IH]; intros s b s1 l1 H; cbn [server_run app] in *.
    - injection H as <- <-. destruct (server_run mktime str s b) as [[s2 l2]|]; reflexivity.
    - destruct (server mktime str s c) as [[s' x]|]; [|discriminate]. destruct (server_run mktime str s' a) as [[s'' l]|] eqn:E; [|discriminate]. injection H as <- <-.
      rewrite (IH s' b s'' l E). destruct (server_run mktime str s'' b) as [[s2 l2]|]; reflexivity.
  Qed.
  Lemma run_pieces ds : forall o, server_run mktime str (mkSess false false o) (map Send_chunk ds ++ [Finish_chunked]) =
    Some (mkSess false false (o ++ pieces ds ++ last_chunk), repeat true (S (length ds))).
  Proof.
    unfold pieces. induction ds as [|d ds IH]; intros o; [reflexivity|]. cbn [map app]. destruct d as [|c d].
    - cbn [server_run server ack]. unfold tcp_send. cbn [closed ack out]. rewrite app_nil_r, IH. reflexivity.
    - cbn [server_run server ack]. unfold tcp_send. cbn [closed ack out]. rewrite IH. cbn [map List.concat length repeat]. rewrite <- !app_assoc. reflexivity.
  Qed.

  Lemma run_exchange x o : persists x -> server_run mktime str (mkSess false false o) (calls_of x) = Some (mkSess false false (o ++ octets x), repeat true (length (calls_of x))).
  Proof.
    intros [N C]. destruct x as [head h data|h ds|h]; cbn [header_of calls_of octets] in *.
    - cbn [server_run server ack]. destruct ((status h <=? 199) || (status h =? 204) || (status h =? 304)); rewrite raw_open by reflexivity; cbn [out status s_fields with_field].
      + rewrite C, app_nil_r. replace (status h =? 101) with false by lia. reflexivity.
      + rewrite closes_app by reflexivity. rewrite C. replace (status h =? 101) with false by lia. reflexivity.
    - cbn [server_run server ack]. rewrite raw_open by reflexivity. cbn [out status s_fields with_field]. rewrite closes_app by reflexivity. rewrite C. replace (status h =? 101) with false by lia.
      rewrite run_pieces. rewrite app_nil_r, <- !app_assoc. cbn [length]. rewrite app_length, map_length. cbn [length]. rewrite Nat.add_1_r. reflexivity.
    - cbn [server_run server ack]. rewrite raw_open by reflexivity. cbn [out status s_fields]. rewrite C, app_nil_r. replace (status h =? 101) with false by lia. reflexivity.
  Qed.

  (** C52.  Any sequence of responses on a connection is read by the recipient as those
      responses, in order, with nothing left over, whatever has been sent before. *)
  Theorem responses_received xs o : Forall good xs -> Forall persists xs ->
    exists bs new, server_run mktime str (mkSess false false o) (flat_map calls_of xs) = Some (mkSess false false (o ++ new), bs) /\
      Forall (fun b => b = true) bs /\ receive_responses (map head_of xs) new = Some (map message_of xs, []).
  Proof.
    intros G P. exists (repeat true (length (flat_map calls_of xs))), (flat_map octets xs). split; [|split].
    - revert o. induction P as [|x xs P1 P2 IH]; intros o; [cbn; now rewrite app_nil_r|]. inversion G as [|? ? G1 G2]; subst. cbn [flat_map].
      rewrite (run_app _ _ _ _ _ (run_exchange x o P1)). rewrite IH by auto. rewrite app_length, repeat_app, <- app_assoc. reflexivity.
    - apply Forall_forall. intros b I. now apply repeat_spec in I.
    - induction G as [|x xs G1 G2 IH]; [reflexivity|]. inversion P as [|? ? P1 P2]; subst. cbn [map flat_map receive_responses]. rewrite receive_octets by exact G1. rewrite IH by auto. reflexivity.
  Qed.
  Print Assumptions responses_received.

  (** A response with [Connection: close], or with the status 101, is received too.  The connection has been shut down
      after it, or the protocol has been switched. *)
  Theorem response_last head h data o : good (Whole head h data) ->
    exists new, server_run mktime str (mkSess false false o) [Response head h data] = Some (mkSess (status h =? 101) (closes mktime (s_fields h)) (o ++ new), [true]) /\
      receive_response head new = Some (message_of (Whole head h data), []).
  Proof.
    intros G. exists (octets (Whole head h data)). split.
    - cbn [server_run server ack octets]. destruct ((status h <=? 199) || (status h =? 204) || (status h =? 304)); rewrite raw_open by reflexivity; cbn [out status s_fields with_field].
      + now rewrite app_nil_r.
      + rewrite closes_app by reflexivity. reflexivity.
    - rewrite <- (app_nil_r (octets _)). now apply (receive_octets (Whole head h data)).
  Qed.
  Print Assumptions response_last.

  (** A field that asks for the connection to be closed: it is called [Connection], in any case, and one of the elements of its value, which is a
      list after C43, is [close] *)
  Definition list_value (v : list Z) (names : list (list Z)) : Prop :=
    exists a l m x, v = written a ++ tail_text l /\ attribute mktime a (tail_text l) x /\ attributes mktime l m
      /\ names = label a :: map (fun y => label (snd y)) (filter fst l).
  Definition called_connection (f : list Z * list Z) : Prop := map lower (fst f) = txt "connection".
  Definition asks_close (f : list Z * list Z) : Prop :=
    called_connection f /\ exists names, list_value (snd f) names /\ Exists (fun n => map lower n = txt "close") names.

  Local Lemma split_first (l : list (bool * attr)) : Forall (fun x => fst x = false) l \/ exists l1 a l2, l = l1 ++ (true, a) :: l2 /\ Forall (fun x => fst x = false) l1.
  Proof.
    induction l as [|[[|] a] l [IH|(l1 & b & l2 & -> & F)]]; [left; constructor|right; exists [], a, l; split; [reflexivity|constructor]|right; exists [], a, (l1 ++ (true, b) :: l2); split; [reflexivity|constructor]|left; constructor; auto|].
    right. exists ((false, a) :: l1), b, l2. split; [reflexivity|constructor; auto].
  Qed.
  Local Lemma filter_plain (l : list (bool * attr)) : Forall (fun x => fst x = false) l -> filter fst l = [].
  Proof. induction 1 as [|x l H _ IH]; [reflexivity|]. cbn [filter]. now rewrite H. Qed.
  Local Lemma attributes_app l1 : forall l2 m, attributes mktime (l1 ++ l2) m -> exists m2, attributes mktime l2 m2.
  Proof. induction l1 as [|[e a] l1 IH]; intros l2 m H; [eauto|]. cbn [List.app attributes] in H. destruct m as [|[[e' n] v] m]; [contradiction|]. apply IH with m, H. Qed.
  Local Lemma names_tail fuel : forall l m s, attributes mktime l m -> at_ s = At (tail_text l) -> (length l < fuel)%nat ->
    element_names mktime fuel s = map (fun y => label (snd y)) (filter fst l).
  Proof.
    induction fuel as [|fuel IH]; intros l m s A E L; [lia|]. cbn [element_names].
    destruct (split_first l) as [F|(l1 & a & l2 & -> & F)].
    - destruct (hdr_last mktime l m s F A E) as [N _]. destruct (next_element mktime s) as [s' b]. cbn [snd] in N. subst b. now rewrite filter_plain.
    - destruct (attributes_app l1 ((true, a) :: l2) m A) as [m2 A2]. cbn [attributes] in A2. destruct m2 as [|[[e' n] v] m2]; [contradiction|]. destruct A2 as (_ & _ & Aa & A2).
      rewrite (hdr_skip mktime l1 a l2 m s v F A Aa E). cbn [HdrModel.name]. rewrite filter_app, filter_plain by exact F. cbn [List.app filter fst map snd]. f_equal.
      apply (IH l2 m2); [exact A2|reflexivity|]. rewrite app_length in L. cbn [length] in L. lia.
  Qed.
  Local Lemma tail_length l : (length l <= length (tail_text l))%nat.
  Proof. induction l as [|[e a] l IH]; [cbn; lia|]. cbn [length tail_text]. rewrite app_length. lia. Qed.
  Local Lemma names_all v names : list_value v names -> element_names mktime (S (length v)) (reload v) = names.
  Proof.
    intros (a & l & m & x & -> & A & M & ->). cbn [element_names].
    assert (N : next_element mktime (reload (written a ++ tail_text l)) = (mkS (written a ++ tail_text l) (At (tail_text l)) (label a) x, true)).
    { apply hdr_element; [left; reflexivity|]. exists (written a ++ tail_text l), a, (tail_text l), x. repeat split; auto; try apply A. }
    rewrite N. cbn [HdrModel.name]. f_equal. apply (names_tail _ l m); [exact M|reflexivity|].
    rewrite app_length. assert (W : (0 < length (written a))%nat) by (destruct A as (_ & _ & Nn & _); unfold written; rewrite !app_length; destruct (label a); [congruence|cbn [length]; lia]).
    pose proof (tail_length l). lia.
  Qed.

  (** The connection is shut down after a response if and only if one of its fields asks for it. *)
  Theorem response_closes head h data o s bs : Forall (fun f => called_connection f -> exists names, list_value (snd f) names) (s_fields h) ->
    server_run mktime str (mkSess false false o) [Response head h data] = Some (s, bs) -> (closed s = true <-> Exists asks_close (s_fields h)).
  Proof.
    intros F R. assert (C : closed s = closes mktime (s_fields h)).
    { assert (K : forall (A : Type) (x y : A), Some x = Some y -> x = y) by congruence.
      cbn [server_run server ack] in R. destruct ((status h <=? 199) || (status h =? 204) || (status h =? 304)); rewrite raw_open in R by reflexivity; apply K in R; apply (f_equal (fun p => closed (fst p))) in R;
        cbn [fst closed] in R; rewrite <- R; [reflexivity|]. cbn [with_field s_fields]. now apply closes_app. }
    rewrite C. clear R C. unfold closes. rewrite existsb_exists, Exists_exists. rewrite Forall_forall in F. split.
    - intros (f & I & B). apply andb_prop in B as [B1 B2]. exists f. split; [exact I|]. apply equals_key in B1. split; [exact B1|].
      destruct (F f I B1) as [names V]. exists names. split; [exact V|]. rewrite (names_all _ _ V) in B2. apply existsb_exists in B2 as (n & In' & B2). apply equals_key in B2. apply Exists_exists. now exists n.
    - intros (f & I & B1 & names & V & B2). exists f. split; [exact I|]. apply andb_true_intro. split; [apply equals_key; exact B1|]. rewrite (names_all _ _ V). apply existsb_exists.
      apply Exists_exists in B2 as (n & In' & B2). exists n. split; [exact In'|]. apply equals_key. exact B2.
  Qed.
  Print Assumptions response_closes.
  (** After that nothing is written any more, and the calls report it. *)
  Theorem response_after s c :
    (ack s = true -> match c with Shut_down _ => True | _ => server mktime str s c = None end) /\
    (forall s' b, closed s = true \/ ack s = true -> server mktime str s c = Some (s', b) -> out s' = out s /\ (closed s = true -> ack s = false -> b = false)).
  Proof.
    split; [intros H; destruct c; auto; cbn; now rewrite H|]. intros s' b H.
    assert (R : closed s = true -> forall h data, out (fst (raw_response mktime str s h data)) = out s /\ snd (raw_response mktime str s h data) = false /\ closed (fst (raw_response mktime str s h data)) = true).
    { intros C h data. unfold raw_response, tcp_send. rewrite C. destruct (status h =? 101), (closes mktime (s_fields h)); cbn [fst snd out tcp_shut_down closed]; rewrite ?C; auto. }
    assert (K : forall (A : Type) (x y : A), Some x = Some y -> x = y) by congruence. unfold server. destruct (ack s) eqn:A.
    - destruct c; try discriminate. intros [= <- <-]. split; [reflexivity|discriminate].
    - destruct H as [C|H]; [|discriminate]. specialize (R C). assert (T : forall d, tcp_send s d = (s, false)) by (intros d; unfold tcp_send; now rewrite C).
      assert (Z : forall h d, raw_response mktime str s h d = (s', b) -> out s' = out s /\ (closed s = true -> false = false -> b = false)).
      { intros h d H. specialize (R h d). rewrite H in R. cbn [fst snd] in R. split; [apply R|intros; apply R]. }
      destruct c as [h|head h data|h|data| |st].
      + intros H. apply K in H. eapply Z, H.
      + destruct ((status h <=? 199) || (status h =? 204) || (status h =? 304)); intros H; apply K in H; eapply Z, H.
      + intros H. apply K in H. eapply Z, H.
      + destruct data; rewrite T; intros [= <- <-]; auto.
      + rewrite T. intros [= <- <-]. auto.
      + match goal with |- context [raw_response _ _ _ ?h ?d] => specialize (R h d); destruct (raw_response mktime str s h d) as [s1 b1] end. cbn [fst snd] in R. destruct R as (R1 & R2 & R3).
        intros H. apply K in H. injection H as <- <-. split; [exact R1|]. intros _ _. now rewrite R2, R3.
  Qed.
  Print Assumptions response_after.

  (** What a browser shows of an error: its number and text, as the title and as a heading *)
  Local Definition error_page (n : Z) : list Z :=
    let shown := [48 + n / 100; 48 + n / 10 mod 10; 48 + n mod 10] ++ txt " " ++ str n in
    txt "<html><head><title>" ++ shown ++ txt "</title></head><body><h1>" ++ shown ++ txt "</h1></body></html>".
  (** The error page: the recipient sees the status, and the page as the body, which ends with the connection. *)
  Theorem page_received o st : (forall n, printable (str n)) -> (forall n, str n <> []) ->
    exists s' new n, server mktime str (mkSess false false o) (Shut_down st) = Some (s', true) /\ closed s' = true /\ out s' = o ++ new /\
      (200 <= n <= 599 /\ (200 <= st <= 599 -> n = st) /\ (~ 200 <= st <= 599 -> n = 400)) /\
      receive_response false new = Some (mkR n (str n) [(txt "Content-Type", txt "text/html"); (txt "Connection", txt "close")]
                                           (if (n =? 204) || (n =? 304) then [] else error_page n), if (n =? 204) || (n =? 304) then error_page n else []).
  Proof.
    intros P N. set (n := if (200 <=? st) && (st <=? 599) then st else 400).
    set (h := mkSH n (str n) [(txt "Content-Type", txt "text/html"); (txt "Connection", txt "close")]).
    eexists _, (encode_s str h ++ page str n), n. split; [cbn [server ack]; fold n; fold h; rewrite raw_open by reflexivity; cbv iota beta; reflexivity|].
    split; [reflexivity|]. split; [reflexivity|]. assert (B : 200 <= n <= 599) by (unfold n; destruct ((200 <=? st) && (st <=? 599)) eqn:E; lia).
    split; [unfold n; destruct ((200 <=? st) && (st <=? 599)) eqn:E; lia|].
    assert (W : why str h = str n) by (unfold why, h; cbn [reason]; destruct (str n) eqn:E; [now apply N in E|reflexivity]).
    rewrite receive_head; [|unfold h; cbn [status]; lia|rewrite W; apply P|].
    2:{ unfold h. cbn [s_fields]. apply Forall_cons; [|apply Forall_cons; [|apply Forall_nil]]; unfold lined; cbn [fst snd]; (split; [chars|]); (split; [chars|]); split; reflexivity. }
    rewrite W. unfold h. cbn [status s_fields]. change (filter nonempty _) with [(txt "Content-Type", txt "text/html"); (txt "Connection", txt "close")]. replace (n <? 200) with false by lia. cbn [orb].
    assert (PG : page str n = error_page n) by (unfold page, error_page; rewrite three_digits by lia; cbv zeta; rewrite <- !app_assoc; reflexivity). rewrite PG.
    destruct ((n =? 204) || (n =? 304)); reflexivity.
  Qed.
  Print Assumptions page_received.
End Server.

(** A chunked response with [Connection: close] is cut off: the connection is shut down when its header
    has been sent, and every chunk is ignored. *)
Theorem chunked_close_refuted : exists h ds s bs, let str := fun _ => txt "OK" in
  server_run (fun _ => 0) str (mkSess false false []) (Start_chunked h :: map Send_chunk ds ++ [Finish_chunked]) = Some (s, bs) /\
  Forall good_field (s_fields h) /\ bs = [true; false; false] /\ receive_response false (out s) = None.
Proof.
  exists (mkSH 200 [] [(txt "Connection", txt "close")]), [txt "hello"]. eexists _, _. cbn zeta. split; [vm_compute; reflexivity|]. split; [|split; [reflexivity|vm_compute; reflexivity]].
  apply Forall_cons; [|apply Forall_nil]. unfold good_field. cbn [fst snd]. split; [chars|]. split; [chars|]. split; [reflexivity|]. split; [reflexivity|]. split; reflexivity.
Qed.
Print Assumptions chunked_close_refuted.

(** Values are written as they are, so a line break in one makes another header, or another response. *)
Theorem injection_refuted : exists v, let h := mkSH 204 (txt "N") [(txt "X", v)] in
  receive_responses [false; false] (encode_s (fun _ => []) h) =
  Some ([mkR 204 (txt "N") [(txt "X", txt "a")] []; mkR 200 (txt "F") [] []], []).
Proof. exists (txt "a" ++ crlf ++ crlf ++ txt "HTTP/1.1 200 F"). vm_compute. reflexivity. Qed.
Print Assumptions injection_refuted.

Example response_closes_example : list_value (fun _ => 0) (txt "Upgrade, Close") [txt "Upgrade"; txt "Close"]
  /\ asks_close (fun _ => 0) (txt "CONNECTION", txt "Upgrade, Close")
  /\ exists s bs, server_run (fun _ => 0) (fun _ => txt "OK") (mkSess false false []) [Response false (mkSH 200 [] [(txt "CONNECTION", txt "Upgrade, Close")]) []] = Some (s, bs) /\ closed s = true.
Proof.
  assert (V : list_value (fun _ => 0) (txt "Upgrade, Close") [txt "Upgrade"; txt "Close"]).
  { exists (mkA [] (txt "Upgrade") [] None), [(true, mkA (txt " ") (txt "Close") [] None)], [(true, txt "Close", Null)], Null.
    assert (T : forall t, forallb (fun c => negb (sep c)) t = true -> is_token t).
    { intros t H. apply Forall_forall. intros c Hc. rewrite forallb_forall in H. specialize (H c Hc). apply sep_false. now destruct (sep c). }
    assert (K1 : is_token (txt "Upgrade")) by (apply T; reflexivity). assert (K2 : is_token (txt "Close")) by (apply T; reflexivity).
    assert (N1 : txt "Upgrade" <> []) by discriminate. assert (N2 : txt "Close" <> []) by discriminate. assert (W : Forall is_ws (txt " ")) by (repeat constructor).
    split; [reflexivity|]. split; [|split; [|reflexivity]].
    - unfold attribute. cbn [before label after assigned]. split; [constructor|]. split; [exact K1|]. split; [exact N1|]. split; [constructor|]. split; [right; reflexivity|reflexivity].
    - cbn [attributes]. split; [reflexivity|]. split; [reflexivity|]. split; [|exact I].
      unfold attribute. cbn [before label after assigned]. split; [exact W|]. split; [exact K2|]. split; [exact N2|]. split; [constructor|]. split; [exact I|reflexivity]. }
  split; [exact V|]. split; [split; [reflexivity|]; exists [txt "Upgrade"; txt "Close"]; split; [exact V|]; right; left; reflexivity|].
  eexists _, _. split; reflexivity.
Qed.

Example response_example : let x := Whole false (mkSH 200 [] [(txt "Server", txt "poseidon"); ([], txt "ignored")]) (txt "hello") in let y := Chunked (mkSH 404 (txt "No") []) [txt "abc"; []; txt "de"] in
  good (fun _ => txt "OK") x /\ persists (fun _ => 0) x /\ good (fun _ => txt "OK") y /\ persists (fun _ => 0) y /\
  message_of (fun _ => txt "OK") y = mkR 404 (txt "No") [(txt "Transfer-Encoding", txt "chunked")] (txt "abcde").
Proof.
  cbn zeta. split; [|split; [|split; [|split]]].
  - split; [|cbn; unfold fits; vm_compute; reflexivity]. split; [cbn; lia|]. split; [chars|]. cbn [s_fields header_of].
    apply Forall_cons; [|apply Forall_cons; [|apply Forall_nil]]; unfold good_field; cbn [fst snd]; (split; [chars|]); (split; [chars|]); repeat (split; [reflexivity|]); reflexivity.
  - split; [discriminate|reflexivity].
  - split; [split; [cbn; lia|]; split; [chars|]; apply Forall_nil|]. split; [unfold bodyless; cbn; lia|]. repeat (apply Forall_cons; [unfold fits; vm_compute; reflexivity|]). apply Forall_nil.
  - split; [discriminate|reflexivity].
  - reflexivity.
Qed.

(** * Requests *)
Lemma same_equals n m : HoutSpec.same n m = equals m n.
Proof.
  apply eq_true_iff_eq. rewrite name_equal, <- map_same. split.
  - revert m. induction n as [|x n IH]; intros [|y m]; cbn; try discriminate; [reflexivity|]. rewrite andb_true_iff, Z.eqb_eq. intros [H1 H2]. f_equal; [symmetry; exact H1|]. now apply IH.
  - revert m. induction n as [|x n IH]; intros [|y m]; cbn; try discriminate; [reflexivity|]. intros [= H1 H2]. rewrite andb_true_iff, Z.eqb_eq. split; [symmetry; exact H1|]. now apply IH.
Qed.

(** A request that is not for a proxy gets exactly the host that was chosen: the one of the request, or the
    default of the session, or the remote address.  The first [Host] header is replaced or one is
    appended, and other headers are not touched. *)
Definition chosen (h : c_head) (default remote : list Z) : list Z :=
  if (length (raw_host h) =? 0)%nat then if (length default =? 0)%nat then remote else default else raw_host h.
Lemma replace_host_spec fs v : match replace_host fs v with
  | Some f => exists a n x b, fs = a ++ (n, x) :: b /\ f = a ++ (n, v) :: b /\ HoutSpec.same (txt "Host") n = true /\ lookup (txt "Host") a = []
  | None => lookup (txt "Host") fs = [] end.
Proof.
  induction fs as [|[n x] fs IH]; cbn [replace_host]; [reflexivity|]. destruct (equals n (txt "Host")) eqn:E.
  - exists [], n, x, fs. rewrite same_equals. auto.
  - assert (L : forall q, lookup (txt "Host") ((n, x) :: q) = lookup (txt "Host") q) by (intros q; unfold lookup; cbn [filter fst]; now rewrite same_equals, E).
    destruct (replace_host fs v) as [f|]; [|now rewrite L]. destruct IH as (a & m & y & b & -> & -> & S & H). exists ((n, x) :: a), m, y, b. rewrite L. auto.
Qed.
Theorem request_host h default remote : is_proxy h = false ->
  let fs := c_fields (set_request_host h default remote) in
  lookup (txt "Host") fs = chosen h default remote :: tl (lookup (txt "Host") (c_fields h)) /\
  (forall n, HoutSpec.same n (txt "Host") = false -> lookup n fs = lookup n (c_fields h)) /\
  target (set_request_host h default remote) = target h.
Proof.
  intros P. unfold set_request_host. rewrite P. set (v := match raw_host h with [] => _ | r => r end).
  assert (V : v = chosen h default remote) by (unfold v, chosen; destruct (raw_host h), default; reflexivity).
  rewrite V. cbn [c_fields set_fields]. pose proof (replace_host_spec (c_fields h) (chosen h default remote)) as R. cbn zeta.
  assert (C : forall n m, HoutSpec.same n (txt "Host") = false -> HoutSpec.same (txt "Host") m = true -> HoutSpec.same n m = false).
  { intros n m N M. destruct (HoutSpec.same n m) eqn:X; [|reflexivity]. rewrite same_equals, name_equal, <- map_same in X, M. rewrite <- N. symmetry. rewrite same_equals, name_equal, <- map_same. congruence. }
  destruct (replace_host (c_fields h) (chosen h default remote)) as [f|].
  - destruct R as (a & n & x & b & -> & -> & S & L). split; [|split].
    + rewrite !lookup_app, L. cbn [app]. unfold lookup. cbn [filter fst]. rewrite S. reflexivity.
    + intros m M. rewrite !lookup_app. f_equal. unfold lookup. cbn [filter fst]. rewrite (C m n M S). reflexivity.
    + unfold target, set_fields. cbn [is_proxy raw_path raw_query]. rewrite P. reflexivity.
  - split; [|split].
    + rewrite lookup_app, R. reflexivity.
    + intros m M. rewrite lookup_app. unfold lookup at 2. cbn [filter fst]. rewrite M. cbn. apply app_nil_r.
    + unfold target, set_fields. cbn [is_proxy raw_path raw_query]. rewrite P. reflexivity.
Qed.
Print Assumptions request_host.

Section Client.
  Variables default remote : list Z.

  Inductive sending := Plain (h : c_head) (data : list Z) | Pieces (h : c_head) (ds : list (list Z)).
  Definition calls_for (x : sending) : list request_call :=
    match x with Plain h data => [Request h data] | Pieces h ds => Start_request h :: map Send_piece ds ++ [Finish_request] end.
  Definition head_for (x : sending) : c_head := match x with Plain h _ | Pieces h _ => h end.
  (** The server is to see the method, the target, the headers with a host, and the body. *)
  Definition request_of (x : sending) : request :=
    let h := set_request_host (head_for x) default remote in
    match x with
    | Plain _ data => mkQ (method_text (method h)) (target (head_for x))
                        (named (c_fields h) ++ if (length data =? 0)%nat then [] else [(txt "Content-Length", put_du 20 (Z.of_nat (length data)))]) data
    | Pieces _ ds => mkQ (method_text (method h)) (target (head_for x)) (named (c_fields h) ++ [(txt "Transfer-Encoding", txt "chunked")]) (List.concat ds)
    end.
  Definition word (s : list Z) : Prop := Forall (fun c => c <> 32 /\ c <> 9 /\ c <> 13 /\ c <> 10) s.
  Definition good_value (v : list Z) : Prop := printable v /\ neat v /\ neat (rev v).
  Definition good_request (x : sending) : Prop :=
    let h := head_for x in
    word (method h) /\ word (raw_userinfo h) /\ word (raw_host h) /\ word (raw_path h) /\ word (raw_query h) /\ 0 <= port h < 65536 /\
    Forall good_field (c_fields h) /\ match x with Plain _ data => fits data | Pieces _ ds => Forall fits ds end.
  Hypothesis good_default : good_value default /\ good_value remote.

  Lemma word_app a b : word a -> word b -> word (a ++ b).
  Proof. intros. apply Forall_app. auto. Qed.
  Lemma word_printable a : word a -> printable a.
  Proof. intros H. eapply Forall_impl; [|exact H]. cbn. tauto. Qed.
  Lemma word_cut a b : word a -> cut 32 (a ++ 32 :: b) = Some (a, b).
  Proof. intros H. apply cut_app. eapply Forall_impl; [|exact H]. cbn. tauto. Qed.
  Ltac word := cbn; repeat (apply Forall_cons; [lia|]); apply Forall_nil.
  Lemma method_word m : word m -> word (method_text m) /\ method_text m <> [].
  Proof.
    intros H. unfold method_text. destruct m as [|c m]; [split; [word|discriminate]|]. destruct (Z.eqb_spec c 0) as [->|N]; [split; [word|discriminate]|].
    split.
    - pose proof (until_spec (fun c => c =? 0) (firstn 8 (c :: m))) as U. destruct (until (fun c => c =? 0) (firstn 8 (c :: m))) as [a b]. destruct U as (E & _). cbn [fst].
      assert (F : word (firstn 8 (c :: m))) by (unfold word in *; rewrite <- (firstn_skipn 8 (c :: m)) in H; now apply Forall_app in H). rewrite E in F. now apply Forall_app in F.
    - change (firstn 8 (c :: m)) with (c :: firstn 7 m). cbn [until]. replace (c =? 0) with false by lia. destruct (until (fun c => c =? 0) (firstn 7 m)). discriminate.
  Qed.
  Lemma target_word h : word (raw_userinfo h) -> word (raw_host h) -> word (raw_path h) -> word (raw_query h) -> 0 <= port h < 65536 -> word (target h) /\ target h <> [].
  Proof.
    intros U H P Q R. assert (D : word (put_du 20 (port h))).
    { destruct (put_du_spec 20 (port h)) as (_ & D & _); [change (10 ^ Z.of_nat 20) with 100000000000000000000; lia|lia|]. eapply Forall_impl; [|exact D]. unfold decimal. intros; lia. }
    unfold target. set (p := if negb (hd 0 (raw_path h) =? 47) then 47 :: raw_path h else raw_path h).
    assert (Np : p <> []) by (unfold p; destruct (raw_path h) as [|c r]; [discriminate|]; destruct (negb (hd 0 (c :: r) =? 47)); discriminate).
    split.
    - apply word_app; [|apply word_app].
      + destruct (is_proxy h); [|apply Forall_nil]. apply word_app; [destruct (is_ssl h); word|]. apply word_app; [destruct (raw_userinfo h) eqn:E; [apply Forall_nil|rewrite <- E in *; apply word_app; [exact U|word]]|].
        apply word_app; [exact H|]. destruct (negb (port h =? 0)); [apply Forall_cons; [lia|exact D]|apply Forall_nil].
      + unfold p. destruct (negb _); [apply Forall_cons; [lia|exact P]|exact P].
      + destruct (raw_query h) eqn:E; [apply Forall_nil|]. apply Forall_cons; [lia|exact Q].
    - intros E. apply app_eq_nil in E as [_ E]. apply app_eq_nil in E as [E _]. auto.
  Qed.
  Lemma word_value s : word s -> good_value s.
  Proof.
    intros H. assert (N : forall s, word s -> neat s) by (intros t; destruct 1 as [|c t X _]; [exact I|]; cbn; unfold white; lia).
    split; [now apply word_printable|]. split; [now apply N|]. apply N. unfold word. apply Forall_rev. exact H.
  Qed.

  Lemma receive_c h r : word (method_text (method h)) -> method_text (method h) <> [] -> word (target h) -> target h <> [] -> Forall lined (c_fields h) ->
    receive_request (encode_c h ++ r) = match body false (filter nonempty (c_fields h)) r with
                                        | Some (b, r) => Some (mkQ (method_text (method h)) (target h) (filter nonempty (c_fields h)) b, r)
                                        | None => None end.
  Proof.
    intros M M' T T' L. unfold receive_request.
    assert (E : encode_c h ++ r = (method_text (method h) ++ 32 :: target h ++ 32 :: txt "HTTP/1.1") ++ crlf ++ lines (filter nonempty (c_fields h)) ++ crlf ++ r).
    { unfold encode_c. rewrite <- !app_assoc. rewrite (encode_lines (c_fields h) (crlf ++ r)). cbn [app]. f_equal. f_equal. rewrite <- app_assoc. reflexivity. }
    rewrite E. rewrite line_app.
    2:{ apply Forall_app. split; [now apply word_printable|]. apply Forall_cons; [lia|]. apply Forall_app. split; [now apply word_printable|]. chars. }
    unfold request_line. rewrite word_cut by exact M. rewrite word_cut by exact T. change (strip (txt "HTTP/1.1") (txt "HTTP/1.1")) with (Some (@nil Z)).
    destruct (method_text (method h)) as [|m0 m] eqn:Em; [congruence|]. destruct (target h) as [|t0 t] eqn:Et; [congruence|].
    rewrite field_lines_back; [reflexivity| | |].
    - apply Forall_forall. intros f I. apply filter_In in I as [I _]. rewrite Forall_forall in L. auto.
    - apply Forall_forall. intros f I. apply filter_In in I. tauto.
    - pose proof (lines_length (filter nonempty (c_fields h))). rewrite app_length. lia.
  Qed.

  Lemma host_good h : word (raw_host h) -> Forall good_field (c_fields h) -> Forall good_field (c_fields (set_request_host h default remote)).
  Proof.
    intros W G. unfold set_request_host. destruct (is_proxy h); [exact G|]. set (v := match raw_host h with [] => _ | r => r end).
    assert (V : good_value v) by (unfold v; destruct (raw_host h) eqn:E; [pose proof good_default as [D1 D2]; destruct default; assumption|apply word_value; exact W]).
    cbn [c_fields set_fields]. pose proof (replace_host_spec (c_fields h) v) as R. destruct (replace_host (c_fields h) v) as [f|].
    - destruct R as (a & n & x & b & E & -> & _ & _). rewrite E in G. apply Forall_app in G as [G1 G2]. inversion G2 as [|? ? G3 G4]; subst. apply Forall_app. split; [exact G1|]. apply Forall_cons; [|exact G4].
      unfold good_field in *. cbn [fst snd] in *. unfold good_value in V. tauto.
    - apply Forall_app. split; [exact G|]. apply Forall_cons; [|apply Forall_nil]. unfold good_field. cbn [fst snd]. unfold good_value in V. split; [chars|]. split; [tauto|]. split; [tauto|]. split; [tauto|]. split; reflexivity.
  Qed.
  Lemma host_method h : method (set_request_host h default remote) = method h.
  Proof. unfold set_request_host. destruct (is_proxy h); reflexivity. Qed.
  Lemma host_target h : target (set_request_host h default remote) = target h.
  Proof. destruct (is_proxy h) eqn:P; [unfold set_request_host; now rewrite P|]. now apply request_host. Qed.
  Lemma fields_target h f : target (set_fields h (raw_host h) f) = target h.
  Proof. destruct h. reflexivity. Qed.

  Definition request_octets (x : sending) : list Z :=
    let h := set_request_host (head_for x) default remote in
    match x with
    | Plain _ data => encode_c (match data with [] => h | _ => set_fields h (raw_host h) (c_fields h ++ [length_field data]) end) ++ data
    | Pieces _ ds => encode_c (set_fields h (raw_host h) (c_fields h ++ [chunked_field])) ++ pieces ds ++ last_chunk
    end.
  Lemma receive_request_octets x r : good_request x -> receive_request (request_octets x ++ r) = Some (request_of x, r).
  Proof.
    intros (M & U & H & P & Q & N & G & X). destruct (method_word _ M) as [M1 M2]. destruct (target_word (head_for x) U H P Q N) as [T1 T2].
    pose proof (host_good (head_for x) H G) as G'. set (h := set_request_host (head_for x) default remote) in *.
    assert (Eh : method h = method (head_for x)) by apply host_method. assert (Et : target h = target (head_for x)) by apply host_target.
    assert (L : Forall lined (c_fields h)) by (eapply Forall_impl; [|exact G']; apply good_lined).
    destruct x as [h0 data|h0 ds]; unfold request_octets, request_of; cbn [head_for] in *; fold h; rewrite named_eq.
    - destruct data as [|c data].
      + rewrite app_nil_r. rewrite receive_c; rewrite ?Eh, ?Et; auto. unfold body. apply filter_good in G'. rewrite (good_te _ G'), (good_cl _ G'). cbn [length]. rewrite app_nil_r. reflexivity.
      + rewrite <- app_assoc. rewrite receive_c; rewrite ?fields_target; cbn [method set_fields c_fields]; rewrite ?Eh, ?Et; auto.
        2:{ apply Forall_app. split; [exact L|]. constructor; [apply length_lined; exact X|constructor]. }
        rewrite filter_snoc by reflexivity. rewrite body_length by auto. reflexivity.
    - rewrite <- !app_assoc. rewrite receive_c; rewrite ?fields_target; cbn [method set_fields c_fields]; rewrite ?Eh, ?Et; auto.
      2:{ apply Forall_app. split; [exact L|]. constructor; [apply chunked_lined|constructor]. }
      rewrite filter_snoc by reflexivity. rewrite body_chunked by auto. reflexivity.
  Qed.
  Lemma client_pieces ds : forall o, client_run default remote (mkSess false false o) (map Send_piece ds ++ [Finish_request]) =
    Some (mkSess false false (o ++ pieces ds ++ last_chunk), repeat true (S (length ds))).
  Proof.
    unfold pieces. induction ds as [|d ds IH]; intros o; [reflexivity|]. cbn [map app]. destruct d as [|c d].
    - cbn [client_run client ack]. unfold tcp_send. cbn [closed ack out]. rewrite app_nil_r, IH. reflexivity.
    - cbn [client_run client ack]. unfold tcp_send. cbn [closed ack out]. rewrite IH. cbn [map List.concat length repeat]. rewrite <- !app_assoc. reflexivity.
  Qed.
  Lemma client_exchange x o : client_run default remote (mkSess false false o) (calls_for x) = Some (mkSess false false (o ++ request_octets x), repeat true (length (calls_for x))).
  Proof.
    destruct x as [h data|h ds]; unfold request_octets; cbn [calls_for head_for].
    - cbn [client_run client ack]. unfold tcp_send. cbn [closed ack out]. reflexivity.
    - cbn [client_run client ack]. unfold tcp_send. cbn [closed ack out]. rewrite client_pieces. rewrite <- !app_assoc. cbn [length]. rewrite app_length, map_length. cbn [length]. rewrite Nat.add_1_r. reflexivity.
  Qed.
  Lemma client_app s a : forall b s1 l1, client_run default remote s a = Some (s1, l1) ->
    client_run default remote s (a ++ b) = match client_run default remote s1 b with Some (s2, l2) => Some (s2, l1 ++ l2) | None => None end.
  Proof.
    revert s. induction a as [|c a IH]; intros s b s1 l1 H; cbn [client_run app] in *.
    - injection H as <- <-. destruct (client_run default remote s b) as [[s2 l2]|]; reflexivity.
    - destruct (client default remote s c) as [[s' x]|]; [|discriminate]. destruct (client_run default remote s' a) as [[s'' l]|] eqn:E; [|discriminate]. injection H as <- <-.
      rewrite (IH s' b s'' l E). destruct (client_run default remote s'' b) as [[s2 l2]|]; reflexivity.
  Qed.

  (** C52.  Any sequence of requests is read by the server as those requests, in order. *)
  Theorem requests_received xs o : Forall good_request xs ->
    exists bs new, client_run default remote (mkSess false false o) (flat_map calls_for xs) = Some (mkSess false false (o ++ new), bs) /\
      Forall (fun b => b = true) bs /\ receive_requests (length xs) new = Some (map request_of xs, []).
  Proof.
    intros G. exists (repeat true (length (flat_map calls_for xs))), (flat_map request_octets xs). split; [|split].
    - revert o. induction xs as [|x xs IH]; intros o; [cbn; now rewrite app_nil_r|]. inversion G as [|? ? G1 G2]; subst. cbn [flat_map].
      rewrite (client_app _ _ _ _ _ (client_exchange x o)). rewrite IH by auto. rewrite app_length, repeat_app, <- app_assoc. reflexivity.
    - apply Forall_forall. intros b I. now apply repeat_spec in I.
    - induction G as [|x xs G1 G2 IH]; [reflexivity|]. cbn [map flat_map length receive_requests]. rewrite receive_request_octets by exact G1. rewrite IH by auto. reflexivity.
  Qed.
End Client.
Print Assumptions requests_received.

Example request_example : let x := Plain (mkCH (txt "POST" ++ [0;0;0;0]) false false 0 [] [] (txt "/a") (txt "b=c") [(txt "Accept", txt "*/*")]) (txt "hello") in
  good_value (txt "example.org") /\ good_request x /\
  request_of (txt "example.org") (txt "[::1]:80") x = mkQ (txt "POST") (txt "/a?b=c") [(txt "Accept", txt "*/*"); (txt "Host", txt "example.org"); (txt "Content-Length", txt "5")] (txt "hello").
Proof.
  cbn zeta. split; [split; [chars|split; reflexivity]|]. split; [|vm_compute; reflexivity]. unfold good_request, head_for. cbn [method raw_userinfo raw_host raw_path raw_query port c_fields].
  assert (W : forall s, forallb (fun c => negb ((c =? 32) || (c =? 9) || (c =? 13) || (c =? 10))) s = true -> word s).
  { intros s H. apply Forall_forall. intros c I. rewrite forallb_forall in H. specialize (H c I). lia. }
  do 5 (split; [apply W; reflexivity|]). split; [lia|]. split; [|unfold fits; vm_compute; reflexivity].
  apply Forall_cons; [|apply Forall_nil]. unfold good_field. cbn [fst snd]. split; [chars|]. split; [chars|]. repeat (split; [reflexivity|]). reflexivity.
Qed.
