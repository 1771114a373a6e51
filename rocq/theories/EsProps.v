(** C76, C77: easy HTTP and WebSocket servers and clients. *)
From Coq Require Import ZArith List Bool String Lia.
From Verif Require Import Base Text EsModel EsSpec EsProofs EsHttpProofs EsWsProofs.
From Verif Require HreqModel HreqSpec HreqProps HrespModel HrespSpec HrespProps WsModel WsMoreProofs WsProps WshModel WshProps.
Import ListNotations.
Open Scope list_scope.
Open Scope Z_scope.
Notation length := List.length.

(** * C76, for any kind of events and any schedule: the callback takes turns; it is never called for two events of a session at a
    time, and it is called for events in the order in which they have happened, up to the one that closes the session.  What
    callbacks do for an event, and what the fiber does after them, comes before all that is done for the next one. *)
Theorem events_in_turn {E X} (K : kind E X) xs st :
  run K init xs = Some st ->
  exists ts now,
    takes_turns K (log st) ts now
    /\ prefix_of (events_of ts now) (upto (closes K) (pushes xs))
    /\ done_to (log st) = flat_map (fun t => t_user t ++ t_own t) ts ++ match now with Some t => t_user t | None => [] end
    /\ (undisturbed xs -> quiet st -> now = None /\ events_of ts now = upto (closes K) (pushes xs)).
Proof.
  intros R. pose proof (run_inv K xs _ _ _ _ (init_inv K) R) as (o & ts & now & Lo & Tu & Ma & Ok & En). cbn [app andb] in En. exists ts, now. split; [exact Tu|].
  assert (P : prefix_of (events_of ts now) (upto (closes K) (pushes xs))).
  { destruct (entry st) as [[es a]|]; [|apply En]. destruct En as (<- & E2 & _). rewrite upto_app, (upto_none _ _ E2), E2. now exists (upto (closes K) es). }
  split; [exact P|]. split; [now apply (turns_done K)|]. intros U Q. pose proof (lone_quiet _ _ Lo Q) as ->. cbn [matches] in Ma.
  assert (N : now = None) by (destruct now; [destruct Ma|reflexivity]). split; [exact N|].
  destruct (entry st) as [[es a]|].
  - destruct En as (<- & E2 & _ & E4). rewrite (E4 eq_refl), app_nil_r. now rewrite upto_none.
  - apply En. rewrite (undisturbed_fine _ U). reflexivity.
Qed.
Print Assumptions events_in_turn.

(** Whatever has happened, fibers come to an end if their callbacks return. *)
Theorem fibers_settle {E X} (K : kind E X) xs st :
  run K init xs = Some st ->
  exists ys st', Forall (fun y => match y with Pop _ | Return _ _ => True | _ => False end) ys
    /\ run K init (xs ++ ys) = Some st' /\ quiet st'.
Proof.
  intros R. destruct (settle K (S (todo st)) _ _ st (Nat.lt_succ_diag_r _) (run_inv K xs _ _ _ _ (init_inv K) R)) as (ys & st' & Y1 & _ & Y3 & Y4). exists ys, st'. split; [exact Y1|]. split; [|exact Y4].
  clear -R Y3. revert R. generalize (@init E X). induction xs as [|x xs IH]; intros s R; cbn [run app] in *; [now injection R as ->|]. destruct (step K s x); [now apply IH|discriminate].
Qed.
Print Assumptions fibers_settle.

(** Two requests and a closure, while the callback for the first one is suspended; it then throws an exception. *)
Definition ex_req (p : string) : server_event := mkSE easy_http_message (HreqModel.mkH (txt "GET") false false 0 (txt "h") [] (txt p) [] []) [] false false 0.
Definition ex_xs : list (event server_event action) :=
  [Push http_opened Fine; Pop 0; Push (ex_req "/a") Fine; Return 0 false; Pop 0; Act 0 (Reply 1); Push (ex_req "/b") Fine; Push (http_closed (txt "ok")) Fine;
   Act 0 (Reply 2); Return 0 true; Pop 0; Act 0 (Reply 3); Return 0 false; Pop 0; Return 0 false; Pop 0].
Example events_in_turn_case :
  match run http_server init ex_xs with
  | Some st => undisturbed ex_xs /\ quiet st /\ calls http_server (log st) = [http_opened; ex_req "/a"; ex_req "/b"; http_closed (txt "ok")] /\ done_to (log st) = [Reply 1; Reply 2; Kill; Reply 3]
  | None => False
  end.
Proof. vm_compute. repeat constructor. Qed.

(** * C76, HTTP servers *)
Lemma not_closing junk evs : junk <> easy_http_close -> existsb (fun e => se_type e =? easy_http_close) (http_opened :: flat_map (http_told junk) evs) = false.
Proof.
  intros J. cbn [existsb http_opened se_type]. change (easy_http_open =? easy_http_close) with false. cbn [orb]. induction evs as [|e evs IH]; [reflexivity|]. cbn [flat_map]. rewrite existsb_app, IH, orb_false_r.
  assert (R : forall a b, existsb (fun e => se_type e =? easy_http_close) [refusal junk a b] = false) by (intros a b; cbn [existsb refusal se_type]; rewrite orb_false_r; unfold easy_http_close in *; lia).
  destruct e; try reflexivity; cbn [http_told]; [destruct (HreqModel.is_proxy h); [apply R|reflexivity]|apply R].
Qed.
Lemma upto_server junk evs closed : junk <> easy_http_close ->
  upto (closes http_server) (http_opened :: flat_map (http_told junk) evs ++ match closed with Some err => [http_closed err] | None => [] end)
  = http_opened :: flat_map (http_told junk) evs ++ match closed with Some err => [http_closed err] | None => [] end.
Proof.
  intros J. pose proof (not_closing junk evs J) as N. rewrite app_comm_cons. cbn [closes http_server]. rewrite upto_app, N, (upto_none _ _ N). destruct closed; reflexivity.
Qed.

(** Every request that is acceptable is passed to the callback, with its headers and its payload, in order and once, however
    the stream is cut and whatever fibers do in between; before them, the callback is told that the connection has been opened, and after
    them that it has been closed.  [whole_requests] is the number of requests that have arrived completely.  Replies are in the
    order of requests; if a connection shall not be kept alive, it is shut down after the reply to the last request; after
    an exception, at once. *)
Theorem http_server_serves junk L mqs calls css todo closed xs st :
  junk <> easy_http_close -> 0 <= HreqModel.max_content_length L ->
  Forall (fun mq => HreqSpec.acceptable L (fst mq) (snd mq) /\ HreqSpec.q_proxy (snd mq) = false) mqs ->
  Forall2 (fun mq cs => HreqSpec.message_calls (fst mq) cs) mqs calls -> List.concat css ++ todo = List.concat calls ->
  pushes xs = http_server_events junk L css closed -> run http_server init xs = Some st ->
  let all := opening :: map request_of (firstn (whole_requests (List.concat css)) mqs) ++ match closed with Some err => [closing err] | None => [] end in
  exists ts now,
    takes_turns http_server (log st) ts now
    /\ prefix_of (map sees (events_of ts now)) all
    /\ EsSpec.calls http_server (log st) = events_of ts now
    /\ done_to (log st) = flat_map (fun t => t_user t ++ t_own t) ts ++ match now with Some t => t_user t | None => [] end
    /\ Forall (fun t => t_own t = [Kill] \/ t_own t = if se_eot (t_event t) then [Shut] else []) ts
    /\ (undisturbed xs -> quiet st -> now = None /\ map sees (events_of ts now) = all).
Proof.
  intros J L1 Ac F E P R all. destruct (events_in_turn http_server xs st R) as (ts & now & Tu & Pr & Do & Qu). exists ts, now.
  assert (Ac1 : Forall (fun mq => HreqSpec.acceptable L (fst mq) (snd mq)) mqs) by (eapply Forall_impl; [|exact Ac]; intros x [H _]; exact H).
  assert (Ac2 : Forall (fun mq => HreqSpec.q_proxy (snd mq) = false) mqs) by (eapply Forall_impl; [|exact Ac]; intros x [_ H]; exact H).
  pose proof (HreqProps.requests_prompt L base_application mqs calls css todo base_plain L1 Ac1 F E) as RP.
  assert (TE : flat_map (http_told junk) (HreqModel.trace (HreqModel.run L base_application HreqModel.start (map HreqModel.Data css)))
    = map (fun mq => mkSE easy_http_message (HreqSpec.headers_of (fst mq) (snd mq) (HreqSpec.m_fields (fst mq) ++ HreqSpec.m_trailers (fst mq))) (HreqSpec.payload_of (fst mq)) (negb (HreqSpec.m_keep (fst mq))) false 0) (firstn (whole_requests (List.concat css)) mqs)).
  { rewrite <- (told_whole junk).
    - change (map HreqModel.Data css) with (HreqSpec.data css). rewrite RP, told_firstn by exact Ac2. now rewrite (whole_half mqs calls _ _ F E).
    - apply (run_bare L base_application (fun _ => eq_refl)). constructor. }
  unfold http_server_events in P. rewrite TE in P. set (ms := firstn (whole_requests (List.concat css)) mqs) in *.
  assert (UP : upto (closes http_server) (pushes xs) = pushes xs).
  { rewrite P. rewrite <- TE. now apply upto_server. }
  assert (SP : map sees (pushes xs) = all).
  { rewrite P. unfold all. cbn [map]. rewrite map_app, map_map. destruct closed; reflexivity. }
  assert (SV : Forall (fun e => served http_server e = true) (pushes xs)).
  { rewrite P. constructor; [reflexivity|]. apply Forall_app. split; [apply Forall_map, Forall_forall; reflexivity|]. destruct closed; repeat constructor. }
  assert (SE : Forall (fun e => served http_server e = true) (events_of ts now)).
  { destruct Pr as [c Pr]. rewrite UP in Pr. rewrite Pr in SV. now apply Forall_app in SV. }
  split; [exact Tu|]. split; [|split; [|split; [exact Do|split]]].
  - destruct Pr as [c Pr]. rewrite <- SP, <- UP, Pr, map_app. now exists (map sees c).
  - unfold EsSpec.calls. rewrite (turns_taken http_server _ _ _ Tu). clear -SE. induction SE as [|e es H SE IH]; [reflexivity|]. cbn [filter]. rewrite H. now f_equal.
  - destruct Tu as (_ & Pp & _). unfold events_of in SE. apply Forall_app in SE as [SE _]. clear -Pp SE. induction Pp as [|t ts [_ [threw Pt]] Pp IH]; [constructor|]. cbn [map] in SE. inversion SE as [|? ? S1 S2]; subst. constructor; [|exact (IH S2)].
    rewrite Pt. cbn [finish http_server]. destruct threw; [now left|right]. cbn [served http_server] in S1. now rewrite S1.
  - intros U Q. destruct (Qu U Q) as [N A]. split; [exact N|]. now rewrite A, UP.
Qed.
Print Assumptions http_server_serves.

(** The example of C58, without the request to a proxy: the connection is closed after the first reply *)
Definition ex_mqs : list (HreqSpec.message * HreqSpec.resource) := [(HreqProps.ex_m1, HreqProps.ex_q1)].
Definition ex_css : list (list HreqModel.call) := firstn 6 HreqProps.ex_css ++ [firstn 4 (nth 6 HreqProps.ex_css [])].
Definition ex_hxs : list (event server_event action) := map (fun e => Push e Fine) (http_server_events 0 HreqProps.ex_L ex_css (Some (txt "ok"))) ++ [Pop 0; Return 0 false; Pop 0; Act 0 (Reply 1); Return 0 false; Pop 0; Return 0 false; Pop 0].
Example http_server_case :
  Forall (fun mq => HreqSpec.acceptable HreqProps.ex_L (fst mq) (snd mq) /\ HreqSpec.q_proxy (snd mq) = false) ex_mqs
  /\ Forall2 (fun mq cs => HreqSpec.message_calls (fst mq) cs) ex_mqs [List.concat ex_css]
  /\ match run http_server init ex_hxs with
     | Some st => undisturbed ex_hxs /\ quiet st /\ map sees (EsSpec.calls http_server (log st)) = [opening; request_of (HreqProps.ex_m1, HreqProps.ex_q1); closing (txt "ok")]
         /\ snd (request_of (HreqProps.ex_m1, HreqProps.ex_q1)) = txt "abcde"
     | None => False
     end.
Proof.
  destruct HreqProps.requests_arrive_case as (_ & A & _). split; [constructor; [split; [exact A|reflexivity]|constructor]|]. split; [|vm_compute; repeat constructor].
  constructor; [|constructor]. set (c1 := List.concat ex_css). cbn [fst snd].
  exists (firstn 8 c1), (firstn 5 (skipn 9 c1)). split; [|split; [|reflexivity]].
  + exists (firstn 2 c1), (firstn 6 (skipn 2 c1)). split; [|split; [|reflexivity]].
    * exists [txt "/a"; txt "?b=c"]. repeat split. discriminate.
    * exists [firstn 4 (skipn 2 c1); firstn 2 (skipn 6 c1)]. split; [|reflexivity]. repeat constructor.
      -- exists [HreqModel.Field (txt "Ho"); HreqModel.Field (txt "st")], [HreqModel.Value (txt "x."); HreqModel.Value (txt "org")]. split; [|split; [|reflexivity]].
         ++ exists [txt "Ho"; txt "st"]. repeat split. discriminate.
         ++ exists [txt "x."; txt "org"]. repeat split. discriminate.
      -- exists [HreqModel.Field (txt "TE")], [HreqModel.Value []]. split; [|split; [|reflexivity]].
         ++ exists [txt "TE"]. repeat split. discriminate.
         ++ exists [txt ""]. repeat split. discriminate.
  + exists (firstn 3 (skipn 9 c1)), (firstn 2 (skipn 12 c1)). split; [|split; [|reflexivity]].
    * exists [txt "ab"; txt "c"; txt "de"]. repeat split.
    * exists [firstn 2 (skipn 12 c1)]. split; [|reflexivity]. repeat constructor. exists [HreqModel.Field (txt "D")], [HreqModel.Value (txt "1")]. split; [|split; [|reflexivity]].
      -- exists [txt "D"]. repeat split. discriminate.
      -- exists [txt "1"]. repeat split. discriminate.
Qed.

(** What else may be in a stream: an error is answered with its status, after all replies to what came before it, and then the
    connection is shut down.  The callback does not see it. *)
Theorem http_server_errors junk L css evs closed xs st :
  junk <> easy_http_close -> 0 <= HreqModel.max_content_length L ->
  HreqSpec.stream L base_application (List.concat css) evs ->
  pushes xs = http_server_events junk L css closed -> run http_server init xs = Some st ->
  let all := http_opened :: flat_map (http_told junk) evs ++ match closed with Some err => [http_closed err] | None => [] end in
  exists ts now,
    takes_turns http_server (log st) ts now
    /\ prefix_of (events_of ts now) all
    /\ done_to (log st) = flat_map (fun t => t_user t ++ t_own t) ts ++ match now with Some t => t_user t | None => [] end
    /\ Forall (fun t => t_own t = [Kill] \/ t_own t = if se_status (t_event t) =? 0 then if se_eot (t_event t) then [Shut] else [] else [Answer (se_head (t_event t)) (se_status (t_event t))]) ts
    /\ Forall (fun t => se_status (t_event t) <> 0 -> t_user t = []) ts
    /\ (undisturbed xs -> quiet st -> now = None /\ events_of ts now = all
        /\ forall head status, In (HreqModel.On_error head status) evs ->
             exists t, In t ts /\ se_head (t_event t) = head /\ se_status (t_event t) = status).
Proof.
  intros J L1 S P R all. destruct (events_in_turn http_server xs st R) as (ts & now & Tu & Pr & Do & Qu). exists ts, now.
  assert (S' : HreqSpec.stream L base_application (List.concat css ++ []) evs) by (now rewrite app_nil_r).
  destruct (HreqProps.requests_arrive L base_application css [] evs base_plain L1 S') as (rem & W & RN). rewrite (RN eq_refl), app_nil_r in W.
  assert (TE : pushes xs = all).
  { rewrite P. unfold http_server_events, all. rewrite <- (told_whole junk); [change (map HreqModel.Data css) with (HreqSpec.data css); now rewrite W|].
    apply (run_bare L base_application (fun _ => eq_refl)). constructor. }
  assert (UP : upto (closes http_server) (pushes xs) = all) by (rewrite TE; now apply upto_server).
  rewrite UP in *. split; [exact Tu|]. split; [exact Pr|]. split; [exact Do|]. split; [|split].
  - destruct Tu as (_ & Pp & _). eapply Forall_impl; [|exact Pp]. intros t [_ [threw Pt]]. rewrite Pt. cbn [finish http_server]. destruct threw; auto.
  - destruct Tu as (_ & Pp & _). eapply Forall_impl; [|exact Pp]. intros t [Us _] N. apply Us. cbn [served http_server]. now apply Z.eqb_neq.
  - intros U Q. destruct (Qu U Q) as [-> Ev]. split; [reflexivity|]. split; [exact Ev|]. intros head status I.
    assert (I2 : In (refusal junk head status) (events_of ts None)).
    { rewrite Ev. unfold all. right. apply in_or_app. left. apply in_flat_map. eexists. split; [exact I|]. now left. }
    unfold events_of in I2. rewrite app_nil_r in I2. apply in_map_iff in I2 as (t & E & I2). exists t. rewrite E. auto.
Qed.
Print Assumptions http_server_errors.
Definition ex_exs : list (event server_event action) := map (fun e => Push e Fine) (http_server_events 0 HreqProps.ex_L [[HreqModel.Fail HreqModel.HPE_INVALID_VERSION]] (Some (txt "ok"))) ++ [Pop 0; Return 0 false; Pop 0; Return 0 false; Pop 0; Return 0 false; Pop 0].
Example http_server_errors_case :
  HreqSpec.stream HreqProps.ex_L base_application (List.concat [[HreqModel.Fail HreqModel.HPE_INVALID_VERSION]]) [HreqModel.On_error false 505]
  /\ match run http_server init ex_exs with
     | Some st => undisturbed ex_exs /\ quiet st /\ done_to (log st) = [Answer false 505] /\ EsSpec.calls http_server (log st) = [http_opened; http_closed (txt "ok")]
     | None => False
     end.
Proof.
  split; [|vm_compute; repeat constructor]. apply (HreqSpec.S_error HreqProps.ex_L base_application (HreqSpec.mkM [] [] [] [] [] true) [] [HreqModel.Url []] HreqModel.HPE_INVALID_VERSION []); [|vm_compute; discriminate].
  exists [HreqModel.Url []], []. split; [exists [[]]; repeat split; discriminate|]. split; [exists []; split; [constructor|reflexivity]|reflexivity].
Qed.

(** [easy_http_server.cpp:192-203] does not set [type]: it may happen to be [easy_http_close].  Then the session is forgotten, and
    the callback is never told that the connection has been closed. *)
Theorem http_closure_lost_refuted :
  exists css xs st, pushes xs = http_server_events easy_http_close HreqProps.ex_L css (Some []) /\ undisturbed xs
    /\ run http_server init xs = Some st /\ quiet st /\ EsSpec.calls http_server (log st) = [http_opened].
Proof.
  exists [[HreqModel.Fail HreqModel.HPE_OTHER]], (map (fun e => Push e Fine) (http_server_events easy_http_close HreqProps.ex_L [[HreqModel.Fail HreqModel.HPE_OTHER]] (Some [])) ++ [Pop 0; Return 0 false; Pop 0; Return 0 false; Pop 0]).
  eexists. split; [vm_compute; reflexivity|]. split; [vm_compute; repeat constructor|]. split; [vm_compute; reflexivity|]. vm_compute. repeat constructor.
Qed.
Print Assumptions http_closure_lost_refuted.

(** [http_server_session.cpp:118-124]: a request to a proxy is refused with 403, and yet passed to the callback, whose reply
    follows the refusal. *)
Theorem http_proxy_refused_refuted :
  exists css xs st, pushes xs = http_server_events 0 HreqProps.ex_L css None /\ undisturbed xs /\ run http_server init xs = Some st
    /\ done_to (log st) = [Answer false 403; Reply 1]
    /\ exists h, EsSpec.calls http_server (log st) = [http_opened; mkSE easy_http_message h [] false false 0] /\ HreqModel.is_proxy h = true.
Proof.
  set (css := [[HreqModel.Url (txt "http://h/"); HreqModel.Headers_complete (txt "GET") true; HreqModel.Message_complete]]).
  exists css, (map (fun e => Push e Fine) (http_server_events 0 HreqProps.ex_L css None) ++ [Pop 0; Return 0 false; Pop 0; Return 0 false; Pop 0; Act 0 (Reply 1)]).
  eexists. split; [vm_compute; reflexivity|]. split; [vm_compute; repeat constructor|]. split; [vm_compute; reflexivity|]. split; [vm_compute; reflexivity|]. eexists. split; vm_compute; reflexivity.
Qed.
Print Assumptions http_proxy_refused_refuted.

(** * C76, HTTP clients *)
Theorem http_client_receives L css evs closed xs st :
  0 <= HreqModel.max_content_length L ->
  HrespSpec.stream L client_application (List.concat css) evs ->
  Forall (fun e => match e with HrespModel.On_upgraded _ => False | _ => True end) evs ->
  pushes xs = http_client_events L css closed -> run http_client init xs = Some st ->
  let all := client_opened :: flat_map client_told evs ++ match closed with Some err => [client_closed err] | None => [] end in
  exists ts now,
    takes_turns http_client (log st) ts now
    /\ prefix_of (events_of ts now) all
    /\ done_to (log st) = flat_map (fun t => t_user t ++ t_own t) ts ++ match now with Some t => t_user t | None => [] end
    /\ (undisturbed xs -> quiet st -> now = None /\ events_of ts now = all).
Proof.
  intros L1 S NU P R all. destruct (events_in_turn http_client xs st R) as (ts & now & Tu & Pr & Do & Qu). exists ts, now.
  pose proof (HrespProps.responses_arrive L client_application css evs client_plain L1 S) as W.
  assert (TE : pushes xs = all).
  { rewrite P. unfold http_client_events, all. rewrite <- told_wholec; [now rewrite W|apply (run_barec L client_application (fun _ => eq_refl)); constructor|now rewrite W]. }
  assert (N : existsb (closes http_client) (client_opened :: flat_map client_told evs) = false).
  { cbn [existsb]. change (closes http_client client_opened) with false. cbn [orb]. clear. induction evs as [|e evs IH]; [reflexivity|]. cbn [flat_map]. rewrite existsb_app, IH, orb_false_r. now destruct e. }
  assert (UP : upto (closes http_client) (pushes xs) = all) by (rewrite TE; unfold all; rewrite app_comm_cons, upto_app, N, (upto_none _ _ N); destruct closed; reflexivity).
  rewrite UP in *. auto.
Qed.
Print Assumptions http_client_receives.
(** In particular: every response that is acceptable. *)
Theorem http_client_responses L ms cs css closed xs st :
  0 <= HreqModel.max_content_length L ->
  Forall (HrespProps.acceptable L client_application) ms -> Forall2 HrespSpec.message_calls ms cs -> List.concat css = List.concat cs ->
  pushes xs = http_client_events L css closed -> run http_client init xs = Some st -> undisturbed xs -> quiet st ->
  map sees_c (taken (log st)) = (easy_http_open, HrespModel.no_headers, []) :: map response_of ms ++ match closed with Some err => [(easy_http_close, HrespModel.no_headers, err)] | None => [] end.
Proof.
  intros L1 Ac F E P R U Q. pose proof (HrespProps.messages_stream L client_application ms cs Ac F) as S. rewrite <- E in S.
  destruct (http_client_receives L css _ closed xs st L1 S) as (ts & now & Tu & _ & _ & Qu); auto.
  { clear. induction ms as [|m ms IH]; [constructor|]. cbn [flat_map]. unfold HrespSpec.told_end. destruct (HrespSpec.m_keep m); cbn [app]; repeat (constructor; [exact Logic.I|]); exact IH. }
  destruct (Qu U Q) as [_ A]. rewrite (turns_taken http_client _ _ _ Tu), A. cbn [map]. f_equal. rewrite map_app. f_equal; [|destruct closed; reflexivity].
  clear. induction ms as [|m ms IH]; [reflexivity|]. cbn [flat_map map]. unfold HrespSpec.told_end. destruct (HrespSpec.m_keep m); cbn [app flat_map client_told HrespSpec.told_head map]; now f_equal.
Qed.
Print Assumptions http_client_responses.
Definition ex_resp : HrespSpec.message := HrespSpec.mkM 200 (txt "OK") [(txt "A", txt "bc")] (txt "hello") [] false.
Definition ex_rcss : list (list HrespModel.call) := [[HrespModel.Status 200 (txt "O"); HrespModel.Status 200 (txt "K"); HrespModel.Field (txt "A")]; [HrespModel.Value (txt "bc"); HrespModel.Headers_complete false; HrespModel.Body (txt "he")]; [HrespModel.Body (txt "llo"); HrespModel.Message_complete]].
Definition ex_cxs : list (event client_event action) := map (fun e => Push e Fine) (http_client_events HrespProps.ex_L ex_rcss (Some (txt "ok"))) ++ [Pop 0; Return 0 false; Pop 0; Act 0 (Reply 1); Return 0 false; Pop 0; Return 0 false; Pop 0].
Example http_client_case :
  HrespProps.acceptable HrespProps.ex_L client_application ex_resp /\ HrespSpec.message_calls ex_resp (List.concat ex_rcss)
  /\ match run http_client init ex_cxs with
     | Some st => undisturbed ex_cxs /\ quiet st /\ map sees_c (taken (log st)) = [(easy_http_open, HrespModel.no_headers, []); response_of ex_resp; (easy_http_close, HrespModel.no_headers, txt "ok")]
     | None => False
     end.
Proof.
  split; [|split; [|vm_compute; repeat constructor]].
  - split; [right; vm_compute; discriminate|]. split; [split; [now left|vm_compute; discriminate]|]. split; [intros tr; discriminate|discriminate].
  - exists (firstn 4 (List.concat ex_rcss)), [HrespModel.Body (txt "he"); HrespModel.Body (txt "llo")]. split; [|split; [|reflexivity]].
    + exists [HrespModel.Status 200 (txt "O"); HrespModel.Status 200 (txt "K")], [HrespModel.Field (txt "A"); HrespModel.Value (txt "bc")]. split; [exists [txt "O"; txt "K"]; repeat split; discriminate|]. split; [|reflexivity].
      exists [[HrespModel.Field (txt "A"); HrespModel.Value (txt "bc")]]. split; [|reflexivity]. constructor; [|constructor]. exists [HrespModel.Field (txt "A")], [HrespModel.Value (txt "bc")]. split; [exists [txt "A"]; repeat split; discriminate|]. split; [exists [txt "bc"]; repeat split; discriminate|reflexivity].
    + exists [HrespModel.Body (txt "he"); HrespModel.Body (txt "llo")], []. split; [exists [txt "he"; txt "llo"]; split; reflexivity|]. split; [exists []; split; [constructor|reflexivity]|reflexivity].
Qed.

(** ** Exceptions from callbacks *)

(** If the callback of an HTTP server or client throws an exception, nothing else is done for that event but closing the connection; if that
    of a WebSocket server or client does, the connection is shut down with status 1011.  If it does not, nothing is done by a client or with a
    WebSocket. *)
Lemma return_log {E X} (K : kind E X) st f threw st' : step K st (Return f threw) = Some st' ->
  exists e, nth_error (fibers st) f = Some (Some (Busy e)) /\ log st' = log st ++ map (Own f) (finish K e threw) ++ [Ended f e].
Proof. cbn [step]. destruct (nth_error (fibers st) f) as [[[|e]|]|]; try discriminate. intros [= <-]. eauto. Qed.
Theorem callback_exceptions :
  (forall st f st', step http_server st (Return f true) = Some st' -> exists e, log st' = log st ++ [Own f Kill; Ended f e])
  /\ (forall st f threw st', step http_client st (Return f threw) = Some st' -> exists e, log st' = log st ++ (if threw then [Own f Kill] else []) ++ [Ended f e])
  /\ (forall st f threw st', step ws_kind st (Return f threw) = Some st' -> exists e, log st' = log st ++ (if threw then [Own f (Ws_shut 1011)] else []) ++ [Ended f e]).
Proof. split; [|split]; intros st f; [intros st' H|intros threw st' H|intros threw st' H]; destruct (return_log _ _ _ _ _ H) as (e & _ & ->); exists e; [|destruct threw|destruct threw]; reflexivity. Qed.
Print Assumptions callback_exceptions.

Example callback_exceptions_case :
  match run http_client init [Push client_opened Fine; Pop 0; Act 0 (Reply 1)] with
  | Some st => match step http_client st (Return 0 true) with Some st' => log st' = log st ++ [Own 0 Kill; Ended 0 client_opened] | None => False end
  | None => False
  end.
Proof. vm_compute. reflexivity. Qed.

(** A callback can tell the kinds of events apart. *)
Theorem http_kinds : NoDup [easy_http_open; easy_http_message; easy_http_close].
Proof. repeat constructor; cbn [In]; unfold easy_http_open, easy_http_message, easy_http_close; lia. Qed.
Print Assumptions http_kinds.
