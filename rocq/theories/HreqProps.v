(** C58, C59, C60, C61: the reception of HTTP requests. *)
From Coq Require Import ZArith List Lia Bool ZifyBool String.
From Verif Require Import Base BaseLemmas Text UriSpec NetrefSpec AddrTextModel AddrTextProofs HreqModel HreqSpec HreqProofs.
From Verif Require HoutModel HoutSpec NetrefModel.
Import ListNotations.
Open Scope list_scope.
Open Scope Z_scope.
Notation length := List.length.

(** C58.  However the stream is cut into pieces, and whatever the application takes from the payload while it arrives:
    it is told of every request with its method, target, headers and payload, in order and once, and
    of the first thing that is wrong, and then of nothing more.  [todo] is what has not arrived yet. *)
Theorem requests_arrive L A css todo evs :
  plain A -> 0 <= max_content_length L -> stream L A (List.concat css ++ todo) evs ->
  exists rem, whole_payloads [] (trace (run L A start (data css))) ++ rem = evs /\ (todo = [] -> rem = []).
Proof. intros P L1 H. destruct (delivery L A P L1 css todo evs H) as (rem & R1 & R2 & _). eauto. Qed.
Print Assumptions requests_arrive.

Lemma messages_stream L A mqs calls : Forall (fun mq => acceptable L (fst mq) (snd mq)) mqs -> Forall2 (fun mq cs => message_calls (fst mq) cs) mqs calls ->
  stream L A (List.concat calls) (flat_map told mqs).
Proof.
  intros Ac F. revert Ac. induction F as [|[m q] cs mqs calls (h & t & Hh & Ht & ->) F IH]; intros Ac; [constructor|].
  inversion Ac as [|? ? [A1 A2] A3]; subst. cbn [fst snd] in *. cbn [List.concat flat_map told fst snd app]. rewrite <- !app_assoc. cbn [app]. rewrite <- !app_assoc. cbn [app].
  apply S_head; [exact Hh|exact A1|]. apply T_end; [exact Ht|exact A2|]. now apply IH.
Qed.

(** A request is told of as soon as it is complete, and its head as soon as that is. *)
Theorem requests_prompt L A mqs calls css todo :
  plain A -> 0 <= max_content_length L ->
  Forall (fun mq => acceptable L (fst mq) (snd mq)) mqs -> Forall2 (fun mq cs => message_calls (fst mq) cs) mqs calls ->
  List.concat css ++ todo = List.concat calls ->
  whole_payloads [] (trace (run L A start (data css))) = firstn (marks (List.concat css)) (flat_map told mqs).
Proof.
  intros P L1 Ac F E. pose proof (messages_stream L A mqs calls Ac F) as H. rewrite <- E in H.
  destruct (delivery L A P L1 css todo _ H) as (rem & _ & _ & R). apply R. clear. induction mqs as [|[m q] mqs IH]; [constructor|].
  cbn [flat_map told fst snd app]. constructor; [exact I|]. constructor; [exact I|exact IH].
Qed.
Print Assumptions requests_prompt.

(** Two requests, the first with a chunked body and a trailer, cut in the middle of names, values and bodies; the application
    takes two octets of the payload whenever it can. *)
Definition ex_L : limits := mkL 100 10.
Definition ex_A : application := mkA (fun _ h => (h, Payload_normal)) (fun _ => 2%nat) (fun _ => false).
Definition ex_m1 : message := mkM (txt "POST") (txt "/a?b=c") [(txt "Host", txt "x.org"); (txt "TE", txt "")] (txt "abcde") [(txt "D", txt "1")] true.
Definition ex_q1 : resource := mkRes false false 0 (txt "x.org") [] (txt "/a") (txt "b=c").
Definition ex_m2 : message := mkM (txt "GET") (txt "HTTP://u@h:81") [] [] [] false.
Definition ex_q2 : resource := mkRes true false 81 (txt "h") (txt "u") (txt "/") [].
Definition ex_css : list (list call) :=
  [[Url (txt "/a")]; [Url (txt "?b=c"); Field (txt "Ho")]; [Field (txt "st"); Value (txt "x.")];
   [Value (txt "org"); Field (txt "TE"); Value []; Headers_complete (txt "POST") true; Body (txt "ab")];
   [Body (txt "c")]; []; [Body (txt "de"); Field (txt "D"); Value (txt "1"); Message_complete; Url (txt "HTTP://u@")];
   [Url (txt "h:81"); Headers_complete (txt "GET") false; Message_complete]].
Example requests_arrive_case :
  plain ex_A /\ acceptable ex_L ex_m1 ex_q1 /\ acceptable ex_L ex_m2 ex_q2
  /\ stream ex_L ex_A (List.concat ex_css ++ []) (flat_map told [(ex_m1, ex_q1); (ex_m2, ex_q2)])
  /\ trace (run ex_L ex_A start (data ex_css))
     = [told_head ex_m1 ex_q1; On_stream (txt "ab"); On_stream (txt "c"); On_stream []; On_stream (txt "de");
        On_finish (headers_of ex_m1 ex_q1 (m_fields ex_m1 ++ m_trailers ex_m1)) [] false;
        told_head ex_m2 ex_q2; On_stream []; told_end ex_m2 ex_q2].
Proof.
  assert (P : plain ex_A) by (split; [intros; split; [reflexivity|discriminate]|reflexivity]).
  assert (A1 : acceptable ex_L ex_m1 ex_q1).
  { split; [split; [cbn; lia|split; [right|split; [discriminate|vm_compute; discriminate]]]|split; [right; vm_compute; discriminate|vm_compute; discriminate]].
    exists (txt "/a"), (Some (txt "b=c")), None. repeat split; try reflexivity; try (repeat constructor; fail).
    - intros (a & b & H). assert (C : contains (txt "://") (txt "/a?b=c") = true) by (apply contains_spec; now exists a, b). discriminate.
    - now exists (txt "a"). }
  assert (A2 : acceptable ex_L ex_m2 ex_q2).
  { split; [split; [cbn; lia|split; [left|split; [discriminate|vm_compute; discriminate]]]|split; [left; reflexivity|vm_compute; discriminate]].
    exists (txt "HTTP"), (Some (txt "u")), (mkReference (txt "h") false (Some (txt "81")) None None None).
    split; [unfold valid; cbn; repeat split; try discriminate; try (repeat constructor; unfold letter_or_digit, decimal; lia); cbv; discriminate|].
    split; [reflexivity|]. split; [cbn; split; intuition lia|]. split; [left|]; repeat split. }
  split; [exact P|]. split; [exact A1|]. split; [exact A2|]. split; [|vm_compute; reflexivity].
  rewrite app_nil_r. set (c1 := firstn 15 (List.concat ex_css)). set (c2 := skipn 15 (List.concat ex_css)).
  replace (List.concat ex_css) with (List.concat [c1; c2]) by reflexivity.
  apply messages_stream; [constructor; [exact A1|constructor; [exact A2|constructor]]|]. repeat constructor; cbn [fst snd].
  - exists (firstn 8 c1), (firstn 5 (skipn 9 c1)). split; [|split; [|reflexivity]].
    + exists (firstn 2 c1), (firstn 6 (skipn 2 c1)). split; [|split; [|reflexivity]].
      * exists [txt "/a"; txt "?b=c"]. repeat split. discriminate.
      * exists [firstn 4 (skipn 2 c1); firstn 2 (skipn 6 c1)]. split; [|reflexivity]. repeat constructor.
        -- exists [Field (txt "Ho"); Field (txt "st")], [Value (txt "x."); Value (txt "org")]. split; [|split; [|reflexivity]].
           ++ exists [txt "Ho"; txt "st"]. repeat split. discriminate.
           ++ exists [txt "x."; txt "org"]. repeat split. discriminate.
        -- exists [Field (txt "TE")], [Value []]. split; [|split; [|reflexivity]].
           ++ exists [txt "TE"]. repeat split. discriminate.
           ++ exists [txt ""]. repeat split. discriminate.
    + exists (firstn 3 (skipn 9 c1)), (firstn 2 (skipn 12 c1)). split; [|split; [|reflexivity]].
      * exists [txt "ab"; txt "c"; txt "de"]. repeat split.
      * exists [firstn 2 (skipn 12 c1)]. split; [|reflexivity]. repeat constructor. exists [Field (txt "D")], [Value (txt "1")]. split; [|split; [|reflexivity]].
        -- exists [txt "D"]. repeat split. discriminate.
        -- exists [txt "1"]. repeat split. discriminate.
  - exists (firstn 2 c2), []. split; [|split; [|reflexivity]].
    + exists (firstn 2 c2), []. split; [|split; [|reflexivity]].
      * exists [txt "HTTP://u@"; txt "h:81"]. repeat split. discriminate.
      * exists []. repeat split. constructor.
    + exists [], []. split; [|split; [|reflexivity]].
      * exists []. repeat split.
      * exists []. repeat split. constructor.
Qed.
(** What is wrong is told once, with its status; what follows is ignored. *)
Example requests_arrive_errors :
  let A := mkA (fun _ h => (h, Payload_normal)) (fun _ => O) (fun _ => false) in
  let ok := [Url (txt "/"); Field (txt "Host"); Value (txt "h"); Headers_complete (txt "HEAD") true; Message_complete] in
  let bad cs := trace (run ex_L A start (data [ok; cs; ok])) in
  let m := mkM (txt "HEAD") (txt "/") [(txt "Host", txt "h")] [] [] true in
  let q := mkRes false false 0 (txt "h") [] (txt "/") [] in
  let good := [told_head m q; On_stream []; told_end m q] in
  bad [Url (txt "/"); Fail HPE_INVALID_VERSION] = good ++ [On_error false 505]
  /\ bad [Url (txt "/"); Field (txt "Host"); Value (txt "h"); Headers_complete (txt "MKACTIVITY") true; Message_complete] = good ++ [On_error false 405]
  /\ bad [Url (txt "*"); Field (txt "Host"); Value (txt "h"); Headers_complete (txt "OPTIONS") true; Message_complete] = good ++ [On_error false 400]
  /\ bad [Url (txt "/"); Field (txt "Host"); Value (txt "h"); Headers_complete (txt "PUT") true; Fail HPE_OTHER] = good ++ told_head (mkM (txt "PUT") (txt "/") [(txt "Host", txt "h")] [] [] true) q :: [On_error false 400]
  /\ bad [Url (repeat 47 101)] = good ++ [Exception].
Proof. vm_compute. repeat split. Qed.

(** C59.  The target of a request: the application is told of a resource if and only if the target denotes it, in the
    absolute form or in the origin form with exactly one host, and its host is not empty; otherwise it is told of
    an error. *)
Definition bare_of (m : message) : headers := mkH (m_method m) false false 0 [] [] [] [] (some_fields (m_fields m)).
Lemma first_head L A m h : plain A -> 0 <= max_content_length L -> head_calls m h -> head_fits L m -> (length (m_method m) <= 7)%nat ->
  let tr := trace (run L A start [Data (h ++ [Headers_complete (m_method m) (m_keep m)])]) in
  match analyse (bare_of m) (m_target m) with
  | (h', HPE_OK) =>
      let h' := if is_proxy h' then h' else mkH (method h') (is_proxy h') false (port h') (raw_host h') (raw_userinfo h') (raw_path h') (raw_query h') (fields h') in
      match raw_host h' with [] => tr = [On_error (was_head m) 400] | _ => tr = [On_headers h' (negb (m_keep m)); On_stream []] end
  | _ => tr = [On_error (was_head m) 400]
  end.
Proof.
  intros PA L1 Hm Hf Hl tr. destruct (feeds_head m h new_parser Hm eq_refl eq_refl) as [Sh Fe].
  assert (O := okseq_head L L1 m h new_parser Hm eq_refl eq_refl Hf).
  assert (E : tr = trace (loop L A (S (length (h ++ [Headers_complete (m_method m) (m_keep m)]))) start (h ++ [Headers_complete (m_method m) (m_keep m)]))) by reflexivity.
  clearbody tr. subst tr. remember (length (h ++ [Headers_complete (m_method m) (m_keep m)])) as n.
  cbn [loop start ack par is_error new_parser err hreq]. fold new_parser. unfold parse. rewrite execute_ok by (reflexivity || exact O). rewrite Fe.
  cbn [execute err set_hd new_parser callback]. unfold on_headers_complete. cbn [hd set_hd head_state is_proxy is_ssl HreqModel.port raw_host raw_userinfo raw_path raw_query fields payload hreq close].
  replace (8 <=? length (m_method m))%nat with false by (symmetry; apply Nat.leb_gt; lia). rewrite firstn_all2 by lia. unfold set_host. cbn [method is_proxy is_ssl HreqModel.port raw_host raw_userinfo raw_path raw_query fields].
  fold (bare_of m). pose proof (analyse_rest (bare_of m) (m_target m) eq_refl) as [Xm Xe]. destruct (analyse (bare_of m) (m_target m)) as [h' e]. cbn [fst snd] in Xm, Xe.
  assert (W : (if list_eq_dec Z.eq_dec (method h') (txt "HEAD") then true else false) = was_head m) by (rewrite Xm; reflexivity).
  destruct e; try contradiction; cbn [execute err unpause set_err is_error hreq hd payload close].
  2-4: cbn [add trace app status_of err]; unfold is_head; cbn [hd]; rewrite W; reflexivity.
  set (h2 := if is_proxy h' then h' else _). cbn [hd]. destruct (raw_host h2) as [|c0 r0] eqn:Eh.
  - cbn [add trace app set_par start]. unfold is_head, set_hd. cbn [hd]. replace (method h2) with (method h') by (unfold h2; destruct (is_proxy h'); reflexivity). rewrite W. reflexivity.
  - destruct PA as [PA1 PA2]. cbn [set_hd set_par par trace add close hd payload start app]. match goal with |- context [a_headers A ?tr h2] => destruct (PA1 tr h2) as [X1 X2]; destruct (a_headers A tr h2) as [h3 ty] end.
    cbn [fst snd] in X1, X2. subst h3. destruct ty; [| |congruence].
    all: cbn; rewrite firstn_nil; reflexivity.
Qed.

Lemma resource_eq m q q' fs : headers_of m q fs = headers_of m q' fs -> q = q'.
Proof. unfold headers_of. destruct q, q'. cbn. intros H. injection H as -> -> -> -> -> -> ->. reflexivity. Qed.
Lemma target_ssl fs t q : request_target fs t q -> q_proxy q = false -> q_ssl q = false.
Proof. intros [T|T] P; [destruct T as (? & ? & ? & T); exfalso; assert (q_proxy q = true) by tauto; congruence|destruct T as (? & ? & ? & T); tauto]. Qed.
Lemma bare_bare m : bare (bare_of m). Proof. unfold bare. cbn. auto. Qed.

Theorem target_told L A m h q : plain A -> 0 <= max_content_length L -> head_calls m h -> head_fits L m -> (length (m_method m) <= 7)%nat ->
  In (told_head m q) (trace (run L A start [Data (h ++ [Headers_complete (m_method m) (m_keep m)])]))
  <-> (request_target (m_fields m) (m_target m) q /\ q_host q <> []).
Proof.
  intros P L1 Hm Hf Hl. pose proof (first_head L A m h P L1 Hm Hf Hl) as F. set (tr := trace _) in *. clearbody tr. split.
  - intros I. destruct (analyse (bare_of m) (m_target m)) as [h' e] eqn:Ea. destruct e; try (exfalso; rewrite F in I; destruct I as [I|[]]; discriminate).
    destruct (analyse_sound _ (m_fields m) _ _ (bare_bare m) eq_refl Ea) as [(q0 & T & ->)|[N _]].
    + cbn [with_resource is_proxy raw_host] in F. pose proof (target_ssl _ _ _ T) as Sl.
      assert (X : (if q_proxy q0 then with_resource (bare_of m) q0 else mkH (method (with_resource (bare_of m) q0)) (q_proxy q0) false (HreqModel.port (with_resource (bare_of m) q0)) (q_host q0) (raw_userinfo (with_resource (bare_of m) q0)) (raw_path (with_resource (bare_of m) q0)) (raw_query (with_resource (bare_of m) q0)) (fields (with_resource (bare_of m) q0))) = headers_of m q0 (m_fields m)).
      { unfold headers_of, with_resource, bare_of. cbn. destruct (q_proxy q0) eqn:Eq; [reflexivity|]. rewrite Sl by reflexivity. reflexivity. }
      cbn zeta in F. rewrite X in F. cbn [headers_of raw_host] in F. destruct (q_host q0) eqn:Eh; rewrite F in I.
      * destruct I as [I|[]]; discriminate.
      * destruct I as [I|[I|[]]]; [|discriminate]. injection I as I. fold (headers_of m q0 (m_fields m)) in I.
        assert (q = q0) as ->. { apply (resource_eq m _ _ (m_fields m)). unfold headers_of. rewrite Eh. symmetry. congruence. }
        split; [exact T|congruence].
    + exfalso. assert (Y : raw_host (if is_proxy h' then h' else mkH (method h') (is_proxy h') false (HreqModel.port h') (raw_host h') (raw_userinfo h') (raw_path h') (raw_query h') (fields h')) = []) by (destruct (is_proxy h'); exact N).
      cbn zeta in F. rewrite Y in F. rewrite F in I. destruct I as [I|[]]; discriminate.
  - intros [T N]. rewrite (analyse_complete _ _ _ _ (bare_bare m) eq_refl T) in F. cbn [with_resource is_proxy raw_host] in F. pose proof (target_ssl _ _ _ T) as Sl.
    assert (X : (if q_proxy q then with_resource (bare_of m) q else mkH (method (with_resource (bare_of m) q)) (q_proxy q) false (HreqModel.port (with_resource (bare_of m) q)) (q_host q) (raw_userinfo (with_resource (bare_of m) q)) (raw_path (with_resource (bare_of m) q)) (raw_query (with_resource (bare_of m) q)) (fields (with_resource (bare_of m) q))) = headers_of m q (m_fields m)).
    { unfold headers_of, with_resource, bare_of. cbn. destruct (q_proxy q) eqn:Eq; [reflexivity|]. rewrite Sl by reflexivity. reflexivity. }
    cbn zeta in F. rewrite X in F. cbn [headers_of raw_host] in F. destruct (q_host q) eqn:Eh; [congruence|]. rewrite F. left. unfold told_head, headers_of. now rewrite Eh.
Qed.
Print Assumptions target_told.

Theorem target_wrong L A m h : plain A -> 0 <= max_content_length L -> head_calls m h -> head_fits L m -> (length (m_method m) <= 7)%nat ->
  (forall q, ~ (request_target (m_fields m) (m_target m) q /\ q_host q <> [])) ->
  trace (run L A start [Data (h ++ [Headers_complete (m_method m) (m_keep m)])]) = [On_error (was_head m) 400].
Proof.
  intros P L1 Hm Hf Hl N. pose proof (first_head L A m h P L1 Hm Hf Hl) as F. destruct (analyse (bare_of m) (m_target m)) as [h' e] eqn:Ea. cbn zeta in F. destruct e; try exact F.
  destruct (analyse_sound _ (m_fields m) _ _ (bare_bare m) eq_refl Ea) as [(q0 & T & ->)|[N0 _]].
  - destruct (q_host q0) eqn:Eh; [|exfalso; apply (N q0); split; [exact T|congruence]].
    cbn [with_resource is_proxy raw_host] in F. destruct (q_proxy q0); cbn [with_resource raw_host] in F; rewrite Eh in F; exact F.
  - destruct (is_proxy h'); cbn [raw_host] in F; rewrite N0 in F; exact F.
Qed.
Print Assumptions target_wrong.

(** A target means one thing. *)
Theorem target_unique fs t q q' : request_target fs t q -> request_target fs t q' -> q = q'.
Proof.
  intros T T'. set (m := mkM [] t fs [] [] true).
  pose proof (analyse_complete (bare_of m) fs t q (bare_bare m) eq_refl T) as E. rewrite (analyse_complete (bare_of m) fs t q' (bare_bare m) eq_refl T') in E.
  injection E as E1 E2 E3 E4 E5 E6 E7. destruct q, q'. cbn in *. congruence.
Qed.
Print Assumptions target_unique.

(** What a client of this library writes as the target (http/http_c_headers.cpp) is read as the resource that it meant. *)
Definition slashed (p : list Z) : list Z := match p with 47 :: _ => p | _ => 47 :: p end.
Definition meant (c : HoutModel.c_head) (host : list Z) : resource :=
  if HoutModel.is_proxy c then
    mkRes true (HoutModel.is_ssl c) (if HoutModel.port c =? 0 then (if HoutModel.is_ssl c then 443 else 80) else HoutModel.port c)
      (HoutModel.raw_host c) (HoutModel.raw_userinfo c) (slashed (HoutModel.raw_path c)) (HoutModel.raw_query c)
  else mkRes false false 0 host [] (slashed (HoutModel.raw_path c)) (HoutModel.raw_query c).

Lemma slashed_spec p : (if negb (List.hd 0 p =? 47) then 47 :: p else p) = slashed p.
Proof.
  destruct p as [|c p]; [reflexivity|]. cbn [List.hd]. destruct (c =? 47) eqn:E; cbn [negb].
  - apply Z.eqb_eq in E. now subst.
  - destruct (Z.eq_dec c 47) as [->|N]; [discriminate|]. unfold slashed. destruct c as [|c|c]; try reflexivity.
    do 6 (destruct c as [c|c|]; try reflexivity). congruence.
Qed.
Lemma slashed_head p : exists q, slashed p = 47 :: q.
Proof. rewrite <- slashed_spec. destruct (negb (List.hd 0 p =? 47)) eqn:E; [now exists p|]. destruct p as [|c p]; [discriminate|]. cbn in E. exists p. f_equal. lia. Qed.
Lemma slashed_chars p : Forall (fun c => path_char c = true) p -> Forall (fun c => path_char c = true) (slashed p).
Proof. intros H. rewrite <- slashed_spec. destruct negb; [constructor; [reflexivity|exact H]|exact H]. Qed.
Lemma slash_first_app a b : ~ In 64 a -> slash_first (a ++ 47 :: b).
Proof. induction a as [|c a IH]; intros N; [left; reflexivity|]. right. split; [intros ->; apply N; now left|]. apply IH. intros I. apply N. now right. Qed.

Theorem target_round_trip c fs :
  (if HoutModel.is_proxy c then
     HoutModel.raw_host c <> [] /\ Forall (fun x => letter_or_digit x \/ x = 45 \/ x = 46) (HoutModel.raw_host c)
     /\ 0 <= HoutModel.port c <= 65535 /\ ~ In 64 (HoutModel.raw_userinfo c) /\ ~ In 47 (HoutModel.raw_userinfo c)
   else ~ occurs (txt "://") (HoutModel.target c) /\ length (HoutSpec.lookup (txt "Host") fs) = 1%nat) ->
  Forall (fun x => path_char x = true) (HoutModel.raw_path c) -> Forall (fun x => query_char x = true) (HoutModel.raw_query c) ->
  request_target fs (HoutModel.target c) (meant c (List.hd [] (HoutSpec.lookup (txt "Host") fs))).
Proof.
  intros H Hp Hq. unfold meant. destruct (HoutModel.is_proxy c) eqn:P.
  - left. destruct H as (N & Hh & Po & U1 & U2).
    set (user := match HoutModel.raw_userinfo c with [] => None | u => Some u end).
    set (pt := if HoutModel.port c =? 0 then None else Some (put_du 20 (HoutModel.port c))).
    set (qu := match HoutModel.raw_query c with [] => None | q => Some q end).
    assert (D : put_du 20 (HoutModel.port c) <> [] /\ Forall decimal (put_du 20 (HoutModel.port c)) /\ number (put_du 20 (HoutModel.port c)) = HoutModel.port c).
    { destruct (put_du_spec 20 (HoutModel.port c) ltac:(change (10 ^ Z.of_nat 20) with 100000000000000000000; lia) ltac:(lia)) as (X & Y & Z0). auto. }
    exists (if HoutModel.is_ssl c then txt "https" else txt "http"), user, (mkReference (HoutModel.raw_host c) false pt (Some (slashed (HoutModel.raw_path c))) qu None).
    split; [|split; [|split; [|split; [|split; [|split; [|split; [|split]]]]]]]; try reflexivity.
    + unfold valid. cbn [host bracketed NetrefSpec.port path query fragment]. split; [exact N|]. split; [exact Hh|]. split; [|split; [|split; [|exact I]]].
      * unfold pt. destruct (_ =? 0); [exact I|]. cbn [when]. destruct D as (D1 & D2 & D3). rewrite D3. split; [exact D1|]. split; [exact D2|lia].
      * cbn [when]. split; [apply slashed_head|now apply slashed_chars].
      * unfold qu. destruct (HoutModel.raw_query c); [exact I|exact Hq].
    + unfold HoutModel.target. rewrite P, slashed_spec. unfold text_of. cbn [host bracketed NetrefSpec.port path query fragment].
      replace (if HoutModel.is_ssl c then txt "https://" else txt "http://") with ((if HoutModel.is_ssl c then txt "https" else txt "http") ++ txt "://") by (destruct (HoutModel.is_ssl c); reflexivity).
      rewrite <- !app_assoc. f_equal. f_equal. unfold user, pt, qu. destruct (HoutModel.raw_userinfo c); cbn [opt_text]; rewrite <- ?app_assoc; destruct (HoutModel.port c =? 0); cbn [negb opt_text app]; destruct (HoutModel.raw_query c); cbn [opt_text app]; rewrite ?app_nil_r; reflexivity.
    + unfold user. destruct (HoutModel.raw_userinfo c); [|split; assumption]. unfold text_of. cbn [host bracketed NetrefSpec.port path query fragment opt_text].
      destruct (slashed_head (HoutModel.raw_path c)) as [pq ->]. cbn [app]. rewrite app_assoc. apply slash_first_app.
      assert (X : forall x, letter_or_digit x \/ x = 45 \/ x = 46 -> x <> 64) by (unfold letter_or_digit; lia).
      intros I. apply in_app_iff in I as [I|I]; [rewrite Forall_forall in Hh; exact (X _ (Hh _ I) eq_refl)|].
      unfold pt in I. destruct (_ =? 0); [destruct I|]. cbn [opt_text app] in I. destruct I as [I|I]; [discriminate|]. destruct D as (_ & D & _). rewrite Forall_forall in D. specialize (D _ I). unfold decimal in D. lia.
    + cbn [q_ssl q_port NetrefSpec.port]. destruct (HoutModel.is_ssl c); [right|left]; (split; [reflexivity|split; [reflexivity|]]); unfold pt; destruct (_ =? 0); try reflexivity; symmetry; apply D.
    + cbn. unfold user. destruct (HoutModel.raw_userinfo c); reflexivity.
    + cbn. unfold qu. destruct (HoutModel.raw_query c); reflexivity.
  - right. destruct H as [N Ho]. exists (slashed (HoutModel.raw_path c)), (match HoutModel.raw_query c with [] => None | q => Some q end), None.
    split; [unfold HoutModel.target; rewrite P, slashed_spec; cbn [app]; destruct (HoutModel.raw_query c); cbn [opt_text]; rewrite ?app_nil_r; reflexivity|].
    split; [exact N|]. split; [apply slashed_head|]. split; [now apply slashed_chars|].
    split; [destruct (HoutModel.raw_query c); [exact I|exact Hq]|]. split; [exact I|].
    split; [cbn [q_host]; destruct (HoutSpec.lookup (txt "Host") fs) as [|v [|]]; try discriminate; reflexivity|].
    cbn. repeat split. destruct (HoutModel.raw_query c); reflexivity.
Qed.
Print Assumptions target_round_trip.
Example target_round_trip_case :
  let c := HoutModel.mkCH (txt "GET") true true 8443 (txt "x.org") (txt "u:p") (txt "a/b") (txt "k=v") [] in
  HoutModel.target c = txt "https://u:p@x.org:8443/a/b?k=v"
  /\ request_target [] (HoutModel.target c) (mkRes true true 8443 (txt "x.org") (txt "u:p") (txt "/a/b") (txt "k=v")).
Proof.
  split; [vm_compute; reflexivity|]. apply (target_round_trip (HoutModel.mkCH (txt "GET") true true 8443 (txt "x.org") (txt "u:p") (txt "a/b") (txt "k=v") []) []).
  - cbn [HoutModel.is_proxy HoutModel.raw_host HoutModel.port HoutModel.raw_userinfo]. split; [discriminate|]. split; [apply Forall_forall; intros x Hx; cbn in Hx; unfold letter_or_digit; lia|]. split; [lia|]. cbn. lia.
  - repeat constructor.
  - repeat constructor.
Qed.

Definition told_of (m : list Z) (fs : list (list Z * list Z)) (t : list Z) : list event :=
  trace (run (mkL 1000 1000) ex_A start [Data ([Url t] ++ flat_map (fun f => [Field (fst f); Value (snd f)]) fs ++ [Headers_complete m true])]).

(** The standard's [CONNECT host:port] (RFC 9112, 3.2.3) and [OPTIONS *] (3.2.4) are rejected, and so is a path or
    query, made of permitted characters only, with a URI in it. *)
Theorem target_forms_refuted :
  told_of (txt "CONNECT") [(txt "Host", txt "h:80")] (txt "h:80") = [On_error false 400]
  /\ told_of (txt "OPTIONS") [(txt "Host", txt "h")] (txt "*") = [On_error false 400]
  /\ Forall (fun c => query_char c = true) (txt "u=http://x")
  /\ told_of (txt "GET") [(txt "Host", txt "h")] (txt "/r?u=http://x") = [On_error false 400].
Proof. split; [vm_compute; reflexivity|]. split; [vm_compute; reflexivity|]. split; [repeat constructor|]. vm_compute. reflexivity. Qed.
Print Assumptions target_forms_refuted.

(** An at sign in the query makes the host look like user information: [http://h?x@y] goes to [y]. *)
Theorem userinfo_of_query_refuted :
  told_of (txt "GET") [] (txt "http://h?x@y") = [On_headers (mkH (txt "GET") true false 80 (txt "y") (txt "h?x") (txt "/") [] []) false; On_stream []].
Proof. vm_compute. reflexivity. Qed.
Print Assumptions userinfo_of_query_refuted.

(** The brackets of an IPv6 address are lost: what was read, written again, is not the same target. *)
Theorem ipv6_target_refuted :
  told_of (txt "GET") [] (txt "http://[::1]/") = [On_headers (mkH (txt "GET") true false 80 (txt "::1") [] (txt "/") [] []) false; On_stream []]
  /\ told_of (txt "GET") [] (HoutModel.target (HoutModel.mkCH (txt "GET") true false 80 (txt "::1") [] (txt "/") [] [])) = [On_error false 400].
Proof. split; vm_compute; reflexivity. Qed.
Print Assumptions ipv6_target_refuted.

(** C60.  Whatever arrives and whatever the application does, a session never holds or hands out a payload or headers longer
    than the configured limits, the length of a header being that of its name and value and four more. *)
Definition named_size (f : list Z * option (list Z)) : Z := Z.of_nat (length (fst f)) + Z.of_nat (length (match snd f with Some v => v | None => [] end)) + 4.
Definition all_size (fs : list (list Z * option (list Z))) : Z := fold_right Z.add 0 (map named_size fs).
Definition within (L : limits) (e : event) : Prop :=
  match e with
  | On_headers h _ => all_size (fields h) <= max_header_length L
  | On_stream d => Z.of_nat (length d) <= max_content_length L
  | On_finish _ d _ => Z.of_nat (length d) <= max_content_length L
  | _ => True
  end.
Definition sized (L : limits) (p : parser) : Prop :=
  Z.of_nat (length (payload p)) <= max_content_length L
  /\ (hreq p = Hreq_new -> err p = HPE_OK \/ err p = HPE_PAUSED ->
      Z.of_nat (length (raw_host (hd p))) + Z.of_nat (length (raw_userinfo (hd p))) + Z.of_nat (length (raw_path (hd p))) + Z.of_nat (length (raw_query (hd p)))
      + all_size (fields (hd p)) <= max_header_length L).

Lemma all_size_fields fs : fields_size fs = all_size fs.
Proof. unfold all_size. induction fs as [|f fs IH]; [reflexivity|]. change (fields_size (f :: fs)) with (4 + Z.of_nat (length (fst f)) + Z.of_nat (length (value_text (snd f))) + fields_size fs). cbn [map fold_right]. rewrite IH. unfold named_size, value_text. lia. Qed.
Lemma all_size_nonneg fs : 0 <= all_size fs.
Proof. rewrite <- all_size_fields. apply fields_size_nonneg. Qed.

Lemma callback_sized L p c p' : callback L p c = Next p' -> sized L p -> err p = HPE_OK ->
  sized L p' /\ (err p' = HPE_OK -> hreq p' = hreq p) /\ (hreq p = Hreq_new -> all_size (fields (hd p')) <= max_header_length L).
Proof.
  intros C [S1 S2] E.
  assert (Q : quiet c -> fits L p c /\ p' = pfeed p c).
  { intros Q. destruct c as [s|s|s| |s| |]; try contradiction.
    - destruct (callback_quiet L p (Url s) Q I) as [[F X]|[_ X]]; rewrite X in C; [|discriminate]. injection C as <-. auto.
    - destruct (callback_quiet L p (Field s) Q I) as [[F X]|[_ X]]; rewrite X in C; [|discriminate]. injection C as <-. auto.
    - destruct (fields (hd p)) eqn:Ef; [cbn [callback] in C; unfold on_header_value in C; rewrite Ef in C; cbn [last_of] in C; destruct (_ <? _); discriminate|].
      destruct (callback_quiet L p (Value s) Q) as [[F X]|[_ X]]; [congruence| |]; rewrite X in C; [|discriminate]. injection C as <-. auto.
    - destruct (callback_quiet L p (Body s) Q I) as [[F X]|[_ X]]; rewrite X in C; [|discriminate]. injection C as <-. auto. }
  assert (Sz : hreq p = Hreq_new -> all_size (fields (hd p)) <= max_header_length L).
  { intros N. specialize (S2 N (or_introl E)). lia. }
  assert (Hd : forall h, estimate_size h <= max_header_length L -> Z.of_nat (length (raw_host h)) + Z.of_nat (length (raw_userinfo h)) + Z.of_nat (length (raw_path h)) + Z.of_nat (length (raw_query h)) + all_size (fields h) <= max_header_length L)
    by (intros h; unfold estimate_size; rewrite all_size_fields; auto).
  destruct c as [s|s|s|m k|s| |e].
  - destruct (Q I) as [F ->]. cbn [fits] in F. apply Hd in F. split; [split; [exact S1|auto]|]. split; [reflexivity|lia].
  - destruct (Q I) as [F ->]. cbn [fits] in F. apply Hd in F. split; [split; [exact S1|auto]|]. split; [reflexivity|lia].
  - destruct (Q I) as [F ->]. destruct F as [F _]. apply Hd in F. split; [split; [exact S1|auto]|]. split; [reflexivity|lia].
  - injection C as <-. unfold on_headers_complete. destruct (8 <=? length m)%nat.
    + split; [split; [exact S1|intros _ [X|X]; discriminate]|]. split; [discriminate|exact Sz].
    + set (h0 := set_host _ _). assert (Fe : forall h t, fields (fst (analyse h t)) = fields h /\ snd (analyse h t) <> HPE_PAUSED).
      { clear. intros h t. unfold analyse. destruct (_ && _); [|destruct (_ && _); [|destruct contains; [split; [reflexivity|discriminate]|]]]; cbn [is_proxy].
        1,2: destruct (find_of _ _) as [n|]; [destruct (_ =? 64)|]; destruct (NetrefModel.parse_ref _) as [w k]; destruct (negb _); (split; [reflexivity|discriminate]).
        destruct (is_proxy h) eqn:P.
        - destruct (find_of _ _) as [n|]; [destruct (_ =? 64)|]; destruct (NetrefModel.parse_ref _) as [w k]; destruct (negb _); (split; [reflexivity|discriminate]).
        - destruct (negb _); [split; [reflexivity|discriminate]|]. destruct (NetrefModel.parse_ref _) as [w k]. destruct (negb _); [split; [reflexivity|discriminate]|]. destruct (hosts _) as [|v [|]]; (split; [reflexivity|discriminate]). }
      match goal with |- context [analyse h0 ?t] => specialize (Fe h0 t); destruct (analyse h0 t) as [h' e] eqn:Ea end. cbn [fst snd] in Fe. destruct Fe as [Fe Np].
      assert (X : hreq p = Hreq_new -> all_size (fields h') <= max_header_length L) by (rewrite Fe; exact Sz).
      destruct e; [| congruence | ..]; (split; [split; [exact S1|cbn [hreq err]; intros Y1 [Y|Y]; discriminate]|]); (split; [intros Y; discriminate Y|exact X]).
  - destruct (Q I) as [F ->]. destruct (pfeed_keeps p (Body s)) as (K1 & K2 & K3 & K4). rewrite K2.
    assert (Hh : hd (pfeed p (Body s)) = hd p) by (cbn [pfeed]; destruct accepts_payload; reflexivity). unfold sized. rewrite Hh, K2.
    split; [split; [|intros N _; apply S2; auto]|]; [|split; [reflexivity|exact Sz]].
    cbn [fits] in F. cbn [pfeed] in F |- *. destruct (accepts_payload (verb p)); [now apply F|exact S1].
  - injection C as <-. split; [split; [exact S1|discriminate]|]. split; [discriminate|exact Sz].
  - injection C as <-. split; [split; [exact S1|destruct e; intros _ [X|X]; discriminate]|]. split; [destruct e; discriminate|exact Sz].
Qed.
Lemma execute_sized L cs : forall p p' cs', execute L p cs = Left p' cs' -> sized L p ->
  sized L p' /\ (hreq p = Hreq_new -> err p = HPE_OK -> all_size (fields (hd p')) <= max_header_length L).
Proof.
  induction cs as [|c cs IH]; intros p p' cs' H S0; cbn [execute] in H.
  - destruct (err p) eqn:E; injection H as <- <-; (split; [exact S0|]); intros N X; try congruence. destruct S0 as [_ S2]. specialize (S2 N (or_introl E)). lia.
  - destruct (err p) eqn:E; try (injection H as <- <-; split; [exact S0|congruence]).
    destruct (callback L p c) as [p1| |] eqn:C; try discriminate. destruct (callback_sized L p c p1 C S0 E) as (S1 & K & F).
    destruct (IH _ _ _ H S1) as [S2 G]. split; [exact S2|]. intros N _. destruct (err p1) eqn:E1; [apply G; [rewrite K; auto|reflexivity]|..].
    all: destruct cs; cbn [execute] in H; rewrite E1 in H; injection H as <- _; exact (F N).
Qed.
Lemma parse_sized L p cs p' cs' : parse L p cs = Left p' cs' -> sized L p ->
  sized L p' /\ (hreq p = Hreq_new -> err p = HPE_OK -> all_size (fields (hd p')) <= max_header_length L).
Proof.
  unfold parse. destruct (execute L p cs) as [q cs2| |] eqn:E; try discriminate. intros H S0. injection H as <- <-.
  destruct (execute_sized L cs _ _ _ E S0) as [[S1 S2] F]. unfold unpause. destruct (err q) eqn:Eq; (split; [split; [exact S1|]|exact F]); cbn [set_err hreq err hd]; rewrite ?Eq; auto.
Qed.

Section Limits.
  Variables (L : limits) (A : application).
  Hypothesis (L0 : 0 <= max_header_length L) (L1 : 0 <= max_content_length L).
  Definition held (s : session) : Prop := sized L (par s) /\ Forall (within L) (trace s).

  Lemma held_add s e : held s -> within L e -> held (add A s e).
  Proof. intros [H1 H2] W. split; [exact H1|]. cbn. apply Forall_app. auto. Qed.
  Lemma held_fail s e : held s -> within L e -> held (fail s e).
  Proof. intros [H1 H2] W. split; [exact H1|]. cbn. apply Forall_app. auto. Qed.
  Lemma held_par s p : held s -> sized L p -> held (set_par s p).
  Proof. intros [H1 H2] W. split; [exact W|exact H2]. Qed.
  Lemma next_sized p : sized L (next_message p).
  Proof. split; [cbn; lia|]. intros _ _. cbn. lia. Qed.
  Lemma skip_sized p k : sized L p -> sized L (set_payload p (skipn k (payload p))).
  Proof. intros [S1 S2]. split; [cbn; rewrite skipn_length; lia|exact S2]. Qed.

  Lemma after_held s cs : held s -> held (fst (after_headers L A s cs)).
  Proof.
    intros H. unfold after_headers. assert (G : held (fst (match parse L (par s) cs with
      | Thrown => (fail s Exception, None) | Undef => (fail s Undefined_behaviour, None)
      | Left p cs => let s := set_par s p in
        if is_error p then (add A s (On_error (is_head p) (status_of (err p))), None)
        else let k := a_take A (trace s) in let s := set_par s (set_payload p (skipn k (payload p))) in
          let s := add A s (On_stream (firstn k (payload p))) in
          match hreq p with Hreq_payload_done => let p := par s in let s := add A s (On_finish (hd p) (payload p) (close p)) in (set_par s (next_message p), Some cs) | _ => (s, None) end end))).
    { destruct (parse L (par s) cs) as [p cs2| |] eqn:E; [|apply held_fail; [exact H|exact I]|apply held_fail; [exact H|exact I]].
      destruct (parse_sized L _ _ _ _ E (proj1 H)) as [S1 _]. cbn zeta. destruct (is_error p); [apply held_add; [now apply held_par|exact I]|].
      set (k := a_take A _). assert (H2 : held (add A (set_par (set_par s p) (set_payload p (skipn k (payload p)))) (On_stream (firstn k (payload p))))).
      { apply held_add; [apply held_par; [now apply held_par|now apply skip_sized]|]. cbn. rewrite firstn_length. destruct S1. lia. }
      destruct (hreq p); try exact H2. cbn [fst]. apply held_par; [|apply next_sized]. apply held_add; [exact H2|]. cbn. destruct (skip_sized p k S1). assumption. }
    destruct (hreq (par s)); try exact G. cbn [fst]. apply held_par; [exact H|apply next_sized].
  Qed.
  Lemma loop_held fuel : forall s cs, held s -> held (loop L A fuel s cs).
  Proof.
    induction fuel as [|fuel IH]; intros s cs H; [exact H|]. cbn [loop]. destruct (ack s); [apply held_add; [exact H|exact I]|].
    destruct (is_error (par s)) eqn:E0; [exact H|].
    assert (G : forall s cs, held s -> held (match after_headers L A s cs with (s, Some cs) => loop L A fuel s cs | (s, None) => s end)).
    { intros s0 cs0 H0. pose proof (after_held s0 cs0 H0) as H1. destruct (after_headers L A s0 cs0) as [s1 [cs1|]]; [now apply IH|exact H1]. }
    destruct (hreq (par s)) eqn:N; [|now apply G|now apply G].
    destruct (parse L (par s) cs) as [p cs2| |] eqn:E; [|apply held_fail; [exact H|exact I]|apply held_fail; [exact H|exact I]].
    destruct (parse_sized L _ _ _ _ E (proj1 H)) as [S1 F]. assert (Eo : err (par s) = HPE_OK) by (unfold is_error in E0; destruct (err (par s)); (reflexivity || discriminate)). specialize (F N Eo).
    cbn zeta. destruct (is_error p); [apply held_add; [now apply held_par|exact I]|].
    destruct (hreq p) eqn:Np; [now apply held_par| |].
    all: set (h := if is_proxy (hd p) then hd p else _); assert (Fh : fields h = fields (hd p)) by (unfold h; destruct (is_proxy (hd p)); reflexivity).
    all: assert (Any : forall h', sized L (set_hd p h')) by (intros h'; split; [exact (proj1 S1)|cbn; congruence]).
    all: destruct (raw_host h); [apply held_add; [apply held_par; [now apply held_par|apply Any]|exact I]|].
    all: set (s1 := add A _ _); assert (H1 : held s1) by (apply held_add; [apply held_par; [now apply held_par|apply Any]|cbn; rewrite Fh; exact F]).
    all: destruct (a_headers A (trace s1) h) as [h' ty].
    all: assert (H2 : held (set_par s1 (set_hd (set_hd p h) h'))) by (apply held_par; [exact H1|apply (Any h')]).
    all: destruct ty; [now apply G|now apply G|]; apply held_add; [|exact I]; exact H2.
  Qed.

  Theorem reception_limits is :
    let s := run L A start is in
    sized L (par s) /\ Forall (within L) (trace s).
  Proof.
    assert (X : forall is s, held s -> held (run L A s is)).
    { intros is0. induction is0 as [|i is0 IH]; intros s H; [exact H|]. apply IH. destruct i as [cs|]; cbn [receive].
      - destruct (gone s); [exact H|now apply loop_held].
      - exact H. }
    apply X. split; [|constructor]. split; [cbn; lia|]. intros _ _. cbn. lia.
  Qed.
End Limits.
Print Assumptions reception_limits.
Example reception_limits_case :
  let tr cs := trace (run ex_L ex_A start (data cs)) in
  tr [[Url (repeat 47 40); Field (repeat 48 26); Value (repeat 49 30); Headers_complete (txt "PUT") true]] = [On_error false 400]
  /\ tr [[Url (repeat 47 40); Field (repeat 48 26); Value (repeat 49 30)]; [Value [49]]; [Url [47]]] = [Exception]
  /\ tr [[Url (txt "/"); Field (txt "Host"); Value (txt "h"); Headers_complete (txt "PUT") true; Body (repeat 1 10)]; [Body (repeat 2 3)]]
     = [On_headers (mkH (txt "PUT") false false 0 (txt "h") [] (txt "/") [] [(txt "Host", Some (txt "h"))]) false; On_stream [1; 1]; Exception].
Proof. vm_compute. repeat split. Qed.

(** C61.  An error that the parser reports is the last thing that an application is told of, unless it is the rejection
    of an empty host. *)
Section Final.
  Variables (L : limits) (A : application).
  Hypothesis (NS : forall tr, a_switched A tr = false).
  Definition final (s : session) : Prop :=
    forall b st, In (On_error b st) (trace s) -> st <> 400 -> is_error (par s) = true /\ ack s = false.

  Lemma final_add s e : (forall b st, In (On_error b st) (trace s) -> st = 400) -> (forall b st, e = On_error b st -> st <> 400 -> is_error (par s) = true /\ ack s = false) -> final (add A s e).
  Proof.
    intros H1 H2 b st I N. cbn [add trace] in I. apply in_app_iff in I as [I|[I|[]]]; [elim N; exact (H1 _ _ I)|].
    destruct (H2 b st I N) as [X Y]. cbn [add par ack]. rewrite NS, Y. auto.
  Qed.
  Definition calm (s : session) : Prop := forall b st, In (On_error b st) (trace s) -> st = 400.
  Lemma calm_add s e : calm s -> (forall b st, e = On_error b st -> st = 400) -> calm (add A s e).
  Proof. intros H1 H2 b st I. cbn [add trace] in I. apply in_app_iff in I as [I|[I|[]]]; [exact (H1 _ _ I)|exact (H2 _ _ I)]. Qed.
  Lemma calm_final s : calm s -> final s.
  Proof. intros H b st I N. elim N. exact (H b st I). Qed.
  Lemma calm_fail s e : calm s -> (forall b st, e <> On_error b st) -> calm (fail s e).
  Proof. intros H1 H2 b st I. cbn [fail trace] in I. apply in_app_iff in I as [I|[I|[]]]; [exact (H1 _ _ I)|elim (H2 _ _ I)]. Qed.

  Lemma after_final s cs : calm s -> ack s = false ->
    match after_headers L A s cs with
    | (s1, None) => final s1
    | (s1, Some _) => calm s1
    end.
  Proof.
    intros H Ha. unfold after_headers.
    assert (G : match (match parse L (par s) cs with
      | Thrown => (fail s Exception, None) | Undef => (fail s Undefined_behaviour, None)
      | Left p cs => let s := set_par s p in
        if is_error p then (add A s (On_error (is_head p) (status_of (err p))), None)
        else let k := a_take A (trace s) in let s := set_par s (set_payload p (skipn k (payload p))) in
          let s := add A s (On_stream (firstn k (payload p))) in
          match hreq p with Hreq_payload_done => let p := par s in let s := add A s (On_finish (hd p) (payload p) (close p)) in (set_par s (next_message p), Some cs) | _ => (s, None) end end) with (s1, None) => final s1 | (s1, Some _) => calm s1 end).
    { destruct (parse L (par s) cs) as [p cs2| |] eqn:E; [|apply calm_final; apply calm_fail; [exact H|discriminate]|apply calm_final; apply calm_fail; [exact H|discriminate]].
      cbn zeta. destruct (is_error p) eqn:Ep; [apply final_add; [exact H|intros; split; [exact Ep|exact Ha]]|].
      set (k := a_take A _). assert (H2 : calm (add A (set_par (set_par s p) (set_payload p (skipn k (payload p)))) (On_stream (firstn k (payload p))))) by (apply calm_add; [exact H|discriminate]).
      destruct (hreq p); [now apply calm_final|now apply calm_final|]. change (calm (add A (add A (set_par (set_par s p) (set_payload p (skipn k (payload p)))) (On_stream (firstn k (payload p)))) (On_finish (hd (set_payload p (skipn k (payload p)))) (payload (set_payload p (skipn k (payload p)))) (close (set_payload p (skipn k (payload p))))))).
      apply calm_add; [exact H2|discriminate]. }
    destruct (hreq (par s)); try exact G. exact H.
  Qed.
  Lemma loop_final fuel : forall s cs, calm s -> final (loop L A fuel s cs).
  Proof.
    induction fuel as [|fuel IH]; intros s cs H; [now apply calm_final|]. cbn [loop]. destruct (ack s) eqn:Ha; [apply final_add; [exact H|discriminate]|].
    destruct (is_error (par s)) eqn:E0; [now apply calm_final|].
    assert (G : forall s cs, calm s -> ack s = false -> final (match after_headers L A s cs with (s, Some cs) => loop L A fuel s cs | (s, None) => s end)).
    { intros s0 cs0 H0 A0. pose proof (after_final s0 cs0 H0 A0) as H1. destruct (after_headers L A s0 cs0) as [s1 [cs1|]]; [now apply IH|exact H1]. }
    destruct (hreq (par s)) eqn:N; [|now apply G|now apply G].
    destruct (parse L (par s) cs) as [p cs2| |] eqn:E; [|apply calm_final; apply calm_fail; [exact H|discriminate]|apply calm_final; apply calm_fail; [exact H|discriminate]].
    cbn zeta. destruct (is_error p) eqn:Ep; [apply final_add; [exact H|intros; split; [exact Ep|exact Ha]]|].
    destruct (hreq p) eqn:Np; [now apply calm_final| |].
    all: set (h := if is_proxy (hd p) then hd p else _).
    all: destruct (raw_host h); [apply calm_final; apply calm_add; [exact H|intros b st X; now injection X]|].
    all: set (s1 := add A _ _); assert (H1 : calm s1) by (apply calm_add; [exact H|discriminate]).
    all: assert (A1 : ack s1 = false) by (unfold s1; cbn; rewrite NS, Ha; reflexivity).
    all: destruct (a_headers A (trace s1) h) as [h' ty].
    all: destruct ty; [apply G; [exact H1|exact A1]|apply G; [exact H1|exact A1]|]; apply calm_final; apply calm_add; [exact H1|discriminate].
  Qed.
  Lemma run_final css : forall s, final s -> final (run L A s (data css)).
  Proof.
    induction css as [|cs css IH]; intros s H; [exact H|]. apply IH. cbn [receive]. destruct (gone s) eqn:Hg; [exact H|].
    destruct (List.existsb (fun e => match e with On_error _ st => negb (st =? 400) | _ => false end) (trace s)) eqn:X.
    - apply existsb_exists in X as (e & I & X). destruct e as [| | |b st| | |]; try discriminate. destruct (H b st I ltac:(lia)) as [E Ha].
      cbn [loop]. rewrite Ha, E. exact H.
    - apply loop_final. intros b st I. destruct (Z.eq_dec st 400) as [->|N]; [reflexivity|exfalso].
      assert (Y : List.existsb (fun e => match e with On_error _ st => negb (st =? 400) | _ => false end) (trace s) = true); [|congruence].
      apply existsb_exists. exists (On_error b st). split; [exact I|lia].
  Qed.

  Theorem errors_final_partial css more b st :
    In (On_error b st) (trace (run L A start (data css))) -> st <> 400 ->
    trace (run L A start (data (css ++ more))) = trace (run L A start (data css)).
  Proof.
    intros I N. assert (F : final (run L A start (data css))) by (apply run_final; intros ? ? []).
    unfold data, run in *. rewrite map_app, fold_left_app. set (s := fold_left (receive L A) (map Data css) start) in *. destruct (F b st I N) as [E Ha].
    clear F I. induction more as [|cs more IH]; [reflexivity|]. cbn [map fold_left receive]. destruct (gone s); [exact IH|].
    cbn [loop]. rewrite Ha, E. exact IH.
  Qed.
End Final.
Print Assumptions errors_final_partial.
Example errors_final_case :
  let A := mkA (fun _ h => (h, Payload_normal)) (fun _ => O) (fun _ => false) in
  In (On_error false 505) (trace (run ex_L A start (data [[Url (txt "/")]; [Fail HPE_INVALID_VERSION; Url [47]]]))).
Proof. vm_compute. now left. Qed.

(** It is false of the rejection of an empty host: the request which has been rejected is told of as finished when more data arrives. *)
Theorem errors_final_refuted :
  trace (run ex_L ex_A start (data [[Url (txt "/"); Field (txt "Host"); Value []; Headers_complete (txt "GET") true]; [Message_complete]]))
  = [On_error false 400; On_stream []; On_finish (mkH (txt "GET") false false 0 [] [] (txt "/") [] [(txt "Host", Some [])]) [] false].
Proof. vm_compute. reflexivity. Qed.
Print Assumptions errors_final_refuted.

(** After the protocol has been switched, all that arrives goes to the other protocol, in order. *)
Definition upgraded (is : list input) : list event := flat_map (fun i => match i with Data cs => [On_upgraded cs] | Switch => [] end) is.
Lemma gone_exception L A s is : (gone s = true -> In Exception (trace s) \/ In Undefined_behaviour (trace s)) ->
  gone (run L A s is) = true -> In Exception (trace (run L A s is)) \/ In Undefined_behaviour (trace (run L A s is)).
Proof.
  set (G := fun s => gone s = true -> In Exception (trace s) \/ In Undefined_behaviour (trace s)). fold (G s). fold (G (run L A s is)).
  assert (Ga : forall s e, G s -> G (add A s e)). { intros s0 e H X. destruct (H X) as [Y|Y]; [left|right]; cbn; apply in_app_iff; now left. }
  assert (Gf : forall s, G (fail s Exception) /\ G (fail s Undefined_behaviour)).
  { intros s0. split; intros _; [left|right]; cbn; apply in_app_iff; right; now left. }
  assert (Gp : forall s p, G s -> G (set_par s p)) by (intros s0 p H; exact H).
  assert (Af : forall s cs, G s -> G (fst (after_headers L A s cs))).
  { intros s0 cs H. unfold after_headers. destruct (hreq (par s0)); [| |exact H].
    all: destruct (parse L (par s0) cs) as [p cs2| |]; [|apply Gf|apply Gf]; cbn zeta; destruct (is_error p); [now apply Ga|].
    all: destruct (hreq p); cbn [fst]; try (apply Ga; exact H). all: apply Gp; apply Ga; apply Ga; exact H. }
  assert (Lo : forall fuel s cs, G s -> G (loop L A fuel s cs)).
  { induction fuel as [|fuel IH]; intros s0 cs H; [exact H|]. cbn [loop]. destruct (ack s0); [now apply Ga|]. destruct (is_error (par s0)); [exact H|].
    assert (X : forall s cs, G s -> G (match after_headers L A s cs with (s, Some cs) => loop L A fuel s cs | (s, None) => s end)).
    { intros s1 cs1 H1. pose proof (Af s1 cs1 H1) as H2. destruct (after_headers L A s1 cs1) as [s2 [cs2|]]; [now apply IH|exact H2]. }
    destruct (hreq (par s0)); [|now apply X|now apply X].
    destruct (parse L (par s0) cs) as [p cs2| |]; [|apply Gf|apply Gf]. cbn zeta. destruct (is_error p); [now apply Ga|]. destruct (hreq p); [exact H| |].
    all: set (h := if is_proxy (hd p) then hd p else _); destruct (raw_host h); [now apply Ga|].
    all: set (s1 := add A _ _); assert (H1 : G s1) by (apply Ga; exact H); destruct (a_headers A (trace s1) h) as [h' ty].
    all: destruct ty; [now apply X|now apply X|]; apply Ga; exact H1. }
  revert s. induction is as [|i is IH]; intros s H; [exact H|]. apply IH. destruct i as [cs|]; cbn [receive]; [|exact H].
  destruct (gone s) eqn:E; [exact H|]. now apply Lo.
Qed.

Theorem switched_all L A before after :
  ~ In Exception (trace (run L A start before)) -> ~ In Undefined_behaviour (trace (run L A start before)) ->
  trace (run L A start (before ++ Switch :: after)) = trace (run L A start before) ++ upgraded after.
Proof.
  intros N1 N2. unfold run in *. rewrite fold_left_app. set (s := fold_left (receive L A) before start) in *. cbn [fold_left receive].
  assert (Hg : gone s = false). { destruct (gone s) eqn:E; [|reflexivity]. exfalso. destruct (gone_exception L A start before) as [X|X]; [discriminate|exact E|exact (N1 X)|exact (N2 X)]. }
  assert (G : forall is s, ack s = true -> gone s = false -> trace (fold_left (receive L A) is s) = trace s ++ upgraded is).
  { clear. induction is as [|i is IH]; intros s A0 G0; [cbn; now rewrite app_nil_r|]. cbn [fold_left]. destruct i as [cs|]; cbn [receive upgraded flat_map app].
    - rewrite G0. cbn [loop]. rewrite A0. rewrite IH; [cbn [add trace]; rewrite <- app_assoc; reflexivity|cbn; now rewrite A0|exact G0].
    - rewrite IH; [reflexivity|reflexivity|exact G0]. }
  rewrite G; [reflexivity|reflexivity|exact Hg].
Qed.
Print Assumptions switched_all.
Example switched_all_case :
  let before := data [[Url (txt "/"); Field (txt "Host"); Value (txt "h"); Headers_complete (txt "GET") true; Message_complete]] in
  let s := run ex_L ex_A start before in
  length (trace s) = 3%nat /\ trace (run ex_L ex_A start (before ++ [Switch; Data [Body [1]]; Data [Body [2]]])) = trace s ++ [On_upgraded [Body [1]]; On_upgraded [Body [2]]].
Proof. vm_compute. split; reflexivity. Qed.
