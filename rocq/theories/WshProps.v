(** Theorems about the opening handshake of WebSocket connections (properties C65 to C68). *)
From Coq Require Import ZArith List Bool Lia String.
From Verif Require Import Base BaseLemmas Text DateModel HvalModel HdrModel HdrSpec HdrProofs HvalProofs HnameModel HnameProps HoutSpec HoutProps PoolProofs.
From Verif Require Import AddrTextModel WshModel WshSpec WshProofs.
From Verif Require WsModel.
Import ListNotations.
Open Scope list_scope.
Open Scope Z_scope.
Notation length := List.length.

Notation pending := WsModel.wshs_pending.
Notation req_sent := WsModel.wshs_c_req_sent.
Notation c_accepted := WsModel.wshs_c_accepted.
Notation s_accepted := WsModel.wshs_s_accepted.

Lemma digest_none n len fs d : digest_of n len fs [] d -> hd 0 d = 0 \/ last_of_length n len fs d /\ nth 0 d 0 <> 0.
Proof. intros [[_ ->]|H]; [now left|]. destruct (Z.eq_dec (hd 0 d) 0); [now left|right]. split; [exact H|]. destruct d; auto. Qed.
Lemma last_unique n len fs a b : last_of_length n len fs a -> last_of_length n len fs b -> a = b.
Proof.
  intros (l & r & E & L & F) (l' & r' & E' & L' & F'). rewrite E in E'. clear E. revert l' E'. induction l as [|x l IH]; intros [|y l'] E'; cbn [app] in E'.
  - now injection E'.
  - exfalso. injection E' as -> ->. apply Forall_app in F as [_ F]. inversion F. congruence.
  - exfalso. injection E' as <- <-. apply Forall_app in F' as [_ F']. inversion F'. congruence.
  - injection E' as _ E'. eauto.
Qed.
Lemma digest_exact n len fs d k : len <> O -> digest_of n len fs [] d -> last_of_length n len fs k -> d = k.
Proof.
  intros N [[F ->]|H] K; [|eapply last_unique; eauto]. exfalso. destruct K as (l & r & E & L & _). rewrite E in F. apply Forall_app in F as [_ F]. inversion F. congruence.
Qed.
Lemma asks_iff fs sc : (upgrade_ok sc = true <-> In (txt "websocket") (lookup n_upg fs)) -> (version_ok sc = true <-> In (txt "13") (lookup n_ver fs)) -> digest_of n_key 24 fs [] (digest sc) ->
  if negb (upgrade_ok sc) || negb (version_ok sc) || (hd 0 (digest sc) =? 0) then forall k, ~ asks fs k else asks fs (digest sc).
Proof.
  intros A B C. destruct (negb (upgrade_ok sc) || negb (version_ok sc) || (hd 0 (digest sc) =? 0)) eqn:E.
  - intros k (K1 & K2 & K3 & K4). apply A in K1. apply B in K2. assert (N : 24%nat <> 0%nat) by lia. rewrite (digest_exact _ _ _ _ _ N C K3), K1, K2 in E. clear - E K4. destruct k; cbn in *; lia.
  - apply orb_false_elim in E as [E E3]. apply orb_false_elim in E as [E1 E2]. apply negb_false_iff in E1, E2. split; [now apply A|]. split; [now apply B|].
    destruct (digest_none _ _ _ _ C) as [H|H]; [lia|exact H].
Qed.
Lemma land_small v : 0 <= v <= 15 -> Z.land v 15 = v.
Proof. intros H. change 15 with (Z.ones 4). rewrite Z.land_ones by lia. apply Z.mod_small. lia. Qed.
Lemma clamp_level v : 1 <= v <= 9 -> Z.land (clamp (v - 2) 1 7) 7 = Z.max 3 v - 2.
Proof. intros H. unfold clamp. change 7 with (Z.ones 3) at 2. rewrite Z.land_ones by lia. rewrite Z.mod_small by (cbn; lia). lia. Qed.
Lemma print_terms_eq p : print_pmce p = print_terms (terms_from p).
Proof. reflexivity. Qed.
Lemma negotiates_range integer default es t : negotiates integer default es (Some t) -> range t.
Proof. intros (_ & l & e & r & _ & _ & [_ U] & T). exact (terms_in_range integer _ _ U T). Qed.

(** ** The server *)

(** What the server replies, and on what terms the connection is established.  [o] are the terms of compression. *)
Theorem server_handshake mktime integer sha1 parsed default now c method fs :
  0 <= default <= 9 -> wshs c = pending -> method <> txt "OPTIONS" -> readable mktime parsed fs -> (forall x, bytes (sha1 x)) ->
  let closes := mentions (txt "close") (elements parsed (txt "Connection") fs) in
  exists c' status rs, accept_handshake_request mktime integer sha1 default now c method fs = Reply c' status rs /\
    ((closes /\ status = 400 /\ rs = [(txt "Connection", txt "close")] /\ wshs c' = pending /\ failed c' = true) \/
     (~ closes /\ (forall k, ~ asks fs k) /\ status = 426 /\ wshs c' = pending /\ failed c' = true /\
      rs = [(txt "Connection", txt "close"); (txt "Upgrade", txt "websocket"); (txt "Sec-WebSocket-Version", txt "13")]) \/
     (~ closes /\ exists k o v, asks fs k /\ negotiates integer default (elements parsed (txt "Sec-WebSocket-Extensions") fs) o /\ proves sha1 k v /\
      status = 101 /\ wshs c' = s_accepted /\ failed c' = false /\
      lookup (txt "Connection") rs = [txt "Upgrade"] /\ lookup (txt "Upgrade") rs = [txt "websocket"] /\ lookup (txt "Sec-WebSocket-Accept") rs = [v] /\
      match o with
      | None => lookup (txt "Sec-WebSocket-Extensions") rs = [] /\
                level_m2 c' = level_m2 c /\ send_nct c' = send_nct c /\ send_bits c' = send_bits c /\ recv_bits c' = recv_bits c
      | Some t => exists x, lookup (txt "Sec-WebSocket-Extensions") rs = [x] /\ header mktime x [mkE (txt "permessage-deflate") Null (response_params t)] /\
                level_m2 c' = Z.max 3 default - 2 /\ send_nct c' = t_server_nct t /\ send_bits c' = t_server_bits t /\ recv_bits c' = t_client_bits t
      end)).
Proof.
  intros D W M R B. unfold accept_handshake_request. rewrite W. cbv zeta.
  destruct (list_eqb method (txt "OPTIONS")) eqn:E; [apply list_eqb_spec in E; contradiction|]. clear E.
  destruct (headers_request mktime integer parsed default fs no_scan R) as [[-> H]|(H & sc & -> & A & V & C & F)].
  { do 3 eexists. split; [reflexivity|]. left. cbn [wshs failed set_failed]. split; [exact H|]. auto. }
  cbn [no_scan upgrade_ok version_ok digest pm] in A, V, C, F.
  assert (A' : upgrade_ok sc = true <-> In (txt "websocket") (lookup n_upg fs)) by (rewrite A; intuition discriminate).
  assert (V' : version_ok sc = true <-> In (txt "13") (lookup n_ver fs)) by (rewrite V; intuition discriminate).
  pose proof (asks_iff fs sc A' V' C) as K. destruct (negb (upgrade_ok sc) || negb (version_ok sc) || (hd 0 (digest sc) =? 0)).
  { do 3 eexists. split; [reflexivity|]. right. left. cbn [wshs failed set_failed]. split; [exact H|]. split; [exact K|]. auto. }
  do 3 eexists. split; [reflexivity|]. right. right. split; [exact H|].
  apply (fold_ext_negotiates integer false default _ D) in F; [|reflexivity].
  exists (digest sc), (if level (pm sc) =? 0 then None else Some (terms_from (pm sc))), (make_accept sha1 (digest sc)).
  split; [exact K|]. split; [destruct (level (pm sc) =? 0); [exact F|exact (proj2 F)]|]. split; [unfold proves, make_accept; now rewrite decode_encode|].
  split; [reflexivity|]. split; [reflexivity|]. split; [reflexivity|].
  destruct (level (pm sc) =? 0) eqn:L.
  - cbn [negb]. rewrite app_nil_r. split; [reflexivity|]. split; [reflexivity|]. split; [reflexivity|]. split; [reflexivity|]. unfold negotiated. rewrite L. cbn. auto.
  - cbn [negb]. split; [reflexivity|]. split; [reflexivity|]. split; [reflexivity|]. destruct F as [F1 F2]. pose proof (negotiates_range _ _ _ _ F2) as RG.
    exists (print_terms (terms_from (pm sc))). split; [reflexivity|]. split; [now apply print_header|]. unfold negotiated. rewrite L. cbn [negb established level_m2 send_nct send_bits recv_bits].
    destruct RG as [R1 R2]. rewrite !land_small by (cbn [terms_from t_server_bits t_client_bits] in *; lia). rewrite clamp_level by lia. rewrite F1. auto.
Qed.
Print Assumptions server_handshake.

(** The request of RFC 6455, 1.3, with an offer of compression that cannot be accepted, and one that can *)
Definition ex_int (t : list Z) : Z := match t with [a] => a - 48 | [a; b] => (a - 48) * 10 + (b - 48) | _ => 0 end.
Definition ex_sha1 (t : list Z) : list Z := firstn 20 (map (fun c => c mod 256) t ++ repeat 0 20).
Definition ex_key := txt "dGhlIHNhbXBsZSBub25jZQ==".
Definition ex_fs : fields :=
  [(txt "host", txt "a"); (txt "UPGRADE", txt "websocket"); (txt "Connection", txt "keep-alive, Upgrade"); (txt "sec-websocket-key", ex_key);
   (txt "Sec-WebSocket-Extensions", txt "permessage-deflate; server_max_window_bits=8, x; y=1"); (txt "Sec-WebSocket-Version", txt "13");
   (txt "Sec-WebSocket-Extensions", txt "permessage-deflate;client_no_context_takeover; server_max_window_bits=10")].
Definition ex_parsed (h : list Z) : list element :=
  if list_eqb h (txt "keep-alive, Upgrade") then [mkE (txt "keep-alive") Null []; mkE (txt "Upgrade") Null []]
  else if list_eqb h (txt "permessage-deflate; server_max_window_bits=8, x; y=1")
  then [mkE (txt "permessage-deflate") Null [(txt "server_max_window_bits", Str (txt "8"))]; mkE (txt "x") Null [(txt "y", Str (txt "1"))]]
  else [mkE (txt "permessage-deflate") Null [(txt "client_no_context_takeover", Null); (txt "server_max_window_bits", Str (txt "10"))]].
Lemma ex_sha1_bytes x : bytes (ex_sha1 x) /\ length (ex_sha1 x) = 20%nat.
Proof.
  unfold ex_sha1. split.
  - apply bytes_firstn. apply Forall_app. split; [|repeat constructor; lia]. apply Forall_forall. intros b I. apply in_map_iff in I as (y & <- & _). unfold byte. apply Z.mod_pos_bound. lia.
  - rewrite firstn_length, app_length, repeat_length. lia.
Qed.
(** Attributes with names and numbers, for examples *)
Definition easy (a : attr) : bool :=
  forallb (fun c => c =? 32) (before a) && forallb (fun c => negb (sep c)) (label a) && negb (length (label a) =? 0)%nat && (length (after a) =? 0)%nat &&
  match assigned a with
  | None => true
  | Some ([], v, []) => negb (length v =? 0)%nat && forallb (fun c => (48 <=? c) && (c <=? 57)) v
  | _ => false
  end.
Definition easy_value (a : attr) : value := match assigned a with Some (_, v, _) => Str v | None => Null end.
Lemma easy_attribute mktime a rest : easy a = true -> ends rest -> ~ In 58 rest -> attribute mktime a rest (easy_value a).
Proof.
  intros H E C. destruct a as [w l z v]. unfold easy, easy_value in *. cbn [before label after assigned] in *. rewrite !andb_true_iff in H. destruct H as ((((H1 & H2) & H3) & H4) & H5).
  destruct z; [|discriminate]. assert (W : Forall is_ws w) by (apply Forall_forall; intros x I; rewrite forallb_forall in H1; specialize (H1 _ I); left; lia).
  assert (L : l <> []) by (destruct l; [discriminate|congruence]). pose proof (token_b _ H2) as T.
  destruct v as [[[u v] y]|]; unfold attribute; cbn [before label after assigned]; [|auto 8].
  destruct u; [|discriminate]. destruct y; [|discriminate]. apply andb_true_iff in H5 as [H5 H6]. assert (N : v <> []) by (destruct v; [discriminate|congruence]).
  assert (D : Forall (fun c => 48 <= c <= 57) v) by (apply Forall_forall; intros x I; rewrite forallb_forall in H6; specialize (H6 _ I); lia).
  destruct (attribute_setting mktime l v rest T L N E D C) as (_ & X). unfold setting in X. cbn [snd before label after assigned] in X. auto.
Qed.
Lemma easy_attributes mktime l : forallb (fun x => easy (snd x)) l = true -> existsb (fun c => c =? 58) (tail_text l) = false ->
  attributes mktime l (map (fun x => (fst x, label (snd x), easy_value (snd x))) l).
Proof.
  induction l as [|[e a] l IH]; intros H C; [exact I|]. cbn [forallb snd] in H. apply andb_true_iff in H as [H1 H2].
  assert (C' : existsb (fun c => c =? 58) (tail_text l) = false) by (cbn [tail_text existsb] in C; rewrite ?existsb_app in C; rewrite !orb_false_iff in C; tauto).
  assert (NC : ~ In 58 (tail_text l)) by (intros X; assert (existsb (fun c => c =? 58) (tail_text l) = true) by (apply existsb_exists; exists 58; auto); congruence).
  cbn [map fst snd attributes]. split; [reflexivity|]. split; [reflexivity|]. split; [apply easy_attribute; [exact H1|apply ends_tail|exact NC]|now apply IH].
Qed.
Lemma easy_header mktime h a l es : h = written a ++ tail_text l -> easy a = true -> forallb (fun x => easy (snd x)) l = true -> existsb (fun c => c =? 58) (tail_text l) = false ->
  (true, label a, easy_value a) :: map (fun x => (fst x, label (snd x), easy_value (snd x))) l = List.concat (map flat es) -> header mktime h es.
Proof.
  intros -> H1 H2 H3 H4. right. exists a, (easy_value a), l, (map (fun x => (fst x, label (snd x), easy_value (snd x))) l). split; [reflexivity|].
  assert (NC : ~ In 58 (tail_text l)) by (intros X; assert (existsb (fun c => c =? 58) (tail_text l) = true) by (apply existsb_exists; exists 58; auto); congruence).
  split; [apply easy_attribute; [exact H1|apply ends_tail|exact NC]|]. split; [now apply easy_attributes|exact H4].
Qed.
Lemma ex_readable mktime : readable mktime ex_parsed ex_fs.
Proof.
  intros h H. vm_compute in H. repeat match goal with X : _ \/ _ |- _ => destruct X | X : False |- _ => destruct X | X : _ = h |- _ => subst h end; vm_compute ex_parsed.
  - apply (easy_header _ _ (mkA [] (txt "keep-alive") [] None) [(true, mkA [32] (txt "Upgrade") [] None)]); reflexivity.
  - apply (easy_header _ _ (mkA [] (txt "permessage-deflate") [] None) [(false, mkA [32] (txt "server_max_window_bits") [] (Some ([], txt "8", []))); (true, mkA [32] (txt "x") [] None); (false, mkA [32] (txt "y") [] (Some ([], txt "1", [])))]); reflexivity.
  - apply (easy_header _ _ (mkA [] (txt "permessage-deflate") [] None) [(false, mkA [] (txt "client_no_context_takeover") [] None); (false, mkA [32] (txt "server_max_window_bits") [] (Some ([], txt "10", [])))]); reflexivity.
Qed.
Example server_handshake_case :
  readable (fun _ => 0) ex_parsed ex_fs /\ (forall x, bytes (ex_sha1 x)) /\
  accept_handshake_request (fun _ => 0) ex_int ex_sha1 6 (txt "now") new_conn (txt "GET") ex_fs =
    Reply (mkC s_accepted false 4 false 10 15) 101
      [(txt "Connection", txt "Upgrade"); (txt "Upgrade", txt "websocket"); (txt "Date", txt "now"); (txt "Expires", txt "0");
       (txt "Sec-WebSocket-Accept", base64 (ex_sha1 ex_key)); (txt "Sec-WebSocket-Extensions", txt "permessage-deflate; client_no_context_takeover; server_max_window_bits=10")].
Proof. split; [apply ex_readable|]. split; [apply ex_sha1_bytes|]. vm_compute. reflexivity. Qed.

(** A preflight request changes nothing; a second handshake cannot begin. *)
Theorem server_options mktime integer sha1 default now c fs :
  (wshs c = pending -> exists rs, accept_handshake_request mktime integer sha1 default now c (txt "OPTIONS") fs = Reply c 204 rs /\
     lookup (txt "Connection") rs = [txt "close"] /\ lookup (txt "Allow") rs = [txt "GET"]) /\
  (wshs c <> pending -> forall method, accept_handshake_request mktime integer sha1 default now c method fs = Throws).
Proof.
  split; intros W.
  - unfold accept_handshake_request. rewrite W. eexists. split; [reflexivity|]. split; reflexivity.
  - intros method. unfold accept_handshake_request. destruct (wshs c); [congruence|reflexivity..].
Qed.
Print Assumptions server_options.
Example server_options_case : wshs new_conn = pending /\ wshs (mkC s_accepted false 0 false 0 0) <> pending.
Proof. split; [reflexivity|discriminate]. Qed.

(** Whatever the headers are, a connection is accepted only if it has been asked for, the reply proves that, and what has
    been agreed upon is within range. *)
Theorem server_accepts_any mktime integer sha1 default now c method fs c' rs :
  0 <= default <= 9 -> (forall x, bytes (sha1 x)) ->
  accept_handshake_request mktime integer sha1 default now c method fs = Reply c' 101 rs ->
  exists k v, asks fs k /\ lookup (txt "Sec-WebSocket-Accept") rs = [v] /\ proves sha1 k v /\ wshs c = pending /\ wshs c' = s_accepted /\
    (lookup (txt "Sec-WebSocket-Extensions") rs = [] /\ level_m2 c' = level_m2 c /\ send_nct c' = send_nct c /\ send_bits c' = send_bits c /\ recv_bits c' = recv_bits c \/
     exists x t, default <> 0 /\ lookup (txt "Sec-WebSocket-Extensions") rs = [x] /\ header mktime x [mkE (txt "permessage-deflate") Null (response_params t)] /\
       level_m2 c' = Z.max 3 default - 2 /\ send_nct c' = t_server_nct t /\ send_bits c' = t_server_bits t /\ recv_bits c' = t_client_bits t /\
       9 <= t_server_bits t <= 15 /\ 9 <= t_client_bits t <= 15).
Proof.
  intros D B H. unfold accept_handshake_request in H. destruct (wshs c) eqn:W; try discriminate. cbv zeta in H. destruct (list_eqb method (txt "OPTIONS")); [discriminate|].
  destruct (headers (request_header mktime integer default) fs no_scan) as [sc| |] eqn:E; try discriminate.
  destruct (headers_request_any mktime integer default fs no_scan sc ltac:(unfold sound; cbn; lia) E) as (A & V & C & P). cbn [no_scan upgrade_ok version_ok digest pm] in A, V, C.
  assert (A' : upgrade_ok sc = true <-> In (txt "websocket") (lookup n_upg fs)) by (rewrite A; intuition discriminate).
  assert (V' : version_ok sc = true <-> In (txt "13") (lookup n_ver fs)) by (rewrite V; intuition discriminate).
  pose proof (asks_iff fs sc A' V' C) as K. destruct (negb (upgrade_ok sc) || negb (version_ok sc) || (hd 0 (digest sc) =? 0)); [discriminate|].
  injection H as <- <-. exists (digest sc), (make_accept sha1 (digest sc)). split; [exact K|].
  destruct P as (P1 & P2 & P3). rewrite Z.mod_small in P1 by lia. destruct (level (pm sc) =? 0) eqn:L; cbn [negb].
  - split; [reflexivity|]. split; [unfold proves, make_accept; now rewrite decode_encode|]. split; [reflexivity|]. split; [reflexivity|]. left. unfold negotiated. rewrite L. cbn. auto.
  - split; [reflexivity|]. split; [unfold proves, make_accept; now rewrite decode_encode|]. split; [reflexivity|]. split; [reflexivity|]. right. exists (print_terms (terms_from (pm sc))), (terms_from (pm sc)).
    split; [lia|]. split; [reflexivity|]. split; [apply print_header; split; assumption|]. unfold negotiated. rewrite L. cbn [negb established level_m2 send_nct send_bits recv_bits terms_from t_server_nct t_server_bits t_client_bits].
    rewrite !land_small by lia. rewrite clamp_level by lia. replace (level (pm sc)) with default by lia. auto 8.
Qed.
Print Assumptions server_accepts_any.
(** The headers of this request cannot be read as lists: a parameter is empty. *)
Example server_accepts_any_case : exists rs,
  accept_handshake_request (fun _ => 0) ex_int ex_sha1 9 (txt "now") new_conn (txt "GET")
    [(txt "Upgrade", txt "websocket"); (txt "Sec-WebSocket-Version", txt "13"); (txt "Sec-WebSocket-Key", ex_key); (txt "Sec-WebSocket-Extensions", txt "permessage-deflate; ; client_max_window_bits=99")]
  = Reply (mkC s_accepted false 7 false 15 15) 101 rs.
Proof. eexists. vm_compute. reflexivity. Qed.

(** Neither side does anything undefined, and the loops end, unless a header has a date that does not fit. *)
Theorem handshake_defined mktime integer sha1 default now pid self c method fs :
  (forall n v, In (n, v) fs -> calm mktime v) ->
  accept_handshake_request mktime integer sha1 default now c method fs <> Undefined /\
  accept_handshake_response mktime integer sha1 default pid self c fs <> Undefined_verdict.
Proof.
  intros C. pose proof (headers_total mktime integer default fs _ (or_introl eq_refl) C no_scan) as H1. pose proof (headers_total mktime integer default fs _ (or_intror eq_refl) C no_scan) as H2. split.
  - unfold accept_handshake_request. destruct (wshs c); try discriminate. cbv zeta. destruct (list_eqb method (txt "OPTIONS")); [discriminate|].
    destruct (headers (request_header mktime integer default) fs no_scan) as [sc| |]; [|discriminate|congruence]. destruct (negb (upgrade_ok sc) || negb (version_ok sc) || (hd 0 (digest sc) =? 0)); discriminate.
  - unfold accept_handshake_response. destruct (wshs c); try discriminate.
    destruct (headers (response_header mktime integer default) fs no_scan) as [sc| |]; [|discriminate|congruence]. destruct (negb (upgrade_ok sc) || (hd 0 (digest sc) =? 0)); [discriminate|].
    destruct (negb (list_eqb (firstn 28 (make_accept sha1 (make_key sha1 pid self))) (firstn 28 (digest sc)))); discriminate.
Qed.
Print Assumptions handshake_defined.
(** A header without a colon has no date at all. *)
Theorem calm_without_colon mktime h : ~ In 58 h -> calm mktime h.
Proof.
  intros H a u ->. rewrite no_date; [discriminate|]. intros X. apply H. apply in_or_app. right. unfold cstr in X. pose proof (until_spec (fun c => c =? 0) u) as U. destruct (until (fun c => c =? 0) u) as [p q].
  destruct U as (-> & _). apply in_or_app. now left.
Qed.
Print Assumptions calm_without_colon.
Example handshake_defined_case : forall n v, In (n, v) ex_fs -> calm (fun _ => 0) v.
Proof. intros n v H. apply calm_without_colon. cbn in H. repeat (destruct H as [H|H]; [injection H as _ <-; intros X; vm_compute in X; intuition discriminate|]). destruct H. Qed.
(** A peer can send such a date. *)
Theorem handshake_overflow_refuted : exists fs, forall integer sha1 default now,
  accept_handshake_request (fun _ => 0) integer sha1 default now new_conn (txt "GET") fs = Undefined.
Proof. exists [(txt "Connection", txt "x=Fri, 31 Dec 9999 23:59:59 GMT")]. intros. vm_compute. reflexivity. Qed.
Print Assumptions handshake_overflow_refuted.

(** ** The client *)

Lemma key_sent sha1 pid self c0 c1 req k : create_handshake_request sha1 pid self c0 = Some (c1, req) -> lookup (txt "Sec-WebSocket-Key") req = [k] -> k = make_key sha1 pid self /\ wshs c1 = req_sent.
Proof.
  intros CR KR. unfold create_handshake_request in CR.
  assert (E : c1 = mkC req_sent (failed c0) (level_m2 c0) (send_nct c0) (send_bits c0) (recv_bits c0) /\ req = request_headers sha1 pid self) by (destruct (wshs c0); try discriminate; injection CR as <- <-; auto).
  destruct E as [-> ->]. split; [|reflexivity]. assert (E : lookup (txt "Sec-WebSocket-Key") (request_headers sha1 pid self) = [make_key sha1 pid self]) by reflexivity. rewrite E in KR. clear E. congruence.
Qed.

(** What a client sends: an opening request with a key of 16 bytes that offers compression. *)
Theorem client_request sha1 pid self c c' req :
  (forall x, bytes (sha1 x) /\ length (sha1 x) = 20%nat) ->
  create_handshake_request sha1 pid self c = Some (c', req) ->
  wshs c' = req_sent /\ exists k nonce, lookup (txt "Sec-WebSocket-Key") req = [k] /\ asks req k /\ decode64 k = Some nonce /\ length nonce = 16%nat /\
    lookup (txt "Connection") req = [txt "Upgrade"] /\
    exists x, lookup (txt "Sec-WebSocket-Extensions") req = [x] /\
      forall mktime, header mktime x [mkE (txt "permessage-deflate") Null [(txt "client_max_window_bits", Null)]].
Proof.
  intros B H. unfold create_handshake_request in H.
  assert (E : c' = mkC req_sent (failed c) (level_m2 c) (send_nct c) (send_bits c) (recv_bits c) /\ req = request_headers sha1 pid self) by (destruct (wshs c); try discriminate; injection H as <- <-; auto).
  destruct E as [-> ->]. split; [reflexivity|].
  set (nonce := firstn 16 (sha1 (List.concat (map (store_le 8) [-7; pid; -6; self; 0; 0; 0])))).
  assert (N : length nonce = 16%nat) by (unfold nonce; rewrite firstn_length; destruct (B (List.concat (map (store_le 8) [-7; pid; -6; self; 0; 0; 0]))) as [_ ->]; reflexivity).
  assert (NB : bytes nonce) by (apply bytes_firstn; apply B).
  assert (KE : make_key sha1 pid self = base64 nonce) by reflexivity.
  unfold request_headers. rewrite KE. clear KE. exists (base64 nonce), nonce. clearbody nonce.
  assert (L : length (base64 nonce) = 24%nat) by (rewrite base64_length, N; reflexivity).
  assert (HD : nth 0 (base64 nonce) 0 <> 0) by (pose proof (base64_head nonce NB) as X; destruct (base64 nonce); apply X; destruct nonce; [discriminate N|congruence|discriminate N|congruence]).
  split; [reflexivity|]. split.
  { split; [left; reflexivity|]. split; [left; reflexivity|]. split; [|exact HD]. exists [], []. split; [reflexivity|]. split; [exact L|constructor]. }
  split; [now apply decode_encode|]. split; [exact N|]. split; [reflexivity|]. eexists. split; [reflexivity|]. intros mktime.
  apply (easy_header _ _ (mkA [] (txt "permessage-deflate") [] None) [(false, mkA [32] (txt "client_max_window_bits") [] None)]); reflexivity.
Qed.
Print Assumptions client_request.
Example client_request_case : (forall x, bytes (ex_sha1 x) /\ length (ex_sha1 x) = 20%nat) /\ exists c' req, create_handshake_request ex_sha1 1000 4096 new_conn = Some (c', req) /\ lookup (txt "Sec-WebSocket-Key") req = [txt "+f/////////oAwAAAAAAAA=="].
Proof. split; [apply ex_sha1_bytes|]. eexists _, _. split; [reflexivity|]. vm_compute. reflexivity. Qed.

(** When a client takes a response for its request: [k] is the key that it has sent. *)
Definition answered (sha1 : list Z -> list Z) (k : list Z) (fs : fields) : Prop :=
  In (txt "websocket") (lookup (txt "Upgrade") fs) /\ exists v, last_of_length (txt "Sec-WebSocket-Accept") 28 fs v /\ proves sha1 k v.

Lemma proof_length sha1 k : (forall x, bytes (sha1 x) /\ length (sha1 x) = 20%nat) -> length (make_accept sha1 k) = 28%nat /\ hd 0 (make_accept sha1 k) <> 0 /\ forall v, proves sha1 k v <-> v = make_accept sha1 k.
Proof.
  intros B. unfold make_accept, proves. set (x := k ++ _). destruct (B x) as [B1 B2]. split; [rewrite base64_length, B2; reflexivity|]. split; [apply base64_head; [exact B1|]; intros E; rewrite E in B2; discriminate|].
  intros v. split; [intros H; now apply encode_decode in H|]. intros ->. now apply decode_encode.
Qed.
Lemma answered_iff sha1 k fs sc : (forall x, bytes (sha1 x) /\ length (sha1 x) = 20%nat) -> (upgrade_ok sc = true <-> In (txt "websocket") (lookup n_upg fs)) -> digest_of n_acc 28 fs [] (digest sc) ->
  (answered sha1 k fs -> negb (upgrade_ok sc) || (hd 0 (digest sc) =? 0) = false /\ list_eqb (firstn 28 (make_accept sha1 k)) (firstn 28 (digest sc)) = true) /\
  (negb (upgrade_ok sc) || (hd 0 (digest sc) =? 0) = false -> list_eqb (firstn 28 (make_accept sha1 k)) (firstn 28 (digest sc)) = true -> answered sha1 k fs).
Proof.
  intros B A C. destruct (proof_length sha1 k B) as (L & HD & P). split.
  - intros (U & v & LV & PV). apply A in U. assert (N : 28%nat <> 0%nat) by lia. rewrite (digest_exact _ _ _ _ _ N C LV), U. apply P in PV. subst v. split; [cbn; lia|]. now apply list_eqb_spec.
  - intros E1 E2. apply orb_false_elim in E1 as [E1 E3]. apply negb_false_iff in E1. apply list_eqb_spec in E2. split; [now apply A|].
    destruct (digest_none _ _ _ _ C) as [H|[H _]]; [lia|]. exists (digest sc). split; [exact H|]. apply P. destruct H as (_ & _ & _ & LD & _).
    rewrite !firstn_all2 in E2 by lia. now symmetry.
Qed.

Theorem client_handshake mktime integer sha1 parsed default pid self c0 c1 req k c fs :
  0 <= default <= 9 -> (forall x, bytes (sha1 x) /\ length (sha1 x) = 20%nat) ->
  create_handshake_request sha1 pid self c0 = Some (c1, req) -> lookup (txt "Sec-WebSocket-Key") req = [k] ->
  wshs c = req_sent -> readable mktime parsed fs ->
  let good := ~ mentions (txt "close") (elements parsed (txt "Connection") fs) /\
              Forall (fun e => same (txt "permessage-deflate") (e_name e) = true) (elements parsed (txt "Sec-WebSocket-Extensions") fs) /\
              answered sha1 k fs in
  exists c', accept_handshake_response mktime integer sha1 default pid self c fs = Verdict c' /\
    (~ good -> wshs c' = req_sent /\ failed c' = true) /\
    (good -> wshs c' = c_accepted /\ failed c' = false /\
       exists o, negotiates integer default (elements parsed (txt "Sec-WebSocket-Extensions") fs) o /\
       match o with
       | None => level_m2 c' = level_m2 c /\ send_nct c' = send_nct c /\ send_bits c' = send_bits c /\ recv_bits c' = recv_bits c
       | Some t => level_m2 c' = Z.max 3 default - 2 /\ send_nct c' = t_client_nct t /\ send_bits c' = t_client_bits t /\ recv_bits c' = t_server_bits t
       end).
Proof.
  intros D B CR KR W R good.
  destruct (key_sent _ _ _ _ _ _ _ CR KR) as [-> _]. clear CR KR.
  unfold accept_handshake_response. rewrite W.
  destruct (headers_response mktime integer parsed default fs no_scan R) as [[-> H]|(H & F & sc & -> & A & C & X)].
  { eexists. split; [reflexivity|]. split; [intros _; cbn [set_failed wshs failed]; auto|]. intros (G1 & G2 & _). exfalso. destruct H; contradiction. }
  cbn [no_scan upgrade_ok version_ok digest pm] in A, C, X.
  assert (A' : upgrade_ok sc = true <-> In (txt "websocket") (lookup n_upg fs)) by (rewrite A; intuition discriminate).
  destruct (answered_iff sha1 (make_key sha1 pid self) fs sc B A' C) as [I1 I2].
  destruct (negb (upgrade_ok sc) || (hd 0 (digest sc) =? 0)).
  { eexists. split; [reflexivity|]. split; [intros _; cbn [set_failed wshs failed]; auto|]. intros (_ & _ & G). exfalso. destruct (I1 G). discriminate. }
  destruct (list_eqb (firstn 28 (make_accept sha1 (make_key sha1 pid self))) (firstn 28 (digest sc))); cbn [negb].
  2:{ eexists. split; [reflexivity|]. split; [intros _; cbn [set_failed wshs failed]; auto|]. intros (_ & _ & G). exfalso. destruct (I1 G). discriminate. }
  assert (G : good) by (unfold good; auto). eexists. split; [reflexivity|]. split; [intros NG; contradiction|]. intros _. split; [reflexivity|]. split; [reflexivity|].
  apply (fold_ext_negotiates integer true default _ D) in X; [|reflexivity]. exists (if level (pm sc) =? 0 then None else Some (terms_from (pm sc))).
  unfold negotiated. destruct (level (pm sc) =? 0) eqn:L; cbn [negb].
  - split; [exact X|]. cbn. auto.
  - destruct X as [X1 X2]. split; [exact X2|]. destruct (negotiates_range _ _ _ _ X2) as [R1 R2]. cbn [established level_m2 send_nct send_bits recv_bits].
    rewrite !land_small by (cbn [terms_from t_server_bits t_client_bits] in *; lia). rewrite clamp_level by lia. rewrite X1. auto.
Qed.
Print Assumptions client_handshake.
Definition ex_resp : fields :=
  [(txt "Connection", txt "keep-alive, Upgrade"); (txt "Upgrade", txt "websocket"); (txt "Sec-WebSocket-Accept", make_accept ex_sha1 (make_key ex_sha1 1000 4096));
   (txt "Sec-WebSocket-Extensions", txt "permessage-deflate;client_no_context_takeover; server_max_window_bits=10")].
Example client_handshake_case :
  readable (fun _ => 0) ex_parsed ex_resp /\ answered ex_sha1 (make_key ex_sha1 1000 4096) ex_resp /\
  accept_handshake_response (fun _ => 0) ex_int ex_sha1 9 1000 4096 (mkC req_sent false 0 false 0 0) ex_resp = Verdict (mkC c_accepted false 7 true 15 10).
Proof.
  split.
  { intros h H. vm_compute in H. repeat match goal with X : _ \/ _ |- _ => destruct X | X : False |- _ => destruct X | X : _ = h |- _ => subst h end; vm_compute ex_parsed.
    - apply (easy_header _ _ (mkA [] (txt "keep-alive") [] None) [(true, mkA [32] (txt "Upgrade") [] None)]); reflexivity.
    - apply (easy_header _ _ (mkA [] (txt "permessage-deflate") [] None) [(false, mkA [] (txt "client_no_context_takeover") [] None); (false, mkA [32] (txt "server_max_window_bits") [] (Some ([], txt "10", [])))]); reflexivity. }
  split; [|vm_compute; reflexivity]. split; [vm_compute; now left|]. exists (make_accept ex_sha1 (make_key ex_sha1 1000 4096)). split; [exists [], []; split; [reflexivity|split; [vm_compute; reflexivity|constructor]]|].
  apply (proof_length ex_sha1); [apply ex_sha1_bytes|reflexivity].
Qed.

(** Whatever the headers are, a client takes a response only if it proves that the server has received the key. *)
Theorem client_accepts_any mktime integer sha1 default pid self c0 c1 req k c fs c' :
  0 <= default <= 9 -> (forall x, bytes (sha1 x) /\ length (sha1 x) = 20%nat) ->
  create_handshake_request sha1 pid self c0 = Some (c1, req) -> lookup (txt "Sec-WebSocket-Key") req = [k] ->
  accept_handshake_response mktime integer sha1 default pid self c fs = Verdict c' -> wshs c' = c_accepted ->
  wshs c = req_sent /\ answered sha1 k fs /\
  (level_m2 c' = level_m2 c /\ send_nct c' = send_nct c /\ send_bits c' = send_bits c /\ recv_bits c' = recv_bits c \/
   default <> 0 /\ level_m2 c' = Z.max 3 default - 2 /\ 9 <= send_bits c' <= 15 /\ 9 <= recv_bits c' <= 15).
Proof.
  intros D B CR KR H W.
  destruct (key_sent _ _ _ _ _ _ _ CR KR) as [-> _]. clear CR KR.
  unfold accept_handshake_response in H. destruct (wshs c) eqn:WC; try discriminate.
  destruct (headers (response_header mktime integer default) fs no_scan) as [sc| |] eqn:E; [|injection H as <-; cbn in W; congruence|discriminate].
  destruct (headers_response_any mktime integer default fs no_scan sc ltac:(unfold sound; cbn; lia) E) as (A & C & P). cbn [no_scan upgrade_ok digest] in A, C.
  assert (A' : upgrade_ok sc = true <-> In (txt "websocket") (lookup n_upg fs)) by (rewrite A; intuition discriminate).
  destruct (answered_iff sha1 (make_key sha1 pid self) fs sc B A' C) as [_ I2].
  destruct (negb (upgrade_ok sc) || (hd 0 (digest sc) =? 0)); [injection H as <-; cbn in W; congruence|].
  destruct (list_eqb (firstn 28 (make_accept sha1 (make_key sha1 pid self))) (firstn 28 (digest sc))); cbn [negb] in H; [|injection H as <-; cbn in W; congruence].
  injection H as <-. split; [reflexivity|]. split; [auto|]. destruct P as (P1 & P2 & P3). rewrite Z.mod_small in P1 by lia. unfold negotiated. destruct (level (pm sc) =? 0) eqn:L; cbn [negb]; [left; cbn; auto|right].
  cbn [established level_m2 send_nct send_bits recv_bits]. rewrite !land_small by lia. rewrite clamp_level by lia. replace (level (pm sc)) with default by lia. split; [lia|auto].
Qed.
Print Assumptions client_accepts_any.
(** A response whose extension has an empty parameter is taken. *)
Example client_accepts_any_case :
  accept_handshake_response (fun _ => 0) ex_int ex_sha1 9 1000 4096 (mkC req_sent false 0 false 0 0)
    [(txt "Upgrade", txt "websocket"); (txt "Sec-WebSocket-Accept", make_accept ex_sha1 (make_key ex_sha1 1000 4096)); (txt "Sec-WebSocket-Extensions", txt "permessage-deflate; ; x")]
  = Verdict (mkC c_accepted false 7 false 15 15).
Proof. vm_compute. reflexivity. Qed.

(** ** Both sides *)

(** The terms are determined. *)
Lemma first_unique {A} (P : A -> Prop) (l l' : list A) a a' r r' : l ++ a :: r = l' ++ a' :: r' -> Forall (fun x => ~ P x) l -> Forall (fun x => ~ P x) l' -> P a -> P a' -> a = a'.
Proof.
  revert l'. induction l as [|x l IH]; intros [|y l'] E F F' Pa Pa'; cbn [app] in E.
  - now injection E.
  - injection E as -> _. inversion F'. contradiction.
  - injection E as <- _. inversion F. contradiction.
  - injection E as _ E. inversion F. inversion F'. eauto.
Qed.
Lemma window_unique integer n ps b b' : window integer n ps b -> window integer n ps b' -> b = b'.
Proof.
  assert (X : forall l m t (r : list (list Z * value)), same n m = true -> ~ Forall (fun p => ~ sets n p) (l ++ (m, Str t) :: r)) by (intros l m t r S F; apply Forall_app in F as [_ F]; inversion F as [|? ? Q]; apply Q; split; [exact S|auto]).
  intros [[F ->]|(l & m & t & r & E & S & F & ->)] [[F' ->]|(l' & m' & t' & r' & E' & S' & F' & ->)].
  - reflexivity.
  - subst ps. now apply X in F.
  - subst ps. now apply X in F'.
  - assert (Y : (m, Str t) = (m', Str t')); [|congruence]. subst ps. clear X. apply (f_equal (@rev _)) in E'. rewrite !rev_app_distr in E'. cbn [rev] in E'. rewrite <- !app_assoc in E'. cbn [app] in E'.
    eapply (first_unique (sets n)); [exact E'|now apply Forall_rev|now apply Forall_rev|split; auto|split; auto].
Qed.
Theorem negotiation_unique integer default es o o' : negotiates integer default es o -> negotiates integer default es o' -> o = o'.
Proof.
  assert (X : forall t, negotiates integer default es (Some t) -> negotiates integer default es None -> False).
  { intros t (N & l & e & r & -> & F & A & _) [Z0|F']; [contradiction|]. apply Forall_app in F' as [_ F']. inversion F'. contradiction. }
  destruct o as [t|], o' as [t'|]; intros H H'; [|exfalso; eauto|exfalso; eauto|reflexivity].
  destruct H as (_ & l & e & r & E & F & A & T), H' as (_ & l' & e' & r' & E' & F' & A' & T'). rewrite E in E'. pose proof (first_unique _ _ _ _ _ _ _ E' F F' A A') as <-.
  destruct T as (T1 & T2 & T3 & T4), T' as (T1' & T2' & T3' & T4'). pose proof (window_unique _ _ _ _ _ T3 T3'). pose proof (window_unique _ _ _ _ _ T4 T4').
  destruct t as [a b c d], t' as [a' b' c' d']. cbn [t_server_nct t_client_nct t_server_bits t_client_bits] in *. subst. f_equal. f_equal.
  - destruct a, a'; try reflexivity; [symmetry; apply T1'; now apply T1|apply T1; now apply T1'].
  - destruct b, b'; try reflexivity; [symmetry; apply T2'; now apply T2|apply T2; now apply T2'].
Qed.
Print Assumptions negotiation_unique.
Example negotiation_unique_case : negotiates ex_int 6 (elements ex_parsed (txt "Sec-WebSocket-Extensions") ex_fs) (Some (mkT false true 10 15)).
Proof.
  split; [discriminate|]. exists (firstn 2 (elements ex_parsed (txt "Sec-WebSocket-Extensions") ex_fs)), (mkE (txt "permessage-deflate") Null [(txt "client_no_context_takeover", Null); (txt "server_max_window_bits", Str (txt "10"))]), [].
  split; [vm_compute; reflexivity|]. split.
  { vm_compute firstn. constructor; [|constructor; [|constructor]].
    - intros [_ U]. inversion U as [|? ? U1 _]. inversion U1 as [n v K V|n v K V|n v K V]; [exact V|exact V|]. vm_compute in V. destruct V as [V _]. now apply V.
    - intros [U _]. discriminate. }
  split; [split; [reflexivity|]; constructor; [|constructor; [|constructor]]|].
  - apply u_takeover; [right; left; reflexivity|exact I].
  - apply u_bits; [left; reflexivity|vm_compute; split; discriminate].
  - split; [cbn [t_server_nct]; split; [discriminate|]; intros H; inversion H as [? ? Q|? ? Q]; [discriminate Q|]; inversion Q as [? ? W|? ? W]; [discriminate W|inversion W]|].
    split; [cbn [t_client_nct]; split; [intros _; left; reflexivity|reflexivity]|].
    split; [right; exists [(txt "client_no_context_takeover", Null)], (txt "server_max_window_bits"), (txt "10"), []; split; [reflexivity|]; split; [reflexivity|]; split; [constructor|reflexivity]|].
    left. split; [|reflexivity]. constructor; [intros [Q _]; discriminate Q|]. constructor; [intros [Q _]; discriminate Q|constructor].
Qed.

(** A client takes the reply of a server to a request with its key, and both use the same parameters of compression. *)
Theorem handshake_agreement mktime integer sha1 parsed ds dc now method fs s0 s rs pid self c0 c1 req k :
  0 <= ds <= 9 -> 0 <= dc <= 9 -> (forall x, bytes (sha1 x) /\ length (sha1 x) = 20%nat) -> (forall n, 9 <= n <= 15 -> integer (decimal n) = n) ->
  create_handshake_request sha1 pid self c0 = Some (c1, req) -> lookup (txt "Sec-WebSocket-Key") req = [k] -> asks fs k -> readable mktime parsed fs ->
  accept_handshake_request mktime integer sha1 ds now s0 method fs = Reply s 101 rs ->
  exists c, accept_handshake_response mktime integer sha1 dc pid self c1 rs = Verdict c /\ wshs c = c_accepted /\ wshs s = s_accepted /\
    exists o, negotiates integer ds (elements parsed (txt "Sec-WebSocket-Extensions") fs) o /\
    match o with
    | Some t => (level_m2 s = Z.max 3 ds - 2 /\ send_nct s = t_server_nct t /\ send_bits s = t_server_bits t /\ recv_bits s = t_client_bits t) /\
                (dc <> 0 -> level_m2 c = Z.max 3 dc - 2 /\ send_nct c = t_client_nct t /\ send_bits c = recv_bits s /\ recv_bits c = send_bits s)
    | None => (level_m2 s = level_m2 s0 /\ send_nct s = send_nct s0 /\ send_bits s = send_bits s0 /\ recv_bits s = recv_bits s0) /\
              (level_m2 c = level_m2 c1 /\ send_nct c = send_nct c1 /\ send_bits c = send_bits c1 /\ recv_bits c = recv_bits c1)
    end.
Proof.
  intros Ds Dc B IN CR KR AK R H. destruct (key_sent _ _ _ _ _ _ _ CR KR) as [-> W1]. clear CR KR.
  assert (WP : wshs s0 = pending) by (unfold accept_handshake_request in H; destruct (wshs s0); try discriminate; reflexivity).
  assert (MO : method <> txt "OPTIONS") by (intros ->; unfold accept_handshake_request in H; rewrite WP in H; discriminate H).
  unfold accept_handshake_request in H. rewrite WP in H. cbv zeta in H. destruct (list_eqb method (txt "OPTIONS")) eqn:E; [apply list_eqb_spec in E; contradiction|]. clear E.
  destruct (headers_request mktime integer parsed ds fs no_scan R) as [[E _]|(_ & sc & E & A & V & C & F)]; rewrite E in H; [discriminate|]. clear E.
  cbn [no_scan upgrade_ok version_ok digest pm] in A, V, C, F.
  destruct (negb (upgrade_ok sc) || negb (version_ok sc) || (hd 0 (digest sc) =? 0)); [discriminate|].
  assert (KD : digest sc = make_key sha1 pid self) by (destruct AK as (_ & _ & AK & _); assert (N : 24%nat <> 0%nat) by lia; exact (digest_exact _ _ _ _ _ N C AK)). rewrite KD in H. clear KD A V C AK.
  apply (fold_ext_negotiates integer false ds _ Ds) in F; [|reflexivity].
  set (k := make_key sha1 pid self) in *. destruct (proof_length sha1 k B) as (LA & HA & _). set (acc := make_accept sha1 k) in *.
  set (e := if negb (level (pm sc) =? 0) then [(txt "Sec-WebSocket-Extensions", print_pmce (pm sc))] else []) in *.
  assert (HS : s = established (negotiated s0 (pm sc) (server_nct (pm sc)) (server_bits (pm sc)) (client_bits (pm sc))) s_accepted /\
               rs = [(txt "Connection", txt "Upgrade"); (txt "Upgrade", txt "websocket"); (txt "Date", now); (txt "Expires", txt "0"); (txt "Sec-WebSocket-Accept", acc)] ++ e)
    by (injection H as <- <-; auto). clear H. destruct HS as [-> ->].
  set (t := terms_from (pm sc)) in *. set (parsed' := fun h => if list_eqb h (txt "Upgrade") then [mkE (txt "Upgrade") Null []] else [mkE (txt "permessage-deflate") Null (response_params t)]).
  set (rs := [(txt "Connection", txt "Upgrade"); (txt "Upgrade", txt "websocket"); (txt "Date", now); (txt "Expires", txt "0"); (txt "Sec-WebSocket-Accept", acc)] ++ e).
  assert (LC : lookup n_con rs = [txt "Upgrade"]) by (unfold rs, e; destruct (negb (level (pm sc) =? 0)); reflexivity).
  assert (LU : lookup n_upg rs = [txt "websocket"]) by (unfold rs, e; destruct (negb (level (pm sc) =? 0)); reflexivity).
  assert (LD : lookup n_acc rs = [acc]) by (unfold rs, e; destruct (negb (level (pm sc) =? 0)); reflexivity).
  assert (LE : lookup n_ext rs = if negb (level (pm sc) =? 0) then [print_terms t] else []) by (unfold rs, e; destruct (negb (level (pm sc) =? 0)); reflexivity).
  assert (P1 : parsed' (txt "Upgrade") = [mkE (txt "Upgrade") Null []]) by reflexivity.
  assert (P2 : parsed' (print_terms t) = [mkE (txt "permessage-deflate") Null (response_params t)]) by reflexivity.
  assert (RG : negb (level (pm sc) =? 0) = true -> range t) by (intros N; destruct (level (pm sc) =? 0); [discriminate|]; exact (negotiates_range _ _ _ _ (proj2 F))).
  assert (R' : readable mktime parsed' rs).
  { intros h. fold n_con n_ext. rewrite LC, LE. intros [[<-|[]]|I]; [rewrite P1; apply word_header; [reflexivity|discriminate]|].
    destruct (negb (level (pm sc) =? 0)); [|destruct I]. destruct I as [<-|[]]. rewrite P2. apply print_header. now apply RG. }
  clearbody rs parsed'. unfold accept_handshake_response. rewrite W1.
  destruct (headers_response mktime integer parsed' dc rs no_scan R') as [[_ H]|(_ & _ & sc' & -> & A & C & X)].
  { exfalso. unfold elements in H. rewrite LC, LE in H. cbn [flat_map] in H. rewrite P1 in H. destruct H as [H|H]; [inversion H as [? ? Q|? ? Q]; [discriminate Q|inversion Q]|].
    apply H. destruct (negb (level (pm sc) =? 0)); [|constructor]. cbn [flat_map]. rewrite P2. constructor; [reflexivity|constructor]. }
  cbn [no_scan upgrade_ok version_ok digest pm] in A, C, X. rewrite LU in A.
  assert (A' : upgrade_ok sc' = true) by (apply A; right; left; reflexivity). rewrite A'. clear A A'.
  assert (DA : digest sc' = acc).
  { destruct C as [[C _]|(l & r & C & _)]; fold n_acc in *; rewrite LD in C; [inversion C; congruence|]. destruct l as [|? l]; cbn in C; [congruence|]. destruct l; discriminate C. }
  rewrite DA. fold k. fold acc. replace (hd 0 acc =? 0) with false by lia. cbn [negb orb].
  replace (list_eqb (firstn 28 acc) (firstn 28 acc)) with true by (symmetry; now apply list_eqb_spec). cbn [negb].
  eexists. split; [reflexivity|]. split; [reflexivity|]. split; [reflexivity|].
  unfold elements in X. rewrite LE in X. unfold negotiated. destruct (level (pm sc) =? 0) eqn:L; cbn [negb] in *.
  - cbn in X. injection X as <-. exists None. split; [exact F|]. cbn. auto 8.
  - exists (Some t). destruct F as [F1 F2]. split; [exact F2|]. specialize (RG eq_refl). destruct RG as [R1 R2]. assert (R1' : 9 <= server_bits (pm sc) <= 15) by exact R1. assert (R2' : 9 <= client_bits (pm sc) <= 15) by exact R2.
    split; [cbn [established level_m2 send_nct send_bits recv_bits]; rewrite !land_small by lia; rewrite clamp_level by lia; rewrite F1; auto|]. intros ND.
    cbn [flat_map] in X. rewrite P2 in X. cbn [app fold_ext e_name e_params] in X. change (equals (txt "permessage-deflate") (txt "permessage-deflate")) with true in X. cbv iota in X.
    unfold fold_use in X. change (negb (level no_pmce =? 0)) with false in X. replace (dc =? 0) with false in X by lia. cbv iota in X. rewrite (fold_response integer dc t) in X; [|exact IN|split; assumption].
    cbn [server_nct client_nct server_bits client_bits orb] in X. match type of X with Go ?a = Go ?b => assert (X' : b = a) by congruence end. rewrite X'. clear X X'. cbn [level server_nct client_nct server_bits client_bits]. rewrite Z.mod_small by lia. replace (dc =? 0) with false by lia.
    cbn [negb established level_m2 send_nct send_bits recv_bits]. rewrite clamp_level by lia. split; [reflexivity|]. split; [reflexivity|].
    assert (Y1 : (if t_client_bits t =? 15 then 15 else t_client_bits t) = t_client_bits t) by (destruct (t_client_bits t =? 15) eqn:Q; lia).
    assert (Y2 : (if t_server_bits t =? 15 then 15 else t_server_bits t) = t_server_bits t) by (destruct (t_server_bits t =? 15) eqn:Q; lia). rewrite Y1, Y2. split; reflexivity.
Qed.
Print Assumptions handshake_agreement.
(** The request that a client sends, with the offers of [ex_fs] instead of its own *)
Definition ex_both : fields := (txt "Sec-WebSocket-Key", make_key ex_sha1 1000 4096) :: filter (fun f => negb (equals (fst f) (txt "Sec-WebSocket-Key"))) ex_fs.
Example handshake_agreement_case :
  (forall n, 9 <= n <= 15 -> ex_int (decimal n) = n) /\ asks ex_both (make_key ex_sha1 1000 4096) /\ readable (fun _ => 0) ex_parsed ex_both /\
  exists rs, accept_handshake_request (fun _ => 0) ex_int ex_sha1 6 (txt "now") new_conn (txt "GET") ex_both = Reply (mkC s_accepted false 4 false 10 15) 101 rs /\
  accept_handshake_response (fun _ => 0) ex_int ex_sha1 9 1000 4096 (mkC req_sent false 0 false 0 0) rs = Verdict (mkC c_accepted false 7 true 15 10).
Proof.
  split; [intros n H; assert (C : n = 9 \/ n = 10 \/ n = 11 \/ n = 12 \/ n = 13 \/ n = 14 \/ n = 15) by lia; repeat destruct C as [->|C]; try subst n; reflexivity|].
  split; [split; [vm_compute; now left|]; split; [vm_compute; now left|]; split; [exists [], []; split; [vm_compute; reflexivity|]; split; [vm_compute; reflexivity|constructor]|vm_compute; discriminate]|].
  split; [exact (ex_readable (fun _ => 0))|]. eexists. split; [vm_compute; reflexivity|vm_compute; reflexivity].
Qed.

(** A client whose level is zero offers compression all the same, and ignores that the server accepts it. *)
Theorem agreement_level_zero_refuted : exists integer sha1 now pid self c1 req s rs c,
  create_handshake_request sha1 pid self new_conn = Some (c1, req) /\
  accept_handshake_request (fun _ => 0) integer sha1 6 now new_conn (txt "GET") req = Reply s 101 rs /\
  accept_handshake_response (fun _ => 0) integer sha1 0 pid self c1 rs = Verdict c /\
  wshs c = c_accepted /\ level_m2 s = 4 /\ send_bits s = 15 /\ level_m2 c = 0 /\ recv_bits c = 0.
Proof. exists ex_int, ex_sha1, (txt "now"), 1000, 4096. eexists _, _, _, _, _. split; [reflexivity|]. split; [vm_compute; reflexivity|]. split; [vm_compute; reflexivity|]. vm_compute. auto. Qed.
Print Assumptions agreement_level_zero_refuted.

(** ** Sessions *)
Definition is_ready (e : event) : Prop := exists u, e = On_ready u.
Definition is_closure (e : event) : Prop := exists st, e = On_close st.
Definition is_reply (e : event) : Prop := exists st fs sent, e = Replied st fs sent.
Definition is_switch (e : event) : Prop := exists fs sent, e = Replied 101 fs sent.
Fixpoint closures (es : list event) : nat := match es with On_close _ :: es => S (closures es) | _ :: es => closures es | [] => O end.
Lemma closures_app a b : closures (a ++ b) = (closures a + closures b)%nat.
Proof. induction a as [|e a IH]; [reflexivity|]. destruct e; cbn; rewrite ?IH; reflexivity. Qed.
Lemma closures_none es : closures es = O -> Forall (fun e => ~ is_closure e) es.
Proof. induction es as [|e es IH]; intros H; [constructor|]. destruct e; try discriminate H; (constructor; [intros [? ?]; discriminate|now apply IH]). Qed.

(** [s'] follows [s]: what is added to the trace, and how the notice of closure is kept *)
Definition closing_kept (s : session) : Prop := closures (trace s) = (if notified s then 1 else 0)%nat /\ (notified s = true -> closing s = true).
Lemma add_kept s e : closing_kept s -> ~ is_closure e -> closing_kept (add s e).
Proof. intros [H1 H2] N. split; [|exact H2]. unfold add. cbn [trace notified]. rewrite closures_app, H1. destruct e; cbn [closures]; try lia. destruct N. now exists status. Qed.
Lemma shut_kept s : closing_kept s -> closing_kept (shut s).
Proof. intros [H1 _]. split; [exact H1|reflexivity]. Qed.
Lemma close_kept s st : closing_kept s -> closing_kept (call_close s st) /\ notified (call_close s st) = true.
Proof.
  intros H. unfold call_close. destruct (notified s) eqn:N; [auto|]. cbv zeta. destruct H as [H1 H2].
  assert (K : closures (trace s ++ [On_close st]) = 1%nat) by (rewrite closures_app, H1, N; reflexivity).
  destruct (negb _ || _); (split; [split; [|reflexivity]|reflexivity]); unfold shut, add; cbn [trace notified]; [exact K|]. rewrite closures_app, K. reflexivity.
Qed.
Lemma respond_kept s st fs c : closing_kept s -> closing_kept (respond s st fs c).
Proof.
  intros H. unfold respond. cbv zeta. assert (K : closing_kept (add s (Replied st fs (negb (closing s))))) by (apply add_kept; [exact H|intros [? ?]; discriminate]).
  destruct (st =? 101), c; exact K || apply shut_kept, K.
Qed.
Lemma fail_kept s e : closing_kept s -> ~ is_closure e -> closing_kept (fail s e).
Proof. intros H N. pose proof (add_kept s e H N) as [K _]. split; [exact K|reflexivity]. Qed.
Lemma error_kept s st : closing_kept s -> closing_kept (request_error s st).
Proof. intros H. unfold request_error. destruct (ack s); [apply fail_kept; [exact H|intros [? ?]; discriminate]|]. apply close_kept, respond_kept, H. Qed.
Lemma complete_kept mktime integer sha1 default now s q eot : closing_kept s -> closing_kept (complete_handshake mktime integer sha1 default now s q eot).
Proof.
  intros H. unfold complete_handshake. destruct (is_proxy q); [now apply error_kept|]. destruct (accept_handshake_request mktime integer sha1 default now (con s) (method q) (q_fields q)) as [c st fs| |];
    [|apply fail_kept; [exact H|intros [? ?]; discriminate]|apply fail_kept; [exact H|intros [? ?]; discriminate]].
  cbv zeta. assert (K : closing_kept (set_con s c)) by exact H. destruct (ack (set_con s c)); [apply fail_kept; [exact K|intros [? ?]; discriminate]|].
  pose proof (respond_kept (set_con s c) st fs (negb (st =? 101)) K) as R. destruct (list_eqb (method q) (txt "OPTIONS")); [exact R|].
  destruct eot, (wshs c); try (apply close_kept, R); apply add_kept; try exact R; intros [? ?]; discriminate.
Qed.
Lemma closed_kept s : closing_kept s -> closing_kept (mkSess (con (call_close s 1006)) (ack s) true true (trace (call_close s 1006)) true).
Proof. intros H. destruct (close_kept s 1006 H) as [[K _] N]. split; [|reflexivity]. cbn [trace notified]. now rewrite N in K. Qed.

(** A server tells once that a connection has been closed. *)
Theorem server_closed_once mktime integer sha1 default os :
  let tr := trace (server_run mktime integer sha1 default server_start os) in
  (closures tr <= 1)%nat /\ (In Closed os -> closures tr = 1%nat).
Proof.
  cbv zeta. set (s := server_start). assert (K : closing_kept s) by (split; [reflexivity|discriminate]). clearbody s.
  assert (ST : forall s o, closing_kept s -> closing_kept (server_step mktime integer sha1 default s o) /\ (notified s = true \/ o = Closed -> notified (server_step mktime integer sha1 default s o) = true)).
  { clear. intros s o K. assert (NS : forall s', closing_kept s' -> (exists d, trace s' = trace s ++ d) -> notified s = true -> notified s' = true).
    { intros s' [K' _] [d E] N. rewrite E, closures_app in K'. destruct K as [K _]. rewrite K, N in K'. destruct (notified s'); [reflexivity|lia]. }
    assert (PC : forall s0 st, exists d, trace (call_close s0 st) = trace s0 ++ d).
    { intros s0 st. unfold call_close. destruct (notified s0); [exists []; now rewrite app_nil_r|]. cbv zeta. destruct (negb _ || _); unfold shut, add; cbn [trace]; eexists; rewrite <- ?app_assoc; reflexivity. }
    assert (PR : forall s0 st fs c, exists d, trace (respond s0 st fs c) = trace s0 ++ d) by (intros; unfold respond; cbv zeta; destruct (st =? 101), c; eexists; reflexivity).
    assert (PE : forall s0 st, exists d, trace (request_error s0 st) = trace s0 ++ d).
    { intros s0 st. unfold request_error. destruct (ack s0); [eexists; reflexivity|]. destruct (PC (respond s0 st ([(txt "Connection", txt "close")] ++ (if (st <=? 199) || (st =? 204) || (st =? 304) then [] else [(txt "Content-Length", txt "0")])) true) 1006) as [d ->].
      destruct (PR s0 st ([(txt "Connection", txt "close")] ++ (if (st <=? 199) || (st =? 204) || (st =? 304) then [] else [(txt "Content-Length", txt "0")])) true) as [d' ->]. exists (d' ++ d). now rewrite app_assoc. }
    destruct o as [now q eot|st|]; cbn [server_step].
    - destruct (gone s); [split; [exact K|intros [N|N]; [exact N|discriminate]]|]. pose proof (complete_kept mktime integer sha1 default now s q eot K) as K'. split; [exact K'|]. intros [N|N]; [|discriminate]. apply NS; [exact K'| |exact N].
      clear K K' N NS. unfold complete_handshake. destruct (is_proxy q); [apply PE|]. destruct (accept_handshake_request mktime integer sha1 default now (con s) (method q) (q_fields q)) as [c st fs| |]; try (eexists; reflexivity).
      cbv zeta. destruct (ack (set_con s c)); [eexists; reflexivity|]. destruct (PR (set_con s c) st fs (negb (st =? 101))) as [d E]. cbn [set_con trace] in E.
      assert (X : forall s', (exists d', trace s' = trace (respond (set_con s c) st fs (negb (st =? 101))) ++ d') -> exists d', trace s' = trace s ++ d') by (intros s' [d' ->]; rewrite E; exists (d ++ d'); now rewrite app_assoc).
      destruct (list_eqb (method q) (txt "OPTIONS")); [eexists; exact E|]. destruct eot, (wshs c); apply X; try apply PC; eexists; reflexivity.
    - destruct (gone s); [split; [exact K|intros [N|N]; [exact N|discriminate]]|]. pose proof (error_kept s st K) as K'. split; [exact K'|]. intros [N|N]; [|discriminate]. now apply NS.
    - split; [now apply closed_kept|reflexivity]. }
  assert (R : forall s, closing_kept s -> let s' := server_run mktime integer sha1 default s os in closing_kept s' /\ (notified s = true \/ In Closed os -> notified s' = true)).
  { clear K s. induction os as [|o os IH]; intros s K; [split; [exact K|intros [N|[]]; exact N]|]. cbn [server_run fold_left]. destruct (ST s o K) as [K' N']. destruct (IH _ K') as [K2 N2]. split; [exact K2|].
    intros [N|[->|N]]; apply N2; [left; apply N'; now left|left; apply N'; now right|now right]. }
  destruct (R s K) as [[K1 _] N]. split; [rewrite K1; destruct (notified _); lia|]. intros I. rewrite K1, N by (now right). reflexivity.
Qed.
Print Assumptions server_closed_once.
Definition ex_q : request := mkQ (txt "GET") false (txt "h") (txt "/p") (txt "q") ex_fs.
Definition ex_bad : request := mkQ (txt "GET") false (txt "h") (txt "/p") [] [(txt "Upgrade", txt "websocket")].
Example server_closed_once_case : In Closed [Request [] ex_bad false; Request_error 400; Closed; Closed] /\
  exists fs fs', trace (server_run (fun _ => 0) ex_int ex_sha1 6 server_start [Request [] ex_bad false; Request_error 400; Closed; Closed]) = [Replied 426 fs true; On_close 1002; Replied 400 fs' false].
Proof. split; [right; right; now left|]. eexists _, _. vm_compute. reflexivity. Qed.

(** What precedes an acceptance, and what follows it *)
Definition before_switch (e : event) : Prop := ~ is_switch e /\ ~ is_ready e.
Definition after_switch (e : event) : Prop := ~ is_reply e /\ ~ is_ready e.
Definition switched (sha1 : list Z -> list Z) (os : list server_op) (tr : list event) : Prop :=
  exists a fs sent rest now q eot k v, tr = a ++ Replied 101 fs sent :: rest /\ Forall before_switch a /\ (sent = true -> closures a = O) /\
    In (Request now q eot) os /\ is_proxy q = false /\ asks (q_fields q) k /\ lookup (txt "Sec-WebSocket-Accept") fs = [v] /\ proves sha1 k v /\
    (if eot then Forall after_switch rest
     else exists rest', rest = On_ready (raw_host q ++ raw_path q ++ [63] ++ raw_query q) :: rest' /\ Forall after_switch rest').
Definition server_shape (sha1 : list Z -> list Z) (os : list server_op) (s : session) : Prop :=
  closing_kept s /\
  if ack s then wshs (con s) = s_accepted /\ switched sha1 os (trace s) else wshs (con s) = pending /\ Forall before_switch (trace s).
Lemma switched_more sha1 os o tr : switched sha1 os tr -> switched sha1 (os ++ [o]) tr.
Proof. intros (a & fs & sent & rest & now & q & eot & k & v & H1 & H2 & H3 & H4 & H5). exists a, fs, sent, rest, now, q, eot, k, v. split; [exact H1|]. split; [exact H2|]. split; [exact H3|]. split; [apply in_or_app; now left|exact H5]. Qed.
Lemma switched_app sha1 os tr d : Forall after_switch d -> switched sha1 os tr -> switched sha1 os (tr ++ d).
Proof.
  intros D (a & fs & sent & rest & now & q & eot & k & v & -> & H2 & H3 & H4 & H5 & H6 & H7 & H8 & H9). exists a, fs, sent, (rest ++ d), now, q, eot, k, v.
  split; [now rewrite <- app_assoc|]. split; [exact H2|]. split; [exact H3|]. split; [exact H4|]. split; [exact H5|]. split; [exact H6|]. split; [exact H7|]. split; [exact H8|].
  destruct eot; [apply Forall_app; auto|]. destruct H9 as (r & -> & H9). exists (r ++ d). split; [reflexivity|]. apply Forall_app; auto.
Qed.
Lemma close_adds s st : exists d, trace (call_close s st) = trace s ++ d /\ Forall after_switch d /\ Forall before_switch d /\ con (call_close s st) = con s /\ ack (call_close s st) = ack s.
Proof.
  assert (A1 : forall st, after_switch (On_close st)) by (intros; split; [intros (? & ? & ? & ?)|intros (? & ?)]; discriminate).
  assert (A2 : after_switch Close_frame) by (split; [intros (? & ? & ? & ?)|intros (? & ?)]; discriminate).
  assert (B1 : forall st, before_switch (On_close st)) by (intros; split; [intros (? & ? & ?)|intros (? & ?)]; discriminate).
  assert (B2 : before_switch Close_frame) by (split; [intros (? & ? & ?)|intros (? & ?)]; discriminate).
  unfold call_close. destruct (notified s); [exists []; rewrite app_nil_r; auto|]. cbv zeta. destruct (negb _ || _); unfold shut, add; cbn [trace con ack].
  - exists [On_close st]. auto 8.
  - exists [On_close st; Close_frame]. rewrite <- app_assoc. auto 8.
Qed.
Lemma fail_shape sha1 os o s e : e = Exception \/ e = Undefined_behaviour -> server_shape sha1 os s -> server_shape sha1 (os ++ [o]) (fail s e).
Proof.
  intros E [K H]. assert (NE : ~ is_closure e) by (destruct E as [-> | ->]; intros [? ?]; discriminate). split; [now apply fail_kept|]. unfold fail. cbn [ack con trace].
  destruct (ack s); destruct H as [W H]; (split; [exact W|]).
  - apply switched_app; [|now apply switched_more]. constructor; [|constructor]. destruct E as [-> | ->]; (split; [intros (? & ? & ? & ?)|intros (? & ?)]; discriminate).
  - apply Forall_app. split; [exact H|]. constructor; [|constructor]. destruct E as [-> | ->]; (split; [intros (? & ? & ?)|intros (? & ?)]; discriminate).
Qed.
Lemma shape_con sha1 os s c : server_shape sha1 os s -> wshs c = wshs (con s) -> server_shape sha1 os (set_con s c).
Proof. intros [K H] E. split; [exact K|]. cbn [set_con ack con trace]. rewrite E. exact H. Qed.
Lemma shape_more sha1 os o s : server_shape sha1 os s -> server_shape sha1 (os ++ [o]) s.
Proof. intros [K H]. split; [exact K|]. destruct (ack s); [|exact H]. destruct H as [W H]. split; [exact W|now apply switched_more]. Qed.
Lemma close_shape sha1 os s st : server_shape sha1 os s -> server_shape sha1 os (call_close s st).
Proof.
  intros [K H]. split; [now apply close_kept|]. destruct (close_adds s st) as (d & -> & D1 & D2 & -> & ->). destruct (ack s); destruct H as [W H]; (split; [exact W|]).
  - now apply switched_app.
  - apply Forall_app; auto.
Qed.
Lemma respond_shape sha1 os s st fs c : server_shape sha1 os s -> ack s = false -> st <> 101 -> server_shape sha1 os (respond s st fs c) /\ ack (respond s st fs c) = false /\ con (respond s st fs c) = con s.
Proof.
  intros [K H] A N. rewrite A in H. destruct H as [W H].
  assert (E : trace (respond s st fs c) = trace s ++ [Replied st fs (negb (closing s))] /\ con (respond s st fs c) = con s /\ ack (respond s st fs c) = false).
  { unfold respond. cbv zeta. replace (st =? 101) with false by lia. destruct c; cbn; auto. }
  destruct E as (E1 & E2 & E3). split; [|auto]. split; [now apply respond_kept|]. rewrite E1, E2, E3. split; [exact W|]. apply Forall_app. split; [exact H|].
  constructor; [|constructor]. split; [intros (? & ? & E); injection E as E _ _; contradiction|intros (? & ?); discriminate].
Qed.
Lemma error_shape sha1 os o s st : st <> 101 -> server_shape sha1 os s -> server_shape sha1 (os ++ [o]) (request_error s st).
Proof.
  intros N H. unfold request_error. destruct (ack s) eqn:A; [apply fail_shape; auto|]. apply shape_more, close_shape. apply respond_shape; assumption.
Qed.
Definition errors_ok (o : server_op) : Prop := match o with Request_error st => st <> 101 | _ => True end.
Lemma step_shape mktime integer sha1 default os o s : 0 <= default <= 9 -> (forall x, bytes (sha1 x)) -> errors_ok o -> server_shape sha1 os s -> server_shape sha1 (os ++ [o]) (server_step mktime integer sha1 default s o).
Proof.
  intros D B OK H. destruct o as [now q eot|st|]; cbn [server_step].
  - destruct (gone s); [now apply shape_more|]. unfold complete_handshake. destruct (is_proxy q) eqn:PX; [apply error_shape; [lia|exact H]|].
    destruct (accept_handshake_request mktime integer sha1 default now (con s) (method q) (q_fields q)) as [c st fs| |] eqn:E; [|apply fail_shape; auto|apply fail_shape; auto].
    cbv zeta. destruct (ack s) eqn:A.
    { exfalso. destruct H as [_ H]. rewrite A in H. destruct H as [W _]. unfold accept_handshake_request in E. rewrite W in E. discriminate. }
    cbn [set_con ack]. rewrite A. assert (W : wshs (con s) = pending) by (destruct H as [_ H]; rewrite A in H; tauto).
    destruct (Z.eq_dec st 101) as [->|NS].
    + destruct (server_accepts_any mktime integer sha1 default now (con s) (method q) (q_fields q) c fs D B E) as (k & v & AK & LK & PK & _ & WC & _).
      assert (MO : list_eqb (method q) (txt "OPTIONS") = false).
      { destruct (list_eqb (method q) (txt "OPTIONS")) eqn:M; [|reflexivity]. apply list_eqb_spec in M. rewrite M in E. unfold accept_handshake_request in E. rewrite W in E. discriminate E. }
      rewrite MO. change (negb (101 =? 101)) with false. rewrite WC.
      assert (K : closing_kept s) by apply H. destruct H as [_ H]. rewrite A in H. destruct H as [_ H].
      set (s1 := respond (set_con s c) 101 fs false). assert (K1 : closing_kept s1) by (apply respond_kept; exact K).
      assert (E1 : trace s1 = trace s ++ [Replied 101 fs (negb (closing s))] /\ con s1 = c /\ ack s1 = true) by (cbn; auto). destruct E1 as (E1 & E2 & E3). clearbody s1.
      assert (CZ : negb (closing s) = true -> closures (trace s) = O) by (intros N; destruct K as [K K']; rewrite K; destruct (notified s); [rewrite K' in N by reflexivity; discriminate|reflexivity]).
      assert (IN : In (Request now q eot) (os ++ [Request now q eot])) by (apply in_or_app; right; now left).
      destruct eot.
      * assert (SH : server_shape sha1 (os ++ [Request now q true]) s1).
        { split; [exact K1|]. rewrite E3, E1, E2. split; [exact WC|]. exists (trace s), fs, (negb (closing s)), [], now, q, true, k, v. repeat (split; [solve [assumption|reflexivity]|]). constructor. }
        now apply close_shape.
      * split; [apply add_kept; [exact K1|intros [? ?]; discriminate]|]. unfold add. cbn [ack con trace]. rewrite E3, E1, E2. split; [exact WC|].
        exists (trace s), fs, (negb (closing s)), [On_ready (raw_host q ++ raw_path q ++ [63] ++ raw_query q)], now, q, false, k, v. split; [now rewrite <- app_assoc|]. repeat (split; [solve [assumption|reflexivity]|]). exists []. split; [reflexivity|constructor].
    + assert (WC : wshs c = pending).
      { unfold accept_handshake_request in E. rewrite W in E. cbv zeta in E. destruct (list_eqb (method q) (txt "OPTIONS")); [injection E as <- _ _; exact W|].
        destruct (headers (request_header mktime integer default) (q_fields q) no_scan) as [sc| |]; [|injection E as <- _ _; exact W|discriminate].
        destruct (negb (upgrade_ok sc) || negb (version_ok sc) || (hd 0 (digest sc) =? 0)); [injection E as <- _ _; exact W|]. injection E as _ E _. congruence. }
      assert (H1 : server_shape sha1 os (set_con s c)) by (apply shape_con; [exact H|congruence]).
      destruct (respond_shape sha1 os (set_con s c) st fs (negb (st =? 101)) H1 A NS) as [H2 _]. apply shape_more. destruct (list_eqb (method q) (txt "OPTIONS")); [exact H2|].
      rewrite WC. destruct eot; now apply close_shape.
  - destruct (gone s); [now apply shape_more|]. now apply error_shape.
  - pose proof (close_shape sha1 os s 1006 H) as H1. apply (shape_more _ _ Closed) in H1. split; [apply closed_kept, H|]. destruct H1 as [_ H1]. destruct (close_adds s 1006) as (_ & _ & _ & _ & _ & EA). rewrite EA in H1. exact H1.
Qed.

(** A server accepts a connection once, after nothing but refusals; from then on, it sends no HTTP response. It tells that a connection has been accepted right after it has replied so,
    to a request that asks for that, with a proof of its key; and it has not told before that the connection has been closed, if that response can be sent at all. *)
Theorem server_session mktime integer sha1 default os :
  0 <= default <= 9 -> (forall x, bytes (sha1 x)) -> Forall errors_ok os ->
  let tr := trace (server_run mktime integer sha1 default server_start os) in
  Forall before_switch tr \/ switched sha1 os tr.
Proof.
  intros D B OK. cbv zeta.
  assert (R : server_shape sha1 os (server_run mktime integer sha1 default server_start os)).
  { induction os as [|o os IH] using rev_ind; [split; [split; [reflexivity|discriminate]|split; [reflexivity|constructor]]|].
    apply Forall_app in OK as [OK1 OK2]. inversion OK2. unfold server_run. rewrite fold_left_app. cbn [fold_left]. apply step_shape; auto. }
  destruct R as [_ R]. destruct (ack _); [right|left]; apply R.
Qed.
Print Assumptions server_session.
Example server_session_case : Forall errors_ok [Request [] ex_q false; Request [] ex_q false; Closed] /\
  exists fs, trace (server_run (fun _ => 0) ex_int ex_sha1 6 server_start [Request [] ex_q false; Request [] ex_q false; Closed]) = [Replied 101 fs true; On_ready (txt "h/p?q"); Exception; On_close 1006].
Proof. split; [repeat constructor|]. eexists. vm_compute. reflexivity. Qed.

(** A request that follows a failed one is accepted, although the application has been told that the connection is closed, and the response is not sent. *)
Theorem server_ready_after_closure_refuted : exists os fs fs' u, Forall errors_ok os /\
  trace (server_run (fun _ => 0) ex_int ex_sha1 6 server_start os) = [Replied 426 fs true; On_close 1002; Replied 101 fs' false; On_ready u].
Proof. exists [Request [] ex_bad false; Request [] ex_q false]. eexists _, _, _. split; [repeat constructor|]. vm_compute. reflexivity. Qed.
Print Assumptions server_ready_after_closure_refuted.
(** A response 101 is sent to a client that does not keep its connection; it is closed then. *)
Theorem server_switch_without_ready_refuted : exists os fs, Forall errors_ok os /\
  trace (server_run (fun _ => 0) ex_int ex_sha1 6 server_start os) = [Replied 101 fs true; On_close 1002; Close_frame].
Proof. exists [Request [] ex_q true]. eexists. split; [repeat constructor|]. vm_compute. reflexivity. Qed.
Print Assumptions server_switch_without_ready_refuted.

(** ** Sessions of a client *)
Definition opened (sha1 : list Z -> list Z) (k : list Z) (os : list client_op) (tr : list event) : Prop :=
  exists a rest st fs u, tr = a ++ On_ready u :: rest /\ Forall (fun e => ~ is_ready e) a /\ Forall (fun e => ~ is_ready e) rest /\
    In (Response st fs) os /\ answered sha1 k fs.
Definition client_shape (sha1 : list Z -> list Z) (k : list Z) (os : list client_op) (s : session) : Prop :=
  closing_kept s /\
  (wshs (con s) = req_sent /\ Forall (fun e => ~ is_ready e) (trace s) \/ wshs (con s) = c_accepted /\ opened sha1 k os (trace s)).
Lemma opened_more sha1 k os o tr : opened sha1 k os tr -> opened sha1 k (os ++ [o]) tr.
Proof. intros (a & r & st & fs & u & H1 & H2 & H3 & H4 & H5). exists a, r, st, fs, u. split; [exact H1|]. split; [exact H2|]. split; [exact H3|]. split; [apply in_or_app; now left|exact H5]. Qed.
Lemma opened_app sha1 k os tr d : Forall (fun e => ~ is_ready e) d -> opened sha1 k os tr -> opened sha1 k os (tr ++ d).
Proof.
  intros D (a & r & st & fs & u & -> & H2 & H3 & H4 & H5). exists a, (r ++ d), st, fs, u. split; [now rewrite <- app_assoc|]. split; [exact H2|]. split; [apply Forall_app; auto|auto].
Qed.
Lemma c_more sha1 k os o s : client_shape sha1 k os s -> client_shape sha1 k (os ++ [o]) s.
Proof. intros [K [H|[W H]]]; (split; [exact K|]); [left; exact H|right]. split; [exact W|now apply opened_more]. Qed.
Lemma c_close sha1 k os s st : client_shape sha1 k os s -> client_shape sha1 k os (call_close s st).
Proof.
  intros [K H]. split; [now apply close_kept|]. destruct (close_adds s st) as (d & -> & D1 & _ & -> & _). assert (D : Forall (fun e => ~ is_ready e) d) by (eapply Forall_impl; [|exact D1]; intros e [_ X]; exact X).
  destruct H as [[W H]|[W H]]; [left|right]; (split; [exact W|]); [apply Forall_app; auto|now apply opened_app].
Qed.
Lemma c_fail sha1 k os s e : e = Exception \/ e = Undefined_behaviour -> client_shape sha1 k os s -> client_shape sha1 k os (fail s e).
Proof.
  intros E [K H]. assert (NE : ~ is_closure e /\ ~ is_ready e) by (destruct E as [-> | ->]; split; intros [? ?]; discriminate). destruct NE as [N1 N2]. split; [now apply fail_kept|].
  unfold fail. cbn [con trace]. destruct H as [[W H]|[W H]]; [left|right]; (split; [exact W|]); [apply Forall_app; auto|apply opened_app; auto].
Qed.
Lemma c_step mktime integer sha1 default pid self k os o s : 0 <= default <= 9 -> (forall x, bytes (sha1 x) /\ length (sha1 x) = 20%nat) ->
  k = make_key sha1 pid self -> client_shape sha1 k os s -> client_shape sha1 k (os ++ [o]) (client_step mktime integer sha1 default pid self s o).
Proof.
  intros D B KE H. destruct o as [st fs|]; cbn [client_step].
  - destruct (gone s || ack s); [now apply c_more|]. cbv zeta.
    assert (X : client_shape sha1 k (os ++ [Response st fs]) (finish_response mktime integer sha1 default pid self s fs)).
    { unfold finish_response. destruct (accept_handshake_response mktime integer sha1 default pid self (con s) fs) as [c| |] eqn:E; [|apply c_fail; auto using c_more|apply c_fail; auto using c_more].
      cbv zeta. assert (CR : create_handshake_request sha1 pid self new_conn = Some (mkC req_sent false 0 false 0 0, request_headers sha1 pid self)) by reflexivity.
      assert (KR : lookup (txt "Sec-WebSocket-Key") (request_headers sha1 pid self) = [k]) by (subst k; reflexivity).
      pose proof (client_accepts_any mktime integer sha1 default pid self new_conn _ _ k (con s) fs c D B CR KR E) as CA. clear CR KR.
      destruct (wshs c) eqn:WC.
      all: try (assert (WS : wshs c = wshs (con s)) by
        (unfold accept_handshake_response in E; destruct (wshs (con s)) eqn:WQ; try discriminate; destruct (headers (response_header mktime integer default) fs no_scan) as [sc| |]; try discriminate;
         [destruct (negb (upgrade_ok sc) || (hd 0 (digest sc) =? 0)); [injection E as <-; exact WQ|]; destruct (negb (list_eqb (firstn 28 (make_accept sha1 (make_key sha1 pid self))) (firstn 28 (digest sc))));
            [injection E as <-; exact WQ|]; injection E as <-; discriminate WC|injection E as <-; exact WQ]);
        apply c_close; destruct H as [K H]; split; [exact K|]; cbn [set_con con trace];
        destruct H as [[W H]|[W H]]; [left; split; [congruence|exact H]|exfalso; congruence]).
      destruct (CA eq_refl) as (WS & AN & _). destruct H as [K H]. split; [apply add_kept; [exact K|intros [? ?]; discriminate]|]. cbn [set_con add con trace]. right. split; [exact WC|].
      destruct H as [[_ H]|[W _]]; [|congruence]. exists (trace s), [], st, fs, []. split; [reflexivity|]. split; [exact H|]. split; [constructor|]. split; [apply in_or_app; right; now left|exact AN]. }
    destruct ((st =? 101) && negb (gone (finish_response mktime integer sha1 default pid self s fs))); [|exact X]. exact X.
  - apply c_more. pose proof (c_close sha1 k os s 1006 H) as [_ H1]. split; [apply closed_kept, H|exact H1].
Qed.
Lemma c_run mktime integer sha1 default pid self k os : 0 <= default <= 9 -> (forall x, bytes (sha1 x) /\ length (sha1 x) = 20%nat) ->
  k = make_key sha1 pid self -> client_shape sha1 k os (client_run mktime integer sha1 default pid self (client_start sha1 pid self) os).
Proof.
  intros D B KE. induction os as [|o os IH] using rev_ind; [split; [split; [reflexivity|discriminate]|left; split; [reflexivity|constructor]]|].
  unfold client_run. rewrite fold_left_app. cbn [fold_left]. now apply c_step.
Qed.

(** A client tells once that a connection has been established, and only if a response proves that its key has been received; it tells once that the connection has been closed. *)
Theorem client_session mktime integer sha1 default pid self c1 req k os :
  0 <= default <= 9 -> (forall x, bytes (sha1 x) /\ length (sha1 x) = 20%nat) ->
  create_handshake_request sha1 pid self new_conn = Some (c1, req) -> lookup (txt "Sec-WebSocket-Key") req = [k] ->
  let tr := trace (client_run mktime integer sha1 default pid self (client_start sha1 pid self) os) in
  (Forall (fun e => ~ is_ready e) tr \/ opened sha1 k os tr) /\ (closures tr <= 1)%nat /\ (In Closed_c os -> closures tr = 1%nat).
Proof.
  intros D B CR KR. destruct (key_sent _ _ _ _ _ _ _ CR KR) as [KE _]. clear CR KR. cbv zeta.
  destruct (c_run mktime integer sha1 default pid self k os D B KE) as [[K _] H]. split; [destruct H as [[_ H]|[_ H]]; auto|]. split; [rewrite K; destruct (notified _); lia|].
  intros I. apply in_split in I as (o1 & o2 & ->).
  assert (X : forall o2 s, notified s = true -> notified (client_run mktime integer sha1 default pid self s o2) = true).
  { clear. induction o2 as [|o o2 IH]; intros s N; [exact N|]. cbn [client_run fold_left]. apply IH. destruct o as [st fs|]; cbn [client_step]; [|reflexivity]. destruct (gone s || ack s); [exact N|].
    assert (Y : notified (finish_response mktime integer sha1 default pid self s fs) = true).
    { unfold finish_response. destruct (accept_handshake_response mktime integer sha1 default pid self (con s) fs) as [c| |]; [|exact N|exact N]. cbv zeta. destruct (wshs c); try exact N; unfold call_close; cbn [set_con notified]; rewrite N; exact N. }
    cbv zeta. destruct ((st =? 101) && _); exact Y. }
  rewrite K. replace (notified _) with true; [reflexivity|]. symmetry. unfold client_run. rewrite fold_left_app. cbn [fold_left]. apply X. reflexivity.
Qed.
Print Assumptions client_session.
Example client_session_case : exists u,
  trace (client_run (fun _ => 0) ex_int ex_sha1 9 1000 4096 (client_start ex_sha1 1000 4096) [Response 101 ex_resp; Closed_c; Closed_c]) = [On_ready u; On_close 1006; Close_frame].
Proof. eexists. vm_compute. reflexivity. Qed.

(** The status of a response is not checked. *)
Theorem client_status_refuted : exists u,
  trace (client_run (fun _ => 0) ex_int ex_sha1 9 1000 4096 (client_start ex_sha1 1000 4096) [Response 404 ex_resp]) = [On_ready u].
Proof. eexists. vm_compute. reflexivity. Qed.
Print Assumptions client_status_refuted.
(** A response that follows a failed one is taken, although the application has been told that the connection is closed. *)
Theorem client_ready_after_closure_refuted : exists u,
  trace (client_run (fun _ => 0) ex_int ex_sha1 9 1000 4096 (client_start ex_sha1 1000 4096) [Response 404 []; Response 101 ex_resp]) = [On_close 1002; On_ready u].
Proof. eexists. vm_compute. reflexivity. Qed.
Print Assumptions client_ready_after_closure_refuted.
