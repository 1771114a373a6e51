(** Theorems about the addresses that clients connect to (C88, C89). *)
From Coq Require Import ZArith List Lia Bool ZifyBool Arith.
From Coq Require Import (notations) String.
From Verif Require Import Base Text BaseLemmas NetrefModel NetrefSpec NetrefProofs NetrefProps AddrTextModel AccModel AccSpec AccProps HnameModel HoutModel HoutSpec HoutProofs HoutProps WshModel ConnModel ConnSpec ConnProofs.
Import ListNotations.
Open Scope Z_scope.
Local Notation length := List.length.

(** * C88 *)

(** Every address that the documentation allows is accepted.  The host in it is what is looked up; the addresses
    that the system is asked to connect to are those that the look-up has found, from the first one on, all with the
    port of the address, or the default port. *)
Theorem conn_connects : forall (k : kind) (r : reference), documented k r ->
  exists p, connect k (text_of r) = Some p
    /\ forall lookup sys inserts c, run_task lookup sys inserts p = Some c ->
         match lookup (NetrefSpec.host r) with
         | Some is => exists rest, targets (port_of k r) is = tried c ++ rest
         | None => tried c = []
         end.
Proof.
  intros k r (V & F & D). assert (exists p, outcome k r = Some p /\ p_host p = NetrefSpec.host r /\ p_port p = port_of k r) as (p & O & H & P).
  { unfold outcome. destruct k; cbn [is_none].
    1,2: destruct D as (D1 & -> & ->); rewrite F; destruct (NetrefSpec.port r); [|congruence]; cbn; eauto.
    1,2: destruct D as (-> & ->); cbn; eauto.
    all: cbn; eauto. }
  exists p. rewrite connect_text by auto. split; [exact O|]. intros lk sys ins c T. unfold run_task in T. rewrite H, P in T.
  apply dns_connects in T. destruct T as [(is & pre & sa & post & -> & T & -> & _)|[(is & -> & -> & _)|(-> & -> & _)]].
  - exists post. rewrite T, <- app_assoc. reflexivity.
  - exists []. now rewrite app_nil_r.
  - reflexivity.
Qed.
Print Assumptions conn_connects.

Lemma domain h : Forall (fun c => letter_or_digit c \/ c = 45 \/ c = 46) h -> h <> [] -> forall po, when po (fun ds => ds <> [] /\ Forall decimal ds /\ number ds <= 65535) ->
  valid (mkReference h false po None None None).
Proof. intros H N po P. repeat split; auto. Qed.
Definition sample : reference := mkReference (txt "example.org") false (Some (txt "8080")) None None None.
Definition sample_bare : reference := mkReference (txt "example.org") false None None None None.
Definition sample_ws : reference := mkReference (txt "example.org") false (Some (txt "8080")) (Some (txt "/chat/x")) (Some (txt "a=1")) None.
Definition sample_v6 : reference := mkReference (txt "fe80:1::2") true (Some (txt "8443")) None None None.
Ltac ref_valid := unfold valid, when; cbn [NetrefSpec.host bracketed NetrefSpec.port path query fragment sample sample_bare sample_ws sample_v6];
  repeat match goal with
  | |- _ /\ _ => split
  | |- True => exact I
  | |- _ <> [] => discriminate
  | |- Forall (fun c => letter_or_digit c \/ _) _ => repeat (apply Forall_cons; [unfold letter_or_digit; cbn; lia|]); apply Forall_nil
  | |- Forall decimal _ => repeat (apply Forall_cons; [unfold decimal; cbn; lia|]); apply Forall_nil
  | |- number _ <= _ => vm_compute; discriminate
  | |- exists q, _ => eexists; reflexivity
  | |- Forall _ _ => repeat constructor
  end.
Lemma sample_valid : valid sample. Proof. ref_valid. Qed.
Lemma sample_bare_valid : valid sample_bare. Proof. ref_valid. Qed.
Lemma sample_ws_valid : valid sample_ws. Proof. ref_valid. Qed.
Lemma sample_v6_valid : valid sample_v6. Proof. ref_valid. Qed.

Example conn_connects_case : documented Tcp sample /\ documented Https sample_bare /\ documented Wss sample_ws
  /\ text_of sample = txt "example.org:8080" /\ text_of sample_ws = txt "example.org:8080/chat/x?a=1"
  /\ connect Tcp (txt "example.org:8080") = Some (mkPlan (txt "example.org") 8080 [] [] [] [] None)
  /\ option_map (run_task (fun h => if list_eqb h (txt "example.org") then Some [Inet [10;0;0;7]; Inet [10;0;0;8]; Inet [10;0;0;9]] else None)
                    (fun done _ => match done with [] => 111 | _ => EINPROGRESS end) true) (connect Https (txt "example.org"))
     = Some (Some (AccModel.mkC [to_sockaddr (AddrModel.mkAddr [0;0;0;0;0;0;0;0;0;0;255;255;10;0;0;7] 443);
                        to_sockaddr (AddrModel.mkAddr [0;0;0;0;0;0;0;0;0;0;255;255;10;0;0;8] 443)] true false)).
Proof.
  split; [split; [exact sample_valid|split; [reflexivity|repeat split; discriminate]]|].
  split; [split; [exact sample_bare_valid|repeat split]|]. split; [split; [exact sample_ws_valid|repeat split]|]. vm_compute. auto.
Qed.

(** TCP and SSL clients accept nothing else. *)
Theorem conn_tcp_exact : forall (k : kind) (addr : list Z), k = Tcp \/ k = Ssl ->
  (connect k addr <> None <-> exists r, documented k r /\ addr = text_of r).
Proof.
  intros k addr K. split.
  - intros C. destruct (connect k addr) as [p|] eqn:E; [|congruence]. destruct (connect_inv _ _ _ E) as [(_ & N1 & N2)|(r & V & T & H)].
    + destruct K; contradiction.
    + exists r. split; [|exact T]. split; [exact V|]. unfold outcome in H.
      destruct K as [-> | ->]; destruct (NetrefSpec.port r), (path r), (query r), (fragment r); cbn in H; try discriminate; repeat split; discriminate.
  - intros (r & D & ->). destruct (conn_connects k r D) as (p & -> & _). discriminate.
Qed.
Print Assumptions conn_tcp_exact.
Example conn_tcp_exact_case : connect Tcp (txt "example.org") = None /\ connect Ssl (txt "example.org:1/") = None
  /\ connect Tcp (txt "u@example.org:1") = None /\ connect Ssl (txt "example.org:65536") = None /\ connect Ssl (txt "[::1]:65535") <> None.
Proof. vm_compute. repeat split; discriminate. Qed.

(** Without its fragment *)
Definition cut_fragment (r : reference) : reference :=
  mkReference (NetrefSpec.host r) (bracketed r) (NetrefSpec.port r) (path r) (query r) None.

(** The other clients accept nothing but what is documented, with or without a fragment, and the empty text.
    Missing: the documentation allows neither of the two. *)
Theorem conn_exact_partial : forall (k : kind) (addr : list Z) (p : plan), connect k addr = Some p ->
  addr = [] \/ exists r, documented k (cut_fragment r) /\ addr = text_of r
                 /\ p_host p = NetrefSpec.host r /\ p_port p = port_of k r.
Proof.
  intros k addr p E. destruct (connect_inv _ _ _ E) as [(-> & _)|(r & V & T & H)]; [auto|]. right. exists r.
  assert (V' : valid (cut_fragment r)) by (destruct V as (? & ? & ? & ? & ? & _); unfold cut_fragment, valid; cbn; auto 10).
  unfold documented, cut_fragment in *. cbn [fragment path query NetrefSpec.port].
  unfold outcome in H. destruct k, (NetrefSpec.port r) eqn:Q, (path r), (query r); cbn in H; try discriminate;
    try (destruct (fragment r); try discriminate); injection H as <-; cbn [p_host p_port];
    (split; [split; [exact V'|]; split; [reflexivity|]; first [exact I|split; [discriminate|split; reflexivity]|split; reflexivity]|auto]).
Qed.
Print Assumptions conn_exact_partial.
Example conn_exact_case : connect Http (txt "example.org:80/") = None /\ connect Https (txt "example.org?") = None /\ connect Ws (txt "ws://example.org") = None
  /\ connect Wss (txt "a b") = None /\ connect Http (txt ":80") = None.
Proof. vm_compute. auto. Qed.

(** The empty text is accepted: the system is asked to look up a host without a name. *)
Theorem conn_empty_refuted : forall k, k <> Tcp -> k <> Ssl ->
  (exists p, connect k [] = Some p /\ p_host p = []) /\ ~ exists r, documented k r /\ [] = text_of r.
Proof.
  intros k N1 N2. split.
  - destruct k; try congruence; eexists; vm_compute; split; reflexivity.
  - intros (r & (V & _) & E). apply (text_nonempty r V). now rewrite <- E.
Qed.
Print Assumptions conn_empty_refuted.

(** Fragments are accepted, although the documentation says that they are not allowed. *)
Theorem conn_fragment_refuted : forall k, k <> Tcp -> k <> Ssl ->
  connect k (txt "example.org#top") <> None /\ ~ exists r, documented k r /\ txt "example.org#top" = text_of r.
Proof.
  intros k N1 N2. split; [destruct k; try congruence; vm_compute; discriminate|].
  intros (r & (V & F & _) & E). destruct (netref_complete r V) as (w & P & _ & _ & _ & _ & _ & _ & W). rewrite <- E in *. rewrite F in W.
  assert (w = fst (parse_ref (txt "example.org#top"))) as -> by now rewrite P. vm_compute in W. discriminate.
Qed.
Print Assumptions conn_fragment_refuted.

(** The request that begins a WebSocket connection is a GET for the path and the query of the address, and the
    event that tells of the connection has all the parts of the address. *)
Theorem conn_ws_request : forall (k : kind) (r : reference), k = Ws \/ k = Wss -> documented k r ->
  exists p, connect k (text_of r) = Some p
    /\ (forall sha1 pid self remote, exists fs,
          encode_c (ws_request k sha1 pid self remote p)
          = txt "GET " ++ target_of r ++ txt " HTTP/1.1" ++ encode_fields fs ++ [13; 10; 13; 10]
          /\ lookup (txt "Host") fs = [p_default p]
          /\ (forall n, HoutSpec.same n (txt "Host") = false -> lookup n fs = lookup n (request_headers sha1 pid self)))
    /\ open_data p = p_default p ++ opt_text (fun x => x) (path r) ++ [63] ++ opt_text (fun x => x) (query r) ++ [35].
Proof.
  intros k r K (V & F & _).
  set (d := host_and_port (NetrefSpec.host r) (port_of k r)).
  assert (exists v, outcome k r = Some (mkPlan (NetrefSpec.host r) (port_of k r) d (opt_or (path r)) (opt_or (query r)) [] v)) as (v & O).
  { unfold outcome. rewrite F. destruct K as [-> | ->]; eexists; reflexivity. }
  rewrite connect_text, O by auto. eexists. split; [reflexivity|]. cbn [p_default]. split.
  - intros sha1 pid self remote. unfold ws_request. cbn [p_path p_query p_default].
    set (h := mkCH _ _ _ _ _ _ _ _ _). destruct (request_host h d remote eq_refl) as (H1 & H2 & H3).
    exists (c_fields (set_request_host h d remote)). split; [|split; [|exact H2]].
    + unfold encode_c. rewrite H3. assert (target h = target_of r) as ->.
      { unfold h, target, target_of. cbn [HoutModel.is_proxy HoutModel.raw_path HoutModel.raw_query]. destruct V as (_ & _ & _ & P & _).
        destruct (path r) as [pa|]; cbn [opt_or].
        - destruct P as [[q ->] _]. cbn. destruct (query r) as [[|c q']|]; reflexivity.
        - cbn. destruct (query r) as [[|c q']|]; reflexivity. }
      change (method_text (HoutModel.method (set_request_host h d remote)) ++ [32]) with (txt "GET ").
      change (method_text (HoutModel.method (set_request_host h d remote))) with (txt "GET"). reflexivity.
    + rewrite H1. change (c_fields h) with (request_headers sha1 pid self).
      assert (lookup (txt "Host") (request_headers sha1 pid self) = []) as -> by reflexivity. cbn [tl]. f_equal. unfold chosen. cbn.
      assert (d <> []) by (unfold d, host_and_port; destruct V as (N & _); destruct (NetrefSpec.host r); [congruence|discriminate]).
      destruct d; [congruence|reflexivity].
  - unfold open_data. cbn [p_default p_path p_query p_fragment]. unfold opt_or, opt_text. rewrite app_nil_r. reflexivity.
Qed.
Print Assumptions conn_ws_request.
Example conn_ws_request_case : documented Ws sample_ws
  /\ firstn 55 (encode_c (ws_request Ws (fun x => x) 1 2 [] (match connect Ws (text_of sample_ws) with Some p => p | None => mkPlan [] 0 [] [] [] [] None end)))
     = txt "GET /chat/x?a=1 HTTP/1.1" ++ [13; 10] ++ txt "Connection: Upgrade" ++ [13; 10] ++ txt "Upgrade:"
  /\ target_of sample_bare = txt "/".
Proof. split; [split; [exact sample_ws_valid|repeat split]|]. vm_compute. auto. Qed.

(** * C89 *)

(** If the host is not in brackets, the text that is kept for the Host header names the host and the port that are
    connected to, and every request that has no host of its own is sent with it. *)
Theorem conn_host_partial : forall (k : kind) (r : reference), k <> Tcp -> k <> Ssl -> documented k r -> bracketed r = false ->
  exists p r', connect k (text_of r) = Some p /\ names_peer k r r'
    /\ forall h data remote s, HoutModel.is_proxy h = false -> HoutModel.raw_host h = [] -> lookup (txt "Host") (c_fields h) = [] -> HoutModel.ack s = false ->
         exists h' post, http_request p remote s (HoutModel.Request h data) = Some (HoutModel.tcp_send s (encode_c h' ++ data))
           /\ c_fields h' = c_fields h ++ (txt "Host", text_of r') :: post /\ lookup (txt "Host") post = [].
Proof.
  intros k r N1 N2 (V & F & D) B. destruct (peer_text k r V B) as (NP & T). set (r' := mkReference _ _ _ _ _ _) in *.
  assert (exists p, outcome k r = Some p /\ p_default p = text_of r') as (p & O & E).
  { rewrite <- T. unfold outcome. destruct k; try congruence.
    1,2: destruct D as (-> & ->); eexists; split; reflexivity.
    all: eexists; split; reflexivity. }
  exists p, r'. rewrite connect_text by auto. split; [exact O|]. split; [exact NP|].
  intros h data remote s Pr Rh Lk A. unfold http_request, client. rewrite A, E.
  assert (S : set_request_host h (text_of r') remote = set_fields h (text_of r') (c_fields h ++ [(txt "Host", text_of r')])).
  { unfold set_request_host. rewrite Pr, Rh. pose proof (text_nonempty r' (proj1 NP)) as TN. destruct (text_of r') as [|c t] eqn:X; [now elim TN|].
    pose proof (replace_host_spec (c_fields h) (c :: t)) as R. destruct (replace_host (c_fields h) (c :: t)) as [f|]; [|reflexivity].
    destruct R as (a & n & x & b & Q & _ & Sm & _). exfalso. rewrite Q, lookup_app in Lk. apply app_eq_nil in Lk. destruct Lk as [_ Lk].
    unfold lookup in Lk. cbn [filter fst] in Lk. rewrite Sm in Lk. discriminate. }
  rewrite S. cbn zeta. destruct data as [|b data].
  - eexists _, []. split; [reflexivity|]. split; reflexivity.
  - eexists _, _. split; [reflexivity|]. cbn [c_fields set_fields]. rewrite <- app_assoc. cbn [app]. split; [reflexivity|]. reflexivity.
Qed.
Print Assumptions conn_host_partial.
Example conn_host_case : documented Http sample_bare /\ bracketed sample_bare = false
  /\ option_map (fun p => option_map (fun x => HoutModel.out (fst x))
       (http_request p [] (HoutModel.mkSess false false []) (HoutModel.Request (mkCH (txt "GET") false false 0 [] [] (txt "/a") [] []) []))) (connect Http (text_of sample_bare))
     = Some (Some (txt "GET /a HTTP/1.1" ++ [13; 10] ++ txt "Host: example.org:80" ++ [13; 10; 13; 10])).
Proof. split; [split; [exact sample_bare_valid|repeat split]|]. vm_compute. auto. Qed.

(** For every IPv6 address in brackets it names nothing of the kind: the brackets are lost. *)
Theorem conn_host_refuted : forall (k : kind) (r : reference) p, k <> Tcp -> k <> Ssl -> documented k r -> In 58 (NetrefSpec.host r) ->
  connect k (text_of r) = Some p -> forall r', names_peer k r r' -> p_default p <> text_of r'.
Proof.
  intros k r p N1 N2 (V & F & D) C H r' NP. rewrite connect_text in H by auto.
  assert (p_default p = host_and_port (NetrefSpec.host r) (port_of k r)) as ->.
  { unfold outcome in H. destruct k; try congruence.
    1,2: destruct D as (Q1 & Q2); rewrite Q1, Q2 in H; cbn in H; injection H as <-; reflexivity.
    all: injection H as <-; reflexivity. }
  now apply header_v6.
Qed.
Print Assumptions conn_host_refuted.
Example conn_host_refuted_case : documented Https sample_v6 /\ In 58 (NetrefSpec.host sample_v6)
  /\ option_map p_default (connect Https (txt "[fe80:1::2]:8443")) = Some (txt "fe80:1::2:8443")
  /\ names_peer Https sample_v6 sample_v6.
Proof.
  split; [split; [exact sample_v6_valid|repeat split]|]. split; [vm_compute; tauto|]. split; [vm_compute; reflexivity|].
  split; [exact sample_v6_valid|]. vm_compute. auto 10.
Qed.

(** HTTPS and secure WebSocket clients match the certificate of the server against the host of the address, if the
    host is not in brackets and has at most 253 characters; if it has more, against nothing. *)
Theorem conn_verify_partial : forall (k : kind) (r : reference), k = Https \/ k = Wss -> documented k r -> bracketed r = false ->
  exists p, connect k (text_of r) = Some p
    /\ (length (NetrefSpec.host r) <= 253 -> p_verify p = Some (NetrefSpec.host r))%nat
    /\ (253 < length (NetrefSpec.host r) -> p_verify p = None)%nat.
Proof.
  intros k r K (V & F & D) B. rewrite connect_text by auto.
  assert (exists p, outcome k r = Some p /\ p_verify p = if (length (NetrefSpec.host r) <=? 253)%nat then Some (NetrefSpec.host r) else None) as (p & O & E).
  { rewrite <- (verify_plain k r V B). unfold outcome. destruct K as [-> | ->].
    - destruct D as (-> & ->). eexists. split; reflexivity.
    - eexists. split; reflexivity. }
  exists p. split; [exact O|]. rewrite E. split; intros L.
  - destruct (_ <=? _)%nat eqn:X; [reflexivity|]. apply Nat.leb_gt in X. lia.
  - destruct (_ <=? _)%nat eqn:X; [|reflexivity]. apply Nat.leb_le in X. lia.
Qed.
Print Assumptions conn_verify_partial.
Example conn_verify_case : documented Wss sample_ws /\ bracketed sample_ws = false
  /\ option_map p_verify (connect Wss (text_of sample_ws)) = Some (Some (txt "example.org")).
Proof. split; [split; [exact sample_ws_valid|repeat split]|]. vm_compute. auto. Qed.

(** Never against an IPv6 address in brackets *)
Theorem conn_verify_v6_refuted : forall (k : kind) (r : reference) p, documented k r -> In 58 (NetrefSpec.host r) ->
  connect k (text_of r) = Some p -> p_verify p <> Some (NetrefSpec.host r).
Proof.
  intros k r p (V & F & D) C H. rewrite connect_text in H by auto. unfold outcome in H. destruct k.
  1,2: destruct (_ || _); [discriminate|]; injection H as <-; discriminate.
  1,2: destruct (_ || _); [discriminate|]; injection H as <-; cbn [p_verify]; first [discriminate|now apply verify_v6].
  all: injection H as <-; cbn [p_verify]; first [discriminate|now apply verify_v6].
Qed.
Print Assumptions conn_verify_v6_refuted.
(** but against nothing, so that every trusted certificate of any host will do, or against another name. *)
Example conn_verify_v6_case :
  option_map p_verify (connect Https (txt "[2001:db8::1]:8443")) = Some None
  /\ option_map p_verify (connect Wss (txt "[::1]")) = Some None
  /\ option_map p_verify (connect Https (txt "[fe80:1::2]:8443")) = Some (Some (txt "fe80")).
Proof. vm_compute. auto. Qed.

(** SSL clients match certificates against nothing. *)
Theorem conn_verify_ssl_refuted : forall addr p, connect Ssl addr = Some p -> p_verify p = None.
Proof.
  intros addr p H. destruct (connect_inv _ _ _ H) as [(_ & _ & N)|(r & V & _ & O)]; [congruence|].
  unfold outcome in O. destruct (_ || _); [discriminate|]. now injection O as <-.
Qed.
Print Assumptions conn_verify_ssl_refuted.
Example conn_verify_ssl_case : connect Ssl (txt "example.org:443") = Some (mkPlan (txt "example.org") 443 [] [] [] [] None).
Proof. vm_compute. reflexivity. Qed.
