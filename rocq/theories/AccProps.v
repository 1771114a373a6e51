(** C71, C72, C73: accepting connections, datagrams, connecting by name. *)
From Coq Require Import ZArith List Bool Lia.
From Verif Require Import Base BaseLemmas AddrModel AddrSpec AddrProofs TcpModel NetModel NetSpec NetProofs AccModel AccSpec AccProofs.
Import ListNotations.
Open Scope Z_scope.

Definition a_none : astate := mkA [] [] [].

(** C71: until the system has no more connections, the user is asked about each, in
    the order of arrival, with the address of its own peer.  A connection
    gets into the network scheduler if the user has returned a socket for it,
    and is closed otherwise; errors and exceptions do not affect the others. *)
Theorem accept_all : forall user rs rest, Forall (fun r => r <> AcceptError EAGAIN) rs ->
  exists s, accept_loop user (rs ++ AcceptError EAGAIN :: rest) a_none = (s, true)
    /\ asked s = connections rs
    /\ inserted s = answered user is_client (connections rs)
    /\ dropped s = answered user (fun a => negb (is_client a)) (connections rs).
Proof.
  intros user rs rest F. destruct (accept_loop user rs a_none) as [s b] eqn:E.
  destruct (accept_run user rs a_none s b) as (-> & A & K1 & K2); auto; [split; reflexivity|].
  exists s. rewrite (accept_app _ _ _ _ _ E). cbn [accept_loop]. rewrite Z.eqb_refl. cbn [asked a_none app] in A. rewrite K1, K2, A. auto.
Qed.
Print Assumptions accept_all.
Definition peer := mkSA [0;0;0;0;0;0;0;0;0;0;255;255;10;0;0;7] [31; 144].
Definition some_user (k : nat) (a : address) (fd : Z) : answer := match k with 0%nat => Client | 1%nat => Throws | 2%nat => Null | _ => Client end.
Example accept_all_case : accept_loop some_user [Accepted 5 peer; AcceptError 103; Accepted 6 peer; Accepted 7 peer; Accepted 6 peer; AcceptError EAGAIN] a_none
  = (mkA [5; 6] [6; 7] (map (fun fd => (mkAddr (sa_addr peer) 8080, fd)) [5; 6; 7; 6]), true).
Proof. reflexivity. Qed.

(** But an error that persists, such as the exhaustion of descriptors (EMFILE, 24)
    or the shutdown of the acceptor itself (EINVAL, 22), keeps the network thread in
    the loop for ever, so that no other socket is served. *)
Theorem accept_returns_refuted : forall user s e, e <> EAGAIN -> forall k, accept_loop user (repeat (AcceptError e) k) s = (s, false).
Proof.
  intros user s e N k. induction k as [|k IH]; cbn [repeat accept_loop]; [auto|]. destruct (e =? EAGAIN) eqn:Q; [apply Z.eqb_eq in Q; contradiction|auto].
Qed.
Print Assumptions accept_returns_refuted.
Example accept_returns_case : 24 <> EAGAIN /\ 22 <> EAGAIN.
Proof. split; discriminate. Qed.

(** C72: until the system has no more datagrams, the user is given each one, whole,
    in the order of arrival, with the address of its own sender, whatever they do to
    the arguments and whichever exceptions they throw. *)
Theorem udp_packets : forall (U : Type) (on_packet : U -> address -> list Z -> U * address * list Z * bool) cap rs rest s,
  65535 <= Z.of_nat cap ->
  Forall (fun r => match r with Packet _ d => Z.of_nat (length d) <= 65535 | RecvError e => e <> EAGAIN end) rs ->
  exists s', recv_loop on_packet cap (rs ++ RecvError EAGAIN :: rest) s = (s', true) /\ packets s' = packets s ++ datagrams rs.
Proof.
  intros U on_packet cap rs rest s C F. destruct (recv_loop on_packet cap rs s) as [s1 b] eqn:E.
  destruct (recv_run on_packet cap rs s s1 b) as [-> P]; auto.
  { eapply Forall_impl; [|exact F]. intros [sa d|e]; auto. intros. lia. }
  eexists. rewrite (recv_app on_packet _ _ _ _ _ E). cbn [recv_loop]. rewrite Z.eqb_refl. split; [reflexivity|]. exact P.
Qed.
Print Assumptions udp_packets.
Example udp_packets_case : let f := fun (u : nat) (a : address) (q : list Z) => (S u, ipv6_invalid, q ++ [9], Nat.eqb u 0) in
  packets (fst (recv_loop f 5 ([Packet peer [1; 2]; RecvError 111; Packet (mkSA (sa_addr peer) [0; 53]) []; Packet peer [3]] ++ [RecvError EAGAIN]) (mkU ipv6_unspecified [8] 0%nat [])))
  = [(mkAddr (sa_addr peer) 8080, [1; 2]); (mkAddr (sa_addr peer) 53, []); (mkAddr (sa_addr peer) 8080, [3])].
Proof. vm_compute. reflexivity. Qed.

(** An answer that is sent to the address of a packet goes to where the packet has
    come from; an address is the same on both sides of the network. *)
Theorem udp_reply : (forall sa, is_sockaddr sa -> to_sockaddr (of_sockaddr sa) = sa) /\ (forall a, is_address a -> of_sockaddr (to_sockaddr a) = a).
Proof. split; [exact to_of|exact of_to]. Qed.
Print Assumptions udp_reply.
Example udp_reply_case : is_sockaddr peer.
Proof. unfold is_sockaddr, peer, bytes, byte. cbn. repeat split; repeat constructor; lia. Qed.

(** The sends in a history *)
Definition sends (ops : list uop) : list (address * list Z) := flat_map (fun o => match o with UdpSend a d _ => [(a, d)] | _ => [] end) ops.

(** Every send has a result; the datagrams that go out are those whose results are
    [true], in order, each to its own address. *)
Theorem udp_sent : forall ops, length (results (udp_run ops)) = length (sends ops)
  /\ wire (udp_run ops) = map (fun x => (to_sockaddr (fst (fst x)), snd (fst x))) (filter snd (combine (sends ops) (results (udp_run ops)))).
Proof.
  intros ops. induction ops as [|o ops IH] using rev_ind; [auto|]. unfold udp_run in *. rewrite fold_left_app. cbn [fold_left].
  set (s := fold_left udp_step ops _) in *. destruct IH as [L W]. unfold sends in *. rewrite flat_map_app. cbn [flat_map].
  destruct o as [| |a d ok]; cbn [udp_step results wire]; rewrite ?app_nil_r; auto.
  assert (X : forall b, combine (flat_map (fun o => match o with UdpSend a d _ => [(a, d)] | _ => [] end) ops ++ [(a, d)]) (results s ++ [b])
     = combine (flat_map (fun o => match o with UdpSend a d _ => [(a, d)] | _ => [] end) ops) (results s) ++ [((a, d), b)]).
  { intros b. apply combine_snoc. now rewrite L. }
  destruct (2 <=? rank (ustat s))%nat; [|destruct ok]; cbn [results wire]; rewrite !app_length, L, X, filter_app, map_app, <- W; cbn; rewrite ?app_nil_r; auto.
Qed.
Print Assumptions udp_sent.

(** A send says what the system says, unless the socket has been shut down before:
    then it says [false] and nothing goes out. *)
Theorem udp_send_result : forall ops a d ok,
  (~ In QuickShut ops -> results (udp_run (ops ++ [UdpSend a d ok])) = results (udp_run ops) ++ [ok])
  /\ (In QuickShut ops -> results (udp_run (ops ++ [UdpSend a d ok])) = results (udp_run ops) ++ [false]
       /\ wire (udp_run (ops ++ [UdpSend a d ok])) = wire (udp_run ops)).
Proof.
  intros ops a d ok. unfold udp_run. rewrite fold_left_app. cbn [fold_left]. set (s0 := mkUS Pending [] []).
  assert (A : (~ In QuickShut ops -> (rank (ustat (fold_left udp_step ops s0)) < 2)%nat) /\ (In QuickShut ops -> ustat (fold_left udp_step ops s0) = Closed)).
  { induction ops as [|o ops [I1 I2]] using rev_ind; [split; [cbn; lia|intros []]|]. rewrite fold_left_app. cbn [fold_left]. set (s := fold_left udp_step ops s0) in *.
    split; intros H.
    - assert (R : (rank (ustat s) < 2)%nat) by (apply I1; intros X; apply H, in_app_iff; now left).
      destruct o as [| |b e k]; cbn [udp_step].
      + cbn [ustat]. destruct (ustat s); cbn in *; lia.
      + exfalso. apply H, in_app_iff. right. now left.
      + destruct (2 <=? rank (ustat s))%nat; [|destruct k]; auto.
    - apply in_app_iff in H as [H|[->|[]]]; [|reflexivity]. specialize (I2 H). destruct o as [| |b e k]; cbn [udp_step ustat]; rewrite ?I2; auto. }
  destruct A as [A1 A2]. set (s := fold_left udp_step ops s0) in *. cbn [udp_step]. split; intros H.
  - specialize (A1 H). apply Nat.leb_gt in A1. rewrite A1. destruct ok; auto.
  - specialize (A2 H). rewrite A2. auto.
Qed.
Print Assumptions udp_send_result.

(** An error that persists keeps the network thread in the loop. *)
Theorem udp_returns_refuted : forall (U : Type) (on_packet : U -> address -> list Z -> U * address * list Z * bool) cap s e, e <> EAGAIN ->
  forall k, snd (recv_loop on_packet cap (repeat (RecvError e) k) s) = false.
Proof.
  intros U on_packet cap s e N k. revert s. induction k as [|k IH]; cbn [repeat recv_loop]; intros s; [auto|].
  destruct (e =? EAGAIN) eqn:Q; [apply Z.eqb_eq in Q; contradiction|apply IH].
Qed.
Print Assumptions udp_returns_refuted.

(** C73: a query gives every address that the look-up has found, once, with the
    port; IPv4 addresses in their IPv6 form; *)
Theorem dns_query : forall port is, 0 <= port < 65536 -> Forall is_info is ->
  NoDup (dns_results port is []) /\ Forall is_address (dns_results port is [])
  /\ (forall a, In a (dns_results port is []) <-> a_port a = port /\ exists i, In i is /\ names i (a_addr a)).
Proof.
  intros port is P F. destruct (dns_all port is P F [] (Forall_nil _) (NoDup_nil _)) as (A & N & I). split; [auto|]. split; [auto|].
  intros a. rewrite I. split.
  - intros [[]|(i & J & E)]. destruct i as [b|b|]; cbn [info_addr] in E; try discriminate.
    + assert (a = mkAddr (firstn 12 (a_addr ipv4_unspecified) ++ b) port) by congruence. subst a. split; [reflexivity|]. exists (Inet b). split; [auto|reflexivity].
    + assert (a = mkAddr b port) by congruence. subst a. split; [reflexivity|]. exists (Inet6 b). split; [auto|reflexivity].
  - intros (<- & i & J & E). right. exists i. split; [auto|]. destruct a as [x p]. cbn [a_port a_addr] in *.
    destruct i as [b|b|]; cbn [names info_addr] in *; [subst x; reflexivity|subst x; reflexivity|contradiction].
Qed.
Print Assumptions dns_query.

(** in the order in which the look-up has first found them: what comes later does
    not change what was there. *)
Theorem dns_query_order : forall port is1 is2, exists x, dns_results port (is1 ++ is2) [] = dns_results port is1 [] ++ x.
Proof. intros port is1 is2. rewrite dns_app. apply dns_more. Qed.
Print Assumptions dns_query_order.
Example dns_query_case : dns_results 80 [Inet [10;0;0;7]; Inet6 [32;1;13;184;0;0;0;0;0;0;0;0;0;0;0;1]; Inet [10;0;0;7]; OtherFamily; Inet6 (sa_addr peer)] []
  = [mkAddr (sa_addr peer) 80; mkAddr [32;1;13;184;0;0;0;0;0;0;0;0;0;0;0;1] 80].
Proof. vm_compute. reflexivity. Qed.

(** Connecting by name tries the addresses in the order of the look-up, with the
    port, each one once, until one does not fail at once; then, and only then, the
    socket gets into the network scheduler.  In all other cases it is shut down. *)
Theorem dns_connects : forall connect lookup inserts port c, dns_connect connect lookup true inserts port = Some c ->
  (exists is pre sa post, lookup = Some is /\ targets port is = pre ++ sa :: post /\ tried c = pre ++ [sa]
     /\ goes_on (connect pre sa) /\ (forall a x b, pre = a ++ x :: b -> ~ goes_on (connect a x))
     /\ in_network c = inserts /\ shut c = negb inserts)
  \/ (exists is, lookup = Some is /\ tried c = targets port is /\ (forall a x b, targets port is = a ++ x :: b -> ~ goes_on (connect a x))
     /\ in_network c = false /\ shut c = true)
  \/ (lookup = None /\ tried c = [] /\ in_network c = false /\ shut c = true).
Proof.
  intros connect lookup inserts port c H. unfold dns_connect in H. destruct lookup as [is|].
  - destruct (connect_loop connect port is []) as [done ok] eqn:E. destruct (connect_run _ _ _ _ _ _ E) as [(-> & pre & sa & post & T & -> & G & B)|(-> & -> & B)].
    + left. exists is, pre, sa, post. cbn [app] in *. destruct inserts; injection H as <-; cbn [tried in_network shut]; repeat (split; [auto; fail|]); auto.
    + right. left. exists is. cbn [app] in *. injection H as <-. auto.
  - right. right. injection H as <-. auto.
Qed.
Print Assumptions dns_connects.
Theorem dns_connect_expired : forall connect lookup inserts port, dns_connect connect lookup false inserts port = None.
Proof. intros connect [is|] inserts port; reflexivity. Qed.
Print Assumptions dns_connect_expired.
Example dns_connects_case : dns_connect (fun _ sa => if nth 0 (sa_addr sa) 0 =? 32 then 101 else 115)
    (Some [Inet6 [32;1;13;184;0;0;0;0;0;0;0;0;0;0;0;1]; OtherFamily; Inet [10;0;0;7]; Inet [10;0;0;8]]) true true 8080
  = Some (mkC [mkSA [32;1;13;184;0;0;0;0;0;0;0;0;0;0;0;1] [31; 144]; peer] true false).
Proof. vm_compute. reflexivity. Qed.

(** The documentation says that an IPv4 address is preferred to an IPv6 address; the
    order of the look-up decides. *)
Theorem dns_prefers_ipv4_refuted : exists connect is b4 b6 c, (forall done sa, goes_on (connect done sa)) /\ In (Inet b4) is /\ In (Inet6 b6) is
  /\ Forall is_info is /\ dns_connect connect (Some is) true true 80 = Some c /\ in_network c = true /\ tried c = [to_sockaddr (mkAddr b6 80)].
Proof.
  exists (fun _ _ => 0), [Inet6 [32;1;13;184;0;0;0;0;0;0;0;0;0;0;0;1]; Inet [10;0;0;7]], [10;0;0;7], [32;1;13;184;0;0;0;0;0;0;0;0;0;0;0;1].
  eexists. split; [left; reflexivity|]. split; [right; now left|]. split; [now left|]. split.
  - repeat constructor; unfold byte; lia.
  - vm_compute. repeat split.
Qed.
Print Assumptions dns_prefers_ipv4_refuted.

(** A socket that is not in the network scheduler and has been shut down *)
Definition stranded : net := mkN (kill init) false false false [] false Idle [].

(** The implementation says that in the case of a failure a closure notification
    shall be delivered.  The socket is shut down but is not in the network
    scheduler, and its user is never told of anything. *)
Theorem dns_failure_told_refuted : exists lookup c, dns_connect (fun _ _ => 0) lookup true true 80 = Some c
  /\ shut c = true /\ in_network c = false
  /\ forall ss n, nrun stranded ss = Some n -> told n = [].
Proof.
  exists None. eexists. split; [reflexivity|]. split; [reflexivity|]. split; [reflexivity|].
  intros ss. assert (X : pl stranded = Idle /\ registered stranded = false /\ told stranded = []) by auto. revert X. generalize stranded.
  induction ss as [|a ss IH]; cbn [nrun]; intros n (P & R & T) n' H; [injection H as <-; auto|].
  destruct (nstep1 n a) as [n1|] eqn:S; [|discriminate]. apply (IH n1); [|auto]. clear - P R T S.
  destruct a as [e1|d| |e1| |t|outs|r|t| |t|l]; cbn [nstep1] in S;
    unfold poll, go_out, go_connected, go_write, go_recv, go_stream, go_hup, go_over, go_end in S; rewrite ?P, ?R in S; try discriminate.
  - destruct (by_user e1); [|discriminate]. destruct (step (sock n) e1); cbn [option_map] in S; [|discriminate]. injection S as <-. auto.
  - destruct (_ && _); [|discriminate]. injection S as <-. auto.
  - destruct (negb _); [|discriminate]. injection S as <-. auto.
Qed.
Print Assumptions dns_failure_told_refuted.
