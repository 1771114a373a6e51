(** C94, C95: what a socket says about its own addresses; listening sockets and multicast groups *)
From Coq Require Import ZArith List Bool Lia String.
From Verif Require Import Base BaseLemmas Text AddrModel AccModel AccSpec NameModel NameSpec NameProofs.
Import ListNotations.
Open Scope list_scope.
Open Scope Z_scope.
Notation length := List.length.

(** * C94 *)

(** Calls one after another: the first name with a port that the system reports is returned from then on; until then, what is
    returned says that there is none yet, or that something is wrong, and is asked for again. *)
Theorem name_sequence : forall (w : which) (k0 : kname) (ks : list kname),
  results (log (run w (init k0 1) (flat_map whole_call ks))) = expected w None ks.
Proof.
  intros w k0 ks. rewrite (all_calls w ks _ [] None); [reflexivity|]. split; [|now split]. exists 0, false. split; [reflexivity|discriminate].
Qed.
Print Assumptions name_sequence.

Definition sa1 : sockaddr := mkSA (repeat 0 10 ++ [255; 255; 10; 0; 0; 7]) [31; 144].
Definition sa2 : sockaddr := mkSA (repeat 0 10 ++ [255; 255; 10; 0; 0; 8]) [4; 0].
Example name_sequence_case :
  expected Remote None [Failed ENOTCONN; Failed 9; Named true (mkSA (repeat 0 16) [0; 0]); Named true sa1; Failed 9; Named true sa2]
  = [ipv6_unspecified; ipv6_invalid; ipv6_unspecified; mkAddr (sa_addr sa1) 8080; mkAddr (sa_addr sa1) 8080; mkAddr (sa_addr sa1) 8080].
Proof. reflexivity. Qed.

(** Any number of threads, in any order, if the system never reports two different names with ports: every address that is read
    through a result is that name, and every other result is justified by something that the system has said. *)
Theorem name_shared_partial : forall (w : which) (n : address) (k : kname) (m : nat) (xs : list event),
  one_name n (said k xs) ->
  let l := log (run w (init k m) xs) in
  (forall i a, In (Saw i a) l -> a = n /\ exists k', In k' (said k xs) /\ known k' = Some n)
  /\ (forall i, In (Returned i Member) l -> exists k', In k' (said k xs) /\ known k' = Some n)
  /\ (forall i, In (Returned i Invalid) l -> exists k', In k' (said k xs) /\ known k' = None /\ unnamed w k' = ipv6_invalid)
  /\ (forall i, In (Returned i Unspecified) l -> exists k', In k' (said k xs) /\ known k' = None /\ unnamed w k' = ipv6_unspecified).
Proof.
  intros w n k m xs One l.
  assert (V : inv w n (said k xs) (run w (init k m) xs)).
  { apply inv_run; [exact One| |apply inv_init; now left]. intros k' I. right. apply in_flat_map. exists (System k'). split; [exact I|now left]. }
  destruct V as (_ & _ & _ & _ & L). rewrite Forall_forall in L. unfold l.
  split; [intros i a I; exact (L _ I)|]. split; [intros i I; exact (L _ I)|]. split; intros i I; exact (L _ I).
Qed.
Print Assumptions name_shared_partial.

(** Once a name has been returned to anyone, every call that begins afterwards returns it, without asking the system. *)
Theorem name_kept : forall (w : which) (k : kname) (m : nat) (xs ys : list event) (i j : nat) (t : thread),
  In (Returned i Member) (log (run w (init k m) xs)) ->
  let s := run w (run w (init k m) xs) ys in
  nth_error (threads s) j = Some t -> t_pc t = Idle ->
  log (step w s (Call j)) = log s ++ [Returned j Member].
Proof.
  intros w k m xs ys i j t H s N P.
  assert (A : forall xs s, (In (Returned i Member) (log s) -> ready s = true) -> In (Returned i Member) (log (run w s xs)) -> ready (run w s xs) = true).
  { clear. induction xs as [|x xs IH]; intros s A; [exact A|]. apply IH. clear IH xs. intros H.
    assert (B : In (Returned i Member) (log s) \/ ready (step w s x) = true).
    { destruct x as [a|a|a|a|a e|k']; cbn [step] in *; try (left; exact H); destruct (nth_error (threads s) a) as [[p e' r d]|]; try (left; exact H); destruct p; try (left; exact H).
      - destruct (ready s) eqn:R; [right; exact R|]. left. cbn [upd log] in H. now rewrite app_nil_r in H.
      - pose proof (query_known w e' (system s)) as QK. destruct (query w e' (system s)) as [e2 [y|sa]]; cbn [upd log snd] in *; [|left; now rewrite app_nil_r in H].
        apply in_app_or in H. destruct H as [H|[H|[]]]; [now left|]. injection H as -> ->. contradiction.
      - right. reflexivity.
      - destruct r; [|left; exact H]. cbn [upd log] in H. left. now rewrite app_nil_r in H.
      - destruct r; [|left; exact H]. destruct d; [|left; exact H]. cbn [upd log] in H. apply in_app_or in H. destruct H as [H|[H|[]]]; [now left|discriminate].
      - cbn [upd log] in H. left. now rewrite app_nil_r in H. }
    destruct B as [B|B]; [|exact B]. specialize (A B). clear H B.
    destruct x as [a|a|a|a|a e|k']; cbn [step]; try exact A; destruct (nth_error (threads s) a) as [[p e' r d]|]; try exact A; destruct p; try exact A; try reflexivity.
    - rewrite A. exact A.
    - destruct (query w e' (system s)) as [e2 [y|sa]]; exact A.
    - destruct r; exact A.
    - destruct r; [destruct d|]; exact A. }
  assert (R : ready (run w (init k m) xs) = true) by (apply A; [intros []|exact H]).
  assert (B : forall ys s, ready s = true -> ready (run w s ys) = true).
  { clear. induction ys as [|x ys IH]; intros s A; [exact A|]. apply IH. clear IH ys.
    destruct x as [a|a|a|a|a e|k']; cbn [step]; try exact A; destruct (nth_error (threads s) a) as [[p e' r d]|]; try exact A; destruct p; try exact A; try reflexivity.
    - rewrite A. exact A.
    - destruct (query w e' (system s)) as [e2 [y|sa]]; exact A.
    - destruct r; exact A.
    - destruct r; [destruct d|]; exact A. }
  specialize (B ys _ R). fold s in B. cbn [step]. rewrite N. destruct t as [p e r d]. cbn [t_pc] in P. subst p. rewrite B. reflexivity.
Qed.
Print Assumptions name_kept.

(** No call changes [errno], which callbacks rely on. *)
Theorem name_errno : forall (w : which) (s : state) (i : nat),
  map t_errno (threads (step w s (Call i))) = map t_errno (threads s) /\ map t_errno (threads (step w s (Step i))) = map t_errno (threads s).
Proof.
  intros w s i. cbn [step]. destruct (nth_error (threads s) i) as [[p e r d]|] eqn:N; [|now split]. split.
  - destruct p; try reflexivity. destruct (ready s); cbn [upd threads]; eapply map_set; eauto.
  - destruct p; try reflexivity; try (cbn [threads]; eapply map_set; eauto; fail).
    pose proof (query_errno w e (system s)) as E. destruct (query w e (system s)) as [e2 [y|sa]]; cbn [fst] in E; subst e2; cbn [upd threads]; eapply map_set; eauto.
Qed.
Print Assumptions name_errno.

(** Without the condition: an address that no system has ever reported, the octets of one name with the port of another. *)
Definition torn : list event :=
  [Call 0; Step 0; Call 1; System (Named true sa2); Step 1; Step 0; Step 0; Step 0; Read_addr 0; Step 1; Step 1; Read_port 0].
Theorem name_torn_refuted :
  ~ (forall (w : which) (k : kname) (m : nat) (xs : list event) (i : nat) (a : address), In (Saw i a) (log (run w (init k m) xs)) -> exists k', In k' (said k xs) /\ known k' = Some a).
Proof.
  intros H. specialize (H Remote (Named true sa1) 2%nat torn 0%nat (mkAddr (sa_addr sa1) 1024)).
  assert (I : In (Saw 0 (mkAddr (sa_addr sa1) 1024)) (log (run Remote (init (Named true sa1) 2) torn))) by (vm_compute; auto 10).
  destruct (H I) as (k' & [<-|[<-|[]]] & E); vm_compute in E; discriminate.
Qed.
Print Assumptions name_torn_refuted.

(** And even with a single name: a thread stores the name while another one is using it. *)
Theorem name_race_refuted :
  ~ (forall (w : which) (n : address) (k : kname) (m : nat) (xs : list event), one_name n (said k xs) -> ~ data_race (run w (init k m) xs)).
Proof.
  intros H. apply (H Local (of_sockaddr sa1) (Named true sa1) 2%nat [Call 0; Call 1; Step 0; Step 1; Step 0; Step 0; Step 0]).
  - intros k a [<-|[]] E. vm_compute in E. injection E as <-. reflexivity.
  - exists 1%nat, 0%nat. vm_compute. do 2 eexists. split; [discriminate|]. split; [reflexivity|]. split; [reflexivity|]. split; [exact Logic.I|]. right. now split.
Qed.
Print Assumptions name_race_refuted.

Example name_shared_case : one_name (of_sockaddr sa1) (said (Failed ENOTCONN) [Call 0; Step 0; System (Named true sa1); Call 1; Call 0; Step 1; Step 0; Step 0; Step 0; Step 0; Read_addr 0; Step 1; Read_port 0])
  /\ log (run Remote (init (Failed ENOTCONN) 2) [Call 0; Step 0; System (Named true sa1); Call 1; Call 0; Step 1; Step 0; Step 0; Step 0; Step 0; Read_addr 0; Step 1; Read_port 0])
     = [Returned 0 Unspecified; Returned 0 Member; Saw 0 (mkAddr (sa_addr sa1) 8080)].
Proof. split; [intros k a [<-|[<-|[]]] E; [discriminate|vm_compute in E; injection E as <-; reflexivity]|reflexivity]. Qed.

(** * C95 *)

(** A socket that listens is bound to the very address, does not block, and is the only trace of the attempt; otherwise there is
    an exception and no descriptor.  *)
Theorem listening : forall (c : calls) (a : address), 0 <= a_port a < 65536 ->
  match tcp_acceptor c a with
  | Some d => d_listen d = true /\ d_stream d = true /\ d_block d = false /\ d_reuse d = true
      /\ option_map of_sockaddr (d_name d) = Some a /\ (c_socket c && c_bind c && c_listen c = true)
  | None => c_socket c && c_bind c && c_listen c = false
  end
  /\ match udp_socket c a with
     | Some d => d_stream d = false /\ d_block d = false /\ d_reuse d = true /\ option_map of_sockaddr (d_name d) = Some a /\ (c_socket c && c_bind c = true)
     | None => c_socket c && c_bind c = false
     end
  /\ match udp_client c with Some d => d_block d = false /\ d_stream d = false /\ d_name d = None | None => c_socket c = false end.
Proof.
  intros [b1 b2 b3] a P. assert (E : of_sockaddr (to_sockaddr a) = a).
  { unfold of_sockaddr, to_sockaddr. cbn [sa_addr sa_port]. rewrite load_be_store by lia. destruct a; reflexivity. }
  unfold tcp_acceptor, udp_socket, udp_client. cbn [c_socket c_bind c_listen].
  destruct b1, b2, b3; cbn [negb andb d_listen d_stream d_block d_reuse d_name option_map]; rewrite ?E; repeat split; reflexivity.
Qed.
Print Assumptions listening.

(** A connection that was accepted does not block either, or there is none; a time limit for deferred connections is in range. *)
Theorem adopted : forall (fd : option desc) (getfl setfl : bool),
  match adopt fd getfl setfl with
  | Some d => d_block d = false /\ exists d0, fd = Some d0 /\ d_stream d = d_stream d0 /\ d_name d = d_name d0
  | None => fd = None \/ getfl = false \/ setfl = false
  end.
Proof.
  intros [d|] getfl setfl; cbn [adopt]; [|now left]. destruct getfl; cbn [negb]; [|auto]. destruct (d_block d) eqn:B; [|split; [exact B|now exists d]].
  destruct setfl; cbn [negb]; [|auto]. split; [reflexivity|now exists d].
Qed.
Print Assumptions adopted.
Theorem deferred : forall (d d' : desc) (ok : bool) (n : Z), defer_accept ok d n = Some d' ->
  exists v, d_defer d' = Some v /\ 0 <= v <= 2147483647 /\ (0 <= n <= 2147483647 -> v = n) /\ (n < 0 -> v = 0) /\ (2147483647 < n -> v = 2147483647)
    /\ d_name d' = d_name d /\ d_listen d' = d_listen d.
Proof.
  intros d d' ok n H. unfold defer_accept in H. destruct ok; [|discriminate]. cbn [negb] in H. injection H as <-. eexists. split; [reflexivity|].
  cbn [d_name d_listen]. unfold INT_MAX. destruct (n <? 0) eqn:E; [repeat split; lia|]. destruct (_ <? n) eqn:E2; repeat split; lia.
Qed.
Print Assumptions deferred.
Example listening_case : tcp_acceptor (mkCalls true true true) (mkAddr (a_addr ipv4_loopback) 8080) = Some (mkD true false (Some (mkSA (a_addr ipv4_loopback) [31; 144])) true true None)
  /\ tcp_acceptor (mkCalls true false true) (mkAddr (a_addr ipv4_loopback) 8080) = None
  /\ adopt (Some (mkD true true None false false None)) true true = Some (mkD true false None false false None)
  /\ defer_accept true (mkD true false None true true None) 5000000000 = Some (mkD true false None true true (Some 2147483647)).
Proof. repeat split. Qed.

Section Groups.
  Variables (takes : groups -> sockopt -> bool) (if_nametoindex : list Z -> Z).

  Lemma null_in l : has_null l = false -> ~ In 0 l.
  Proof.
    intros H I. assert (T : has_null l = true); [|congruence]. unfold has_null. apply existsb_exists. exists 0. auto.
  Qed.
  Lemma join_options g m p ifname ttl lb g' : length m = 16%nat -> join takes if_nametoindex g (mkAddr m p) ifname ttl lb = (g', true) ->
    has_null ifname = false /\ if_nametoindex ifname <> 0 /\
    ((writes4 m (skipn 12 m) /\ g' = mkG ((skipn 12 m, if_nametoindex ifname) :: g4 g) (g6 g) ttl (if lb then 1 else 0) (ttl6 g) (loop6 g))
     \/ ((forall b, ~ writes4 m b) /\ g' = mkG (g4 g) ((m, if_nametoindex ifname) :: g6 g) (ttl4 g) (loop4 g) ttl (if lb then 1 else 0))).
  Proof.
    intros L. unfold join. destruct (has_null ifname); [discriminate|]. destruct (if_nametoindex ifname =? 0) eqn:E; [discriminate|].
    apply Z.eqb_neq in E. pose proof (is_ipv4_spec m p L) as W. destruct (is_ipv4 (mkAddr m p)); cbn [setsockopts a_addr];
      destruct (takes g _); try discriminate; destruct (takes (accept g _) _); try discriminate; destruct (takes (accept (accept g _) _) _); try discriminate; intros [= <-]; cbn [accept g4 g6 ttl4 loop4 ttl6 loop6]; auto 6.
  Qed.
  Lemma leave_options g m p ifname g' : length m = 16%nat -> leave takes if_nametoindex g (mkAddr m p) ifname = (g', true) ->
    has_null ifname = false /\ if_nametoindex ifname <> 0 /\
    ((writes4 m (skipn 12 m) /\ g' = accept g (Drop4 (skipn 12 m) (if_nametoindex ifname)))
     \/ ((forall b, ~ writes4 m b) /\ g' = accept g (Drop6 m (if_nametoindex ifname)))).
  Proof.
    intros L. unfold leave. destruct (has_null ifname); [discriminate|]. destruct (if_nametoindex ifname =? 0) eqn:E; [discriminate|].
    apply Z.eqb_neq in E. pose proof (is_ipv4_spec m p L) as W. destruct (is_ipv4 (mkAddr m p)); cbn [setsockopts a_addr];
      destruct (takes g _); try discriminate; intros [= <-]; auto 6.
  Qed.

  (** After joining, the socket is in that group on that interface, besides the groups it was in before; datagrams to groups of
      this kind have that number of hops and that loop-back, and other ones are as before. *)
  Theorem group_joined : forall (g g' : groups) (m : list Z) (p : Z) (ifname : list Z) (ttl : Z) (loopback : bool),
    is_group m -> join takes if_nametoindex g (mkAddr m p) ifname ttl loopback = (g', true) ->
    let i := if_nametoindex ifname in
    ~ In 0 ifname /\ i <> 0 /\ (forall m' i', member g' m' i' <-> member g m' i' \/ (m' = m /\ i' = i)) /\ sends_as m ttl loopback g g'.
  Proof.
    intros g g' m p ifname ttl lb (L & _) H i. destruct (join_options g m p ifname ttl lb g' L H) as (N0 & N & C). fold i in N, C. split; [now apply null_in|]. split; [exact N|].
    unfold member, sends_as. destruct C as [(W & ->)|(W & ->)]; cbn [g4 g6 ttl4 loop4 ttl6 loop6].
    - split.
      + intros m' i'. split.
        * intros [(b & Wb & [E|I])|(Wn & I)]; [|left; left; eauto|left; right; auto]. injection E as <- <-. right. split; [|reflexivity]. rewrite Wb. symmetry. exact W.
        * intros [[(b & Wb & I)|(Wn & I)]|(-> & ->)]; [left; exists b; split; [exact Wb|now right]|right; auto|left; exists (skipn 12 m); split; [exact W|now left]].
      + split; [auto|]. intros X. destruct (X _ W).
    - split.
      + intros m' i'. split.
        * intros [(b & Wb & I)|(Wn & [E|I])]; [left; left; eauto| |left; right; auto]. injection E as <- <-. auto.
        * intros [[(b & Wb & I)|(Wn & I)]|(-> & ->)]; [left; eauto|right; split; [exact Wn|now right]|right; split; [exact W|now left]].
      + split; [|auto]. intros (b & X). destruct (W _ X).
  Qed.

  (** After leaving, it is in the other groups only, and nothing else has changed. *)
  Theorem group_left : forall (g g' : groups) (m : list Z) (p : Z) (ifname : list Z),
    is_group m -> groups_ok g -> leave takes if_nametoindex g (mkAddr m p) ifname = (g', true) ->
    let i := if_nametoindex ifname in
    ~ In 0 ifname /\ i <> 0 /\ (forall m' i', member g' m' i' <-> member g m' i' /\ ~ (m' = m /\ i' = i))
    /\ ttl4 g' = ttl4 g /\ loop4 g' = loop4 g /\ ttl6 g' = ttl6 g /\ loop6 g' = loop6 g.
  Proof.
    intros g g' m p ifname (L & _) (G4 & G6) H i. destruct (leave_options g m p ifname g' L H) as (N0 & N & C). fold i in N, C. split; [now apply null_in|]. split; [exact N|].
    unfold member. destruct C as [(W & ->)|(W & ->)]; cbn [accept g4 g6 ttl4 loop4 ttl6 loop6]; (split; [|auto]); intros m' i'.
    - assert (F : Forall (fun y => length (fst y) = length (fst (skipn 12 m, i))) (g4 g)).
      { eapply Forall_impl; [|exact G4]. cbn [fst]. intros y (Y & _). rewrite Y, (writes4_len _ _ L W). reflexivity. }
      split.
      + intros [(b & Wb & I)|(Wn & I)].
        * apply (in_drop _ _ F) in I. destruct I as (I & D). split; [left; eauto|]. intros (-> & ->). apply D. f_equal. eapply writes4_inj; eauto.
        * split; [right; auto|]. intros (-> & _). exact (Wn _ W).
      + intros ([(b & Wb & I)|(Wn & I)] & D); [|right; auto]. left. exists b. split; [exact Wb|]. apply (in_drop _ _ F). split; [exact I|].
        intros [= -> ->]. apply D. split; [|reflexivity]. rewrite Wb. symmetry. exact W.
    - assert (F : Forall (fun y => length (fst y) = length (fst (m, i))) (g6 g)).
      { eapply Forall_impl; [|exact G6]. cbn [fst]. intros y (Y & _). now rewrite Y, L. }
      split.
      + intros [(b & Wb & I)|(Wn & I)].
        * split; [left; eauto|]. intros (-> & _). exact (W _ Wb).
        * apply (in_drop _ _ F) in I. destruct I as (I & D). split; [right; auto|]. intros (-> & ->). now apply D.
      + intros ([(b & Wb & I)|(Wn & I)] & D); [left; eauto|]. right. split; [exact Wn|]. apply (in_drop _ _ F). split; [exact I|].
        intros [= -> ->]. now apply D.
  Qed.

  (** If an exception is thrown, nothing has happened to the groups that the socket is in, except that it may be in the new one. *)
  Theorem group_not_joined_partial : forall (g g' : groups) (m : list Z) (p : Z) (ifname : list Z) (ttl : Z) (loopback : bool),
    is_group m -> join takes if_nametoindex g (mkAddr m p) ifname ttl loopback = (g', false) ->
    forall m' i', (member g m' i' -> member g' m' i') /\ (member g' m' i' -> member g m' i' \/ (m' = m /\ i' = if_nametoindex ifname /\ i' <> 0)).
  Proof.
    intros g g' m p ifname ttl lb (L & _) H m' i'. unfold join in H. destruct (has_null ifname); [injection H as <-; auto|]. destruct (if_nametoindex ifname =? 0) eqn:E; [injection H as <-; auto|]. apply Z.eqb_neq in E.
    pose proof (is_ipv4_spec m p L) as W. destruct (is_ipv4 (mkAddr m p)); cbn [setsockopts a_addr] in H; (destruct (takes g _); [|injection H as <-; auto]).
    - assert (Q : g4 g' = (skipn 12 m, if_nametoindex ifname) :: g4 g /\ g6 g' = g6 g).
      { destruct (takes (accept g _) _); [destruct (takes (accept (accept g _) _) _); [discriminate|]|]; injection H as <-; now split. }
      unfold member. destruct Q as (-> & ->). split.
      + intros [(b & Wb & I)|X]; [left; exists b; split; [exact Wb|now right]|right; exact X].
      + intros [(b & Wb & [Q|I])|X]; [|left; left; eauto|left; right; exact X]. injection Q as <- <-. right. split; [rewrite Wb; symmetry; exact W|]. split; [reflexivity|exact E].
    - assert (Q : g4 g' = g4 g /\ g6 g' = (m, if_nametoindex ifname) :: g6 g).
      { destruct (takes (accept g _) _); [destruct (takes (accept (accept g _) _) _); [discriminate|]|]; injection H as <-; now split. }
      unfold member. destruct Q as (-> & ->). split.
      + intros [X|(Wn & I)]; [left; exact X|right; split; [exact Wn|now right]].
      + intros [X|(Wn & [Q|I])]; [left; left; exact X| |left; right; auto]. injection Q as <- <-. right. auto.
  Qed.
End Groups.
Print Assumptions group_joined.
Print Assumptions group_left.
Print Assumptions group_not_joined_partial.

Definition mc : list Z := [0;0;0;0;0;0;0;0;0;0;255;255;224;0;0;251].
Definition none : groups := mkG [] [] 1 1 1 1.
Definition eth0 (s : list Z) : Z := if memcmp s (txt "eth0") =? 0 then 2 else 0.
(** All or nothing is false: if the number of hops is refused, there is an exception, and the socket is in the group. *)
Theorem group_atomic_refuted :
  ~ (forall takes index g g' m p ifname ttl loopback, is_group m -> join takes index g (mkAddr m p) ifname ttl loopback = (g', false) -> g' = g).
Proof.
  intros H. specialize (H (fun _ o => match o with Ttl4 _ => false | _ => true end) eth0 none (mkG [([224; 0; 0; 251], 2)] [] 1 1 1 1) mc 5353 (txt "eth0") 0 false).
  discriminate H; [|reflexivity]. split; [reflexivity|]. repeat constructor; lia.
Qed.
Print Assumptions group_atomic_refuted.
Example group_case : is_group mc /\ groups_ok none
  /\ join (fun _ _ => true) eth0 none (mkAddr mc 5353) (txt "eth0") 8 true = (mkG [([224; 0; 0; 251], 2)] [] 8 1 1 1, true)
  /\ leave (fun _ _ => true) eth0 (mkG [([224; 0; 0; 251], 2)] [] 8 1 1 1) (mkAddr mc 0) (txt "eth0") = (mkG [] [] 8 1 1 1, true)
  /\ join (fun _ _ => true) eth0 none (mkAddr mc 5353) (txt "eth1") 8 true = (none, false)
  /\ join (fun _ _ => true) eth0 none (mkAddr (255 :: 2 :: repeat 0 13 ++ [1]) 0) (txt "eth0") 8 false = (mkG [] [(255 :: 2 :: repeat 0 13 ++ [1], 2)] 1 1 8 0, true).
Proof. split; [split; [reflexivity|repeat constructor; lia]|]. split; [split; constructor|]. repeat split. Qed.
