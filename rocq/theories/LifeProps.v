(** C96: the life of easy servers and clients. *)
From Coq Require Import ZArith List Bool Lia ZifyBool String.
From Verif Require Import Base BaseLemmas Text AddrModel LifeModel LifeSpec LifeProofs.
Import ListNotations.
Open Scope list_scope.
Notation length := List.length.

Section Life.
  Variables (read : list Z -> option address) (clash : address -> address -> bool).
  Notation step := (step read clash).
  Notation run := (run read clash).

  (** [start] succeeds if and only if the argument is an address, no listener that exists uses it, and the system does what it is asked for.  Then
      the server listens there. *)
  Theorem life_started es st pl picked ok st' : run init es = Some st -> step st (Start pl picked ok) = Some st' ->
    let wanted a := match pl with At_address b => a = b | At_text s => read s = Some a | At_port p => a = mkAddr (repeat 0%Z 16) p end in
    ((exists g, log st' = log st ++ [Started g]) <->
     ok = true /\ exists a b, wanted a /\ (if (a_port a =? 0)%Z then b = mkAddr (a_addr a) picked else b = a) /\ forall g c, listening st g = Some c -> clash b c = false)
    /\ (forall g, log st' = log st ++ [Started g] -> exists a b, wanted a /\ (if (a_port a =? 0)%Z then b = mkAddr (a_addr a) picked else b = a)
          /\ listening st' g = Some b /\ local_address st' = b /\ owner st' = Some g /\ listening st g = None /\ forall i, ~ belongs st i g).
  Proof.
    intros R S wanted. destruct (run_wf read clash es init st init_wf R) as (W & _ & _ & _).
    assert (WA : forall a, wanted a <-> resolve read pl = Some a).
    { intros a. unfold wanted, resolve. destruct pl; cbn [a_addr ipv6_unspecified repeat]; split; intros H; congruence. }
    assert (BO : forall a b, (if (a_port a =? 0)%Z then b = mkAddr (a_addr a) picked else b = a) <-> b = bound a picked).
    { intros a b. unfold bound. destruct (a_port a =? 0)%Z; reflexivity. }
    cbn [LifeModel.step] in S. destruct (resolve read pl) as [a|] eqn:E.
    - destruct (negb ok || taken clash st (bound a picked)) eqn:C.
      + injection S as <-. cbn [log say]. split; [|intros g H; apply app_inv_head in H; discriminate]. split; [intros [g H]; apply app_inv_head in H; discriminate|].
        intros (-> & a' & b & Wa & Hb & F). apply WA in Wa. injection Wa as <-. apply BO in Hb. subst b. cbn [negb orb] in C. apply taken_spec in C as (g & b & L & C). rewrite (F g b L) in C. discriminate.
      + injection S as <-. cbn [log]. apply orb_false_iff in C as [C1 C2].
        assert (G : (length (gens st) < length (gens st ++ [mkMade (Some (bound a picked)) []]))%nat) by (rewrite app_length; cbn; lia).
        assert (Li : listening (mkState (Some (length (gens st))) (gens st ++ [mkMade (Some (bound a picked)) []]) (sessions st) (log st ++ [Started (length (gens st))])) (length (gens st)) = Some (bound a picked)).
        { unfold listening, acceptor_exists. cbn [gens owner]. rewrite nth_error_app2, Nat.sub_diag by lia. cbn [nth_error]. now rewrite Nat.eqb_refl. }
        split.
        * split; [intros _|intros _; eauto]. split; [now destruct ok|]. exists a, (bound a picked). split; [now apply WA|]. split; [now apply BO|].
          intros g c L. destruct (clash (bound a picked) c) eqn:Q; [|reflexivity]. assert (X : taken clash st (bound a picked) = true) by (apply taken_spec; eauto). congruence.
        * intros g H. apply app_inv_head in H. injection H as <-. exists a, (bound a picked). split; [now apply WA|]. split; [now apply BO|]. split; [exact Li|].
          split; [unfold local_address; cbn [owner]; now rewrite Li|]. split; [reflexivity|]. split.
          -- unfold listening. destruct (nth_error (gens st) (length (gens st))) eqn:N; [|reflexivity]. apply nth_lt in N. lia.
          -- intros i (s & N & T). destruct W as [_ W]. rewrite Forall_forall in W. specialize (W s (nth_error_In _ _ N)). lia.
    - injection S as <-. cbn [log say]. split; [|intros g H; apply app_inv_head in H; discriminate]. split; [intros [g H]; apply app_inv_head in H; discriminate|].
      intros (_ & a & b & Wa & _). apply WA in Wa. congruence.
  Qed.
  Print Assumptions life_started.

  (** If [start] throws an exception, the server goes on as before. *)
  Theorem life_start_failed st pl picked ok st' : step st (Start pl picked ok) = Some st' -> (forall g, log st' <> log st ++ [Started g]) ->
    log st' = log st ++ [Start_failed] /\ owner st' = owner st /\ local_address st' = local_address st
    /\ (forall g, listening st' g = listening st g) /\ (forall i, is_open st' i = is_open st i) /\ gens st' = gens st /\ sessions st' = sessions st.
  Proof.
    cbn [LifeModel.step]. intros S F. assert (E : st' = say st Start_failed).
    { destruct (resolve read pl) as [a|]; [|congruence]. destruct (negb ok || taken clash st (bound a picked)); [congruence|]. injection S as <-. exfalso. eapply F. reflexivity. }
    subst st'. repeat split; reflexivity.
  Qed.
  Print Assumptions life_start_failed.

  (** When the server has been stopped, or started elsewhere, its former listener and its former connections are closed, except those of which
      somebody keeps references, and all connections if a callback of the same server is in progress.  What is missing is what
      easy_tcp_server.hpp:66-67 says without these exceptions. *)
  Theorem life_stopped_partial es st e st' : run init es = Some st -> step st e = Some st' -> e = Stop \/ (exists g, log st' = log st ++ [Started g]) ->
    (forall i, is_open st' i = true -> kept_session st i \/ exists g, belongs st i g /\ in_callback st g)
    /\ (forall g a, listening st' g = Some a -> owner st' = Some g \/ kept_acceptor st g)
    /\ (e = Stop -> local_address st' = ipv6_unspecified).
  Proof.
    intros R S H. destruct (run_wf read clash es init st init_wf R) as ([W1 W2] & _).
    assert (K : sessions st' = sessions st /\ (forall o, owner st' = Some o -> (length (gens st) <= o)%nat) /\ (forall g m, nth_error (gens st') g = Some m -> nth_error (gens st) g = Some m \/ owner st' = Some g)).
    { destruct e; cbn [LifeModel.step] in S; try (destruct H as [H|[g1 H]]; [discriminate|]).
      - destruct (resolve read pl) as [a|]; [|injection S as <-; cbn [log say] in H; apply app_inv_head in H; discriminate].
        destruct (negb ok || taken clash st (bound a picked)); injection S as <-; [cbn [log say] in H; apply app_inv_head in H; discriminate|].
        cbn [sessions owner gens]. split; [reflexivity|]. split; [intros o [= <-]; lia|]. intros g0 m N. apply nth_snoc in N as [N|[-> _]]; auto.
      - injection S as <-. cbn [sessions owner gens]. split; [reflexivity|]. split; [discriminate|auto].
      - exfalso. destruct (owner st); injection S as <-; cbn [log] in H; apply (f_equal (@length item)) in H; rewrite app_length in H; cbn in H; lia.
      - exfalso. destruct (listening st g); [|discriminate]. destruct (table_exists st g); injection S as <-; cbn [log say] in H; apply app_inv_head in H; discriminate.
      - exfalso. destruct (nth_error (sessions st) s) as [s0|]; [|discriminate]. destruct (table_exists st (s_table s0) && s_in s0 && negb (s_busy s0) && s_watched s0); [|discriminate]. injection S as <-. cbn [log say set_session] in H. apply app_inv_head in H. discriminate.
      - exfalso. destruct (nth_error (sessions st) s) as [s0|]; [|discriminate]. destruct (s_busy s0); [|discriminate]. injection S as <-. cbn [log set_session] in H. apply (f_equal (@length item)) in H; rewrite app_length in H; cbn in H; lia.
      - exfalso. destruct (nth_error (sessions st) s) as [s0|]; [|discriminate]. destruct (open_session st s0 && s_watched s0); [|discriminate]. injection S as <-. cbn [log set_session] in H. apply (f_equal (@length item)) in H; rewrite app_length in H; cbn in H; lia.
      - exfalso. destruct (nth_error (sessions st) s) as [s0|]; [|discriminate]. destruct (open_session st s0 && match h with User => true | Network => s_watched s0 end); [|discriminate]. injection S as <-. cbn [log set_session] in H. apply (f_equal (@length item)) in H; rewrite app_length in H; cbn in H; lia.
      - exfalso. destruct (nth_error (sessions st) s) as [s0|]; [|discriminate]. destruct (s_refs s0); [discriminate|]. injection S as <-. cbn [log set_session] in H. apply (f_equal (@length item)) in H; rewrite app_length in H; cbn in H; lia.
      - exfalso. destruct (nth_error (gens st) g) as [m|]; [|discriminate]. destruct (acceptor_exists st g m); [|discriminate]. injection S as <-. cbn [log set_made] in H. apply (f_equal (@length item)) in H; rewrite app_length in H; cbn in H; lia.
      - exfalso. destruct (nth_error (gens st) g) as [m|]; [|discriminate]. destruct (m_refs m); [discriminate|]. injection S as <-. cbn [log set_made] in H. apply (f_equal (@length item)) in H; rewrite app_length in H; cbn in H; lia. }
    destruct K as (K1 & K2 & K3). split; [|split].
    - intros i Op. apply open_spec in Op as (s & N & Q). rewrite K1 in N. destruct Q as [[_ [Q|Q]]|[Q|Q]].
      + specialize (K2 _ Q). rewrite Forall_forall in W2. specialize (W2 s (nth_error_In _ _ N)). lia.
      + right. exists (s_table s). split; [exists s; auto|]. eapply in_callback_ext; [|exact Q]. exact K1.
      + right. exists (s_table s). split; [exists s; auto|]. exists i, s. auto.
      + left. destruct Q as (s' & h & r & N' & Q). rewrite K1 in N'. exists s', h, r. auto.
    - intros g a L. apply listening_spec in L as (m & N & _ & [Q|(m' & h & r & N' & Q)]); [auto|]. destruct (K3 g m' N') as [K|K]; [|auto]. right. exists m', h, r. auto.
    - intros ->. cbn in S. injection S as <-. reflexivity.
  Qed.
  Print Assumptions life_stopped_partial.

  (** So if nobody else is involved, nothing is left after [stop], and it can be started again, at any address. *)
  Theorem life_restarted es st st1 : run init es = Some st -> unattended st -> step st Stop = Some st1 ->
    (forall i, is_open st1 i = false) /\ (forall g, listening st1 g = None)
    /\ forall pl picked a, resolve read pl = Some a -> exists st2 g, step st1 (Start pl picked true) = Some st2 /\ log st2 = log st1 ++ [Started g].
  Proof.
    intros R (U1 & U2 & U3) S. destruct (life_stopped_partial es st Stop st1 R S (or_introl eq_refl)) as (P1 & P2 & _).
    assert (O : owner st1 = None) by (cbn in S; now injection S as <-).
    assert (L : forall g, listening st1 g = None).
    { intros g. destruct (listening st1 g) as [a|] eqn:E; [|reflexivity]. destruct (P2 g a E) as [Q|Q]; [congruence|]. destruct (U2 g Q). }
    split; [|split; [exact L|]].
    - intros i. destruct (is_open st1 i) eqn:E; [|reflexivity]. destruct (P1 i E) as [Q|(g & _ & Q)]; [destruct (U1 i Q)|destruct (U3 g Q)].
    - intros pl picked a E. cbn [LifeModel.step]. rewrite E. cbn [negb orb]. destruct (taken clash st1 (bound a picked)) eqn:T.
      + apply taken_spec in T as (g & b & Q & _). rewrite L in Q. discriminate.
      + eexists _, _. split; reflexivity.
  Qed.
  Print Assumptions life_restarted.

  (** When a server has been stopped or started again and the last callback of that time has returned, no callback is called for it any more, and no
      connection accepted, whatever happens; and its connections are closed, except those of which somebody keeps references. *)
  Theorem life_ended es st g es' st' : run init es = Some st -> (g < length (gens st))%nat -> owner st <> Some g -> ~ in_callback st g ->
    run st es' = Some st' ->
    (exists new, log st' = log st ++ new /\ silent st' g new) /\ ~ in_callback st' g
    /\ (forall i, belongs st' i g -> is_open st' i = true -> kept_session st' i)
    /\ (forall a, listening st' g = Some a -> kept_acceptor st' g).
  Proof.
    intros R L O C R'. destruct (run_wf read clash es init st init_wf R) as (W & _). destruct (run_gone read clash es' st st' g W (conj L (conj O C)) R') as ((L' & O' & C') & N).
    split; [exact N|]. split; [exact C'|]. split.
    - intros i (s & Ni & T) Op. apply open_spec in Op as (s1 & N1 & [[_ [Q|Q]]|[Q|Q]]); [congruence| | |exact Q]; exfalso.
      + replace (s_table s1) with g in Q by congruence. contradiction.
      + apply C'. exists i, s1. repeat split; congruence.
    - intros a Q. apply listening_spec in Q as (m & _ & _ & [Q|Q]); [contradiction|exact Q].
  Qed.
  Print Assumptions life_ended.

  (** A server accepts every connection to its listener.  A listener of a former time, which somebody keeps, closes connections at once. *)
  Theorem life_accepts es st g watched st' : run init es = Some st -> step st (Arrive g watched) = Some st' ->
    (owner st = Some g \/ in_callback st g -> log st' = log st ++ [Accepted g (length (sessions st))] /\ belongs st' (length (sessions st)) g /\ is_open st' (length (sessions st)) = true
       /\ forall i, (i < length (sessions st))%nat -> is_open st' i = is_open st i)
    /\ (owner st <> Some g -> ~ in_callback st g -> log st' = log st ++ [Closed_at_once g] /\ sessions st' = sessions st).
  Proof.
    intros R S. cbn [LifeModel.step] in S. destruct (listening st g) as [a|] eqn:L; [|discriminate]. destruct (table_exists st g) eqn:T.
    - injection S as <-. apply table_spec in T. split; [intros _|intros O C; destruct T; contradiction].
      assert (N : nth_error (sessions st ++ [mkSes g true false watched []]) (length (sessions st)) = Some (mkSes g true false watched [])) by (rewrite nth_error_app2, Nat.sub_diag by lia; reflexivity).
      assert (TE : forall h, table_exists (mkState (owner st) (gens st) (sessions st ++ [mkSes g true false watched []]) (log st ++ [Accepted g (length (sessions st))])) h = table_exists st h).
      { intros h. unfold table_exists. cbn [owner sessions]. rewrite existsb_app. cbn [existsb s_busy]. now rewrite andb_false_r, !orb_false_r. }
      split; [reflexivity|]. split; [eexists; split; [exact N|reflexivity]|]. split.
      + unfold is_open. cbn [sessions]. rewrite N. unfold open_session. rewrite TE. cbn [s_in s_table]. apply table_spec in T. now rewrite T.
      + intros i Hi. unfold is_open. cbn [sessions]. rewrite nth_error_app1 by exact Hi. destruct (nth_error (sessions st) i) as [s|]; [|reflexivity]. unfold open_session. now rewrite TE.
    - injection S as <-. split; [|intros _ _; split; reflexivity]. intros H. apply table_spec in H. congruence.
  Qed.
  Print Assumptions life_accepts.

  (** A client makes a connection, which is open from then on; others are not affected.  All belong together until [close_all], which is [Stop]. *)
  Theorem life_connected es st st' : run init es = Some st -> step st Connect = Some st' ->
    (exists g, owner st' = Some g /\ belongs st' (length (sessions st)) g /\ match owner st with Some h => g = h | None => forall i, ~ belongs st i g end)
    /\ is_open st' (length (sessions st)) = true /\ (forall i, (i < length (sessions st))%nat -> is_open st' i = is_open st i) /\ forall g, listening st' g = listening st g.
  Proof.
    intros R S. destruct (run_wf read clash es init st init_wf R) as ([W1 W2] & _). cbn [LifeModel.step] in S.
    set (p := match owner st with Some g => (g, gens st) | None => (length (gens st), gens st ++ [mkMade None []]) end) in S.
    assert (Hp : (match owner st with Some h => fst p = h | None => fst p = length (gens st) end) /\ snd p = match owner st with Some _ => gens st | None => gens st ++ [mkMade None []] end) by (unfold p; destruct (owner st); auto).
    destruct p as [o gs]. cbn [fst snd] in Hp. destruct Hp as [Ho Hg]. injection S as <-.
    assert (N : nth_error (sessions st ++ [mkSes o true false true []]) (length (sessions st)) = Some (mkSes o true false true [])) by (rewrite nth_error_app2, Nat.sub_diag by lia; reflexivity).
    assert (Fresh : owner st = None -> forall i, ~ belongs st i o).
    { intros E i (s & Ni & T). rewrite E in Ho. rewrite Forall_forall in W2. specialize (W2 s (nth_error_In _ _ Ni)). lia. }
    split; [|split; [|split]].
    - exists o. split; [reflexivity|]. split; [eexists; split; [exact N|reflexivity]|]. destruct (owner st) as [h|] eqn:E; [exact Ho|now apply Fresh].
    - unfold is_open. cbn [sessions]. rewrite N. unfold open_session, table_exists. cbn [s_in s_table owner]. now rewrite Nat.eqb_refl.
    - intros i Hi. unfold is_open. cbn [sessions]. rewrite nth_error_app1 by exact Hi. destruct (nth_error (sessions st) i) as [s|] eqn:Ni; [|reflexivity].
      unfold open_session, table_exists. cbn [sessions owner]. rewrite existsb_app. cbn [existsb s_busy]. rewrite andb_false_r, !orb_false_r.
      destruct (owner st) as [h|] eqn:E; [now subst o|]. replace (o =? s_table s)%nat with false; [reflexivity|]. symmetry. apply Nat.eqb_neq. intros ->. apply (Fresh eq_refl i). exists s. auto.
    - intros g. unfold listening, acceptor_exists. cbn [gens owner]. rewrite Hg. destruct (owner st) as [h|] eqn:E; [now subst o|].
      destruct (Nat.lt_ge_cases g (length (gens st))) as [L|L].
      + rewrite nth_error_app1 by exact L. destruct (nth_error (gens st) g) as [m|]; [|reflexivity]. replace (o =? g)%nat with false by lia. reflexivity.
      + rewrite (proj2 (nth_error_None (gens st) g) L). rewrite nth_error_app2 by exact L. destruct (g - length (gens st))%nat as [|k]; [|destruct k; reflexivity]. cbn [nth_error m_addr]. now destruct ((o =? g)%nat || _).
  Qed.
  Print Assumptions life_connected.

  (** The server owns its connections: they stay until the closure is delivered, whether or not anybody else keeps them, and it listens meanwhile. *)
  Theorem life_owns st g i es st' : owner st = Some g -> belongs st i g ->
    (exists s, nth_error (sessions st) i = Some s /\ s_in s = true) -> (g < length (gens st))%nat -> lasting i es -> run st es = Some st' ->
    is_open st' i = true /\ listening st' g = listening st g /\ owner st' = Some g.
  Proof.
    intros O (s & N & T) (s1 & N1 & I) L La R. destruct (nth_error (gens st) g) as [m|] eqn:M; [|apply nth_error_None in M; lia].
    assert (Ow : owned st g i (m_addr m)) by (split; [exact O|]; split; [exists s; repeat split; congruence|exists m; auto]).
    destruct (owned_open _ _ _ _ Ow) as [_ E]. pose proof (run_owned read clash es st st' g i _ Ow La R) as Ow'. destruct (owned_open _ _ _ _ Ow') as [E1 E2].
    split; [exact E1|]. split; [congruence|apply Ow'].
  Qed.
  Print Assumptions life_owns.

  (** When its closure is being delivered, or an event could not be stored, the server gives a connection up: it is closed when the callback has
      returned and nobody else keeps it. *)
  Theorem life_released st e i st1 es st2 : step st e = Some st1 -> e = Begin i true \/ (e = Push_fails i /\ exists g, belongs st i g /\ (owner st = Some g \/ in_callback st g)) ->
    run st1 es = Some st2 -> is_open st2 i = true -> kept_session st2 i \/ exists s, nth_error (sessions st2) i = Some s /\ s_busy s = true.
  Proof.
    intros S E R O. assert (Re : removed st1 i).
    { destruct E as [->|[-> (g & (s & N & T) & G)]]; cbn [LifeModel.step] in S.
      - destruct (nth_error (sessions st) i) as [s|] eqn:N; [|discriminate]. destruct (table_exists st (s_table s) && s_in s && negb (s_busy s) && s_watched s); [|discriminate]. injection S as <-.
        unfold removed. cbn [sessions say set_session]. rewrite nth_set by (eapply nth_lt, N). rewrite Nat.eqb_refl. eexists. split; reflexivity.
      - rewrite N in S. destruct (open_session st s && s_watched s); [|discriminate]. injection S as <-. unfold removed. cbn [sessions set_session]. rewrite nth_set by (eapply nth_lt, N). rewrite Nat.eqb_refl.
        eexists. split; [reflexivity|]. cbn [s_in]. rewrite T. apply table_spec in G. now rewrite G. }
    destruct (run_removed read clash es st1 st2 i R Re) as (s & N & I). apply open_spec in O as (s1 & N1 & [[O _]|[O|O]]); [congruence| |auto]. right. exists s1. auto.
  Qed.
  Print Assumptions life_released.
End Life.

Example life_released_case : exists st1 st2, run (fun _ => None) (fun _ _ => false) init [Start (At_port 80) 0 true; Arrive 0 true; Arrive 0 true; Push_fails 1] = Some st1 /\ is_open st1 0 = true /\ is_open st1 1 = false
  /\ run (fun _ => None) (fun _ _ => false) st1 [Begin 0 true] = Some st2 /\ is_open st2 0 = true.
Proof. eexists _, _. repeat (split; [vm_compute; reflexivity|]). vm_compute. reflexivity. Qed.

(** ** Cases and counterexamples.  [clash]: the same port, and the same or any address *)
Definition ex_read (s : list Z) : option address := None.
Definition ex_clash (a b : address) : bool := (a_port a =? a_port b)%Z && ((if list_eq_dec Z.eq_dec (a_addr a) (a_addr b) then true else false) || forallb (Z.eqb 0) (a_addr a) || forallb (Z.eqb 0) (a_addr b)).
Definition ex_run := run ex_read ex_clash init.
Definition p80 := mkAddr (repeat 0%Z 16) 80.

Example life_case : exists st, ex_run [Start (At_port 80) 0 true; Arrive 0 true; Begin 0 false; Arrive 0 true; End 0; Stop; Start (At_port 80) 0 true; Arrive 1 true] = Some st
  /\ log st = [Started 0; Accepted 0 0; Called 0; Accepted 0 1; Started 1; Accepted 1 2] /\ map (is_open st) [0; 1; 2]%nat = [false; false; true] /\ local_address st = p80
  /\ listening st 0 = None /\ unattended st.
Proof.
  eexists. split; [vm_compute; reflexivity|]. repeat (split; [vm_compute; reflexivity|]). repeat split.
  - intros i (s & h & r & N & E). do 4 (destruct i as [|i]; [cbn in N; try discriminate; injection N as <-; discriminate|]). destruct i; discriminate.
  - intros g (m & h & r & N & E). do 3 (destruct g as [|g]; [cbn in N; try discriminate; injection N as <-; discriminate|]). destruct g; discriminate.
  - intros g (i & s & N & _ & E). do 4 (destruct i as [|i]; [cbn in N; try discriminate; injection N as <-; discriminate|]). destruct i; discriminate.
Qed.
Example life_owns_case : exists st st', ex_run [Start (At_port 80) 0 true; Arrive 0 true] = Some st /\ owner st = Some 0%nat /\ is_open st 0 = true
  /\ lasting 0 [Arrive 0 true; Begin 0 false; Hold_session 0 Network; End 0; Drop_session 0] /\ run ex_read ex_clash st [Arrive 0 true; Begin 0 false; Hold_session 0 Network; End 0; Drop_session 0] = Some st'.
Proof. eexists _, _. repeat (split; [vm_compute; reflexivity|]). split; [repeat constructor|vm_compute; reflexivity]. Qed.

Example life_connected_case : exists st, ex_run [Connect; Connect; Begin 0 true; End 0; Stop; Connect] = Some st /\ map (is_open st) [0; 1; 2]%nat = [false; false; true].
Proof. eexists. split; vm_compute; reflexivity. Qed.

(** A callback that has not returned keeps all connections of its server open after [stop]; and the callback is still called for others. *)
Theorem life_stop_callback_refuted : exists es st st1 st2, ex_run es = Some st /\ step ex_read ex_clash st Stop = Some st1
  /\ is_open st1 0 = true /\ is_open st1 1 = true /\ ~ kept_session st1 0 /\ ~ kept_session st1 1
  /\ run ex_read ex_clash st1 [Begin 1 false] = Some st2 /\ log st2 = log st1 ++ [Called 1].
Proof.
  exists [Start (At_port 80) 0 true; Arrive 0 true; Arrive 0 true; Begin 0 false]. eexists _, _, _. repeat (split; [vm_compute; reflexivity|]).
  split; [intros (s & h & r & N & E); cbn in N; injection N as <-; discriminate|]. split; [intros (s & h & r & N & E); cbn in N; injection N as <-; discriminate|]. split; vm_compute; reflexivity.
Qed.
Print Assumptions life_stop_callback_refuted.

(** Whoever keeps the result of [start] keeps the port: the system goes on establishing connections, and the server cannot be started there again. *)
Theorem life_stop_listener_refuted : exists es st st1 st2, ex_run es = Some st /\ step ex_read ex_clash st Stop = Some st1
  /\ listening st1 0 = Some p80 /\ local_address st1 = ipv6_unspecified
  /\ run ex_read ex_clash st1 [Arrive 0 true; Start (At_port 80) 0 true] = Some st2 /\ log st2 = log st1 ++ [Closed_at_once 0; Start_failed].
Proof. exists [Start (At_port 80) 0 true; Hold_acceptor 0 User]. eexists _, _, _. repeat (split; [vm_compute; reflexivity|]). vm_compute. reflexivity. Qed.
Print Assumptions life_stop_listener_refuted.

(** A server that runs cannot be started at its own address again, for example with another callback. *)
Theorem life_start_same read clash es st pl picked st' : (forall a, clash a a = true) -> run read clash init es = Some st ->
  resolve read pl = Some (local_address st) -> a_port (local_address st) <> 0%Z ->
  step read clash st (Start pl picked true) = Some st' -> log st' = log st ++ [Start_failed].
Proof.
  intros Cl R E P S. cbn [LifeModel.step] in S. rewrite E in S. cbn [negb orb] in S.
  assert (B : bound (local_address st) picked = local_address st) by (unfold bound; destruct (a_port (local_address st) =? 0)%Z eqn:Q; [lia|reflexivity]). rewrite B in S.
  assert (T : taken clash st (local_address st) = true).
  { unfold local_address in *. destruct (owner st) as [g|]; [|now destruct P]. destruct (listening st g) as [b|] eqn:Li; [|now destruct P]. apply taken_spec. exists g, b. auto. }
  rewrite T in S. injection S as <-. reflexivity.
Qed.
Print Assumptions life_start_same.
Example life_start_same_case : (forall a, ex_clash a a = true) /\ exists st st', ex_run [Start (At_port 80) 0 true; Arrive 0 true] = Some st /\ resolve ex_read (At_port 80) = Some (local_address st)
  /\ step ex_read ex_clash st (Start (At_port 80) 0 true) = Some st'.
Proof.
  split; [|eexists _, _; repeat (split; [vm_compute; reflexivity|]); vm_compute; reflexivity].
  intros a. unfold ex_clash. rewrite Z.eqb_refl. destruct (list_eq_dec Z.eq_dec (a_addr a) (a_addr a)) as [_|N]; [reflexivity|now destruct N].
Qed.

(** A connection that the scheduler could not watch stays open, without any event, as long as the server does. *)
Theorem life_unwatched_refuted : exists es st, ex_run es = Some st /\ is_open st 0 = true /\ ~ kept_session st 0
  /\ forall es' st', run ex_read ex_clash st es' = Some st' -> lasting 0 es' -> is_open st' 0 = true /\ ~ In (Called 0) (log st').
Proof.
  exists [Start (At_port 80) 0 true; Arrive 0 false]. eexists. split; [vm_compute; reflexivity|]. split; [vm_compute; reflexivity|].
  split; [intros (s & h & r & N & E); cbn in N; injection N as <-; discriminate|]. intros es' st' R La. split.
  - eapply owned_open. eapply run_owned; [|exact La|exact R]. split; [reflexivity|]. split; [eexists; repeat split|eexists; split; reflexivity].
  - assert (K : forall es st st', run ex_read ex_clash st es = Some st' -> (exists s, nth_error (sessions st) 0 = Some s /\ s_watched s = false) -> ~ In (Called 0) (log st) ->
      ~ In (Called 0) (log st')).
    { clear. induction es as [|e es IH]; intros st st' R Wa NI; cbn [LifeModel.run] in R; [now injection R as <-|]. destruct (step ex_read ex_clash st e) as [st1|] eqn:E; [|discriminate].
      apply (IH st1 st' R); clear IH R.
      - apply (step_unwatched ex_read ex_clash st e st1 0%nat E Wa).
      - apply (step_unwatched ex_read ex_clash st e st1 0%nat E Wa). exact NI. }
    eapply K; [exact R|eexists; split; reflexivity|]. intros [H|[H|[]]]; discriminate.
Qed.
Print Assumptions life_unwatched_refuted.
