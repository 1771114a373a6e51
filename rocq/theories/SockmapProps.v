(** C21: the socket table. *)
From Coq Require Import ZArith List Lia Bool ZifyBool ZifyNat.
From Verif Require Import SockmapModel SockmapSpec SockmapProofs.
Import ListNotations.
Open Scope Z_scope.
Ltac Zify.zify_post_hook ::= Z.div_mod_to_equations.

(** No history leads to a failed assertion, or to a search that does not end. *)
Theorem sock_safe : forall es, run init es <> Some Ub.
Proof. intros es H. destruct (reach _ _ H) as (s & E & _). discriminate. Qed.
Print Assumptions sock_safe.

(** An object that was inserted and is still alive is found. *)
Theorem sock_found : forall es s w, run init es = Some (Ok s) -> was_inserted es w -> In w (alive s) ->
  lookup s (addr w) = Ok (Some w).
Proof.
  intros es s w H W A. destruct (reach _ _ H) as (s' & E & I). injection E as <-.
  apply (lookup_found es); auto. now apply (i_ins _ _ I).
Qed.
Print Assumptions sock_found.

(** A lookup always has a result, and what it finds is alive, has the address and
    was inserted. *)
Theorem sock_only : forall es s a, run init es = Some (Ok s) ->
  exists r, lookup s a = Ok r /\ forall w, r = Some w -> In w (alive s) /\ addr w = a /\ was_inserted es w.
Proof.
  intros es s a H. destruct (reach _ _ H) as (s' & E & I). injection E as <-.
  destruct (lookup_ok _ _ a I) as [->|(w & -> & A & B & C)]; eexists; (split; [reflexivity|]).
  - discriminate.
  - intros v [= <-]. repeat split; auto. apply (i_ins _ _ I). now apply (i_sub _ _ I).
Qed.
Print Assumptions sock_only.

(** Objects which are not alive, or were never inserted, are not found. *)
Theorem sock_gone : forall es s w, run init es = Some (Ok s) -> ~ In w (alive s) \/ ~ was_inserted es w ->
  lookup s (addr w) <> Ok (Some w).
Proof.
  intros es s w H N L. destruct (sock_only _ _ (addr w) H) as (r & E & K). rewrite L in E. injection E as <-.
  destruct (K w eq_refl) as (A & _ & B). tauto.
Qed.
Print Assumptions sock_gone.

Lemma count_alive s l : Tab s -> (count_live (live_in l) s <= length l)%nat.
Proof.
  intros T.
  assert (ND : NoDup (map addr (somes s))) by (apply somes_nodup; intros; eapply tab_unique; eauto).
  apply NoDup_map_inv in ND.
  assert (E : count_live (live_in l) s = length (filter (live_in l) (somes s))).
  { clear. induction s as [|x s IH]; [reflexivity|]. rewrite count_live_cons, IH. destruct x as [w|]; cbn [somes flat_map app filter]; [|reflexivity].
    destruct (live_in l w); reflexivity. }
  rewrite E. apply NoDup_incl_length; [now apply NoDup_filter|]. intros x Hx. apply filter_In in Hx as [_ Hx]. now apply live_in_spec.
Qed.

(** The table does not grow with the number of insertions: if there are never
    more than [n] sockets at a time, it has at most [17 + 3 n] elements. *)
Theorem sock_bounded : forall es s n, run init es = Some (Ok s) ->
  (forall e1 e2 s1, es = e1 ++ e2 -> run init e1 = Some (Ok s1) -> (length (alive s1) <= n)%nat) ->
  (length (stor s) <= 17 + 3 * n)%nat.
Proof.
  induction es as [|e es IH] using rev_ind; intros s n H B.
  - injection H as <-. cbn. lia.
  - rewrite run_app in H. destruct (run init es) as [r1|] eqn:E; [|discriminate]. destruct (reach _ _ E) as (s1 & -> & I).
    assert (L1 : (length (stor s1) <= 17 + 3 * n)%nat).
    { apply IH; auto. intros e1 e2 s2 -> R. apply (B e1 (e2 ++ [e])); [now rewrite app_assoc|auto]. }
    assert (A1 : (length (alive s1) <= n)%nat) by (apply (B es [e]); auto).
    cbn in H. destruct (step s1 e) as [[s2|]|] eqn:S; try discriminate. injection H as ->.
    destruct e as [a|w|w ok dying|l|]; cbn [step] in S.
    + destruct (_ && _) in S; [|discriminate]. injection S as <-. auto.
    + injection S as <-. auto.
    + destruct (_ && _) in S; [|discriminate]. injection S as S. unfold insert_weak in S.
      set (alive' := filter (fun x => negb (live_in dying x)) (alive s1)) in *.
      destruct (grow_ok (live_in (alive s1)) (live_in alive') _ _ (i_okay _ _ I)) as (t & u & G & T & Lt & _ & _ & _ & M).
      { intros x Hx. apply live_in_spec. apply live_in_spec in Hx. apply filter_In in Hx. tauto. }
      rewrite G in S. pose proof (count_alive (stor s1) (alive s1) (proj1 (i_okay _ _ I))) as C. unfold new_capacity in M.
      destruct ok.
      * destruct (put_ok t u w T Lt) as (t2 & P & _ & Len & _). rewrite P in S. injection S as <-. cbn [stor]. rewrite Len. lia.
      * injection S as <-. cbn [stor]. lia.
    + destruct (evbuf s1); [|discriminate]. destruct (_ && _) in S; [|discriminate]. injection S as <-. auto.
    + destruct (evbuf s1) as [|w rest]; [discriminate|]. injection S as S.
      destruct (lookup s1 (addr w)) as [[x|]|]; try discriminate; injection S as <-; auto.
Qed.
Print Assumptions sock_bounded.

(** Events: if the socket for which an event was reported is alive, it gets the
    event.  If it is not, the event is dropped, or given to a socket which was
    made later at the same address.  Missing: that the last case does not happen. *)
Theorem sock_event_partial : forall es s w rest, run init es = Some (Ok s) -> evbuf s = w :: rest ->
  exists s', step s Deliver = Some (Ok s') /\ evbuf s' = rest
    /\ (In w (alive s) -> delivered s' = delivered s ++ [(w, w)])
    /\ (~ In w (alive s) -> delivered s' = delivered s
         \/ exists x, delivered s' = delivered s ++ [(w, x)] /\ In x (alive s) /\ addr x = addr w /\ x <> w).
Proof.
  intros es s w rest H E. destruct (reach _ _ H) as (s0 & E0 & I). injection E0 as <-. cbn [step]. rewrite E.
  destruct (lookup_ok _ _ (addr w) I) as [L|(x & L & A & B & C)]; rewrite L; eexists; (split; [reflexivity|]); (split; [reflexivity|]);
    cbn [delivered]; (split; [intros Ha|intros Na]); auto.
  - rewrite (lookup_found es s w I) in L; [discriminate| |auto]. apply (i_buf _ _ I). rewrite E. now left.
  - rewrite (lookup_found es s w I) in L; [injection L as <-; auto| |auto]. apply (i_buf _ _ I). rewrite E. now left.
  - right. exists x. repeat split; auto. intros ->. contradiction.
Qed.
Print Assumptions sock_event_partial.

(** FINDING: it can happen, even if an address is reused only when no element of
    the table points at it (as with [make_shared], which keeps the memory until
    then).  The event waits in the buffer while its socket is destroyed, the table
    grows, and a new socket gets its address; the new socket gets the event, which
    may be that the connection has been closed. *)
Definition stale : list event :=
  flat_map (fun k => [New (8 * Z.of_nat (S k)); Insert (mkK (8 * Z.of_nat (S k)) k) true []]) (seq 0 8)
  ++ [Collect [mkK 8 0]; Kill (mkK 8 0); New 80; Insert (mkK 80 8) true []].

Theorem sock_event_refuted : exists e1 s1 a s2 w x,
  run init e1 = Some (Ok s1) /\ unmapped s1 a
  /\ run s1 [New a; Insert x true []; Deliver] = Some (Ok s2) /\ In (w, x) (delivered s2) /\ w <> x.
Proof.
  eexists stale, _, 8, _, (mkK 8 0), (mkK 8 9). split; [vm_compute; reflexivity|]. split; [|split; [vm_compute; reflexivity|split; [vm_compute; auto|discriminate]]].
  intros w Hw. cbn in Hw. repeat (destruct Hw as [Hw|Hw]; [try discriminate; injection Hw as <-; cbn; lia|]). contradiction.
Qed.
Print Assumptions sock_event_refuted.

(** A history in which the table grows twice, with one socket gone. *)
Example sock_sample :
  let es := flat_map (fun k => [New (8 * Z.of_nat (S k)); Insert (mkK (8 * Z.of_nat (S k)) k) true []]) (seq 0 8)
            ++ [Kill (mkK 24 2); New 80; Insert (mkK 80 8) false [mkK 40 4]; New 88; Insert (mkK 88 9) true []] in
  exists s, run init es = Some (Ok s) /\ length (stor s) = 38%nat /\ used s = 7%nat
    /\ lookup s 8 = Ok (Some (mkK 8 0)) /\ lookup s 24 = Ok None /\ lookup s 40 = Ok None /\ lookup s 80 = Ok None
    /\ lookup s 88 = Ok (Some (mkK 88 9)).
Proof. eexists. split; [vm_compute; reflexivity|]. vm_compute. auto 10. Qed.
