(** Proofs about acceptors, datagrams and connecting. *)
From Coq Require Import ZArith List Bool Lia.
From Verif Require Import Base BaseLemmas AddrModel AddrSpec AddrProofs TcpModel AccModel AccSpec.
Import ListNotations.
Open Scope Z_scope.

Lemma seq_snoc n : seq 0 (S n) = seq 0 n ++ [n].
Proof. rewrite seq_S. reflexivity. Qed.

Lemma combine_snoc {A B} (a : list A) (b : list B) x y : length a = length b -> combine (a ++ [x]) (b ++ [y]) = combine a b ++ [(x, y)].
Proof. revert b. induction a as [|z a IH]; destruct b as [|w b]; cbn; intros L; try discriminate; auto. f_equal. apply IH. lia. Qed.

Lemma answered_snoc user kind calls a fd :
  answered user kind (calls ++ [(a, fd)]) = answered user kind calls ++ (if kind (user (length calls) a fd) then [fd] else []).
Proof.
  unfold answered. rewrite app_length, Nat.add_1_r, seq_snoc, combine_snoc by now rewrite seq_length.
  rewrite filter_app, map_app. cbn. destruct (kind _); reflexivity.
Qed.

Definition a_ok (user : nat -> address -> Z -> answer) (s : astate) : Prop :=
  inserted s = answered user is_client (asked s) /\ dropped s = answered user (fun a => negb (is_client a)) (asked s).

Lemma accept_run user rs : forall s s' b, a_ok user s -> Forall (fun r => r <> AcceptError EAGAIN) rs ->
  accept_loop user rs s = (s', b) -> b = false /\ asked s' = asked s ++ connections rs /\ a_ok user s'.
Proof.
  induction rs as [|r rs IH]; cbn [accept_loop]; intros s s' b K F H.
  - injection H as <- <-. cbn. now rewrite app_nil_r.
  - inversion F as [|? ? F1 F2]; subst. destruct r as [fd sa|e].
    + destruct K as [K1 K2].
      assert (X : exists s1, accept_loop user rs s1 = (s', b) /\ a_ok user s1 /\ asked s1 = asked s ++ [(of_sockaddr sa, fd)]).
      { unfold a_ok. destruct (user (length (asked s)) (of_sockaddr sa) fd) eqn:U;
          (eexists; split; [exact H|]; cbn [inserted dropped asked]; rewrite !answered_snoc, U, <- K1, <- K2; cbn; rewrite ?app_nil_r; auto). }
      destruct X as (s1 & R & K' & E). destruct (IH _ _ _ K' F2 R) as (? & A & ?). split; [auto|]. split; [|auto]. rewrite A, E, <- app_assoc. reflexivity.
    + destruct (e =? EAGAIN) eqn:Q; [apply Z.eqb_eq in Q; congruence|]. now apply IH.
Qed.

Lemma accept_app user rs1 rs2 s s1 : accept_loop user rs1 s = (s1, false) -> accept_loop user (rs1 ++ rs2) s = accept_loop user rs2 s1.
Proof.
  revert s. induction rs1 as [|r rs1 IH]; cbn [accept_loop app]; intros s H; [injection H as ->; auto|].
  destruct r as [fd sa|e]; [|destruct (e =? EAGAIN); [discriminate|now apply IH]].
  destruct (user _ _ _); now apply IH.
Qed.

Section D.
  Context {U : Type}.
  Variable on_packet : U -> address -> list Z -> U * address * list Z * bool.

  Lemma recv_run cap rs : forall s s' b, Forall (fun r => match r with Packet _ d => (length d <= cap)%nat | RecvError e => e <> EAGAIN end) rs ->
    recv_loop on_packet cap rs s = (s', b) -> b = false /\ packets s' = packets s ++ datagrams rs.
  Proof.
    induction rs as [|r rs IH]; cbn [recv_loop]; intros s s' b F H.
    - injection H as <- <-. cbn. now rewrite app_nil_r.
    - inversion F as [|? ? F1 F2]; subst. destruct r as [sa d|e].
      + cbn [app] in H. rewrite firstn_all2 in H by lia. destruct (on_packet (user s) (of_sockaddr sa) d) as [[[u a'] q'] t].
        destruct (IH _ _ _ F2 H) as [-> E]. split; [auto|]. rewrite E. cbn [packets]. rewrite <- app_assoc. reflexivity.
      + destruct (e =? EAGAIN) eqn:Q; [apply Z.eqb_eq in Q; congruence|]. destruct (IH _ _ _ F2 H) as [-> E]. auto.
  Qed.
  Lemma recv_app cap rs1 rs2 s s1 : recv_loop on_packet cap rs1 s = (s1, false) -> recv_loop on_packet cap (rs1 ++ rs2) s = recv_loop on_packet cap rs2 s1.
  Proof.
    revert s. induction rs1 as [|r rs1 IH]; cbn [recv_loop app]; intros s H; [injection H as ->; auto|].
    destruct r as [sa d|e]; [|destruct (e =? EAGAIN); [discriminate|now apply IH]].
    destruct (on_packet _ _ _) as [[[u a'] q'] t]. now apply IH.
  Qed.
End D.

Lemma to_of sa : is_sockaddr sa -> to_sockaddr (of_sockaddr sa) = sa.
Proof.
  intros (_ & _ & L & B). destruct sa as [a p]. cbn [sa_port] in *. unfold to_sockaddr, of_sockaddr. cbn [sa_addr sa_port a_addr a_port]. f_equal.
  destruct p as [|x [|y [|]]]; try discriminate. inversion B as [|? ? X B']; subst. inversion B' as [|? ? Y]; subst. unfold byte in *.
  unfold load_be. cbn [fold_left]. change (store_be 2 ((0 * 256 + x) * 256 + y)) with [((0 * 256 + x) * 256 + y) / 256 mod 256; ((0 * 256 + x) * 256 + y) / 1 mod 256].
  rewrite Z.div_1_r. repeat f_equal; Z.div_mod_to_equations; lia.
Qed.
Lemma of_to a : is_address a -> of_sockaddr (to_sockaddr a) = a.
Proof.
  intros (_ & _ & P). destruct a as [b p]. unfold to_sockaddr, of_sockaddr. cbn [sa_addr sa_port a_addr a_port] in *. now rewrite load_be_store by (cbn; lia).
Qed.

(** * Look-ups *)

Lemma info_names port i a : 0 <= port < 65536 -> is_info i -> info_addr port i = Some a -> is_address a.
Proof.
  intros P I H. destruct i as [b|b|]; cbn [info_addr is_info] in *; try discriminate; injection H as <-; destruct I as [L B].
  - split; [|split; [|exact P]]; cbn [a_addr].
    + cbn [length]. now rewrite L.
    + repeat (constructor; [unfold byte; lia|]). exact B.
  - split; [exact L|split; [exact B|exact P]].
Qed.

Lemma dns_app port is1 is2 : forall res, dns_results port (is1 ++ is2) res = dns_results port is2 (dns_results port is1 res).
Proof. induction is1 as [|i is1 IH]; cbn [dns_results app]; intros res; [auto|]. destruct (info_addr port i); [|auto]. destruct (existsb _ res); auto. Qed.

Lemma dns_more port is : forall res, exists x, dns_results port is res = res ++ x.
Proof.
  induction is as [|i is IH]; cbn [dns_results]; intros res; [exists []; now rewrite app_nil_r|].
  destruct (info_addr port i); [|auto]. destruct (existsb _ res); [auto|]. destruct (IH (res ++ [a])) as [x ->]. exists (a :: x). now rewrite <- app_assoc.
Qed.

Lemma existsb_equals a res : is_address a -> Forall is_address res -> (existsb (equals a) res = true <-> In a res).
Proof.
  intros A R. rewrite existsb_exists. rewrite Forall_forall in R. split.
  - intros (x & I & E). apply (equals_spec a x A (R _ I)) in E. now subst.
  - intros I. exists a. split; [auto|]. now apply equals_spec.
Qed.

Lemma dns_all port is : 0 <= port < 65536 -> Forall is_info is -> forall res, Forall is_address res -> NoDup res ->
  Forall is_address (dns_results port is res) /\ NoDup (dns_results port is res)
  /\ forall a, In a (dns_results port is res) <-> In a res \/ exists i, In i is /\ info_addr port i = Some a.
Proof.
  intros P F. induction F as [|i is I F IH]; cbn [dns_results]; intros res R N.
  - split; [auto|]. split; [auto|]. intros a. split; [auto|]. intros [X|(i & [] & _)]; auto.
  - destruct (info_addr port i) as [a|] eqn:E.
    + pose proof (info_names _ _ _ P I E) as A. destruct (existsb (equals a) res) eqn:X.
      * apply existsb_equals in X; auto. destruct (IH res R N) as (I1 & I2 & I3). split; [auto|]. split; [auto|]. intros b. rewrite I3. split.
        -- intros [Y|(j & J & Q)]; [auto|]. right. exists j. split; [now right|auto].
        -- intros [Y|(j & [<-|J] & Q)]; [auto| |eauto]. left. congruence.
      * assert (NI : ~ In a res) by (intros Y; apply existsb_equals in Y; auto; congruence).
        destruct (IH (res ++ [a])) as (I1 & I2 & I3).
        -- apply Forall_app. auto.
        -- rewrite <- rev_involutive. apply NoDup_rev. rewrite rev_app_distr. cbn. constructor; [now rewrite <- in_rev|now apply NoDup_rev].
        -- split; [auto|]. split; [auto|]. intros b. rewrite I3, in_app_iff. split.
           ++ intros [[Y|[<-|[]]]|(j & J & Q)]; [auto| |]; right; [exists i|exists j]; split; auto; [now left|now right].
           ++ intros [Y|(j & [<-|J] & Q)]; [auto| |eauto]. left. right. left. congruence.
    + destruct (IH res R N) as (I1 & I2 & I3). split; [auto|]. split; [auto|]. intros b. rewrite I3. split.
      * intros [Y|(j & J & Q)]; [auto|]. right. exists j. split; [now right|auto].
      * intros [Y|(j & [<-|J] & Q)]; [auto|congruence|eauto].
Qed.

Lemma connect_run connect port is : forall done ts ok, connect_loop connect port is done = (ts, ok) ->
  (ok = true /\ exists pre sa post, targets port is = pre ++ sa :: post /\ ts = done ++ pre ++ [sa] /\ goes_on (connect (done ++ pre) sa)
    /\ forall a x b, pre = a ++ x :: b -> ~ goes_on (connect (done ++ a) x))
  \/ (ok = false /\ ts = done ++ targets port is /\ forall a x b, targets port is = a ++ x :: b -> ~ goes_on (connect (done ++ a) x)).
Proof.
  assert (GO : forall r, (r =? 0) || (r =? EINPROGRESS) = true <-> goes_on r).
  { intros r. unfold goes_on. rewrite orb_true_iff, !Z.eqb_eq. tauto. }
  assert (NO : forall r, (r =? 0) || (r =? EINPROGRESS) = false -> ~ goes_on r).
  { intros r X Y. apply GO in Y. congruence. }
  induction is as [|i is IH]; cbn [connect_loop]; intros done ts ok H.
  - injection H as <- <-. right. split; [auto|]. cbn. rewrite app_nil_r. split; [auto|]. intros a x b E. destruct a; discriminate.
  - assert (Q : match i with OtherFamily => connect_loop connect port is done = (ts, ok)
                | _ => exists sa, targets port (i :: is) = sa :: targets port is /\
                    (if (connect done sa =? 0) || (connect done sa =? EINPROGRESS) then (done ++ [sa], true) else connect_loop connect port is (done ++ [sa])) = (ts, ok) end).
    { destruct i; [eexists; split; [|exact H]; reflexivity|eexists; split; [|exact H]; reflexivity|exact H]. }
    assert (C : (i = OtherFamily /\ connect_loop connect port is done = (ts, ok)) \/ exists sa, targets port (i :: is) = sa :: targets port is /\
                    (if (connect done sa =? 0) || (connect done sa =? EINPROGRESS) then (done ++ [sa], true) else connect_loop connect port is (done ++ [sa])) = (ts, ok)).
    { destruct i; auto. }
    clear H Q. destruct C as [[-> H]|(sa & T & H)].
    + exact (IH _ _ _ H).
    + rewrite T. destruct ((connect done sa =? 0) || (connect done sa =? EINPROGRESS)) eqn:X.
      * injection H as <- <-. left. split; [auto|]. exists [], sa, (targets port is). split; [auto|]. split; [auto|]. rewrite app_nil_r. split; [now apply GO|].
        intros a x b E. destruct a; discriminate.
      * apply NO in X. destruct (IH _ _ _ H) as [(-> & pre & y & post & E1 & -> & G & B)|(-> & -> & B)].
        -- left. split; [auto|]. exists (sa :: pre), y, post. rewrite E1. split; [auto|]. rewrite <- app_assoc. split; [reflexivity|].
           rewrite <- app_assoc in G. split; [exact G|]. intros a x b E. destruct a as [|z a]; injection E as <- E; [now rewrite app_nil_r|].
           specialize (B _ _ _ E). rewrite <- app_assoc in B. exact B.
        -- right. split; [auto|]. rewrite <- app_assoc. split; [reflexivity|]. intros a x b E. destruct a as [|z a]; injection E as <- E; [now rewrite app_nil_r|].
           specialize (B _ _ _ E). rewrite <- app_assoc in B. exact B.
Qed.
