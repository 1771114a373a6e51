(** Proofs about users of a pool *)
From Coq Require Import ZArith List Bool Lia Arith.
From Verif Require Import QryModel QrySpec.
From Verif Require Import PoolSpec PoolProofs.
From Verif Require PoolModel.
Import ListNotations.
Open Scope list_scope.
Open Scope Z_scope.
Notation length := List.length.

Notation pconn := PoolModel.conn.
Notation cid := PoolModel.c_id.

(** All connections, wherever they are *)
Definition waiting (p : PoolModel.st) : list pconn := map PoolModel.r_conn (PoolModel.rets p) ++ map PoolModel.p_conn (PoolModel.pool p).
Definition everywhere (p : PoolModel.st) : list pconn := PoolModel.held p ++ waiting p.

Lemma owned_everywhere p : owned p = map cid (everywhere p).
Proof. unfold owned, everywhere, waiting. rewrite !map_app, !map_map. reflexivity. Qed.

Lemma once p : Inv p -> NoDup (map cid (everywhere p)).
Proof.
  intros I. rewrite <- owned_everywhere, (NoDup_count_occ Nat.eq_dec). intros x. destruct I as [I _ _ _ _]. specialize (I x).
  destruct (x <? PoolModel.made p)%nat; lia.
Qed.
Lemma below p c : Inv p -> In c (everywhere p) -> (cid c < PoolModel.made p)%nat.
Proof.
  intros I H. destruct I as [I _ _ _ _]. specialize (I (cid c)). rewrite owned_everywhere in I.
  assert (X : In (cid c) (map cid (everywhere p))) by now apply in_map. apply (count_occ_In Nat.eq_dec) in X.
  destruct (Nat.ltb_spec (cid c) (PoolModel.made p)); [assumption|lia].
Qed.
Lemma same_conn p a b : Inv p -> In a (everywhere p) -> In b (everywhere p) -> cid a = cid b -> a = b.
Proof.
  intros I Ha Hb E. pose proof (once p I) as N. clear I. induction (everywhere p) as [|x l IH]; [contradiction|].
  cbn [map] in N. inversion N as [|? ? N1 N2]; subst. destruct Ha as [->|Ha], Hb as [->|Hb].
  - reflexivity.
  - exfalso. apply N1. rewrite E. now apply in_map.
  - exfalso. apply N1. rewrite <- E. now apply in_map.
  - now apply IH.
Qed.

Lemma waiting_clear p c : Inv p -> In c (waiting p) -> PoolModel.c_clear c = true.
Proof.
  intros I H. destruct I as [_ I2 I3 _ _]. apply in_app_iff in H as [H|H]; apply in_map_iff in H as (x & <- & Hx).
  - rewrite Forall_forall in I2. now apply I2.
  - rewrite Forall_forall in I3. now apply I3.
Qed.

Lemma purge_in now idle l x : In x (PoolModel.purge now idle l) -> In x l.
Proof. destruct (purge_split now idle l) as (t & E & _). intros H. rewrite E. apply in_app_iff. now left. Qed.
Lemma trim_in n l x : In x (PoolModel.trim n l) -> In x l.
Proof. destruct (trim_split n l) as (t & E). intros H. rewrite E. apply in_app_iff. now left. Qed.
Lemma nth_in {A} (l : list A) k x : nth_error l k = Some x -> In x l.
Proof. apply nth_error_In. Qed.

(** Steps of the pool that are not about use *)
Lemma put_begin_spec p k p' : PoolModel.put_begin p k = Some p' ->
  p' = p \/ exists c, nth_error (PoolModel.held p) k = Some c /\ PoolModel.c_clear c = true
    /\ p' = PoolModel.mkS (PoolModel.pool p) (PoolModel.conf p) (PoolModel.allocs p) (PoolModel.rets p ++ [PoolModel.mkR c (PoolModel.conf p)])
              (PoolModel.remove_at k (PoolModel.held p)) (PoolModel.made p) (PoolModel.clock p).
Proof.
  unfold PoolModel.put_begin. destruct (nth_error (PoolModel.held p) k) as [c|] eqn:N; [|discriminate]. destruct (PoolModel.c_clear c) eqn:Ec; cbn [negb].
  - destruct (_ =? 0)%nat; intros [= <-]; [now left|]. right. exists c. auto.
  - intros [= <-]. now left.
Qed.
Lemma put_begin_waiting p k p' c : PoolModel.put_begin p k = Some p' -> In c (waiting p') ->
  In c (waiting p) \/ nth_error (PoolModel.held p) k = Some c /\ PoolModel.c_clear c = true.
Proof.
  intros H. apply put_begin_spec in H as [->|(x & N & E & ->)]; [now left|]. unfold waiting. cbn [PoolModel.rets PoolModel.pool]. rewrite map_app, !in_app_iff. cbn [map PoolModel.r_conn In].
  intros [[Hr|[<-|[]]]|Hr]; auto.
Qed.
Lemma put_begin_held p k p' c : PoolModel.put_begin p k = Some p' -> In c (PoolModel.held p') -> In c (PoolModel.held p).
Proof. intros H. apply put_begin_spec in H as [->|(x & N & E & ->)]; [auto|]. cbn [PoolModel.held]. apply in_remove. Qed.
Lemma put_begin_made p k p' : PoolModel.put_begin p k = Some p' -> PoolModel.made p' = PoolModel.made p.
Proof. intros H. apply put_begin_spec in H as [->|(x & N & E & ->)]; reflexivity. Qed.

(** An allocation *)
Lemma alloc_spec p k now p' : PoolModel.step p (PoolModel.AllocBody k now) = Some p' ->
  exists a c, nth_error (PoolModel.allocs p) k = Some a /\ PoolModel.held p' = PoolModel.held p ++ [c]
    /\ (forall x, In x (waiting p') -> In x (waiting p))
    /\ (PoolModel.made p' = PoolModel.made p /\ In c (waiting p)
        \/ PoolModel.made p' = S (PoolModel.made p) /\ c = PoolModel.mkC (PoolModel.made p) (PoolModel.a_uri a) (PoolModel.a_pass a) true).
Proof.
  cbn [PoolModel.step]. unfold PoolModel.alloc_body. destruct (nth_error (PoolModel.allocs p) k) as [a|]; [|discriminate].
  destruct (PoolModel.clock p <=? now); [|discriminate]. destruct (PoolModel.take (PoolModel.a_uri a) (PoolModel.pool p)) as [c l] eqn:T. apply take_spec in T.
  destruct c as [c|]; intros [= <-].
  - destruct T as (q & a1 & b1 & Ep & El & Ec & _ & _). exists a, c. cbn [PoolModel.held PoolModel.made]. split; [reflexivity|]. split; [reflexivity|]. split.
    + intros x. unfold waiting. cbn [PoolModel.rets PoolModel.pool]. rewrite !in_app_iff. intros [H|H]; [now left|]. right. apply in_map_iff in H as (y & <- & H).
      apply in_map. apply purge_in in H. rewrite Ep, El in *. apply in_app_iff in H. apply in_app_iff. cbn [In]. tauto.
    + left. split; [reflexivity|]. unfold waiting. apply in_app_iff. right. rewrite <- Ec. apply in_map. rewrite Ep. apply in_app_iff. right. now left.
  - destruct T as [-> _]. eexists a, _. cbn [PoolModel.held PoolModel.made]. split; [reflexivity|]. split; [reflexivity|]. split.
    + intros x. unfold waiting. cbn [PoolModel.rets PoolModel.pool]. rewrite !in_app_iff. intros [H|H]; [now left|]. right. apply in_map_iff in H as (y & <- & H).
      apply in_map. now apply purge_in in H.
    + right. split; reflexivity.
Qed.

(** The other steps *)
Lemma other_step p e p' : PoolModel.step p e = Some p' ->
  match e with PoolModel.Use _ | PoolModel.Reset _ _ | PoolModel.AllocBody _ _ => False | _ => True end ->
  (forall c, In c (PoolModel.held p') -> In c (PoolModel.held p)) /\ PoolModel.made p' = PoolModel.made p
  /\ (forall c, In c (waiting p') -> In c (waiting p) \/ In c (PoolModel.held p) /\ PoolModel.c_clear c = true /\ exists k, e = PoolModel.PutBegin k).
Proof.
  destruct e as [u q|k now|k|k now|k|k ok|k|f]; cbn [PoolModel.step]; intros H N; try contradiction.
  - injection H as <-. repeat split; auto.
  - repeat split; [intros c; now apply (put_begin_held _ _ _ _ H)|now apply (put_begin_made _ _ _ H)|].
    intros c W. destruct (put_begin_waiting _ _ _ _ H W) as [X|[X Y]]; [now left|]. right. apply nth_in in X. eauto.
  - unfold PoolModel.put_body in H. destruct (nth_error (PoolModel.rets p) k) as [r|] eqn:Er; [|discriminate]. destruct (_ <=? _); [|discriminate]. injection H as <-.
    cbn [PoolModel.held PoolModel.made]. repeat split; auto. unfold waiting. cbn [PoolModel.rets PoolModel.pool map PoolModel.p_conn]. intros c. rewrite !in_app_iff. cbn [In].
    intros [W|[<-|W]]; left.
    + left. apply in_map_iff in W as (y & <- & W). apply in_map. now apply in_remove in W.
    + left. apply in_map. now apply nth_in in Er.
    + right. apply in_map_iff in W as (y & <- & W). apply in_map. apply trim_in, purge_in in W. exact W.
  - injection H as <-. cbn [PoolModel.held PoolModel.drop PoolModel.made]. split; [intros c; apply in_remove|]. split; [reflexivity|]. now left.
  - injection H as <-. split; [auto|]. split; [reflexivity|]. now left.
Qed.

Lemma index_spec id l k : index_of id l = Some k -> exists c, nth_error l k = Some c /\ cid c = id.
Proof.
  revert k. induction l as [|c l IH]; intros k; cbn [index_of]; [discriminate|]. destruct (Nat.eqb_spec (cid c) id).
  - intros [= <-]. exists c. auto.
  - destruct (index_of id l) as [j|]; [|discriminate]. intros [= <-]. cbn [nth_error]. now apply IH.
Qed.

Lemma in_update l k b x : In x (PoolModel.update_at k (PoolModel.set_clear b) l) ->
  In x l \/ exists y, nth_error l k = Some y /\ x = PoolModel.set_clear b y.
Proof.
  revert k. induction l as [|c l IH]; intros [|k] H; cbn in H; try contradiction.
  - destruct H as [<-|H]; [right; exists c; auto|left; now right].
  - destruct H as [<-|H]; [left; now left|]. apply IH in H as [H|H]; [left; now right|right; exact H].
Qed.
Lemma nth_update l k b c : nth_error l k = Some c -> nth_error (PoolModel.update_at k (PoolModel.set_clear b) l) k = Some (PoolModel.set_clear b c).
Proof. revert k. induction l as [|x l IH]; intros [|k]; cbn [nth_error PoolModel.update_at]; try discriminate; [now intros [= ->]|apply IH]. Qed.

Section World.
  Context {D C Op A : Type}.
  Variable K : driver D C Op A.
  (** [G] holds of all connections, and [H] of those that wait to be used. *)
  Variables (G H : pconn -> C -> Prop) (P : Op -> Prop) (neat : bool).
  Hypothesis created : forall id u p, G (PoolModel.mkC id u p true) (create K u p) /\ H (PoolModel.mkC id u p true) (create K u p).
  Definition after (b : option bool) (pc : pconn) : pconn := match b with Some b => PoolModel.set_clear b pc | None => pc end.
  Hypothesis acts : forall pc c d o d' c' a b, P o -> G pc c -> act K d c o = (d', c', a, b) -> G (after b pc) c'.
  Hypothesis weaken : forall pc c, H pc c -> G pc c.
  (** How a connection gets to wait *)
  Hypothesis puts : neat = false -> forall pc c, G pc c -> PoolModel.c_clear pc = true -> H pc c.
  Hypothesis finalizes : forall pc c d o d' c' a, P o -> resets K o = true -> G pc c -> act K d c o = (d', c', a, Some true) -> H (PoolModel.set_clear true pc) c'.

  Definition winv (w : world D C Op A) : Prop :=
    Inv (pool w) /\ (forall pc, In pc (PoolModel.held (pool w)) -> G pc (conns w (cid pc)))
    /\ (forall pc, In pc (waiting (pool w)) -> H pc (conns w (cid pc))).

  Lemma start_winv d f junk : winv (@start D C Op A d f junk).
  Proof using Type. split; [apply inv_init|]. split; intros pc []. Qed.

  Lemma mark_inv p k b : Inv p -> Inv (PoolModel.mark p k b).
  Proof using Type.
    intros I. destruct b; [apply (inv_step p (PoolModel.Reset k true))|apply (inv_step p (PoolModel.Use k))]; auto.
  Qed.
  Lemma marked_inv p k b : Inv p -> Inv (match b with Some b => PoolModel.mark p k b | None => p end).
  Proof using Type. destruct b; [apply mark_inv|auto]. Qed.
  Lemma marked_waiting p k b : waiting (match b with Some b => PoolModel.mark p k b | None => p end) = waiting p.
  Proof using Type. destruct b; reflexivity. Qed.

  (** What an operation on a connection does *)
  Lemma do_held p (m : nat -> C) id k pc d o d' c a b : Inv p -> index_of id (PoolModel.held p) = Some k -> nth_error (PoolModel.held p) k = Some pc -> cid pc = id -> P o ->
    (forall x, In x (PoolModel.held p) -> G x (m (cid x))) ->
    (forall x, In x (waiting p) -> H x (m (cid x))) ->
    act K d (m id) o = (d', c, a, b) ->
    let p' := match b with Some b => PoolModel.mark p k b | None => p end in
    (forall x, In x (PoolModel.held p') -> G x (update m id c (cid x))) /\ (forall x, In x (waiting p) -> H x (update m id c (cid x)))
    /\ nth_error (PoolModel.held p') k = Some (after b pc).
  Proof using acts.
    intros I Ei N Ec Po Gh Hw Ac p'. assert (Hin : In pc (PoolModel.held p)) by now apply nth_in in N. split; [|split].
    - intros x Hx. assert (Y : In x (PoolModel.held p) \/ exists y, nth_error (PoolModel.held p) k = Some y /\ x = after b y).
      { unfold p' in Hx. destruct b as [b|]; [|now left]. cbn [PoolModel.mark PoolModel.held] in Hx. apply in_update in Hx as [Hx|(y & Ny & ->)]; [now left|right]. exists y. auto. }
      unfold update. destruct (Nat.eqb_spec (cid x) id) as [E|E].
      + assert (X : x = after b pc).
        { destruct Y as [Y|(y & Ny & ->)]; [|congruence]. assert (x = pc) by (apply (same_conn p); auto; try (apply in_app_iff; now left); congruence). subst x.
          destruct b as [b|]; [|reflexivity]. unfold p' in Hx. cbn [PoolModel.mark PoolModel.held] in Hx. cbn [after].
          (* the updated list has no other element with this number *)
          apply (nth_update _ _ b) in N as N'. apply nth_in in N'. symmetry. apply (same_conn (PoolModel.mark p k b)); [now apply mark_inv| | |reflexivity];
            apply in_app_iff; left; assumption. }
        subst x. apply (acts pc (m (cid pc)) d o d' c a b Po (Gh _ Hin)). rewrite Ec. exact Ac.
      + destruct Y as [Y|(y & Ny & ->)]; [now apply Gh|]. exfalso. apply E. rewrite N in Ny. injection Ny as <-. destruct b; exact Ec.
    - intros x Hx. unfold update. destruct (Nat.eqb_spec (cid x) id) as [E|E]; [|now apply Hw].
      exfalso. pose proof (once p I) as On. unfold everywhere in On. rewrite map_app in On. assert (X1 : In id (map cid (PoolModel.held p))) by (rewrite <- Ec; now apply in_map).
      assert (X2 : In id (map cid (waiting p))) by (rewrite <- E; now apply in_map). clear -On X1 X2. induction (map cid (PoolModel.held p)) as [|y l IH]; [contradiction|].
      cbn [app] in On. inversion On as [|? ? N1 N2]; subst. destruct X1 as [->|X1]; [apply N1; apply in_app_iff; now right|now apply IH].
    - unfold p'. destruct b as [b|]; [|exact N]. cbn [PoolModel.mark PoolModel.held after]. now apply nth_update.
  Qed.

  Lemma step_winv w x w' : match x with Do _ o | Finalize _ o => P o | _ => True end ->
    (neat = true -> match x with Pool (PoolModel.PutBegin _) => False | _ => True end) ->
    winv w -> step K w x = Some w' -> winv w'.
  Proof using created acts weaken puts finalizes.
    intros Px Nx (I & Gh & Hw) E. destruct x as [e|id o|id o|d]; cbn [step] in E.
    - assert (U : match e with PoolModel.Use _ | PoolModel.Reset _ _ => False | _ => True end) by (destruct e; try exact Logic.I; discriminate).
      assert (E' : match PoolModel.step (pool w) e with Some p => Some (mkW (data w) p (born K (pool w) p e (conns w)) (answers w)) | None => None end = Some w') by (destruct e; try exact E; contradiction).
      clear E. destruct (PoolModel.step (pool w) e) as [p|] eqn:Sp; [|discriminate]. injection E' as <-. split; [now apply (inv_step _ _ _ I Sp)|]. cbn [pool conns].
      destruct (match e with PoolModel.AllocBody _ _ => true | _ => false end) eqn:B.
      + destruct e as [| k now| | | | | |]; try discriminate. destruct (alloc_spec _ _ _ _ Sp) as (a & c & Na & Eh & Ew & Cc). cbn [born]. rewrite Na.
        assert (Low : forall x, In x (everywhere (pool w)) -> (cid x < PoolModel.made (pool w))%nat) by (intros x; now apply below).
        destruct Cc as [[Em Hc]|[Em ->]].
        * rewrite Em, Nat.ltb_irrefl. rewrite Eh. split; [|intros x Hx; apply Hw; now apply Ew]. intros x Hx. apply in_app_iff in Hx as [Hx|[<-|[]]]; [now apply Gh|].
          now apply weaken, Hw.
        * rewrite Em. assert (L : (PoolModel.made (pool w) <? S (PoolModel.made (pool w)))%nat = true) by (apply Nat.ltb_lt; lia). rewrite L. rewrite Eh.
          assert (Ne : forall x, In x (everywhere (pool w)) -> update (conns w) (PoolModel.made (pool w)) (create K (PoolModel.a_uri a) (PoolModel.a_pass a)) (cid x) = conns w (cid x)).
          { intros x Hx. apply Low in Hx. unfold update. destruct (Nat.eqb_spec (cid x) (PoolModel.made (pool w))); [lia|reflexivity]. }
          split.
          -- intros x Hx. apply in_app_iff in Hx as [Hx|[<-|[]]].
             ++ rewrite Ne by (apply in_app_iff; now left). now apply Gh.
             ++ cbn [PoolModel.c_id]. unfold update. rewrite Nat.eqb_refl. apply created.
          -- intros x Hx. rewrite Ne by (apply in_app_iff; right; now apply Ew). apply Hw. now apply Ew.
      + assert (Bo : born K (pool w) p e (conns w) = conns w) by (destruct e; try reflexivity; discriminate). rewrite Bo.
        destruct (other_step _ _ _ Sp) as (Hh & _ & Hww); [destruct e; try exact Logic.I; try contradiction; discriminate|].
        split; [intros x Hx; apply Gh; now apply Hh|]. intros x Hx. destruct (Hww x Hx) as [X|(X & Cl & (k & Ek))]; [now apply Hw|].
        destruct neat eqn:En.
        * exfalso. subst e. exact (Nx eq_refl).
        * apply (puts eq_refl); [now apply Gh|exact Cl].
    - destruct (index_of id (PoolModel.held (pool w))) as [k|] eqn:Ei; [|discriminate]. destruct (act K (data w) (conns w id) o) as [[[d c] a] b] eqn:Ac. injection E as <-.
      destruct (index_spec _ _ _ Ei) as (pc & N & Ec). destruct (do_held _ _ _ _ _ _ _ _ _ _ _ I Ei N Ec Px Gh Hw Ac) as (X1 & X2 & _). split; [now apply marked_inv|]. cbn [pool conns].
      split; [exact X1|]. rewrite marked_waiting. exact X2.
    - destruct (index_of id (PoolModel.held (pool w))) as [k|] eqn:Ei; [|discriminate]. destruct (resets K o) eqn:Ro; [|discriminate].
      destruct (act K (data w) (conns w id) o) as [[[d c] a] b] eqn:Ac.
      destruct (index_spec _ _ _ Ei) as (pc & N & Ec). destruct (do_held _ _ _ _ _ _ _ _ _ _ _ I Ei N Ec Px Gh Hw Ac) as (X1 & X2 & X3).
      pose proof (marked_inv _ k b I) as I'. set (p := match b with Some b => PoolModel.mark (pool w) k b | None => pool w end) in *.
      assert (Ew : waiting p = waiting (pool w)) by apply marked_waiting.
      destruct (match b with Some true => PoolModel.put_begin p k | _ => Some p end) as [p'|] eqn:Pb; [|discriminate]. injection E as <-.
      assert (Cases : p' = p \/ b = Some true /\ PoolModel.put_begin p k = Some p').
      { destruct b as [[|]|]; [right; auto|left; congruence|left; congruence]. }
      destruct Cases as [->|[-> Pb']].
      + split; [exact I'|]. cbn [pool conns]. split; [exact X1|]. rewrite Ew. exact X2.
      + split; [apply (inv_step p (PoolModel.PutBegin k) _ I'); exact Pb'|]. cbn [pool conns]. split.
        * intros x Hx. apply X1. now apply (put_begin_held _ _ _ _ Pb').
        * intros x Hx. destruct (put_begin_waiting _ _ _ _ Pb' Hx) as [Y|[Y _]]; [apply X2; rewrite <- Ew; exact Y|].
          rewrite X3 in Y. injection Y as <-. cbn [after]. unfold update. cbn [PoolModel.c_id PoolModel.set_clear]. rewrite Ec, Nat.eqb_refl.
          apply (finalizes pc (conns w (cid pc)) (data w) o d c a Px Ro); [apply Gh; now apply nth_in in N|]. rewrite Ec. exact Ac.
    - injection E as <-. split; [exact I|]. auto.
  Qed.

  Lemma run_winv xs w w' : only P xs -> (neat = true -> tidy xs) -> winv w -> run K w xs = Some w' -> winv w'.
  Proof using created acts weaken puts finalizes.
    revert w. induction xs as [|x xs IH]; intros w O T W E; cbn [run] in E; [now injection E as <-|].
    destruct (step K w x) as [w1|] eqn:S; [|discriminate]. inversion O as [|? ? O1 O2]; subst. apply (IH w1); auto.
    - intros N. specialize (T N). now inversion T.
    - apply (step_winv w x w1); auto. intros N. specialize (T N). inversion T as [|? ? T1 T2]; subst. exact T1.
  Qed.

  (** What has been allocated is fit to be used *)
  Lemma allocated_fit w1 k now w2 c : winv w1 -> allocated K w1 k now w2 c -> H c (conns w2 (cid c)) /\ (cid c < PoolModel.made (pool w2))%nat.
  Proof using created.
    intros (I & Gh & Hw) (Sa & E). cbn [step] in Sa. destruct (PoolModel.step (pool w1) (PoolModel.AllocBody k now)) as [p|] eqn:Sp; [|discriminate]. injection Sa as <-.
    cbn [pool] in E. destruct (alloc_spec _ _ _ _ Sp) as (a & c' & Na & Eh & Ew & Cc). rewrite Eh in E. apply app_inv_head in E. injection E as ->.
    cbn [pool conns born]. rewrite Na. destruct Cc as [[Em Hc]|[Em ->]].
    - rewrite Em, Nat.ltb_irrefl. split; [now apply Hw|]. apply (below (pool w1) c I). apply in_app_iff. now right.
    - rewrite Em. assert (L : (PoolModel.made (pool w1) <? S (PoolModel.made (pool w1)))%nat = true) by (apply Nat.ltb_lt; lia). rewrite L. cbn [PoolModel.c_id]. split; [|lia].
      unfold update. rewrite Nat.eqb_refl. apply created.
  Qed.
End World.

(** Nobody else can change a connection. *)
Section Alone.
  Context {D C Op A : Type}.
  Variable K : driver D C Op A.
  Lemma pool_made p e p' : PoolModel.step p e = Some p' -> (PoolModel.made p <= PoolModel.made p')%nat.
  Proof.
    intros S. destruct (match e with PoolModel.Use _ | PoolModel.Reset _ _ => true | _ => false end) eqn:B.
    { destruct e; try discriminate; injection S as <-; apply Nat.le_refl. }
    destruct e as [|k now| | | | | |]; try discriminate; try (destruct (other_step _ _ _ S Logic.I) as (_ & -> & _); apply Nat.le_refl).
    destruct (alloc_spec _ _ _ _ S) as (a & c & _ & _ & _ & [[-> _]|[-> _]]); lia.
  Qed.
  Lemma left_alone xs w w' id : others id xs -> (id < PoolModel.made (pool w))%nat -> run K w xs = Some w' -> conns w' id = conns w id.
  Proof.
    revert w. induction xs as [|x xs IH]; intros w O L E; cbn [run] in E; [now injection E as <-|]. destruct (step K w x) as [w1|] eqn:S; [|discriminate].
    inversion O as [|? ? O1 O2]; subst. assert (X : conns w1 id = conns w id /\ (PoolModel.made (pool w) <= PoolModel.made (pool w1))%nat).
    - destruct x as [e|i o|i o|d]; cbn [step] in S.
      + assert (S' : match PoolModel.step (pool w) e with Some p => Some (mkW (data w) p (born K (pool w) p e (conns w)) (answers w)) | None => None end = Some w1) by (destruct e; try exact S; discriminate).
        clear S. destruct (PoolModel.step (pool w) e) as [p|] eqn:Sp; [|discriminate]. injection S' as <-. cbn [conns pool]. split; [|now apply pool_made in Sp].
        unfold born. destruct e as [|k now| | | | | |]; try reflexivity. destruct (nth_error _ _); [|reflexivity]. destruct (_ <? _)%nat; [|reflexivity].
        unfold update. destruct (Nat.eqb_spec id (PoolModel.made (pool w))); [lia|reflexivity].
      + destruct (index_of i _) as [k|]; [|discriminate]. destruct (act K (data w) (conns w i) o) as [[[d c] a] b]. injection S as <-. cbn [conns pool]. split.
        * unfold update. destruct (Nat.eqb_spec id i); [congruence|reflexivity].
        * destruct b; apply Nat.le_refl.
      + destruct (index_of i _) as [k|]; [|discriminate]. destruct (resets K o); [|discriminate]. destruct (act K (data w) (conns w i) o) as [[[d c] a] b].
        set (p := match b with Some b => PoolModel.mark (pool w) k b | None => pool w end) in *.
        assert (Em : PoolModel.made p = PoolModel.made (pool w)) by (unfold p; destruct b; reflexivity).
        destruct (match b with Some true => PoolModel.put_begin p k | _ => Some p end) as [p'|] eqn:Pb; [|discriminate]. injection S as <-. cbn [conns pool]. split.
        * unfold update. destruct (Nat.eqb_spec id i); [congruence|reflexivity].
        * assert (PoolModel.made p' = PoolModel.made p); [|lia]. destruct b as [[|]|]; [now apply put_begin_made in Pb|congruence|congruence].
      + injection S as <-. split; [reflexivity|apply Nat.le_refl].
    - destruct X as [<- X]. apply IH; auto. lia.
  Qed.
End Alone.
