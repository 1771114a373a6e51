(** Theorems about the cache of fiber stacks (C48). *)
From Coq Require Import ZArith List Lia Bool.
From Verif Require Import StackModel StackSpec StackProofs.
Import ListNotations.
Open Scope Z_scope.

Lemma reach es s : run init es = Some s -> Inv s.
Proof.
  revert s. induction es as [|e es IH] using rev_ind; intros s H.
  - injection H as <-. exists (fun _ => Nowhere), [], (fun _ => []).
    split; cbn; auto; try (constructor; fail); try (intros; split; try tauto; discriminate); tauto.
  - rewrite run_app in H. destruct (run init es) as [s1|] eqn:E1; [|discriminate]. cbn in H.
    destruct (step s1 e) as [s2|] eqn:E2; [|discriminate]. injection H as ->. eapply inv_step; eauto.
Qed.

(** Two stacks are made and freed; while thread 1 allocates again, thread 2 puts
    a third one into the cache in between; a fiber scribbles over its stack. *)
Definition sample : list event :=
  [Alloc 1 4096; Go 1; Mmap 1 (Some 10); Alloc 2 4096; Go 2; Mmap 2 (Some 20); Alloc 3 4096; Go 3; Mmap 3 (Some 30);
   Write 30 (Some 10) 77;
   Free 1 10; Go 1; Cas 1 true; Cas 1 false; Free 2 20; Go 2; Cas 2 false;
   Alloc 1 4096; Go 1; Free 3 30; Go 3; Cas 3 false; Go 1; Go 1; Go 1; Go 1]%nat.
Example sample_runs : match run init sample with
  | Some s => users s = [(30%nat, 4096)] /\ head s = Some 10%nat /\ real s 20%nat = None /\ bad s = false
  | None => False end.
Proof. vm_compute. auto. Qed.

(** Unmapped memory is never touched, and memory is unmapped with its own size. *)
Theorem stack_safe : forall (es : list event) (s : st), run init es = Some s -> bad s = false.
Proof. intros es s H. destruct (reach _ _ H) as (own & L & O & []). auto. Qed.
Print Assumptions stack_safe.
Example stack_safe_ex : run init sample <> None.
Proof. vm_compute. discriminate. Qed.

(** No stack is in use twice, and a stack in use is mapped with the size that was
    reported to its user. *)
Theorem stack_exclusive : forall (es : list event) (s : st), run init es = Some s ->
  NoDup (map fst (users s)) /\ forall b z, In (b, z) (users s) -> real s b = Some z.
Proof. intros es s H. destruct (reach _ _ H) as (own & L & O & []). auto. Qed.
Print Assumptions stack_exclusive.

(** Each allocation which returns gives a stack of the size that was requested,
    which was not in use, and which is not in the cache afterwards. *)
Theorem stack_given : forall (es : list event) (e : event) (s s' : st) (t : nat) (vm : Z) (b : nat) (z : Z),
  run init es = Some s -> step s e = Some s' -> given s' = given s ++ [(t, vm, b, z)] ->
  z = vm /\ ~ In b (map fst (users s)) /\ users s' = (b, z) :: users s
  /\ exists L, chain (nxt s') (head s') L /\ ~ In b L.
Proof.
  intros es e s s' t vm b z H Hs Hg. assert (I' : Inv s') by (eapply inv_step; eauto; eapply reach; eauto).
  assert (Z1 : z = vm).
  { destruct I' as (own & L & O & []). rewrite Hg in w_giv. apply Forall_app in w_giv as [_ F]. inversion F; auto. }
  assert (U : users s' = (b, z) :: users s).
  { assert (ne : forall l, given s = given s ++ [l] -> False).
    { intros l Q. apply (f_equal (@length _)) in Q. rewrite app_length in Q. cbn in Q. lia. }
    destruct e as [u v|u|u r|u c|u x|c n y]; cbn [step] in Hs.
    - unfold alloc in Hs. destruct (pcs s u); try discriminate. injection Hs as <-. destruct (ne _ Hg).
    - unfold go in Hs. destruct (pcs s u) as [|w c|w c n|w c old|w [c|]|c|c]; try discriminate; injection Hs as <-; try (destruct (ne _ Hg); fail).
      + destruct c as [c|]; [destruct (nxt s c)|]; destruct (ne _ Hg).
      + destruct (match nxt s c with Some _ => true | None => negb (siz s c =? w) end); [destruct (ne _ Hg)|].
        cbn [given users] in *. apply app_inv_head in Hg. injection Hg as -> -> -> ->. reflexivity.
    - unfold mmap in Hs. destruct (pcs s u) as [| | | |w [c|]| |]; try discriminate.
      destruct r as [c|]; [destruct (real s c); [discriminate|]|]; injection Hs as <-; [|destruct (ne _ Hg)].
      cbn [given users] in *. apply app_inv_head in Hg. injection Hg as -> -> -> ->. reflexivity.
    - unfold free in Hs. destruct (pcs s u); try discriminate. destruct (take_user c (users s)) as [[y l]|]; [|discriminate].
      injection Hs as <-. destruct (ne _ Hg).
    - unfold cas in Hs. destruct (pcs s u); try discriminate. injection Hs as <-. destruct (_ && _); destruct (ne _ Hg).
    - unfold write in Hs. destruct (existsb _ _); [|discriminate]. injection Hs as <-. destruct (ne _ Hg). }
  destruct I' as (own & L & O & W). split; auto. split; [|split; auto].
  - pose proof (w_ndu _ _ _ _ W) as N. rewrite U in N. now inversion N.
  - exists L. split; [apply W|]. intros K. apply (w_L _ _ _ _ W) in K.
    assert (own b = User) by (apply (w_U _ _ _ _ W); rewrite U; left; auto). congruence.
Qed.
Print Assumptions stack_given.
Example stack_given_ex : match run init (removelast sample), run init sample with
  | Some s, Some s' => given s' = given s ++ [(1%nat, 4096, 30%nat, 4096)] | _, _ => False end.
Proof. vm_compute. reflexivity. Qed.

(** No stack is lost: the cache is a proper list without repetitions, and every
    mapped stack is in the cache, or in use, or in the hands of one thread which
    is in the middle of an allocation or of a release; and in one of them only. *)
Theorem stack_not_lost : forall (es : list event) (s : st), run init es = Some s ->
  exists (L : list nat) (O : nat -> list nat),
  chain (nxt s) (head s) L /\ NoDup L
  /\ (forall t, pcs s t = Idle -> O t = [])
  /\ (forall b, real s b <> None <-> In b L \/ In b (map fst (users s)) \/ exists t, In b (O t))
  /\ (forall b, In b L -> ~ In b (map fst (users s)) /\ forall t, ~ In b (O t))
  /\ (forall b t, In b (O t) -> ~ In b (map fst (users s)) /\ forall u, u <> t -> ~ In b (O u)).
Proof.
  intros es s H. destruct (reach _ _ H) as (own & L & O & []). exists L, O.
  split; [auto|]. split; [auto|]. split; [|split; [|split]].
  - intros t Ht. specialize (w_pcs t). rewrite Ht in w_pcs. exact w_pcs.
  - intros b. rewrite w_N, w_L, w_U. split.
    + intros K. destruct (own b) as [| |t|] eqn:E; auto; [congruence|]. right. right. exists t. now apply w_O.
    + intros [K|[K|(t & K)]]; try congruence. apply w_O in K. congruence.
  - intros b K. apply w_L in K. split; [rewrite w_U; congruence|]. intros t. rewrite w_O. congruence.
  - intros b t K. apply w_O in K. split; [rewrite w_U; congruence|]. intros u N. rewrite w_O. congruence.
Qed.
Print Assumptions stack_not_lost.
Example stack_not_lost_ex : match run init sample with
  | Some s => chain (nxt s) (head s) [10%nat] /\ pcs s 1%nat = Idle /\ real s 10%nat = Some 4096 | None => False end.
Proof. vm_compute. auto. Qed.

(** And it is a cache: without interference, an allocation gives the stack that
    was freed last, if its size is right, and leaves the others where they are. *)
Theorem stack_reused : forall (es : list event) (s : st) (t c : nat) (L : list nat),
  run init es = Some s -> pcs s t = Idle -> chain (nxt s) (head s) (c :: L) ->
  exists n s', run s (Alloc t (siz s c) :: repeat (Go t) n) = Some s'
    /\ users s' = (c, siz s c) :: users s /\ chain (nxt s') (head s') L /\ (forall b, real s' b = real s b).
Proof.
  intros es s t c L H Ht [Hh Hc].
  assert (Nc : ~ In c L).
  { destruct (reach _ _ H) as (own & L' & O & W).
    assert (forall p l1 l2, chain (nxt s) p l1 -> chain (nxt s) p l2 -> l1 = l2) as Det.
    { intros p l1. revert p. induction l1 as [|x l1 IH]; destruct l2 as [|y l2]; cbn; auto; try (intros; intuition congruence).
      intros [-> A] [[= ->] B]. f_equal. eapply IH; eauto. }
    pose proof (Det _ _ _ (w_head _ _ _ _ W) (conj Hh Hc : chain (nxt s) (head s) (c :: L))) as ->.
    pose proof (w_nd _ _ _ _ W) as N. now inversion N. }
  destruct (nxt s c) as [n|] eqn:En.
  - exists 4%nat. eexists. split; [|split; [|split]].
    + cbn [repeat run step]. unfold alloc. rewrite Ht, Hh. cbn [repeat run step]. unfold go at 1. cbn [pcs]. rewrite ?set_same. cbn [nxt]. rewrite En.
      cbn [flag goes head nxt siz real pcs users given bad]. unfold go at 1. cbn [pcs head nxt siz real users given bad flag goes]. rewrite ?set_same.
      unfold go at 1. cbn [pcs head nxt siz real users given bad flag goes]. rewrite ?set_same.
      unfold go at 1. cbn [pcs head nxt siz real users given bad flag goes]. rewrite ?set_same. cbn [pcs head nxt siz real users given bad flag goes]. rewrite ?set_same.
      rewrite Z.eqb_refl. cbn [negb]. reflexivity.
    + reflexivity.
    + cbn [head nxt]. eapply chain_ext; eauto. intros b Hb. apply set_other. intros ->. contradiction.
    + reflexivity.
  - exists 2%nat. eexists. split; [|split; [|split]].
    + cbn [repeat run step]. unfold alloc. rewrite Ht, Hh. cbn [repeat run step]. unfold go at 1. cbn [pcs]. rewrite ?set_same. cbn [nxt]. rewrite En.
      cbn [flag goes head nxt siz real pcs users given bad]. unfold go at 1. cbn [pcs head nxt siz real users given bad flag goes]. rewrite ?set_same. cbn [nxt siz].
      rewrite ?En, Z.eqb_refl. cbn [negb]. reflexivity.
    + reflexivity.
    + cbn [head nxt]. exact Hc.
    + reflexivity.
Qed.
Print Assumptions stack_reused.
Example stack_reused_ex : match run init sample with
  | Some s => pcs s 5%nat = Idle /\ chain (nxt s) (head s) [10%nat] /\ siz s 10%nat = 4096 | None => False end.
Proof. vm_compute. auto. Qed.

(** A release fails to put the stack back only if another thread has changed the
    cache in the meantime, or spuriously: otherwise it succeeds at once. *)
Theorem stack_freed : forall (es : list event) (s : st) (t b : nat),
  run init es = Some s -> pcs s t = F1 b ->
  exists s', run s [Go t; Cas t false] = Some s' /\ head s' = Some b /\ nxt s' b = head s /\ pcs s' t = Idle.
Proof.
  intros es s t b _ P. eexists. split; [|split; [|split]].
  - cbn [run step]. unfold go. rewrite P. unfold cas. cbn [pcs head nxt siz real users given bad]. rewrite set_same. cbn [head nxt]. rewrite set_same.
    assert (E : optnat_eqb (head s) (head s) = true) by (destruct (head s); cbn; auto; apply Nat.eqb_refl).
    rewrite E. cbn [andb negb]. reflexivity.
  - reflexivity.
  - cbn. apply set_same.
  - cbn. apply set_same.
Qed.
Print Assumptions stack_freed.
