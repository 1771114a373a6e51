(** Nothing of what the previous users of a pooled connection have got is left in it. *)
From Coq Require Import ZArith List Bool.
From Verif Require Import QryModel QrySpec QryProofs.
From Verif Require PoolModel.
Import ListNotations.

Section Generic.
  Context {D C Op A : Type}.
  Variable K : driver D C Op A.
  Variable clean : C -> Prop.
  Hypothesis new_clean : forall u p, clean (create K u p).
  Hypothesis reset_clean : forall c d o d' c' a, resets K o = true -> act K d c o = (d', c', a, Some true) -> clean c'.

  Lemma left_clean d0 f junk xs w1 k now w2 c ys w3 : tidy xs ->
    run K (start d0 f junk) xs = Some w1 -> allocated K w1 k now w2 c -> others (PoolModel.c_id c) ys -> run K w2 ys = Some w3 ->
    clean (conns w3 (PoolModel.c_id c)).
  Proof.
    intros Ti R Al Ot R2.
    assert (Cr : forall (id : nat) (u p : list Z), True /\ clean (create K u p)) by (intros; split; [trivial|apply new_clean]).
    assert (W : winv (fun _ _ => True) (fun _ c => clean c) w1).
    { apply (run_winv K (fun _ _ => True) (fun _ c => clean c) (fun _ => True) true) with (xs := xs) (w := start d0 f junk); auto.
      - discriminate.
      - intros pc c0 d o d' c' a _ Rs _ E. now apply (reset_clean c0 d o d' c' a).
      - unfold only. apply Forall_forall. intros [| | |]; auto.
      - apply start_winv. }
    destruct (allocated_fit K (fun _ _ => True) (fun _ c => clean c) Cr _ _ _ _ _ W Al) as [H L]. now rewrite (left_alone K ys w2 w3 _ Ot L R2).
  Qed.
End Generic.

Section Mongo.
  Context {D : Type}.
  Variables (database : list Z -> list Z) (valid : list (list Z * MongoModel.bson) -> bool)
            (perform : D -> list Z -> list (list Z * MongoModel.bson) -> D * option (list (list Z * MongoModel.bson)))
            (documents : D -> list (list Z * MongoModel.bson) -> list (list (list Z * MongoModel.bson))).
  Notation K := (mkDriver mongo_new (mongo_act database valid perform documents) mongo_resets).
  Definition g_clean (c : mongo) : Prop := g_reply c = None /\ g_cursor c = None.
  Definition gC (pc : pconn) (c : mongo) : Prop := PoolModel.c_clear pc = true -> g_clean c.

  Lemma g_execute_clean d c cmd l d' c' a b : mongo_execute database valid perform d c cmd l = (d', c', a, b) -> b = Some false \/ b = None /\ c' = c /\ a = G_threw.
  Proof.
    unfold mongo_execute. intros E. destruct (MongoModel.compose cmd); [|injection E as <- <- <- <-; auto]. destruct (valid l0); [|injection E as <- <- <- <-; auto].
    left. destruct l; [destruct (perform d _ l0) as [d1 [r|]]| | |]; now injection E as <- <- <- <-.
  Qed.
  Lemma gC_acts pc c d o d' c' a b : gC pc c -> act K d c o = (d', c', a, b) -> gC (after b pc) c'.
  Proof.
    intros G E. destruct o as [cmd l ls|cmd l|l|]; cbn [act mongo_act] in E.
    - unfold mongo_query in E. destruct (mongo_execute database valid perform d c cmd l) as [[[d1 c1] a1] b1] eqn:Ex. destruct (g_execute_clean _ _ _ _ _ _ _ _ Ex) as [-> |(-> & -> & ->)].
      + assert (X : b = Some false). { destruct a1; try (now injection E as <- <- <- <-). destruct (mongo_loop _ _ _ _ _ _). now injection E as <- <- <- <-. } rewrite X. intros C. discriminate C.
      + injection E as <- <- <- <-. exact G.
    - destruct (g_execute_clean _ _ _ _ _ _ _ _ E) as [-> |(-> & -> & ->)]; [intros C; discriminate C|exact G].
    - unfold mongo_fetch, mongo_next in E. assert (X : b = None). { destruct (match g_cursor c with Some _ => _ | None => _ end) as [[c1 a1] [x|]]; [destruct (MongoModel.fetch x)|]; now injection E as <- <- <- <-. }
      rewrite X. cbn [after]. intros Cl. specialize (G Cl). destruct G as [G1 G2]. rewrite G1, G2 in E. injection E as <- <- <- <-. now split.
    - injection E as <- <- <- <-. intros _. now split.
  Qed.
  Lemma g_left d0 f junk xs w1 k now w2 c ys w3 :
    run K (start d0 f junk) xs = Some w1 -> allocated K w1 k now w2 c -> others (PoolModel.c_id c) ys -> run K w2 ys = Some w3 ->
    g_clean (conns w3 (PoolModel.c_id c)).
  Proof.
    intros R Al Ot R2. set (H := fun pc c => PoolModel.c_clear pc = true /\ g_clean c).
    assert (Cr : forall (id : nat) (u p : list Z), gC (PoolModel.mkC id u p true) (create K u p) /\ H (PoolModel.mkC id u p true) (create K u p)) by (intros; repeat split).
    assert (W : winv gC H w1).
    { apply (run_winv K gC H (fun _ => True) false) with (xs := xs) (w := start d0 f junk); auto.
      - intros pc c0 d o d' c' a b _ G E. now apply (gC_acts pc c0 d o d' c' a b).
      - intros pc c0 [_ X] _. exact X.
      - intros _ pc c0 G C. split; auto.
      - intros pc c0 d o d' c' a _ Rs G E. split; [reflexivity|]. now apply (gC_acts pc c0 d o d' c' a (Some true) G E).
      - unfold only. apply Forall_forall. intros [| | |]; auto.
      - discriminate.
      - apply start_winv. }
    destruct (allocated_fit K gC H Cr _ _ _ _ _ W Al) as [[_ X] L]. now rewrite (left_alone K ys w2 w3 _ Ot L R2).
  Qed.
End Mongo.
