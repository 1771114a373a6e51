(** Proofs about stream sockets. *)
From Coq Require Import ZArith List Lia Bool.
From Verif Require Import TcpModel TcpSpec.
Import ListNotations.

Lemma loop_spec outs : forall w taken rest taken' o, loop outs w taken = Some (rest, taken', o) ->
  taken' ++ rest = taken ++ w
  /\ match o with
     | Drained => rest = [] /\ ~ In Error outs
     | Blocked => rest <> [] /\ ~ In Error outs
     | Failed => rest <> [] /\ In Error outs
     end.
Proof.
  induction outs as [|x outs IH]; intros w taken rest taken' o H.
  - destruct w; cbn in H; [|discriminate]. injection H as <- <- <-. cbn. rewrite app_nil_r. auto.
  - destruct w as [|b w]; [discriminate|]. cbn [loop] in H. destruct x as [n| |].
    + destruct (n <=? length (b :: w))%nat; [|discriminate]. destruct (IH _ _ _ _ _ H) as [E K]. split.
      * rewrite E, <- app_assoc, firstn_skipn. reflexivity.
      * destruct o; destruct K as [K1 K2]; (split; [auto|]); cbn [In]; try (intros [K|K]; [discriminate|auto]); auto.
    + destruct outs; [|discriminate]. injection H as <- <- <-. repeat split; [discriminate|]. cbn. intros [K|[]]. discriminate.
    + destruct outs; [|discriminate]. injection H as <- <- <-. repeat split; [discriminate|]. now left.
Qed.

Lemma loop_down outs w taken rest taken' o : possible true outs = true -> loop outs w taken = Some (rest, taken', o) ->
  taken' = taken /\ rest = w.
Proof.
  intros P H. destruct outs as [|[n| |] [|y outs]]; cbn in P; try discriminate; destruct w; cbn in H; try discriminate; injection H as <- <- <-; auto.
Qed.

Lemma offered_snoc s d r x q dn se fl sh w a : offered (mkS x q dn se fl sh w a (log s ++ [(d, r)])) = offered s ++ d.
Proof. unfold offered. cbn [log]. rewrite map_app, concat_app. cbn. now rewrite app_nil_r. Qed.

Lemma accepted_offered s : Forall (fun x => snd x = true) (log s) -> accepted s = offered s.
Proof.
  unfold accepted, offered. induction 1 as [|x l Hx _ IH]; [reflexivity|]. cbn [filter]. rewrite Hx. cbn [map concat]. now rewrite IH.
Qed.

Definition allok (s : st) : Prop := Forall (fun x => snd x = true) (log s).

Record Inv (s : st) : Prop := {
  i_data : (allok s /\ sent s ++ wq s = offered s) \/ (state s = Closed /\ prefix (sent s) (offered s));
  i_closing : state s = Closing -> wq s <> [];
  i_pending : state s = Pending -> armed s = true /\ writing s = false;
  i_armed : wq s <> [] -> state s <> Closed -> armed s = true \/ writing s = true;
  i_closed : state s = Closed -> down s = true }.

Lemma inv_init : Inv init.
Proof. split; cbn; try discriminate; auto. left. split; [constructor|reflexivity]. Qed.

Lemma prefix_app a b c : prefix a b -> prefix a (b ++ c).
Proof. intros [d ->]. exists (d ++ c). now rewrite app_assoc. Qed.

Lemma append_inv s d fl : (wq s = [] -> state s <> Established) -> Inv s ->
  Inv (mkS (state s) (wq s ++ d) (down s) (sent s) fl (shuts s) (writing s) (armed s) (log s ++ [(d, true)])).
Proof.
  intros N [A B P C E]. split; cbn [state wq down sent flight shuts writing armed log]; auto.
  - rewrite offered_snoc. destruct A as [[F A]|[X A]]; [left|right; split; [auto|now apply prefix_app]].
    split; [apply Forall_app; split; [auto|]; constructor; auto|]. now rewrite app_assoc, A.
  - intros X K. apply app_eq_nil in K as [K _]. apply (B X K).
  - intros _ X. destruct (state s) eqn:S.
    + left. now apply P.
    + apply C; [|auto]. intros Q. now apply (N Q).
    + apply C; auto.
    + congruence.
Qed.

Lemma inv_step s e s' : Inv s -> step s e = Some s' -> Inv s'.
Proof.
  intros I H. destruct e as [d|k outs| | | | | | |outs]; cbn [step] in H.
  - injection H as <-. unfold send_begin. destruct (2 <=? rank (state s)); [auto|]. destruct I; split; auto.
  - unfold send_body in H. destruct (nth_error (flight s) k) as [d|]; [|discriminate].
    assert (App : outs = [] -> (wq s = [] -> state s <> Established) ->
      Some (mkS (state s) (wq s ++ d) (down s) (sent s) (remove_at k (flight s)) (shuts s) (writing s) (armed s) (log s ++ [(d, true)])) = Some s' -> Inv s').
    { intros _ N [= <-]. now apply append_inv. }
    destruct (wq s) as [|b q] eqn:Q; [destruct (state s) eqn:S|];
      try (destruct outs; [|discriminate]; apply App; [reflexivity|discriminate|exact H]).
    clear App. destruct (possible (down s) outs) eqn:P; [|discriminate].
    destruct (loop outs d []) as [[[rest taken] o]|] eqn:L; [|discriminate]. destruct (loop_spec _ _ _ _ _ _ L) as [E K].
    cbn [app] in E. destruct I as [A B Pe C Cl]. destruct A as [[F A]|[X _]]; [|congruence]. rewrite Q, app_nil_r in A.
    destruct o; injection H as <-.
    + destruct K as [-> _]. rewrite app_nil_r in E. subst taken.
      split; cbn [state wq down sent flight shuts writing armed log]; auto; try congruence.
      rewrite offered_snoc, app_nil_r, A. left. split; [|auto]. apply Forall_app. split; [auto|]. constructor; auto.
    + split; cbn [state wq down sent flight shuts writing armed log]; auto; try congruence.
      rewrite offered_snoc, <- app_assoc, E, A. left. split; [|auto]. apply Forall_app. split; [auto|]. constructor; auto.
    + split; cbn [state wq down sent flight shuts writing armed log]; auto; try congruence.
      rewrite offered_snoc, <- A, <- E. right. split; [auto|]. exists rest. now rewrite app_assoc.
  - injection H as <-. unfold shut_begin. destruct (2 <=? rank (state s)); [auto|]. destruct I; split; auto.
  - unfold shut_body in H. destruct (shuts s) as [|n]; [discriminate|]. destruct I as [A B P C Cl].
    destruct (wq s) as [|b q] eqn:Q; injection H as <-.
    + split; cbn [state wq down sent flight shuts writing armed log]; auto; try congruence.
      destruct A as [A|[X A]]; [left; exact A|right; split; auto].
    + split; cbn [state wq down sent flight shuts writing armed log]; auto; try congruence.
      * destruct A as [A|[X A]]; [left; exact A|right; split; [|auto]]. rewrite X. reflexivity.
      * destruct (state s); discriminate.
      * intros _ X. apply C; [discriminate|]. intros Y. rewrite Y in X. apply X. reflexivity.
      * destruct (state s); cbn; intros X; try discriminate. auto.
  - injection H as <-. destruct I. split; auto.
  - unfold quick_store in H. destruct (down s) eqn:D; [|discriminate]. injection H as <-. destruct I as [A B P C Cl].
    split; cbn [state wq down sent flight shuts writing armed log]; auto; try congruence.
    destruct A as [A|[X A]]; [left; exact A|right; split; auto].
  - unfold write_begin in H. destruct (writing s) eqn:W; [discriminate|]. injection H as <-. destruct I as [A B P C Cl].
    split; cbn [state wq down sent flight shuts writing armed log]; auto; try congruence.
    + destruct A as [A|[X A]]; [left; exact A|right; split; [|auto]]. rewrite X. reflexivity.
    + destruct (state s); cbn; try discriminate. auto.
    + destruct (state s); cbn; discriminate.
    + destruct (state s); cbn; intros X; try discriminate. auto.
  - unfold write_abort in H. destruct (writing s) eqn:W; [|discriminate]. injection H as <-. destruct I as [A B P C Cl].
    split; cbn [state wq down sent flight shuts writing armed log]; auto; try congruence.
    destruct A as [A|[X A]]; [left; exact A|right; split; auto].
  - unfold write_loop in H. destruct (writing s && possible (down s) outs) eqn:WP; [|discriminate]. apply andb_true_iff in WP as [W P].
    destruct (loop outs (wq s) []) as [[[rest taken] o]|] eqn:L; [|discriminate]. destruct (loop_spec _ _ _ _ _ _ L) as [E K]. cbn [app] in E.
    destruct I as [A B Pe C Cl].
    assert (NP : state s <> Pending) by (intros X; destruct (Pe X); congruence).
    assert (A' : (allok s /\ (sent s ++ taken) ++ rest = offered s) \/ (state s = Closed /\ prefix (sent s ++ taken) (offered s))).
    { destruct A as [[F A]|[X A]]; [left; split; [auto|]; now rewrite <- app_assoc, E|]. right. split; [auto|].
      rewrite (Cl X) in P. destruct (loop_down _ _ _ _ _ _ P L) as [-> _]. now rewrite app_nil_r. }
    destruct o; injection H as <-.
    + destruct K as [-> K]. split; cbn [state wq down sent flight shuts writing armed log]; auto; try congruence.
      * destruct A' as [A'|[X A']]; [left; exact A'|right; split; [|auto]]. rewrite X. reflexivity.
      * destruct (state s); cbn; discriminate.
      * destruct (state s); cbn; try discriminate. congruence.
      * destruct (state s); cbn; intros X; try discriminate; [apply orb_true_r|]. now rewrite Cl.
    + split; cbn [state wq down sent flight shuts writing armed log]; auto; try congruence; try tauto.
    + split; cbn [state wq down sent flight shuts writing armed log]; auto; try congruence.
      destruct A' as [A'|[X A']]; [left; exact A'|right; split; auto].
Qed.

Lemma run_app s e1 e2 : run s (e1 ++ e2) = match run s e1 with Some s1 => run s1 e2 | None => None end.
Proof. revert s. induction e1 as [|e e1 IH]; cbn; intros s; auto. destruct (step s e); auto. Qed.

Lemma inv_run s es s' : Inv s -> run s es = Some s' -> Inv s'.
Proof.
  revert s. induction es as [|e es IH]; cbn; intros s I H; [injection H as <-; auto|].
  destruct (step s e) as [s1|] eqn:E; [|discriminate]. apply (IH s1); auto. eapply inv_step; eauto.
Qed.
Lemma reach es s : run init es = Some s -> Inv s.
Proof. apply inv_run, inv_init. Qed.
