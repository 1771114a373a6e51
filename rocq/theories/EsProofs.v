(** Proofs about the queues of easy HTTP and WebSocket servers and clients *)
From Coq Require Import ZArith List Bool Lia PeanoNat.
From Verif Require Import EsModel EsSpec.
Import ListNotations.
Open Scope list_scope.

(** ** Lists *)
Lemma upto_app {E} (c : E -> bool) a b : upto c (a ++ b) = upto c a ++ if existsb c a then [] else upto c b.
Proof. induction a as [|x a IH]; [reflexivity|]. cbn [app upto existsb]. destruct (c x); [reflexivity|]. cbn [orb]. now rewrite IH. Qed.
Lemma upto_none {E} (c : E -> bool) a : existsb c a = false -> upto c a = a.
Proof. induction a as [|x a IH]; [reflexivity|]. cbn [upto existsb]. intros H. apply orb_false_iff in H as [-> H]. now rewrite IH. Qed.
Lemma prefix_refl {A} (a : list A) : prefix_of a a.
Proof. exists []. now rewrite app_nil_r. Qed.
Lemma prefix_more {A} (a b c : list A) : prefix_of a b -> prefix_of a (b ++ c).
Proof. intros [d ->]. exists (d ++ c). now rewrite app_assoc. Qed.
Lemma prefix_upto {E} (c : E -> bool) a b d : prefix_of a (upto c b) -> prefix_of a (upto c (b ++ d)).
Proof. intros H. rewrite upto_app. now apply prefix_more. Qed.

Lemma nth_set {A} (l : list A) i j (x : A) : nth_error (set_at i x l) j = if Nat.eq_dec i j then match nth_error l i with Some _ => Some x | None => None end else nth_error l j.
Proof.
  revert i j. induction l as [|y l IH]; intros i j.
  - replace (set_at i x []) with (@nil A) by (destruct i; reflexivity). replace (nth_error [] i) with (@None A) by (destruct i; reflexivity).
    replace (nth_error [] j) with (@None A) by (destruct j; reflexivity). now destruct (Nat.eq_dec i j).
  - destruct i as [|i], j as [|j]; cbn [set_at nth_error]; try reflexivity.
    rewrite IH. destruct (Nat.eq_dec i j), (Nat.eq_dec (S i) (S j)); try reflexivity; lia.
Qed.

Section Queue.
Context {E X : Type}.
Variable K : kind E X.

(** At most one fiber *)
Definition lone (fs : list (option (status E))) (o : option (nat * status E)) : Prop :=
  (forall g y, nth_error fs g = Some (Some y) -> o = Some (g, y)) /\ (forall g y, o = Some (g, y) -> nth_error fs g = Some (Some y)).
Lemma lone_none fs : lone fs None -> Forall (fun f => f = None) fs.
Proof. intros [H _]. apply Forall_forall. intros [y|] I; [|reflexivity]. apply In_nth_error in I as [g G]. now apply H in G. Qed.
Lemma lone_quiet fs o : lone fs o -> Forall (fun f => f = None) fs -> o = None.
Proof. intros [_ H] Q. destruct o as [[g y]|]; [|reflexivity]. specialize (H g y eq_refl). apply nth_error_In in H. rewrite Forall_forall in Q. now apply Q in H. Qed.
Lemma lone_new fs : lone fs None -> lone (fs ++ [Some Top]) (Some (length fs, Top)).
Proof.
  intros [H _]. split.
  - intros g y G. destruct (Nat.lt_ge_cases g (length fs)) as [L|L]; [rewrite nth_error_app1 in G by exact L; now apply H in G|].
    rewrite nth_error_app2 in G by exact L. destruct (g - length fs)%nat as [|[|]] eqn:D; cbn in G; [|discriminate|discriminate]. injection G as <-. do 2 f_equal. lia.
  - intros g y [= <- <-]. rewrite nth_error_app2, Nat.sub_diag by lia. reflexivity.
Qed.
Lemma lone_set fs f y z : lone fs (Some (f, y)) -> lone (set_at f z fs) (match z with Some z => Some (f, z) | None => None end).
Proof.
  intros [H1 H2]. pose proof (H2 f y eq_refl) as F. split.
  - intros g w G. rewrite nth_set, F in G. destruct (Nat.eq_dec f g) as [<-|N]; [injection G as ->; reflexivity|]. apply H1 in G. injection G as <- <-. lia.
  - intros g w G. destruct z as [z|]; [|discriminate]. injection G as <- <-. rewrite nth_set, F. now destruct (Nat.eq_dec f f).
Qed.
Lemma lone_busy fs o : lone fs o -> existsb busy fs = match o with Some (_, Busy _) => true | _ => false end.
Proof.
  intros [H1 H2]. destruct o as [[f [|e]]|].
  - destruct (existsb busy fs) eqn:B; [|reflexivity]. apply existsb_exists in B as (x & I & B). apply In_nth_error in I as [g G]. destruct x as [[|e]|]; try discriminate. now apply H1 in G.
  - apply existsb_exists. exists (Some (Busy e)). split; [|reflexivity]. eapply nth_error_In, H2. reflexivity.
  - destruct (existsb busy fs) eqn:B; [|reflexivity]. apply existsb_exists in B as (x & I & B). apply In_nth_error in I as [g G]. destruct x as [[|e]|]; try discriminate. now apply H1 in G.
Qed.

Definition matches (o : option (nat * status E)) (now : option (turn E X)) : Prop :=
  match o, now with
  | Some (f, Busy e), Some t => t_fiber t = f /\ t_event t = e
  | Some (_, Busy _), None | _, Some _ => False
  | _, None => True
  end.
(** [P] is what has been pushed, and [ok] says that nothing has disturbed it. *)
Definition inv (P : list E) (ok : bool) (st : state E X) : Prop :=
  exists o ts now, lone (fibers st) o /\ takes_turns K (log st) ts now /\ matches o now
    /\ (ok = true -> stopped st = false)
    /\ match entry st with
       | Some (es, active) => events_of ts now ++ es = P /\ existsb (closes K) (events_of ts now) = false
           /\ active = (match o with Some _ => true | None => false end) /\ (o = None -> es = [])
       | None => prefix_of (events_of ts now) (upto (closes K) P) /\ (ok = true -> events_of ts now = upto (closes K) P /\ existsb (closes K) P = true)
       end.

Lemma by_fibers_app (a b : list (item E X)) : by_fibers (a ++ b) = by_fibers a ++ by_fibers b.
Proof. apply filter_app. Qed.
Lemma turns_network l ts now x : takes_turns K l ts now -> takes_turns K (l ++ [Network x]) ts now.
Proof. intros (H1 & H2). split; [|exact H2]. rewrite by_fibers_app, H1. cbn [by_fibers filter]. now rewrite app_nil_r. Qed.
Lemma turns_began l ts f e : takes_turns K l ts None -> takes_turns K (l ++ [Began f e]) ts (Some (mkTurn f e [] [])).
Proof. intros (H1 & H2 & _). split; [|split; [exact H2|reflexivity]]. rewrite by_fibers_app, H1, app_nil_r. reflexivity. Qed.
Lemma turns_user l ts t x : takes_turns K l ts (Some t) -> served K (t_event t) = true ->
  takes_turns K (l ++ [User (t_fiber t) x]) ts (Some (mkTurn (t_fiber t) (t_event t) (t_user t ++ [x]) (t_own t))).
Proof.
  intros (H1 & H2 & H3) Sv. split; [|split; [exact H2|cbn; congruence]]. rewrite by_fibers_app, H1. cbn [by_fibers filter]. rewrite <- app_assoc. f_equal.
  unfold unfinished. cbn [t_fiber t_event t_user]. now rewrite map_app.
Qed.
Lemma filter_own f xs : filter (fun i : item E X => match i with Network _ => false | _ => true end) (map (Own f) xs) = map (Own f) xs.
Proof. induction xs as [|x xs IH]; [reflexivity|]. cbn [map filter]. now rewrite IH. Qed.
Lemma turns_ended l ts t threw : takes_turns K l ts (Some t) ->
  takes_turns K (l ++ map (Own (t_fiber t)) (finish K (t_event t) threw) ++ [Ended (t_fiber t) (t_event t)])
    (ts ++ [mkTurn (t_fiber t) (t_event t) (t_user t) (finish K (t_event t) threw)]) None.
Proof.
  intros (H1 & H2 & H3). split; [|split; [|exact I]].
  - rewrite !by_fibers_app, H1. unfold by_fibers at 1. rewrite filter_own. cbn [by_fibers filter]. rewrite flat_map_app, app_nil_r, <- app_assoc. f_equal.
    cbn [flat_map]. rewrite app_nil_r. unfold unfinished, whole. cbn [t_fiber t_event t_user t_own app]. now rewrite ?app_assoc.
  - apply Forall_app. split; [exact H2|]. constructor; [|constructor]. split; [exact H3|]. now exists threw.
Qed.
Lemma events_ended (ts : list (turn E X)) (t : turn E X) u v : events_of (ts ++ [mkTurn (t_fiber t) (t_event t) u v]) None = events_of ts (Some t).
Proof. unfold events_of. rewrite map_app, app_nil_r. reflexivity. Qed.

Definition fine (x : event E X) : bool := match x with Push _ Fine | Pop _ | Act _ _ | Return _ _ | Send _ => true | _ => false end.

Lemma step_inv P ok st x st' : inv P ok st -> step K st x = Some st' -> inv (P ++ pushes [x]) (ok && fine x) st'.
Proof.
  intros (o & ts & now & Lo & Tu & Ma & Ok & En) S.
  destruct x as [e r|f|f x|f threw|x| |]; cbn [step] in S.
  - (* Push *)
    cbn [pushes flat_map app].
    destruct (entry st) as [[es active]|] eqn:EN; cbn in S.
    + destruct En as (E1 & E2 & E3 & E4). destruct r; cbn [fine]; rewrite ?andb_true_r, ?andb_false_r.
      * injection S as <-. destruct o as [[f y]|].
        -- subst active. exists (Some (f, y)), ts, now. cbn [fibers log stopped entry]. repeat (split; [assumption|]). split; [now rewrite app_assoc, E1|]. split; [exact E2|]. split; [reflexivity|discriminate].
        -- subst active. exists (Some (length (fibers st), Top)), ts, now. cbn [fibers log stopped entry]. split; [now apply lone_new|]. split; [exact Tu|]. split; [destruct now; [destruct Ma|exact I]|]. split; [exact Ok|].
           split; [now rewrite app_assoc, E1|]. split; [exact E2|]. split; [reflexivity|discriminate].
      * destruct active; [discriminate|]. injection S as <-. exists o, ts, now. cbn [fibers log stopped entry]. split; [exact Lo|]. split; [now apply turns_network|]. split; [exact Ma|]. split; [discriminate|]. split; [|discriminate].
        apply prefix_upto. rewrite <- E1, upto_app, (upto_none _ _ E2), E2. now exists (upto (closes K) es).
      * injection S as <-. destruct o as [[f y]|]; subst active.
        -- exists (Some (f, y)), ts, now. cbn [fibers log stopped entry]. split; [exact Lo|]. split; [now apply turns_network|]. split; [exact Ma|]. split; [discriminate|]. split; [|discriminate].
           apply prefix_upto. rewrite <- E1, upto_app, (upto_none _ _ E2), E2. now exists (upto (closes K) es).
        -- exists (Some (length (fibers st), Top)), ts, now. cbn [fibers log stopped entry]. split; [now apply lone_new|]. split; [now apply turns_network|]. split; [destruct now; [destruct Ma|exact I]|]. split; [discriminate|]. split; [|discriminate].
           apply prefix_upto. rewrite <- E1, upto_app, (upto_none _ _ E2), E2. now exists (upto (closes K) es).
    + injection S as <-. exists o, ts, now. repeat (split; [assumption|]). split; [intros A; apply andb_true_iff in A as [A _]; auto|]. rewrite EN. destruct En as [E1 E2].
      split; [now apply prefix_upto|]. intros A. apply andb_true_iff in A as [A _]. destruct (E2 A) as [E3 E4]. rewrite upto_app, E4, app_nil_r, existsb_app, E4. auto.
  - (* Pop *)
    cbn [pushes flat_map app fine]. rewrite app_nil_r, andb_true_r. destruct (nth_error (fibers st) f) as [[[|e]|]|] eqn:F; try discriminate.
    assert (o = Some (f, Top)) as -> by (now apply (proj1 Lo)). destruct now as [t|]; [destruct Ma|].
    destruct (entry st) as [[[|e es] active]|] eqn:EN; injection S as <-.
    + destruct En as (E1 & E2 & E3 & E4). exists None, ts, None. cbn [fibers log stopped entry]. split; [exact (lone_set _ _ _ None Lo)|]. split; [exact Tu|]. split; [exact I|]. split; [exact Ok|]. auto.
    + destruct En as (E1 & E2 & E3 & E4). exists (Some (f, Busy e)), ts, (Some (mkTurn f e [] [])). cbn [fibers log stopped entry]. split; [exact (lone_set _ _ _ (Some (Busy e)) Lo)|]. split; [now apply turns_began|].
      split; [split; reflexivity|]. split; [exact Ok|]. assert (EV : events_of ts (Some (mkTurn f e [] [])) = events_of ts None ++ [e]) by (unfold events_of; now rewrite app_nil_r). rewrite EV.
      destruct (closes K e) eqn:C.
      * assert (Y : upto (closes K) P = events_of ts None ++ [e]) by (rewrite <- E1, upto_app, (upto_none _ _ E2), E2; cbn [upto]; now rewrite C).
        split; [rewrite Y; apply prefix_refl|]. intros _. split; [now symmetry|]. rewrite <- E1, existsb_app. cbn [existsb]. rewrite C. now rewrite orb_true_r.
      * split; [rewrite <- app_assoc; exact E1|]. split; [rewrite existsb_app, E2; cbn [existsb]; now rewrite C|]. split; [exact E3|discriminate].
    + exists None, ts, None. cbn [fibers log stopped entry]. split; [exact (lone_set _ _ _ None Lo)|]. split; [exact Tu|]. split; [exact I|]. split; [exact Ok|exact En].
  - (* Act *)
    cbn [pushes flat_map app fine]. rewrite app_nil_r, andb_true_r. destruct (nth_error (fibers st) f) as [[[|e]|]|] eqn:F; try discriminate.
    assert (o = Some (f, Busy e)) as -> by (now apply (proj1 Lo)). destruct now as [t|]; [|destruct Ma]. destruct Ma as [<- <-].
    destruct (served K (t_event t)) eqn:Sv; [|discriminate]. injection S as <-. eexists _, ts, _. cbn [fibers log stopped entry]. split; [exact Lo|]. split; [now apply turns_user|]. split; [split; reflexivity|]. split; [exact Ok|].
    unfold events_of in *. cbn [t_event]. destruct (entry st) as [[es active]|]; exact En.
  - (* Return *)
    cbn [pushes flat_map app fine]. rewrite app_nil_r, andb_true_r. destruct (nth_error (fibers st) f) as [[[|e]|]|] eqn:F; try discriminate.
    assert (o = Some (f, Busy e)) as -> by (now apply (proj1 Lo)). destruct now as [t|]; [|destruct Ma]. destruct Ma as [<- <-]. injection S as <-.
    exists (Some (t_fiber t, Top)), (ts ++ [mkTurn (t_fiber t) (t_event t) (t_user t) (finish K (t_event t) threw)]), None. cbn [fibers log stopped entry].
    split; [exact (lone_set _ _ _ (Some Top) Lo)|]. split; [now apply turns_ended|]. split; [exact I|]. split; [exact Ok|]. rewrite events_ended.
    destruct (entry st) as [[es active]|]; [|exact En]. destruct En as (E1 & E2 & E3 & E4). split; [exact E1|]. split; [exact E2|]. split; [exact E3|discriminate].
  - (* Send *)
    cbn [pushes flat_map app fine]. rewrite app_nil_r, andb_true_r. injection S as <-. exists o, ts, now. cbn [fibers log stopped entry]. split; [exact Lo|]. split; [now apply turns_network|]. auto.
  - (* Stop *)
    cbn [pushes flat_map app fine]. rewrite app_nil_r, andb_false_r. injection S as <-. exists o, ts, now. cbn [fibers log stopped entry]. repeat (split; [assumption|]). split; [discriminate|].
    destruct (entry st) as [[es active]|]; [exact En|]. split; [apply En|discriminate].
  - (* Release *)
    cbn [pushes flat_map app fine]. rewrite app_nil_r, andb_false_r. destruct (stopped st && _); [|discriminate]. injection S as <-. exists o, ts, now. cbn [fibers log stopped entry]. repeat (split; [assumption|]). split; [discriminate|].
    split; [|discriminate]. destruct (entry st) as [[es active]|]; [|apply En]. destruct En as (E1 & E2 & _). rewrite <- E1, upto_app, (upto_none _ _ E2), E2. now exists (upto (closes K) es).
Qed.

Lemma init_inv : inv [] true init.
Proof.
  exists None, [], None. cbn [init fibers log stopped entry]. split; [split; [intros [|g] y; discriminate|discriminate]|]. split; [split; [reflexivity|split; [constructor|exact I]]|]. split; [exact I|]. split; [reflexivity|].
  repeat split.
Qed.
Lemma pushes_app (a b : list (event E X)) : pushes (a ++ b) = pushes a ++ pushes b.
Proof. apply flat_map_app. Qed.
Lemma run_inv xs : forall P ok st st', inv P ok st -> run K st xs = Some st' -> inv (P ++ pushes xs) (ok && forallb fine xs) st'.
Proof.
  induction xs as [|x xs IH]; intros P ok st st' I R; cbn [run] in R.
  - injection R as <-. cbn [pushes flat_map forallb]. now rewrite app_nil_r, andb_true_r.
  - destruct (step K st x) as [st1|] eqn:S; [|discriminate]. pose proof (step_inv _ _ _ _ _ I S) as I1. specialize (IH _ _ _ _ I1 R).
    change (x :: xs) with ([x] ++ xs). rewrite pushes_app, app_assoc. cbn [app forallb]. now rewrite andb_assoc.
Qed.
Lemma undisturbed_fine xs : undisturbed xs -> forallb fine xs = true.
Proof. intros H. apply forallb_forall. intros x I. unfold undisturbed in H. rewrite Forall_forall in H. specialize (H x I). destruct x as [? []| | | | | |]; try reflexivity; destruct H. Qed.

(** What fibers take is what turns say. *)
Lemma taken_network l : taken (by_fibers l) = taken (l : list (item E X)).
Proof. induction l as [|i l IH]; [reflexivity|]. destruct i as [f e|f x|f x|f e|x]; [exact (f_equal (cons e) IH)|exact IH|exact IH|exact IH|exact IH]. Qed.
Lemma done_network l : done_to (by_fibers l) = done_to (l : list (item E X)).
Proof. induction l as [|i l IH]; [reflexivity|]. destruct i as [f e|f x|f x|f e|x]; [exact IH|exact (f_equal (cons x) IH)|exact (f_equal (cons x) IH)|exact IH|exact IH]. Qed.
Lemma taken_app (a b : list (item E X)) : taken (a ++ b) = taken a ++ taken b.
Proof. apply flat_map_app. Qed.
Lemma done_app (a b : list (item E X)) : done_to (a ++ b) = done_to a ++ done_to b.
Proof. apply flat_map_app. Qed.
Lemma taken_user f xs : taken (map (User f) xs : list (item E X)) = [].
Proof. induction xs; [reflexivity|assumption]. Qed.
Lemma taken_own f xs : taken (map (Own f) xs : list (item E X)) = [].
Proof. induction xs; [reflexivity|assumption]. Qed.
Lemma done_user f xs : done_to (map (User f) xs : list (item E X)) = xs.
Proof. induction xs as [|x xs IH]; [reflexivity|]. cbn [map done_to flat_map app]. now f_equal. Qed.
Lemma done_own f xs : done_to (map (Own f) xs : list (item E X)) = xs.
Proof. induction xs as [|x xs IH]; [reflexivity|]. cbn [map done_to flat_map app]. now f_equal. Qed.
Lemma turns_taken l ts now : takes_turns K l ts now -> taken l = events_of ts now.
Proof.
  intros (H & _). rewrite <- taken_network, H, taken_app. unfold events_of. f_equal.
  - clear. induction ts as [|t ts IH]; [reflexivity|]. cbn [flat_map map]. rewrite taken_app, IH. unfold whole. cbn [taken flat_map app]. fold (@taken E X). change (flat_map _ ?l) with (taken l). now rewrite !taken_app, taken_user, taken_own.
  - destruct now as [t|]; [|reflexivity]. unfold unfinished. cbn [taken flat_map app]. change (flat_map _ ?l) with (taken l). now rewrite taken_user.
Qed.
Lemma turns_done l ts now : takes_turns K l ts now ->
  done_to l = flat_map (fun t => t_user t ++ t_own t) ts ++ match now with Some t => t_user t | None => [] end.
Proof.
  intros (H & _). rewrite <- done_network, H, done_app. f_equal.
  - clear. induction ts as [|t ts IH]; [reflexivity|]. cbn [flat_map]. rewrite done_app, IH. f_equal. unfold whole. cbn [done_to flat_map app]. change (flat_map _ ?l) with (done_to l). rewrite !done_app, done_user, done_own. now rewrite app_nil_r.
  - destruct now as [t|]; [|reflexivity]. unfold unfinished. cbn [done_to flat_map app]. change (flat_map _ ?l) with (done_to l). now rewrite done_user.
Qed.

(** Fibers come to an end if they are left alone. *)
Definition todo (st : state E X) : nat := match entry st with Some (es, _) => length es | None => O end.
Lemma settle n : forall P ok st, (todo st < n)%nat -> inv P ok st ->
  exists ys st', Forall (fun y => match y with Pop _ | Return _ _ => True | _ => False end) ys /\ (length ys <= 3 * n)%nat /\ run K st ys = Some st' /\ quiet st'.
Proof.
  induction n as [|n IH]; intros P ok st T I; [lia|]. pose proof I as I0. destruct I as (o & ts & now & Lo & Tu & Ma & Ok & En). destruct o as [[f y]|].
  2:{ exists [], st. split; [constructor|]. split; [cbn; lia|]. split; [reflexivity|]. now apply lone_none. }
  (* from the top of the loop *)
  assert (TOP : forall st, (todo st < S n)%nat -> inv P ok st -> nth_error (fibers st) f = Some (Some Top) ->
     exists ys st', Forall (fun y => match y with Pop _ | Return _ _ => True | _ => False end) ys /\ (length ys <= 3 * n + 2)%nat /\ run K st ys = Some st' /\ quiet st').
  { clear st T Lo Tu Ma Ok En I0 ts now y. intros st T I F. destruct (step K st (Pop f)) as [st1|] eqn:S1.
    2:{ cbn [step] in S1. rewrite F in S1. destruct (entry st) as [[[|e es] a]|]; discriminate. }
    pose proof (step_inv _ _ _ _ _ I S1) as I1. cbn [pushes flat_map app fine] in I1. rewrite app_nil_r, andb_true_r in I1.
    pose proof S1 as S2. cbn [step] in S2. rewrite F in S2. destruct I as (o & ts & now & Lo & _). assert (o = Some (f, Top)) as -> by (now apply (proj1 Lo)).
    destruct (entry st) as [[[|e es] a]|] eqn:EN; injection S2 as S2.
    1, 3: exists [Pop f], st1; split; [constructor; [exact I|constructor]|]; split; [cbn; lia|]; split; [cbn [run]; now rewrite S1|];
          subst st1; apply lone_none; exact (lone_set _ _ _ None Lo).
    assert (N1 : (todo st1 < n)%nat). { unfold todo in *. rewrite EN in T. cbn [length] in T. subst st1. cbn [entry]. destruct (closes K e); cbn [length]; lia. }
    assert (F1 : nth_error (fibers st1) f = Some (Some (Busy e))) by (subst st1; cbn [fibers]; rewrite nth_set, F; now destruct (Nat.eq_dec f f)).
    destruct (step K st1 (Return f false)) as [st2|] eqn:S3; [|cbn [step] in S3; rewrite F1 in S3; discriminate].
    pose proof (step_inv _ _ _ _ _ I1 S3) as I2. cbn [pushes flat_map app fine] in I2. rewrite app_nil_r, andb_true_r in I2.
    assert (N2 : (todo st2 < n)%nat) by (cbn [step] in S3; rewrite F1 in S3; injection S3 as <-; exact N1).
    destruct (IH _ _ _ N2 I2) as (ys & st' & Y1 & Y2 & Y3 & Y4).
    exists (Pop f :: Return f false :: ys), st'. split; [constructor; [exact Logic.I|constructor; [exact Logic.I|exact Y1]]|]. split; [cbn [length]; lia|]. split; [|exact Y4]. cbn [run]. now rewrite S1, S3. }
  pose proof (proj2 Lo f y eq_refl) as F. destruct y as [|e].
  - destruct (TOP st T I0 F) as (ys & st' & Y1 & Y2 & Y3 & Y4). exists ys, st'. split; [exact Y1|]. split; [lia|]. auto.
  - destruct (step K st (Return f false)) as [st2|] eqn:S3; [|cbn [step] in S3; rewrite F in S3; discriminate].
    pose proof (step_inv _ _ _ _ _ I0 S3) as I2. cbn [pushes flat_map app fine] in I2. rewrite app_nil_r, andb_true_r in I2. pose proof S3 as S4. cbn [step] in S4. rewrite F in S4. injection S4 as S4.
    destruct (TOP st2) as (ys & st' & Y1 & Y2 & Y3 & Y4); [unfold todo in *; subst st2; exact T|exact I2|subst st2; cbn [fibers]; rewrite nth_set, F; now destruct (Nat.eq_dec f f)|].
    exists (Return f false :: ys), st'. split; [constructor; [exact Logic.I|exact Y1]|]. split; [cbn [length]; lia|]. split; [cbn [run]; now rewrite S3|exact Y4].
Qed.
End Queue.
