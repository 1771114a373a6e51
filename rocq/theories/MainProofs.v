(** Proofs about the program. *)
From Coq Require Import ZArith List Bool Lia ZifyBool String.
From Verif Require Import MainModel MainSpec.
Import ListNotations.
Open Scope list_scope.
Open Scope Z_scope.
Notation length := List.length.
Local Set Warnings "-unused-intro-pattern".

(** ** The command line *)

Definition add (f : flags) (is : list item) : flags :=
  mkFlags (f_d f || has 100 is) (f_h f || has 104 is) (f_V f || has 86 is) (f_v f || has 118 is).
Lemma letters_ok s : Forall (fun c => c = 100 \/ c = 104 \/ c = 86 \/ c = 118) s -> forall f,
  letters f s = Some (mkFlags (f_d f || existsb (Z.eqb 100) s) (f_h f || existsb (Z.eqb 104) s) (f_V f || existsb (Z.eqb 86) s) (f_v f || existsb (Z.eqb 118) s)).
Proof.
  induction 1 as [|c s Hc Hs IH]; intros [d h V v]; [cbn; now rewrite !orb_false_r|]. cbn [letters existsb f_d f_h f_V f_v].
  destruct Hc as [-> |[-> |[-> | ->]]]; cbn; rewrite IH; cbn; rewrite ?orb_true_r; reflexivity.
Qed.
Lemma letters_bad s : ~ Forall (fun c => c = 100 \/ c = 104 \/ c = 86 \/ c = 118) s -> forall f, letters f s = None.
Proof.
  induction s as [|c s IH]; intros N f; [destruct N; constructor|]. cbn [letters].
  destruct (Z.eqb_spec c 100); [apply IH; intros F; apply N; constructor; auto|]. destruct (Z.eqb_spec c 104); [apply IH; intros F; apply N; constructor; auto|].
  destruct (Z.eqb_spec c 86); [apply IH; intros F; apply N; constructor; auto|]. destruct (Z.eqb_spec c 118); [apply IH; intros F; apply N; constructor; auto|]. reflexivity.
Qed.
Lemma getopt_word posix f w args ws : (forall c s, w <> 45 :: c :: s) ->
  getopt posix f (w :: args) ws = if posix then Some (f, ws ++ w :: args) else getopt posix f args (ws ++ [w]).
Proof.
  intros N. destruct w as [|c w]; [reflexivity|]. destruct w as [|c' w]; [cbn [getopt]; repeat (destruct c as [|c|c]; try reflexivity)|].
  destruct (Z.eqb_spec c 45) as [-> |E]; [destruct (N c' w); reflexivity|]. cbn [getopt]. repeat (destruct c as [|c|c]; try reflexivity). congruence.
Qed.
Lemma getopt_letters posix f c s args ws : c <> 45 -> getopt posix f ((45 :: c :: s) :: args) ws = match letters f (c :: s) with Some f => getopt posix f args ws | None => None end.
Proof. intros N. cbn [getopt]. repeat (destruct c as [|c|c]; try reflexivity). congruence. Qed.
Lemma getopt_letters2 posix f c d s args ws : getopt posix f ((45 :: c :: d :: s) :: args) ws = match letters f (c :: d :: s) with Some f => getopt posix f args ws | None => None end.
Proof. cbn [getopt]. repeat (destruct c as [|c|c]; try reflexivity). Qed.

Lemma add_cons f i is : add f (i :: is) = add (add f [i]) is.
Proof. unfold add, has. cbn [existsb f_d f_h f_V f_v]. rewrite !orb_false_r, !orb_assoc. reflexivity. Qed.
Lemma letters_add f c s : Forall (fun c => c = 100 \/ c = 104 \/ c = 86 \/ c = 118) (c :: s) -> letters f (c :: s) = Some (add f [Letters (c :: s)]).
Proof. intros F. rewrite letters_ok by exact F. unfold add, has. cbn [existsb]. now rewrite !orb_false_r. Qed.
Lemma letter_not_dash c s : Forall (fun c => c = 100 \/ c = 104 \/ c = 86 \/ c = 118) (c :: s) -> c <> 45.
Proof. intros F. inversion F; subst. lia. Qed.
Lemma letters_step posix f s args ws : proper (Letters s) -> getopt posix f (written (Letters s) :: args) ws = getopt posix (add f [Letters s]) args ws.
Proof.
  intros [N F]. destruct s as [|c s]; [congruence|]. cbn [written]. rewrite getopt_letters by (eapply letter_not_dash; eauto). now rewrite letters_add.
Qed.

Lemma getopt_items is : Forall proper is -> forall f args ws, getopt false f (map written is ++ args) ws = getopt false (add f is) args (ws ++ words is).
Proof.
  induction 1 as [|i is P Ps IH]; intros f args ws.
  - cbn [map app words flat_map]. rewrite app_nil_r. unfold add, has. cbn [existsb]. rewrite !orb_false_r. now destruct f.
  - cbn [map app]. rewrite add_cons. destruct i as [s|w].
    + rewrite letters_step by exact P. rewrite IH. reflexivity.
    + cbn [written]. rewrite getopt_word by exact P. rewrite IH. unfold words. cbn [flat_map]. rewrite <- app_assoc. f_equal.
      unfold add, has. cbn [existsb f_d f_h f_V f_v]. now rewrite !orb_false_r.
Qed.
Lemma getopt_posix is : Forall proper is -> words is = [] -> forall f args ws, getopt true f (map written is ++ args) ws = getopt true (add f is) args ws.
Proof.
  induction 1 as [|i is P Ps IH]; intros W f args ws.
  - cbn [map app]. unfold add, has. cbn [existsb]. rewrite !orb_false_r. now destruct f.
  - destruct i as [s|w]; [|discriminate]. cbn [map app]. rewrite add_cons, letters_step by exact P. now apply IH.
Qed.

Lemma real_paths_spec real ws : (real_paths real ws = None /\ exists w, In w ws /\ real w = None) \/ exists ps, real_paths real ws = Some ps /\ Forall2 (fun w p => real w = Some p) ws ps.
Proof.
  induction ws as [|w ws IH]; [right; exists []; split; [reflexivity|constructor]|]. cbn [real_paths]. destruct (real w) as [p|] eqn:E.
  - destruct IH as [[-> (w' & I & N)]|(ps & -> & F)]; [left; split; [reflexivity|]; exists w'; split; [now right|exact N]|right; exists (p :: ps); split; [reflexivity|constructor; auto]].
  - left. split; [reflexivity|]. exists w. split; [now left|exact E].
Qed.

Lemma text_eqb_eq a : forall b, text_eqb a b = true <-> a = b.
Proof.
  induction a as [|x a IH]; intros [|y b]; cbn [text_eqb]; try (split; [discriminate|discriminate]); [now split|]. rewrite andb_true_iff, Z.eqb_eq, IH. split; [now intros [-> ->]|now intros [= -> ->]].
Qed.
Definition not_long (args : list (list Z)) : Prop := forall a, hd_error args = Some a -> a <> Text.txt "--help" /\ a <> Text.txt "--version".
Lemma command_parsed posix real args : not_long args -> command_line posix real args =
  match getopt posix (mkFlags false false false false) args [] with
  | None => Invalid
  | Some (f, words) =>
      if f_h f then Help else if f_V f then Version
      else match real_paths real words with None => Bad_path | Some ps => Proceed (mkOptions (f_d f) (f_v f) (hd [] ps) (tl ps)) end
  end.
Proof.
  intros N. unfold command_line. assert (E : forall t, (t = Text.txt "--help" \/ t = Text.txt "--version") -> match args with a :: _ => text_eqb a t | [] => false end = false).
  { intros t Ht. destruct args as [|a args]; [reflexivity|]. destruct (N a eq_refl) as [N1 N2]. apply not_true_iff_false. rewrite text_eqb_eq. destruct Ht as [-> | ->]; assumption. }
  rewrite !E by auto. destruct (getopt _ _ _ _) as [[f ws]|]; [|reflexivity]. destruct (f_h f); [reflexivity|]. destruct (f_V f); [reflexivity|]. now destruct (real_paths real ws) as [[|p ps]|].
Qed.
Lemma meant_spec real is more ws : ws = words is ++ more ->
  meant real is more
    (if f_h (add (mkFlags false false false false) is) then Help else if f_V (add (mkFlags false false false false) is) then Version
     else match real_paths real ws with None => Bad_path | Some ps => Proceed (mkOptions (f_d (add (mkFlags false false false false) is)) (f_v (add (mkFlags false false false false) is)) (hd [] ps) (tl ps)) end).
Proof.
  intros ->. unfold meant, add. cbn [f_h f_V f_d f_v orb]. destruct (has 104 is); [reflexivity|]. destruct (has 86 is); [reflexivity|].
  destruct (real_paths_spec real (words is ++ more)) as [[-> H]|(ps & -> & F)]; [left; auto|right; eauto].
Qed.

(** ** Start-up *)

(** What is done is a beginning of what is to be done, and if it stops early something has failed. *)
Definition follows (p : progress) (l acts : list action) : Prop :=
  match p with
  | Goes l' => l' = l ++ acts
  | Stops l' e => (e = Exit 1 \/ e = Abort) /\ exists k, l' = l ++ firstn k acts
  end.
Lemma follows_bind p f l acts1 acts2 : follows p l acts1 -> (forall l', l' = l ++ acts1 -> follows (f l') (l ++ acts1) acts2) -> follows (bind p f) l (acts1 ++ acts2).
Proof.
  destruct p as [l'|l' e]; cbn [follows bind].
  - intros E F. specialize (F l' E). destruct (f l') as [l2|l2 e]; cbn [follows] in *; [now rewrite F, app_assoc|]. destruct F as [A (k & ->)]. split; [exact A|]. exists (length acts1 + k)%nat. rewrite firstn_app_2. now rewrite app_assoc.
  - intros [A (k & ->)] _. split; [exact A|]. exists (min k (length acts1)). rewrite firstn_app. replace (min k (length acts1) - length acts1)%nat with O by lia. cbn [firstn]. rewrite app_nil_r. f_equal.
    destruct (Nat.le_ge_cases k (length acts1)); [now rewrite Nat.min_l|]. rewrite Nat.min_r, firstn_all by assumption. now apply firstn_all2.
Qed.
Lemma follows_shift p l acts1 acts2 : follows p (l ++ acts1) acts2 -> follows p l (acts1 ++ acts2).
Proof. intros F. apply (follows_bind (Goes (l ++ acts1)) (fun _ => p) l acts1); [reflexivity|]. intros l' _. exact F. Qed.
Lemma follows_attempt o a l : follows (attempt o a l) l [a].
Proof. destruct o; cbn; [reflexivity| |]; (split; [auto|]; exists O; cbn; now rewrite app_nil_r). Qed.
Lemma follows_stop l e acts : e = Exit 1 \/ e = Abort -> follows (Stops l e) l acts.
Proof. intros H. split; [exact H|]. exists O. now rewrite app_nil_r. Qed.
Lemma follows_each {X} (f : X -> log -> progress) g xs : (forall x l, follows (f x l) l (g x)) -> forall l, follows (each f xs l) l (flat_map g xs).
Proof.
  intros H. induction xs as [|x xs IH]; intros l; [cbn; now rewrite app_nil_r|]. cbn [each flat_map]. apply follows_bind; [apply H|]. intros l' ->. apply IH.
Qed.
Lemma follows_goes p l acts : follows p l acts -> forall l', p = Goes l' -> l' = l ++ acts.
Proof. now intros F l' ->. Qed.

Lemma follows_module s m l : follows (load_module s m l) l (Loaded m :: match entry s m with Some _ => [Entered m] | None => [] end).
Proof.
  unfold load_module. destruct (on_open s m); [|apply follows_stop; auto]. destruct (entry s m) as [o|]; [|reflexivity].
  apply (follows_bind (Goes (l ++ [Loaded m])) (attempt o (Entered m)) l [Loaded m]); [reflexivity|]. intros l' ->. apply follows_attempt.
Qed.

(** The part before the launcher is told *)
Definition prepared (s : system) (o : options) : progress :=
  bind (set_directory s o []) (fun l =>
  bind (match on_config s with Fine => Goes l | Throws => Stops l (Exit 1) | Dies => Stops l Abort end) (fun l =>
  bind (attempt (on_reload s Logger) (Configured Logger) l) (fun l =>
  let l := if daemonize o then l ++ [Detached] else l in
  let l := l ++ [Handling] in
  bind (match cmd_modules o with [] => attempt (on_pid_file s) Locked l | _ => Goes l end) (fun l =>
  bind (each (fun c => attempt (on_reload s c) (Configured c)) [Mysql; Mongo; Redis; Network; Fibers] l) (fun l =>
  bind (each (create_thread s) [0; 1; 2; 3; 4; 5; 6; 7] l) (fun l =>
  load_modules s o l)))))).
Lemma bind_assoc p f g : bind (bind p f) g = bind p (fun l => bind (f l) g).
Proof. now destruct p. Qed.
Lemma bind_ext p f g : (forall l, f l = g l) -> bind p f = bind p g.
Proof. intros H. destruct p; [apply H|reflexivity]. Qed.
Lemma main_prepared posix s args o : command_line posix (real s) args = Proceed o -> main posix s args = bind (prepared s o) (fun l => schedule (early s) (turns s) (l ++ [Ready])).
Proof.
  intros E. unfold main, prepared. rewrite E. rewrite !bind_assoc. apply bind_ext. intros l1. rewrite !bind_assoc. apply bind_ext. intros l2. rewrite !bind_assoc. apply bind_ext. intros l3. cbv zeta.
  rewrite !bind_assoc. apply bind_ext. intros l4. rewrite !bind_assoc. apply bind_ext. intros l5. rewrite !bind_assoc. apply bind_ext. intros l6. reflexivity.
Qed.
Lemma prepared_follows s o : follows (prepared s o) [] (plan s o (match chosen s o with Some ms => ms | None => [] end)).
Proof.
  unfold prepared, plan. apply follows_bind.
  { unfold set_directory. destruct (cd_here o) as [|c d]; [reflexivity|]. destruct (on_chdir s); [reflexivity|]. apply follows_stop. auto. }
  intros l -> . match goal with |- follows _ _ ?a => change a with ([] ++ a) end. apply follows_bind.
  { destruct (on_config s); [cbn; now rewrite app_nil_r|apply follows_stop; auto|apply follows_stop; auto]. }
  intros l ->. rewrite app_nil_r. apply (follows_bind _ _ _ [Configured Logger]); [apply follows_attempt|].
  intros l ->. cbv zeta. set (L := ([] ++ _) ++ [Configured Logger]).
  match goal with |- follows _ _ (?a ++ ?b ++ ?c) => rewrite (app_assoc a b c) end.
  replace ((if daemonize o then L ++ [Detached] else L) ++ [Handling]) with (L ++ (if daemonize o then [Detached] else []) ++ [Handling]) by (destruct (daemonize o); cbn [app]; now rewrite <- ?app_assoc).
  apply follows_shift. apply follows_bind.
  { destruct (cmd_modules o); [apply follows_attempt|cbn; now rewrite app_nil_r]. }
  intros l ->.
  apply (follows_bind _ _ _ [Configured Mysql; Configured Mongo; Configured Redis; Configured Network; Configured Fibers]).
  { apply (follows_each (fun c => attempt (on_reload s c) (Configured c)) (fun c => [Configured c]) [Mysql; Mongo; Redis; Network; Fibers]). intros c l. apply follows_attempt. }
  intros l ->. apply (follows_bind _ _ _ [Thread 0; Thread 1; Thread 2; Thread 3; Thread 4; Thread 5; Thread 6; Thread 7]).
  { apply (follows_each (create_thread s) (fun n => [Thread n]) [0; 1; 2; 3; 4; 5; 6; 7]). intros n l. unfold create_thread. destruct (on_thread s n); [reflexivity|apply follows_stop; auto]. }
  intros l ->. unfold load_modules, chosen. destruct (cmd_modules o); [destruct (conf_modules s); [|apply follows_stop; auto]|]; (apply follows_each; intros; apply follows_module).
Qed.

Lemma schedule_spec ts : forall arrived l, exists n e, schedule arrived ts l = Stops (l ++ repeat Turn n) e /\ (n <= length ts)%nat
  /\ (e = Exit 0 <-> first_at n (arrived :: map snd ts) /\ Forall (fun t => fst t = Fine) (firstn n ts))
  /\ (e = Runs -> n = length ts /\ Forall (fun b => b = false) (arrived :: map snd ts))
  /\ (e = Runs \/ e = Exit 0 \/ e = Exit 1 \/ e = Abort)
  /\ (e = Exit 1 \/ e = Abort -> exists t, nth_error ts n = Some t /\ fst t <> Fine /\ forall k, (k <= n)%nat -> nth_error (arrived :: map snd ts) k = Some false).
Proof.
  assert (Stop : forall ts l, exists n e, Stops l (Exit 0) = Stops (l ++ repeat Turn n) e /\ (n <= length ts)%nat
    /\ (e = Exit 0 <-> first_at n (true :: map snd ts) /\ Forall (fun t : outcome * bool => fst t = Fine) (firstn n ts))
    /\ (e = Runs -> n = length ts /\ Forall (fun b => b = false) (true :: map snd ts))
    /\ (e = Runs \/ e = Exit 0 \/ e = Exit 1 \/ e = Abort) /\ (e = Exit 1 \/ e = Abort -> exists t, nth_error ts n = Some t /\ fst t <> Fine /\ forall k, (k <= n)%nat -> nth_error (true :: map snd ts) k = Some false)).
  { intros ts' l. exists O, (Exit 0). cbn [repeat firstn]. rewrite app_nil_r. split; [reflexivity|]. split; [lia|]. split; [|split; [discriminate|split; [auto|intros [X|X]; discriminate X]]].
    split; [|reflexivity]. intros _. split; [split; [reflexivity|]; intros k L; lia|constructor]. }
  assert (Fail : forall o sig ts l e, o <> Fine -> e = Exit 1 \/ e = Abort -> exists n e', Stops l e = Stops (l ++ repeat Turn n) e' /\ (n <= length ((o, sig) :: ts))%nat
    /\ (e' = Exit 0 <-> first_at n (false :: map snd ((o, sig) :: ts)) /\ Forall (fun t : outcome * bool => fst t = Fine) (firstn n ((o, sig) :: ts)))
    /\ (e' = Runs -> n = length ((o, sig) :: ts) /\ Forall (fun b => b = false) (false :: map snd ((o, sig) :: ts)))
    /\ (e' = Runs \/ e' = Exit 0 \/ e' = Exit 1 \/ e' = Abort) /\ (e' = Exit 1 \/ e' = Abort -> exists t, nth_error ((o, sig) :: ts) n = Some t /\ fst t <> Fine /\ forall k, (k <= n)%nat -> nth_error (false :: map snd ((o, sig) :: ts)) k = Some false)).
  { intros o sig ts' l e N He. exists O, e. cbn [repeat firstn]. rewrite app_nil_r. split; [reflexivity|]. split; [cbn; lia|].
    split; [split; [intros ->; destruct He; discriminate|intros [[X _] _]; discriminate X]|]. split; [intros ->; destruct He; discriminate|]. split; [tauto|]. intros _. exists (o, sig). split; [reflexivity|]. split; [exact N|]. intros k Lk. assert (k = O) by lia. subst k. reflexivity. }
  induction ts as [|[o sig] ts IH]; intros arrived l.
  - destruct arrived; cbn [schedule]; [apply (Stop [] l)|].
    exists O, Runs. cbn [repeat firstn length map]. rewrite app_nil_r. split; [reflexivity|]. split; [lia|]. split; [split; [discriminate|intros [[X _] _]; discriminate X]|].
    split; [auto|]. split; [auto|]. intros [X|X]; discriminate X.
  - destruct arrived; cbn [schedule]; [apply (Stop ((o, sig) :: ts) l)|]. destruct o; cbn [attempt bind]; try (apply Fail; [discriminate|auto]).
    destruct (IH sig (l ++ [Turn])) as (n & e & E & L & A & B & C & G). exists (S n), e. rewrite E. cbn [repeat length map firstn snd]. rewrite <- app_assoc. split; [reflexivity|]. split; [lia|].
    split; [split|split; [|split; [exact C|]]].
    + intros H. apply A in H. destruct H as [[F1 F2] F3]. split; [split; [exact F1|]; intros [|k] Lk; [reflexivity|]; apply F2; lia|constructor; [reflexivity|exact F3]].
    + intros [[F1 F2] F3]. apply A. split; [split; [exact F1|]; intros k Lk; apply (F2 (S k)); lia|now inversion F3].
    + intros H. destruct (B H) as [X Y]. split; [lia|constructor; auto].
    + intros H. destruct (G H) as (t & I & N). exists t. destruct N as [N1 N2]. split; [exact I|]. split; [exact N1|]. intros [|k] Lk; [reflexivity|]. apply N2. lia.
Qed.

Lemma each_goes {X} (f : X -> log -> progress) xs : Forall (fun x => forall l, exists l', f x l = Goes l') xs -> forall l, exists l', each f xs l = Goes l'.
Proof.
  induction 1 as [|x xs H _ IH]; intros l; [cbn; eauto|]. cbn [each]. destruct (H l) as (l' & ->). cbn [bind]. apply IH.
Qed.
Lemma prepared_goes s o ms : smooth s o ms -> exists l, prepared s o = Goes l.
Proof.
  intros (Cd & Co & Re & Pf & Th & Ch & Mo). unfold prepared.
  assert (X : exists l, set_directory s o [] = Goes l) by (unfold set_directory; destruct (cd_here o); [eauto|rewrite Cd by discriminate; eauto]). destruct X as (l1 & ->). cbn [bind]. rewrite Co. cbn [bind].
  rewrite Re. cbn [attempt bind]. cbv zeta. set (l2 := (if daemonize o then _ else _) ++ [Handling]).
  assert (X : exists l, match cmd_modules o with [] => attempt (on_pid_file s) Locked l2 | _ => Goes l2 end = Goes l) by (destruct (cmd_modules o); [rewrite Pf by reflexivity|]; cbn; eauto). destruct X as (l3 & ->). cbn [bind].
  assert (X : exists l, each (fun c => attempt (on_reload s c) (Configured c)) [Mysql; Mongo; Redis; Network; Fibers] l3 = Goes l) by (apply each_goes; repeat constructor; intros; rewrite Re; cbn; eauto). destruct X as (l4 & ->). cbn [bind].
  assert (X : exists l, each (create_thread s) [0; 1; 2; 3; 4; 5; 6; 7] l4 = Goes l) by (apply each_goes; repeat constructor; intros; unfold create_thread; rewrite Th by lia; eauto). destruct X as (l5 & ->). cbn [bind].
  assert (X : exists l, each (load_module s) ms l5 = Goes l).
  { apply each_goes. eapply Forall_impl; [|exact Mo]. intros m [Op En] l. unfold load_module. rewrite Op. destruct En as [-> | ->]; cbn; eauto. }
  unfold load_modules. unfold chosen in Ch. destruct (cmd_modules o); [rewrite Ch; exact X|injection Ch as ->; exact X].
Qed.

(** ** Detaching *)

Definition grand_ok (t : launch) : Prop :=
  (w_grand t = true -> gra t = G_init \/ gra t = G_write) /\ (gra t = G_init \/ gra t = G_write -> w_grand t = true)
  /\ (gra t = G_run -> (0 < buffered t)%nat) /\ (w_child t = true -> chi t = C_fork \/ chi t = C_close)
  /\ (gra t = G_none -> buffered t = O).
Definition ended_ok (t : launch) (st : status) : Prop :=
  (st = exits 0 /\ (0 < buffered t)%nat) \/ (exists s, gra t = G_end s /\ st = exits (passed_on s)) \/ (st = exits 1 /\ gra t = G_none).
Definition child_ok (t : launch) : Prop :=
  match chi t with
  | C_none | C_pipe | C_fork => gra t = G_none
  | C_close | C_read => gra t <> G_none
  | C_wait => exists s, gra t = G_end s
  | C_end st => ended_ok t st
  end.
Definition par_ok (t : launch) : Prop :=
  match par t with
  | P_fork => chi t = C_none
  | P_wait => chi t <> C_none
  | P_end st => (chi t = C_none /\ st = exits 1) \/ (exists st', chi t = C_end st' /\ st = exits (passed_on st'))
  end.
Definition linv (t : launch) : Prop := grand_ok t /\ child_ok t /\ par_ok t.

Lemma linv_init : linv launch_init.
Proof. repeat split; cbn; try discriminate; auto; intros [|]; discriminate. Qed.

Ltac cases E := unfold launch_step in E;
  repeat match type of E with
  | context [match ?x with _ => _ end] => destruct x eqn:?; try discriminate E
  | context [if ?x then _ else _] => destruct x eqn:?; try discriminate E
  end.

Lemma linv_step t e t' : (match e with Kill_parent _ | Kill_child _ => False | _ => True end) -> linv t -> launch_step false t e = Some t' -> linv t'.
Proof.
  intros U ((G1 & G2 & G3 & G4 & G5) & C & P) E. destruct t as [p c g b wc wg wo]. unfold child_ok, par_ok, ended_ok in *. cbn [par chi gra buffered w_child w_grand w_other] in *.
  cases E; subst; try contradiction; injection E as <-; unfold linv, grand_ok, child_ok, par_ok, ended_ok; cbn [par chi gra buffered w_child w_grand w_other wait_for] in *;
    repeat match goal with H : (_ <? _)%nat = true |- _ => apply Nat.ltb_lt in H | H : (_ <? _)%nat = false |- _ => apply Nat.ltb_ge in H end.
  all: try congruence.
  all: repeat match goal with H : ?x <> ?x |- _ => congruence end.
  all: try (split; [solve [intuition (try discriminate; try congruence; try lia)]|split; [solve [intuition (try discriminate; try congruence; try lia; eauto)]|solve [intuition (try discriminate; try congruence; eauto)]]]).
  all: destruct p; try (exfalso; destruct P as [[? ?]|(? & ? & ?)]; discriminate); try discriminate P.
  all: try (split; [solve [intuition (try discriminate; try congruence; try lia)]|split; [solve [intuition (try discriminate; try congruence; try lia; eauto)]|solve [intuition (try discriminate; try congruence; eauto)]]]).
  all: try (is_var c; destruct c).
  all: try (is_var g; destruct g).
  all: try (split; [solve [intuition (try discriminate; try congruence; try lia)]|split; [solve [intuition (try discriminate; try congruence; try lia; eauto)]|solve [intuition (try discriminate; try congruence; eauto)]]]).
  all: try (exfalso; destruct C as (? & C); discriminate C).
  all: destruct C as [[-> C]|[(? & C & ?)|[? C]]]; try discriminate C.
  all: split; [solve [intuition (try discriminate; try congruence; try lia)]|split; [left; split; [reflexivity|lia]|]].
  all: try discriminate; exact P.
Qed.
Lemma launch_app ig xs : forall t ys, launch_run ig t (xs ++ ys) = match launch_run ig t xs with Some t => launch_run ig t ys | None => None end.
Proof. induction xs as [|x xs IH]; intros t ys; [reflexivity|]. cbn [app launch_run]. destruct (launch_step ig t x); [apply IH|reflexivity]. Qed.
Lemma linv_run es : undisturbed es -> forall t t', linv t -> launch_run false t es = Some t' -> linv t'.
Proof.
  induction 1 as [|e es U Us IH]; intros t t' L E; [injection E as <-; exact L|]. cbn [launch_run] in E.
  destruct (launch_step false t e) as [t1|] eqn:S1; [|discriminate]. eapply IH; [|exact E]. eapply linv_step; eauto.
Qed.

Definition told (t : launch) : Prop := (0 < buffered t)%nat \/ gra t = G_write \/ gra t = G_run.
Lemma told_step ig t e t' : launch_step ig t e = Some t' -> told t' -> told t \/ e = Finish.
Proof.
  intros E T. destruct t as [p c g b wc wg wo]. unfold told in *. cbn [gra buffered] in *.
  cases E; subst; injection E as <-; cbn [gra buffered] in T |- *; intuition (try discriminate; auto).
Qed.
Lemma told_run ig es : forall t t', launch_run ig t es = Some t' -> told t' -> told t \/ In Finish es.
Proof.
  induction es as [|e es IH]; intros t t' E T; [injection E as <-; auto|]. cbn [launch_run] in E. destruct (launch_step ig t e) as [t1|] eqn:S1; [|discriminate].
  destruct (IH _ _ E T) as [T1|F]; [|right; right; exact F]. destruct (told_step _ _ _ _ S1 T1) as [T2| ->]; [auto|right; left; reflexivity].
Qed.

Lemma launch_status es t st : undisturbed es -> launch_run false launch_init es = Some t -> par t = P_end st ->
  exists c, st = Exited c /\ ((c = 0 /\ In Finish es) \/ (exists g, gra t = G_end g /\ c = passed_on g mod 256) \/ (c = 1 /\ gra t = G_none)).
Proof.
  intros U E P. pose proof (linv_run _ U _ _ linv_init E) as (G & C & Q). unfold par_ok in Q. rewrite P in Q. unfold child_ok in C.
  destruct Q as [[N ->]|(st' & N & ->)]; rewrite N in C; unfold exits; (eexists; split; [reflexivity|]).
  - right; right. split; [reflexivity|exact C].
  - destruct C as [[-> B]|[(s & Es & ->)|[-> Es]]]; cbn [passed_on exits].
    + left. split; [reflexivity|]. destruct (told_run _ _ _ _ E (or_introl B)) as [[?|[?|?]]|F]; [cbn in *; lia|discriminate|discriminate|exact F].
    + right; left. exists s. split; [exact Es|]. now rewrite Z.mod_mod.
    + right; right. split; [reflexivity|exact Es].
Qed.

Lemma launch_live es t : undisturbed es -> launch_run false launch_init es = Some t -> w_other t = O -> (gra t = G_run \/ exists g, gra t = G_end g) ->
  exists ys t' st, Forall own ys /\ (length ys <= 4)%nat /\ launch_run false t ys = Some t' /\ par t' = P_end st.
Proof.
  intros U E W G. pose proof (linv_run _ U _ _ linv_init E) as ((G1 & G2 & G3 & G4 & G5) & C & Q). destruct t as [p c g b wc wg wo].
  unfold child_ok, par_ok in *. cbn [par chi gra buffered w_child w_grand w_other] in *. subst wo.
  assert (wg = false). { destruct wg; [|reflexivity]. destruct (G1 eq_refl); subst; destruct G as [?|[? ?]]; discriminate. } subst wg.
  assert (Hn : g <> G_none) by (destruct G as [->|[? ->]]; discriminate).
  destruct p as [| |s].
  { subst c. cbn in C. contradiction. }
  2: { exists [], (mkLaunch (P_end s) c g b wc false 0), s. split; [|split; [|split]]; auto. }
  assert (Wait : forall st' b', exists ys t' st, Forall own ys /\ (length ys <= 1)%nat /\ launch_run false (mkLaunch P_wait (C_end st') g b' false false 0) ys = Some t' /\ par t' = P_end st).
  { intros st' b'. exists [Parent_waits]. eexists. eexists. split; [|split; [|split]]; [repeat (apply Forall_cons; [exact I|]); apply Forall_nil|cbn; lia|cbn; reflexivity|reflexivity]. }
  assert (RD : exists ys t' st, Forall own ys /\ (length ys <= 3)%nat /\ launch_run false (mkLaunch P_wait C_read g b false false 0) ys = Some t' /\ par t' = P_end st).
  { destruct (Nat.ltb_spec 0 b) as [Hb|Hb].
    - exists [Read; Parent_waits]. eexists. eexists. split; [|split; [|split]]; [repeat (apply Forall_cons; [exact I|]); apply Forall_nil|cbn; lia|cbn [launch_run launch_step]; destruct (Nat.ltb_spec 0 b); [reflexivity|lia]|reflexivity].
    - destruct G as [->|[s ->]]; [specialize (G3 eq_refl); lia|]. exists [Read; Child_waits; Parent_waits]. eexists. eexists. split; [|split; [|split]]; [repeat (apply Forall_cons; [exact I|]); apply Forall_nil|cbn; lia| |].
      + cbn [launch_run launch_step]. destruct (Nat.ltb_spec 0 b); [lia|]. reflexivity.
      + reflexivity. }
  destruct c as [| | | | | |st']; try contradiction; try congruence.
  - (* close *) destruct RD as (ys & t' & st & F & L & R & P). exists (Close :: ys), t', st. split; [|split; [|split]]; [apply Forall_cons; [exact I|exact F]|cbn; lia|exact R|exact P].
  - assert (wc = false) by (destruct wc; [destruct (G4 eq_refl); discriminate|reflexivity]). subst wc. destruct RD as (ys & t' & st & F & L & R & P). exists ys, t', st. split; [|split; [|split]]; auto.
  - assert (wc = false) by (destruct wc; [destruct (G4 eq_refl); discriminate|reflexivity]). subst wc. destruct C as [s ->]. exists [Child_waits; Parent_waits]. eexists. eexists. split; [|split; [|split]]; [repeat (apply Forall_cons; [exact I|]); apply Forall_nil|cbn; lia|cbn; reflexivity|reflexivity].
  - assert (wc = false) by (destruct wc; [destruct (G4 eq_refl); discriminate|reflexivity]). subst wc. destruct (Wait st' b) as (ys & t' & st & F & L & R & P). exists ys, t', st. split; [|split; [|split]]; [exact F|lia|exact R|exact P].
Qed.

(** ** The PID file *)

Lemma move_same f p x : move f p x p = x.
Proof. unfold move. now rewrite Z.eqb_refl. Qed.
Lemma move_other f p x q : q <> p -> move f p x q = f q.
Proof. intros N. unfold move. destruct (Z.eqb_spec q p); congruence. Qed.
Ltac mv := repeat match goal with
  | |- context [move ?f ?p ?x ?q] => destruct (Z.eq_dec q p) as [->|?]; [rewrite ?move_same in *|rewrite ?move_other in * by assumption]
  | H : context [move ?f ?p ?x ?q] |- _ => destruct (Z.eq_dec q p) as [->|?]; [rewrite ?move_same in *|rewrite ?move_other in * by assumption]
  end.

Record pinv (all : list Z) (s : pids) : Prop := {
  pi_in : forall p, at_ s p <> Absent -> In p all;
  pi_one : forall p q, owns (at_ s p) -> owns (at_ s q) -> p = q;
  pi_lock : forall p, at_ s p <> Unlocked;
  pi_text : forall p, at_ s p = Written \/ at_ s p = Running -> content s = [] \/ exists t, content s = line p ++ t;
  pi_quit : forall p, at_ s p = Quitting -> content s = [] }.

Lemma owns_locks x : x <> Unlocked -> (owns x <-> exclusive x = true \/ shared x = true).
Proof. intros N. unfold owns. destruct x; cbn; intuition (try discriminate; auto). Qed.
Lemma none_spec all s p f : (forall q, at_ s q <> Absent -> In q all) -> f Absent = false ->
  (none all s p f = true <-> forall q, f (at_ s q) = true -> q = p).
Proof.
  intros A F0. unfold none. rewrite forallb_forall. split.
  - intros H q Hq. destruct (Z.eq_dec q p) as [->|N]; [reflexivity|]. assert (In q all) by (apply A; intros X; rewrite X in Hq; congruence).
    specialize (H _ H0). rewrite Hq in H. apply orb_true_iff in H as [H|H]; [lia|discriminate].
  - intros H q _. destruct (f (at_ s q)) eqn:Fq; [rewrite (H _ Fq), Z.eqb_refl; reflexivity|apply orb_true_r].
Qed.
Lemma lock_free all s p : pinv all s -> at_ s p = Opened ->
  (none all s p exclusive && none all s p shared = true <-> forall q, ~ owns (at_ s q)).
Proof.
  intros I O'. rewrite andb_true_iff, !none_spec by (try reflexivity; apply (pi_in _ _ I)). split.
  - intros [H1 H2] q Q. apply owns_locks in Q; [|apply (pi_lock _ _ I)]. assert (q = p) by (destruct Q; auto). subst q. rewrite O' in Q. destruct Q; discriminate.
  - intros H. split; intros q Q; destruct (H q); apply owns_locks; auto; apply (pi_lock _ _ I).
Qed.

Lemma pinv_init all : pinv all pids_init.
Proof. split; cbn; unfold owns; intros; intuition (try discriminate; try congruence). Qed.
Lemma not_owns x : (x = Absent \/ x = Opening \/ x = Opened) -> ~ owns x.
Proof. unfold owns. intuition congruence. Qed.
Ltac ps := split; cbn [at_ content]; intros; mv; auto; try congruence;
  try solve [match goal with H : owns ?x |- _ => exfalso; apply (not_owns x); [solve [auto]|exact H] end];
  try solve [match goal with F : forall q, ~ owns (at_ _ q), H : owns (at_ _ ?p) |- _ => exfalso; exact (F _ H) end];
  try solve [match goal with F : forall q, ~ owns (at_ _ q), H : at_ _ ?p = _ |- _ => exfalso; apply (F p); rewrite H; unfold owns; auto end];
  try solve [repeat match goal with H : _ \/ _ |- _ => destruct H end; try congruence; eauto];
  try solve [match goal with H : Some _ = None |- _ => discriminate H | H : _ = Quitting |- _ => discriminate H end].
Lemma pinv_step all s e s' : pinv all s -> pid_step all true s e = Some s' -> pinv all s'.
Proof.
  intros I E. pose proof (pi_in _ _ I) as A. pose proof (pi_one _ _ I) as B. pose proof (pi_lock _ _ I) as C. pose proof (pi_text _ _ I) as D. pose proof (pi_quit _ _ I) as Q.
  destruct e as [p|p|p|p|p|p|p|p| |]; cbn [pid_step] in E.
  - destruct (at_ s p) eqn:Ap; try discriminate. destruct (existsb (Z.eqb p) all) eqn:X; [|discriminate]. injection E as <-. apply existsb_exists in X as (q & X & X'). assert (q = p) by lia. subst q.
    ps.
  - destruct (at_ s p) eqn:Ap; try discriminate. injection E as <-. assert (In p all) by (apply A; congruence).
    ps.
  - destruct (at_ s p) eqn:Ap; try discriminate. assert (In p all) by (apply A; congruence). pose proof (lock_free _ _ _ I Ap) as LF. destruct (none all s p exclusive && none all s p shared) eqn:Nn; cbn [andb] in E.
    + pose proof (proj1 LF eq_refl) as Fr. destruct (readers s =? 0)%nat; injection E as <-.
      * ps.
      * ps.
    + injection E as <-. ps.
  - destruct (at_ s p) eqn:Ap; try discriminate. injection E as <-. assert (In p all) by (apply A; congruence). assert (Op : owns (at_ s p)) by (rewrite Ap; unfold owns; auto).
    ps.
    + right. unfold overwrite. eauto.
    + exfalso. apply n. apply B; [|exact Op]. destruct H0 as [-> | ->]; unfold owns; auto.
    + exfalso. apply n. apply B; [|exact Op]. rewrite H0; unfold owns; auto.
  - destruct (at_ s p) eqn:Ap; try discriminate. injection E as <-. assert (In p all) by (apply A; congruence). assert (Op : owns (at_ s p)) by (rewrite Ap; unfold owns; auto).
    ps.
  - destruct (at_ s p) eqn:Ap; try discriminate. destruct (C _ Ap).
  - destruct (at_ s p) eqn:Ap; try discriminate. injection E as <-. assert (In p all) by (apply A; congruence). assert (Op : owns (at_ s p)) by (rewrite Ap; unfold owns; auto).
    ps.
  - assert (E' : s' = mkPids (content s) (move (at_ s) p Absent) (readers s)) by (destruct (at_ s p); now inversion E). subst s'. clear E.
    ps.
  - destruct (forallb (fun q => negb (exclusive (at_ s q))) all); [|discriminate]. injection E as <-. split; cbn [at_ content]; auto.
  - destruct (readers s); [discriminate|]. injection E as <-. split; cbn [at_ content]; auto.
Qed.
Lemma pinv_run all es : forall s s', pinv all s -> pid_run all true s es = Some s' -> pinv all s'.
Proof.
  induction es as [|e es IH]; intros s s' I E; [injection E as <-; exact I|]. cbn [pid_run] in E. destruct (pid_step all true s e) as [s1|] eqn:S1; [|discriminate].
  eapply IH; [|exact E]. eapply pinv_step; eauto.
Qed.

Lemma quiet_step all s e s' p : pinv all s -> at_ s p = Running -> (match e with Creat _ => False | Quit q | Gone q => q <> p | _ => True end) -> pid_step all true s e = Some s' ->
  content s' = content s /\ at_ s' p = Running.
Proof.
  intros I R Qe E. assert (Op : owns (at_ s p)) by (rewrite R; unfold owns; auto).
  destruct e as [q|q|q|q|q|q|q|q| |]; cbn [pid_step] in E; try contradiction.
  - destruct (at_ s q) eqn:Aq; try discriminate. destruct (existsb (Z.eqb q) all); [|discriminate]. injection E as <-. cbn [at_ content]. split; [reflexivity|]. mv; congruence.
  - destruct (at_ s q) eqn:Aq; try discriminate. pose proof (lock_free _ _ _ I Aq) as LF. destruct (none all s q exclusive && none all s q shared); cbn [andb] in E.
    + destruct (proj1 LF eq_refl p Op).
    + injection E as <-. cbn [at_ content]. split; [reflexivity|]. mv; congruence.
  - destruct (at_ s q) eqn:Aq; try discriminate. assert (q = p) by (apply (pi_one _ _ I); [rewrite Aq; unfold owns; auto|exact Op]). congruence.
  - destruct (at_ s q) eqn:Aq; try discriminate. injection E as <-. cbn [at_ content]. split; [reflexivity|]. mv; congruence.
  - destruct (at_ s q) eqn:Aq; try discriminate. destruct (pi_lock _ _ I _ Aq).
  - destruct (at_ s q) eqn:Aq; try discriminate. assert (q = p) by (apply (pi_one _ _ I); [rewrite Aq; unfold owns; auto|exact Op]). congruence.
  - assert (E' : s' = mkPids (content s) (move (at_ s) q Absent) (readers s)) by (destruct (at_ s q); now inversion E). subst s'. cbn [at_ content]. split; [reflexivity|]. mv; congruence.
  - destruct (forallb (fun q => negb (exclusive (at_ s q))) all); [|discriminate]. injection E as <-. auto.
  - destruct (readers s); [discriminate|]. injection E as <-. auto.
Qed.
Lemma quiet_run all p es : quiet p es -> forall s s', pinv all s -> at_ s p = Running -> pid_run all true s es = Some s' -> content s' = content s /\ at_ s' p = Running.
Proof.
  induction 1 as [|e es Qe Qs IH]; intros s s' I R E; [injection E as <-; auto|]. cbn [pid_run] in E. destruct (pid_step all true s e) as [s1|] eqn:S1; [|discriminate].
  destruct (quiet_step _ _ _ _ _ I R Qe S1) as [C1 R1]. rewrite <- C1. eapply IH; eauto. eapply pinv_step; eauto.
Qed.

Definition exact_ (s : pids) : Prop := content s = [] \/ exists p, (at_ s p = Written \/ at_ s p = Running) /\ content s = line p.
Lemma exact_exclusive all s p : pinv all s -> exact_ s -> at_ s p = Exclusive -> content s = [].
Proof.
  intros I [X|(q & Q & _)] E; [exact X|]. assert (q = p) by (apply (pi_one _ _ I); [destruct Q as [-> | ->]|rewrite E]; unfold owns; auto). subst q. destruct Q; congruence.
Qed.
Lemma exact_step all s e s' : pinv all s -> exact_ s -> (forall p, e = Gone p -> at_ s p = Opening \/ at_ s p = Opened \/ at_ s p = Quitting) ->
  pid_step all true s e = Some s' -> exact_ s'.
Proof.
  intros I X Or E.
  assert (K : forall p x n, at_ s p <> Written -> at_ s p <> Running -> exact_ (mkPids (content s) (move (at_ s) p x) n)).
  { intros p x n N1 N2. destruct X as [X|(q & Q & X)]; [left; exact X|]. right. exists q. cbn [at_ content]. rewrite move_other by (intros ->; destruct Q; contradiction). auto. }
  destruct e as [p|p|p|p|p|p|p|p| |]; cbn [pid_step] in E.
  - destruct (at_ s p) eqn:Ap; try discriminate. destruct (existsb (Z.eqb p) all); [|discriminate]. injection E as <-. apply K; congruence.
  - destruct (at_ s p) eqn:Ap; try discriminate. injection E as <-. left. reflexivity.
  - destruct (at_ s p) eqn:Ap; try discriminate. destruct (none all s p exclusive && none all s p shared && (readers s =? 0)%nat); injection E as <-; apply K; congruence.
  - destruct (at_ s p) eqn:Ap; try discriminate. injection E as <-. right. exists p. cbn [at_ content]. rewrite move_same. split; [auto|]. rewrite (exact_exclusive _ _ _ I X Ap). unfold overwrite.
    rewrite skipn_nil. apply app_nil_r.
  - destruct (at_ s p) eqn:Ap; try discriminate. injection E as <-. destruct X as [X|(q & Q & X)]; [left; exact X|]. right. exists q. cbn [at_ content]. split; [mv; auto|exact X].
  - destruct (at_ s p) eqn:Ap; try discriminate. destruct (pi_lock _ _ I _ Ap).
  - destruct (at_ s p) eqn:Ap; try discriminate. injection E as <-. left. reflexivity.
  - assert (E' : s' = mkPids (content s) (move (at_ s) p Absent) (readers s)) by (destruct (at_ s p); now inversion E). subst s'. apply K; destruct (Or p eq_refl) as [H|[H|H]]; congruence.
  - destruct (forallb (fun q => negb (exclusive (at_ s q))) all); [|discriminate]. injection E as <-. exact X.
  - destruct (readers s); [discriminate|]. injection E as <-. exact X.
Qed.
Lemma exact_run all es : forall s s', pinv all s -> exact_ s -> orderly all true s es -> pid_run all true s es = Some s' -> exact_ s'.
Proof.
  induction es as [|e es IH]; intros s s' I X Or E; [injection E as <-; exact X|]. cbn [pid_run orderly] in *. destruct Or as [Oe Or]. destruct (pid_step all true s e) as [s1|] eqn:S1; [|discriminate].
  apply (IH s1); eauto using pinv_step, exact_step.
Qed.

Lemma value_app a : forall b acc, value_of (a ++ b) acc = value_of b (value_of a acc).
Proof. induction a as [|x a IH]; intros b acc; [reflexivity|]. cbn [app value_of]. apply IH. Qed.
Lemma digits_value k : forall n, 0 <= n < 10 ^ Z.of_nat (S k) -> value_of (digits (S k) n) 0 = n.
Proof.
  induction k as [|k IH]; intros n Hn.
  - cbn [digits]. change (10 ^ Z.of_nat 1) with 10 in Hn. destruct (Z.ltb_spec n 10); [|lia]. cbn [value_of]. lia.
  - remember (S k) as k'. cbn [digits]. destruct (Z.ltb_spec n 10); [cbn [value_of]; lia|]. rewrite value_app. rewrite IH.
    + cbn [value_of]. pose proof (Z.div_mod n 10 ltac:(lia)). lia.
    + rewrite Nat2Z.inj_succ, Z.pow_succ_r in Hn by lia. split; [apply Z.div_pos; lia|apply Z.div_lt_upper_bound; lia].
Qed.
Lemma digits_are k : forall n, 0 <= n -> Forall (fun d => 48 <= d <= 57) (digits k n).
Proof.
  induction k as [|k IH]; intros n Hn; [constructor|]. cbn [digits]. destruct (Z.ltb_spec n 10); [repeat constructor; lia|].
  apply Forall_app. split; [apply IH; apply Z.div_pos; lia|]. pose proof (Z.mod_pos_bound n 10 ltac:(lia)). repeat constructor; lia.
Qed.

(** ** More about the command line and start-up *)

Lemma first_not_long is rest : Forall proper is -> not_long rest -> not_long (map written is ++ rest).
Proof.
  intros P N a. destruct P as [|i is Pi Ps]; [apply N|]. cbn [map app hd_error]. intros [= <-]. destruct i as [s|w]; cbn [written proper] in *.
  - destruct Pi as [_ F]. split; intros E; destruct s as [|c s]; try discriminate E; apply letter_not_dash in F; inversion E; congruence.
  - split; intros E; [apply (Pi 45 (Text.txt "help"))|apply (Pi 45 (Text.txt "version"))]; exact E.
Qed.
Lemma command_free real is : Forall proper is -> meant real is [] (command_line false real (map written is)).
Proof.
  intros P. rewrite <- (app_nil_r (map written is)). rewrite command_parsed by (apply first_not_long; [exact P|intros a X; discriminate X]).
  rewrite getopt_items by exact P. cbn [getopt app]. apply meant_spec. now rewrite app_nil_r.
Qed.
Lemma dashes_not_long more : not_long ([45; 45] :: more).
Proof. intros a [= <-]. split; discriminate. Qed.
Lemma command_dashes real is more : Forall proper is -> meant real is more (command_line false real (map written is ++ [45; 45] :: more)).
Proof.
  intros P. rewrite command_parsed by (apply first_not_long; [exact P|apply dashes_not_long]).
  rewrite getopt_items by exact P. cbn [getopt app]. apply meant_spec. reflexivity.
Qed.
Lemma getopt_bad posix f s rest ws : bad_letters s -> getopt posix f ((45 :: s) :: rest) ws = None.
Proof.
  intros (N & D & B). destruct s as [|c s]; [congruence|]. destruct s as [|d s].
  - assert (c <> 45) by congruence. rewrite getopt_letters by assumption. rewrite letters_bad by exact B. reflexivity.
  - rewrite getopt_letters2. now rewrite letters_bad by exact B.
Qed.
Lemma command_invalid real is s rest : Forall proper is -> bad_letters s -> (is = [] -> 45 :: s <> Text.txt "--help" /\ 45 :: s <> Text.txt "--version") ->
  command_line false real (map written is ++ (45 :: s) :: rest) = Invalid.
Proof.
  intros P B N. rewrite command_parsed. { rewrite getopt_items by exact P. now rewrite getopt_bad. }
  destruct is as [|i is]; [intros a [= <-]; apply N; reflexivity|]. intros a Ha. cbn [map app hd_error] in Ha.
  apply (first_not_long (i :: is) []); [exact P|intros b X; discriminate X|]. cbn [map app hd_error]. exact Ha.
Qed.
Lemma valid_dec s : {Forall (fun c => c = 100 \/ c = 104 \/ c = 86 \/ c = 118) s} + {~ Forall (fun c => c = 100 \/ c = 104 \/ c = 86 \/ c = 118) s}.
Proof. apply Forall_dec. intros c. destruct (Z.eq_dec c 100), (Z.eq_dec c 104), (Z.eq_dec c 86), (Z.eq_dec c 118); intuition. Qed.
Lemma every_command args : exists is rest, Forall proper is /\ args = map written is ++ rest
  /\ (rest = [] \/ (exists more, rest = [45; 45] :: more) \/ exists s more, rest = (45 :: s) :: more /\ bad_letters s).
Proof.
  induction args as [|a args (is & rest & P & -> & R)]; [exists [], []; auto|].
  assert (W : (forall c s, a <> 45 :: c :: s) -> exists is' rest', Forall proper is' /\ a :: map written is ++ rest = map written is' ++ rest'
    /\ (rest' = [] \/ (exists more, rest' = [45; 45] :: more) \/ exists s more, rest' = (45 :: s) :: more /\ bad_letters s)).
  { intros N. exists (Word a :: is), rest. split; [constructor; [exact N|exact P]|]. split; [reflexivity|exact R]. }
  destruct a as [|c [|d s]]; [apply W; discriminate|apply W; discriminate|]. destruct (Z.eq_dec c 45) as [->|N]; [|apply W; congruence].
  destruct (valid_dec (d :: s)) as [V|V].
  - exists (Letters (d :: s) :: is), rest. split; [constructor; [split; [discriminate|exact V]|exact P]|]. split; [reflexivity|exact R].
  - exists [], ((45 :: d :: s) :: map written is ++ rest). split; [constructor|]. split; [reflexivity|]. right. destruct s as [|e s].
    + destruct (Z.eq_dec d 45) as [->|Nd]; [left; eauto|]. right. eexists. eexists. split; [reflexivity|]. split; [discriminate|]. split; [congruence|exact V].
    + right. eexists. eexists. split; [reflexivity|]. split; [discriminate|]. split; [discriminate|exact V].
Qed.
Lemma command_posix real is rest : Forall proper is -> words is = [] -> (match rest with w :: _ => forall c s, w <> 45 :: c :: s | [] => True end) ->
  meant real is rest (command_line true real (map written is ++ rest)).
Proof.
  intros P W N. rewrite command_parsed.
  - rewrite getopt_posix by assumption. destruct rest as [|w rest]; [cbn [getopt]; apply meant_spec; now rewrite W|]. rewrite getopt_word by exact N. cbn [app]. apply meant_spec. now rewrite W.
  - apply first_not_long; [exact P|]. destruct rest as [|w rest]; [intros a X; discriminate X|]. intros a [= <-]. split; intros E; [apply (N 45 (Text.txt "help"))|apply (N 45 (Text.txt "version"))]; exact E.
Qed.
Lemma command_posix_dashes real is more : Forall proper is -> words is = [] -> meant real is more (command_line true real (map written is ++ [45; 45] :: more)).
Proof.
  intros P W. rewrite command_parsed by (apply first_not_long; [exact P|apply dashes_not_long]). rewrite getopt_posix by assumption. cbn [getopt app]. apply meant_spec. now rewrite W.
Qed.

Lemma bind_goes p f l : bind p f = Goes l -> exists l', p = Goes l' /\ f l' = Goes l.
Proof. destruct p; [eauto|discriminate]. Qed.
Lemma attempt_goes o a l l' : attempt o a l = Goes l' -> o = Fine.
Proof. now destruct o. Qed.
Lemma each_inv {X} (f : X -> log -> progress) xs : forall l l', each f xs l = Goes l' -> Forall (fun x => exists l1 l2, f x l1 = Goes l2) xs.
Proof.
  induction xs as [|x xs IH]; intros l l' E; [constructor|]. cbn [each] in E. apply bind_goes in E as (l1 & E1 & E2). constructor; eauto.
Qed.
Lemma prepared_smooth s o l : prepared s o = Goes l -> exists ms, smooth s o ms.
Proof.
  unfold prepared. intros E. apply bind_goes in E as (l1 & E1 & E). apply bind_goes in E as (l2 & E2 & E). apply bind_goes in E as (l3 & E3 & E). cbv zeta in E.
  apply bind_goes in E as (l4 & E4 & E). apply bind_goes in E as (l5 & E5 & E). apply bind_goes in E as (l6 & E6 & E).
  apply attempt_goes in E3. apply each_inv in E5. apply each_inv in E6. unfold load_modules in E.
  assert (M : exists ms l', chosen s o = Some ms /\ each (load_module s) ms l6 = Goes l').
  { unfold chosen. destruct (cmd_modules o); [destruct (conf_modules s); [|discriminate]|]; eauto. }
  destruct M as (ms & l' & Cm & Em). apply each_inv in Em. exists ms. split; [|split; [|split; [|split; [|split; [|split; [exact Cm|]]]]]].
  - intros N. unfold set_directory in E1. destruct (cd_here o); [congruence|]. now destruct (on_chdir s).
  - now destruct (on_config s).
  - rewrite Forall_forall in E5. intros [| | | | |]; try exact E3; (edestruct E5 as (? & ? & X); [|exact (attempt_goes _ _ _ _ X)]); cbn; auto 10.
  - intros N. rewrite N in E4. exact (attempt_goes _ _ _ _ E4).
  - rewrite Forall_forall in E6. intros n Hn. assert (I : In n [0; 1; 2; 3; 4; 5; 6; 7]) by (cbn; lia). destruct (E6 n I) as (? & ? & X). unfold create_thread in X. now destruct (on_thread s n).
  - eapply Forall_impl; [|exact Em]. intros m (? & ? & X). unfold load_module in X. destruct (on_open s m); [|discriminate]. split; [reflexivity|]. destruct (entry s m); [|auto]. right. apply attempt_goes in X. now rewrite X.
Qed.

Lemma firstn_not_ready s o ms k : ~ In Ready (firstn k (plan s o ms)).
Proof.
  intros I. assert (J : In Ready (plan s o ms)) by (rewrite <- (firstn_skipn k); apply in_or_app; now left). revert J. unfold plan. rewrite !in_app_iff. intros J.
  assert (F : ~ In Ready (flat_map (fun m => Loaded m :: match entry s m with Some _ => [Entered m] | None => [] end) ms)).
  { rewrite in_flat_map. intros (m & _ & [X|X]); [discriminate X|]. destruct (entry s m); [destruct X as [X|X]; [discriminate X|exact X]|exact X]. }
  destruct (cd_here o), (daemonize o), (cmd_modules o); cbn in J; intuition discriminate.
Qed.
Lemma main_run posix s args o : command_line posix (real s) args = Proceed o ->
  (exists k e, main posix s args = Stops (firstn k (plan s o (match chosen s o with Some ms => ms | None => [] end))) e /\ (e = Exit 1 \/ e = Abort) /\ forall ms, ~ smooth s o ms)
  \/ exists ms n e, smooth s o ms /\ main posix s args = Stops (plan s o ms ++ Ready :: repeat Turn n) e /\ (n <= length (turns s))%nat
     /\ (e = Exit 0 <-> first_at n (arrivals s) /\ Forall (fun t => fst t = Fine) (firstn n (turns s)))
     /\ (e = Runs -> n = length (turns s) /\ Forall (fun b => b = false) (arrivals s))
     /\ (e = Runs \/ e = Exit 0 \/ e = Exit 1 \/ e = Abort)
     /\ (e = Exit 1 \/ e = Abort -> exists t, nth_error (turns s) n = Some t /\ fst t <> Fine /\ forall k, (k <= n)%nat -> nth_error (arrivals s) k = Some false).
Proof.
  intros E. rewrite (main_prepared _ _ _ _ E). pose proof (prepared_follows s o) as F. destruct (prepared s o) as [l|l e] eqn:Pr; cbn [follows bind] in *.
  - right. destruct (prepared_smooth _ _ _ Pr) as (ms & Sm). assert (C : chosen s o = Some ms) by (destruct Sm as (_ & _ & _ & _ & _ & C & _); exact C). rewrite C in F.
    destruct (schedule_spec (turns s) (early s) (l ++ [Ready])) as (n & e & Es & R). exists ms, n, e. split; [exact Sm|]. split; [rewrite Es, F, <- app_assoc; reflexivity|exact R].
  - left. destruct F as [He (k & ->)]. exists k, e. split; [reflexivity|]. split; [exact He|]. intros ms Sm. destruct (prepared_goes _ _ _ Sm) as (l' & X). congruence.
Qed.

Lemma first_at_unique n m l : first_at n l -> first_at m l -> n = m.
Proof.
  intros [A1 A2] [B1 B2]. destruct (Nat.lt_trichotomy n m) as [H|[H|H]]; [specialize (B2 _ H); congruence|exact H|specialize (A2 _ H); congruence].
Qed.
Lemma first_at_false n l : first_at n l -> Forall (fun b => b = false) l -> False.
Proof. intros [A _] F. apply nth_error_In in A. rewrite Forall_forall in F. discriminate (F _ A). Qed.
Lemma firstn_in {X} n m (l : list X) t : (n < m)%nat -> nth_error l n = Some t -> In t (firstn m l).
Proof.
  revert n l. induction m as [|m IH]; intros n l H E; [lia|]. destruct l as [|x l]; [destruct n; discriminate|]. destruct n; [injection E as ->; now left|]. right. apply (IH n); [lia|exact E].
Qed.
