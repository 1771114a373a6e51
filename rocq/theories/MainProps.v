(** Properties of the program (C81, C82, C83). *)
From Coq Require Import ZArith List Bool Lia String.
From Verif Require Import MainModel MainSpec MainProofs Text.
Import ListNotations.
Open Scope list_scope.
Open Scope Z_scope.
Notation length := List.length.

(** * C81: the launcher of a daemon exits with zero only if start-up is complete, and otherwise with the status of the daemon; it does not
    wait for ever. *)
Theorem launcher_status_partial es t st : undisturbed es -> launch_run false launch_init es = Some t -> par t = P_end st ->
  exists c, st = Exited c
    /\ ((c = 0 /\ In Finish es) \/ (exists g, gra t = G_end g /\ shows_as g c) \/ (c = 1 /\ gra t = G_none)).
Proof.
  intros U E P. destruct (launch_status es t st U E P) as (c & -> & [H|[(g & Eg & ->)|H]]); eexists; (split; [reflexivity|]); [now left| |right; now right].
  right. left. exists g. split; [exact Eg|]. destruct g; reflexivity.
Qed.
Print Assumptions launcher_status_partial.

Example launcher_status_case :
  (exists t, launch_run false launch_init [Fork1 true; Pipe true; Fork2 true; Finish; Close; Notify; Read; Parent_waits] = Some t /\ par t = P_end (Exited 0) /\ gra t = G_run)
  /\ (exists t, launch_run false launch_init [Fork1 true; Pipe true; Fork2 true; Close; Grand_ends (Killed 11); Read; Child_waits; Parent_waits] = Some t /\ par t = P_end (Exited 139))
  /\ (exists t, launch_run false launch_init [Fork1 true; Pipe true; Fork2 true; Grand_ends (Exited 1); Close; Read; Child_waits; Parent_waits] = Some t /\ par t = P_end (Exited 1)).
Proof. repeat split; eexists; repeat split; vm_compute; reflexivity. Qed.

(** A daemon that fails before start-up is complete is reported, unless it exits with zero itself. *)
Theorem launcher_reports_failure es t st : undisturbed es -> launch_run false launch_init es = Some t -> par t = P_end st -> ~ In Finish es ->
  (forall g, gra t = G_end g -> failed g) -> exists c, st = Exited c /\ c <> 0.
Proof.
  intros U E P N G. destruct (launch_status es t st U E P) as (c & -> & [[_ F]|[(g & Eg & ->)|[-> _]]]); [contradiction| |exists 1; split; [reflexivity|discriminate]].
  exists (passed_on g mod 256). split; [reflexivity|]. specialize (G g Eg). destruct g; cbn [failed passed_on] in *; rewrite Z.mod_small by lia; lia.
Qed.
Print Assumptions launcher_reports_failure.

(** Once the daemon has notified the launcher or has ended, and no other process can write to the pipe, at most four steps of the processes
    that wait are left. *)
Theorem launcher_returns_partial es t : undisturbed es -> launch_run false launch_init es = Some t -> w_other t = O ->
  (gra t = G_run \/ exists g, gra t = G_end g) ->
  exists ys t' st, Forall own ys /\ (length ys <= 4)%nat /\ launch_run false t ys = Some t' /\ par t' = P_end st.
Proof. exact (launch_live es t). Qed.
Print Assumptions launcher_returns_partial.

Example launcher_returns_case : exists t, launch_run false launch_init [Fork1 true; Pipe true; Fork2 true; Inherit; Release; Grand_ends (Exited 1)] = Some t
  /\ w_other t = O /\ gra t = G_end (Exited 1).
Proof. eexists. vm_compute. auto. Qed.

(** If SIGCHLD is ignored when the program is started, which is inherited from the process that starts it, the launcher fails although the
    daemon runs. *)
Theorem launcher_ignored_refuted : exists es t, undisturbed es /\ launch_run true launch_init es = Some t /\ gra t = G_run /\ par t = P_end (Exited 1).
Proof.
  exists [Fork1 true; Pipe true; Fork2 true; Close; Finish; Notify; Read; Parent_waits]. eexists. split; [repeat constructor|]. vm_compute. auto.
Qed.
Print Assumptions launcher_ignored_refuted.

(** A process that has been created by a module keeps the pipe, and as long as it runs the launcher waits although the daemon has ended. *)
Theorem launcher_inherited_refuted : exists es t, undisturbed es /\ launch_run false launch_init es = Some t /\ gra t = G_end (Exited 1) /\ par t = P_wait
  /\ forall e, e <> Release -> (forall n, e <> Kill_parent n) -> (forall n, e <> Kill_child n) -> launch_step false t e = None.
Proof.
  exists [Fork1 true; Pipe true; Fork2 true; Close; Inherit; Grand_ends (Exited 1)]. eexists. split; [repeat constructor|]. split; [vm_compute; reflexivity|]. split; [reflexivity|]. split; [reflexivity|].
  intros e N1 N2 N3. destruct e; try reflexivity; try congruence; try (destruct (N2 _ eq_refl)); try (destruct (N3 _ eq_refl)); try (destruct ok; reflexivity).
Qed.
Print Assumptions launcher_inherited_refuted.

(** * C82: at most one process that uses a PID file gets past it, and while it runs the file says its PID. *)
Theorem one_instance_partial all es s p q : pid_run all true pids_init es = Some s -> owns (at_ s p) -> owns (at_ s q) -> p = q.
Proof. intros E. apply (pi_one _ _ (pinv_run _ _ _ _ (pinv_init all) E)). Qed.
Print Assumptions one_instance_partial.

(** A process gets the right if and only if no other has it and nobody reads; otherwise it ends, and the file is not changed by this. *)
Theorem lock_decides all es s p : pid_run all true pids_init es = Some s -> at_ s p = Opened ->
  exists s', pid_step all true s (Lock p) = Some s' /\ content s' = content s /\ (forall q, q <> p -> at_ s' q = at_ s q)
    /\ ((at_ s' p = Exclusive /\ (forall q, ~ owns (at_ s q)) /\ readers s = O) \/ (at_ s' p = Absent /\ ((exists q, owns (at_ s q)) \/ readers s <> O))).
Proof.
  intros E A. pose proof (pinv_run _ _ _ _ (pinv_init all) E) as I. pose proof (lock_free _ _ _ I A) as LF. cbn [pid_step]. rewrite A.
  destruct (none all s p exclusive && none all s p shared) eqn:N; cbn [andb].
  - destruct (Nat.eqb_spec (readers s) 0) as [R|R].
    + eexists. split; [reflexivity|]. cbn [content at_]. split; [reflexivity|]. split; [intros q Nq; now apply move_other|]. left. rewrite move_same. split; [reflexivity|]. split; [exact (proj1 LF eq_refl)|exact R].
    + eexists. split; [reflexivity|]. cbn [content at_]. split; [reflexivity|]. split; [intros q Nq; now apply move_other|]. right. rewrite move_same. auto.
  - eexists. split; [reflexivity|]. cbn [content at_]. split; [reflexivity|]. split; [intros q Nq; now apply move_other|]. right. rewrite move_same. split; [reflexivity|]. left.
    apply andb_false_iff in N. assert (X : exists f, (f = exclusive \/ f = shared) /\ none all s p f = false) by (destruct N; eauto). destruct X as (f & Hf & Nf).
    unfold none in Nf. apply not_true_iff_false in Nf. rewrite forallb_forall in Nf.
    destruct (Exists_dec (fun q => f (at_ s q) = true) all) as [Ex|Ex]; [intros q; destruct (f (at_ s q)); auto| |].
    + apply Exists_exists in Ex as (q & _ & Fq). exists q. apply owns_locks; [apply (pi_lock _ _ I)|]. destruct Hf as [-> | ->]; auto.
    + exfalso. apply Nf. intros q Iq. destruct (f (at_ s q)) eqn:Fq; [|apply orb_true_r]. exfalso. apply Ex. apply Exists_exists. eauto.
Qed.
Print Assumptions lock_decides.

(** The file is empty or begins with the line of the process that runs; as long as no other is started it is not changed. *)
Theorem pid_file_text all es s p : pid_run all true pids_init es = Some s -> at_ s p = Running ->
  (content s = [] \/ exists t, content s = line p ++ t)
  /\ forall es' s', quiet p es' -> pid_run all true s es' = Some s' -> content s' = content s /\ at_ s' p = Running.
Proof.
  intros E R. pose proof (pinv_run _ _ _ _ (pinv_init all) E) as I. split; [apply (pi_text _ _ I); auto|]. intros es' s' Q E'. exact (quiet_run _ _ _ Q _ _ I R E').
Qed.
Print Assumptions pid_file_text.

(** If no process has had a mishap while it had the right to run, the file is empty or it is exactly the line of the process that runs, and
    what it says is its PID. *)
Theorem pid_file_exact_partial all es s : pid_run all true pids_init es = Some s -> orderly all true pids_init es ->
  content s = [] \/ exists p, (at_ s p = Written \/ at_ s p = Running) /\ content s = line p.
Proof. intros E O'. apply (exact_run _ _ _ _ (pinv_init all) (or_introl eq_refl) O' E). Qed.
Print Assumptions pid_file_exact_partial.

Theorem pid_line_readable p : 0 <= p < 10 ^ 10 ->
  exists ds, line p = ds ++ [10] /\ Forall (fun d => 48 <= d <= 57) ds /\ value_of ds 0 = p.
Proof. intros H. exists (digits 10 p). split; [reflexivity|]. split; [apply digits_are; lia|]. apply digits_value. exact H. Qed.
Print Assumptions pid_line_readable.

(** A process that starts alone gets to run with its PID in the file, whatever has happened before. *)
Theorem lone_start all es s p : pid_run all true pids_init es = Some s -> In p all -> (forall q, at_ s q = Absent) -> readers s = O ->
  exists s', pid_run all true s [Launch p; Creat p; Lock p; Write p; Convert p] = Some s' /\ at_ s' p = Running /\ content s' = line p.
Proof.
  intros E I A R. pose proof (pinv_run _ _ _ _ (pinv_init all) E) as V. eexists.
  assert (X : existsb (Z.eqb p) all = true) by (apply existsb_exists; exists p; split; [exact I|apply Z.eqb_refl]).
  assert (N : forall f (s : pids), f Absent = false -> (forall q, q <> p -> at_ s q = Absent) -> none all s p f = true).
  { intros f s1 F H. apply forallb_forall. intros q _. destruct (Z.eqb_spec q p); [reflexivity|]. rewrite H by assumption. now rewrite F. }
  cbn [pid_run pid_step]. rewrite A, X. cbn [at_ content readers]. rewrite move_same. cbn [at_ content readers]. rewrite move_same.
  rewrite !N; try reflexivity; try (intros q Nq; cbn [at_]; rewrite !move_other by assumption; apply A). cbn [readers andb]. rewrite R. cbn [Nat.eqb at_ content readers]. rewrite move_same. cbn [at_ content readers]. rewrite move_same.
  split; [reflexivity|]. cbn [at_ content]. rewrite move_same. split; [reflexivity|]. unfold overwrite. rewrite skipn_nil. apply app_nil_r.
Qed.
Print Assumptions lone_start.

Example pid_file_case :
  let es := [Launch 42; Creat 42; Lock 42; Write 42; Convert 42; Reader_locks; Reader_unlocks; Launch 7] in
  (exists s, pid_run [42; 7] true pids_init es = Some s /\ at_ s 42 = Running /\ at_ s 7 = Opening /\ content s = txt "42" ++ [10]
     /\ exists s', pid_run [42; 7] true s [Quit 42; Gone 42; Creat 7; Lock 7; Write 7; Convert 7] = Some s' /\ at_ s' 7 = Running /\ content s' = txt "7" ++ [10])
  /\ orderly [42; 7] true pids_init es.
Proof.
  cbv zeta. split; [eexists; split; [vm_compute; reflexivity|]; split; [vm_compute; reflexivity|]; split; [vm_compute; reflexivity|]; split; [vm_compute; reflexivity|]; eexists; vm_compute; auto|].
  cbn [orderly]. repeat (split; [intros q X; discriminate X|]). exact I.
Qed.

(** A second instance that is started and gives up has removed the PID of the first from the file before. *)
Theorem pid_file_emptied_refuted : exists es s, pid_run [1; 2] true pids_init es = Some s /\ orderly [1; 2] true pids_init es
  /\ at_ s 1 = Running /\ at_ s 2 = Absent /\ content s = [].
Proof.
  exists [Launch 1; Creat 1; Lock 1; Write 1; Convert 1; Launch 2; Creat 2; Lock 2]. eexists. split; [vm_compute; reflexivity|]. split; [|vm_compute; auto].
  cbn [orderly]. repeat (split; [intros q X; discriminate X|]). exact I.
Qed.
Print Assumptions pid_file_emptied_refuted.
(** If the conversion of a lock is not atomic, two instances may run. *)
Theorem one_instance_refuted : exists es s, pid_run [1; 2] false pids_init es = Some s /\ at_ s 1 = Running /\ at_ s 2 = Running.
Proof. exists [Launch 1; Launch 2; Creat 1; Creat 2; Lock 1; Write 1; Convert 1; Lock 2; Write 2; Convert 2; Share 1; Share 2]. eexists. vm_compute. auto. Qed.
Print Assumptions one_instance_refuted.
(** Somebody who reads the file makes an instance that is started give up, although no other runs. *)
Theorem pid_reader_refuted : exists es s, pid_run [1] true pids_init es = Some s /\ at_ s 1 = Absent /\ In (Lock 1) es.
Proof. exists [Launch 1; Creat 1; Reader_locks; Lock 1]. eexists. split; [vm_compute; reflexivity|]. split; [reflexivity|]. cbn; auto. Qed.
Print Assumptions pid_reader_refuted.
(** After a mishap there may be remains of another line in the file. *)
Theorem pid_file_remains_refuted : exists es s, pid_run [123456; 99] true pids_init es = Some s /\ at_ s 99 = Running /\ content s = txt "99" ++ [10] ++ txt "456" ++ [10].
Proof. exists [Launch 123456; Launch 99; Creat 123456; Creat 99; Lock 123456; Write 123456; Gone 123456; Lock 99; Write 99; Convert 99]. eexists. vm_compute. auto. Qed.
Print Assumptions pid_file_remains_refuted.

(** * C83: the command line is understood as documented, start-up takes place in its order, and the status of the program says how it has
    ended. *)

(** Letters of options and paths may be mixed; after two dashes there are only paths. *)
Theorem command_line_meaning real is more : Forall proper is ->
  meant real is [] (command_line false real (map written is)) /\ meant real is more (command_line false real (map written is ++ [45; 45] :: more)).
Proof. intros P. split; [exact (command_free real is P)|exact (command_dashes real is more P)]. Qed.
Print Assumptions command_line_meaning.
Theorem command_line_invalid real is s rest : Forall proper is -> bad_letters s -> (is = [] -> 45 :: s <> txt "--help" /\ 45 :: s <> txt "--version") ->
  command_line false real (map written is ++ (45 :: s) :: rest) = Invalid.
Proof. exact (command_invalid real is s rest). Qed.
Print Assumptions command_line_invalid.
(** Every command line is of one of these forms. *)
Theorem command_line_forms args : exists is rest, Forall proper is /\ args = map written is ++ rest
  /\ (rest = [] \/ (exists more, rest = [45; 45] :: more) \/ exists s more, rest = (45 :: s) :: more /\ bad_letters s).
Proof. exact (every_command args). Qed.
Print Assumptions command_line_forms.
(** If POSIXLY_CORRECT is set, options have to be before all paths. *)
Theorem command_line_posix real is rest : Forall proper is -> words is = [] ->
  meant real is rest (command_line true real (map written is ++ [45; 45] :: rest))
  /\ ((match rest with w :: _ => forall c s, w <> 45 :: c :: s | [] => True end) -> meant real is rest (command_line true real (map written is ++ rest))).
Proof. intros P W. split; [exact (command_posix_dashes real is rest P W)|exact (command_posix real is rest P W)]. Qed.
Print Assumptions command_line_posix.

Example command_line_case :
  let real w := if text_eqb w (txt "bad") then None else Some (txt "/r/" ++ w) in
  command_line false real [txt "etc"; txt "-dv"; txt "a.so"; txt "--"; txt "-b.so"] = Proceed (mkOptions true true (txt "/r/etc") [txt "/r/a.so"; txt "/r/-b.so"])
  /\ command_line false real [txt "-"; txt "-V"] = Version /\ command_line false real [txt "-hV"] = Help /\ command_line false real [txt "--help"; txt "-q"] = Help
  /\ command_line false real [txt "-d"; txt "--help"] = Invalid /\ command_line false real [txt "a"; txt "bad"] = Bad_path
  /\ command_line true real [txt "-d"; txt "etc"; txt "-v"] = Proceed (mkOptions true false (txt "/r/etc") [txt "/r/-v"]).
Proof. vm_compute. auto 10. Qed.

(** What has been done when it ends is a beginning of the plan if something fails; otherwise it is the plan, then the launcher is told, and
    then there are turns of the scheduler until a signal has arrived. *)
Theorem start_up posix s args o : command_line posix (real s) args = Proceed o ->
  (exists k e, main posix s args = Stops (firstn k (plan s o (match chosen s o with Some ms => ms | None => [] end))) e /\ (e = Exit 1 \/ e = Abort) /\ forall ms, ~ smooth s o ms)
  \/ exists ms n e, smooth s o ms /\ main posix s args = Stops (plan s o ms ++ Ready :: repeat Turn n) e /\ (n <= length (turns s))%nat
     /\ (e = Exit 0 <-> first_at n (arrivals s) /\ Forall (fun t => fst t = Fine) (firstn n (turns s)))
     /\ (e = Runs -> n = length (turns s) /\ Forall (fun b => b = false) (arrivals s))
     /\ (e = Runs \/ e = Exit 0 \/ e = Exit 1 \/ e = Abort)
     /\ (e = Exit 1 \/ e = Abort -> exists t, nth_error (turns s) n = Some t /\ fst t <> Fine /\ forall k, (k <= n)%nat -> nth_error (arrivals s) k = Some false).
Proof. exact (main_run posix s args o). Qed.
Print Assumptions start_up.

(** The launcher is told if and only if nothing has failed. *)
Theorem ready_iff posix s args : (exists l e, main posix s args = Stops l e /\ In Ready l)
  <-> exists o ms, command_line posix (real s) args = Proceed o /\ smooth s o ms.
Proof.
  split.
  - intros (l & e & E & I). destruct (command_line posix (real s) args) as [| | | |o] eqn:C; try (unfold main in E; rewrite C in E; injection E as <- <-; destruct I).
    exists o. destruct (main_run _ _ _ _ C) as [(k & e' & E' & _)|(ms & n & e' & Sm & _)]; [|eauto]. rewrite E' in E. injection E as <- <-. destruct (firstn_not_ready _ _ _ _ I).
  - intros (o & ms & C & Sm). destruct (main_run _ _ _ _ C) as [(k & e' & _ & _ & N)|(ms' & n & e & _ & E & _)]; [destruct (N _ Sm)|]. exists (plan s o ms' ++ Ready :: repeat Turn n), e. split; [exact E|]. apply in_elt.
Qed.
Print Assumptions ready_iff.

Theorem exit_status posix s args : exists l e, main posix s args = Stops l e
  /\ (e = Exit 2 <-> command_line posix (real s) args = Invalid)
  /\ (e = Exit 0 <-> command_line posix (real s) args = Help \/ command_line posix (real s) args = Version
        \/ exists o ms n, command_line posix (real s) args = Proceed o /\ smooth s o ms /\ first_at n (arrivals s) /\ Forall (fun t => fst t = Fine) (firstn n (turns s)))
  /\ (e = Exit 0 \/ e = Exit 1 \/ e = Exit 2 \/ e = Abort \/ e = Runs).
Proof.
  destruct (command_line posix (real s) args) as [| | | |o] eqn:C.
  1-4: unfold main; rewrite C; eexists; eexists; (split; [reflexivity|]); (split; [split; intros X; discriminate X || reflexivity|]); (split; [|auto 10]); split; intros X; try discriminate X; try (now auto);
       destruct X as [X|[X|(? & ? & ? & X & _)]]; discriminate X.
  destruct (main_run _ _ _ _ C) as [(k & e & E & He & N)|(ms & n & e & Sm & E & L & Z0 & Ru & He & Fa)]; rewrite E; eexists; exists e; (split; [reflexivity|]).
  - split; [split; intros X; [destruct He; congruence|discriminate X]|]. split; [|destruct He; auto]. split; [intros ->; destruct He; discriminate|]. intros [X|[X|(? & ? & ? & [= <-] & Sm & _)]]; [discriminate X|discriminate X|]. destruct (N _ Sm).
  - split; [split; intros X; [destruct He as [He|[He|[He|He]]]; congruence|discriminate X]|]. split; [|destruct He as [He|[He|[He|He]]]; auto].
    split; [intros X; right; right; exists o, ms, n; split; [reflexivity|]; split; [exact Sm|]; apply Z0; exact X|]. intros [X|[X|(o' & ms' & n' & _ & _ & F & Fi)]]; [discriminate X|discriminate X|].
    apply Z0. assert (n' = n).
    { destruct He as [-> |[-> |He]].
      - destruct (first_at_false _ _ F (proj2 (Ru eq_refl))).
      - exact (first_at_unique _ _ _ F (proj1 (proj1 Z0 eq_refl))).
      - destruct (Fa He) as (t & Et & Nt & Hk). destruct F as [F1 F2]. assert (n < n')%nat by (destruct (Nat.lt_ge_cases n n'); [assumption|]; specialize (Hk n' ltac:(lia)); congruence).
        rewrite Forall_forall in Fi. destruct Nt. apply Fi. eapply firstn_in; eauto. }
    subst n'. auto.
Qed.
Print Assumptions exit_status.

Example start_up_case :
  let ok := mkSystem (fun w => Some w) true Fine (fun _ => Fine) Fine (fun _ => true) (Some [txt "m.so"]) (fun _ => true) (fun _ => Some Fine) false [(Fine, false); (Fine, true)] in
  main false ok [txt "-d"] = Stops (plan ok (mkOptions true false [] []) [txt "m.so"] ++ [Ready; Turn; Turn]) (Exit 0)
  /\ smooth ok (mkOptions true false [] []) [txt "m.so"] /\ first_at 2 (arrivals ok)
  /\ main false (mkSystem (fun w => Some w) true Fine (fun _ => Fine) Fine (fun _ => true) (Some [txt "m.so"]) (fun _ => true) (fun _ => Some Throws) false []) []
     = Stops (firstn 17 (plan ok (mkOptions false false [] []) [txt "m.so"])) (Exit 1).
Proof.
  cbv zeta. split; [vm_compute; reflexivity|]. split; [repeat split; apply Forall_cons; [split; [reflexivity|now right]|apply Forall_nil]|]. split; [|vm_compute; reflexivity].
  split; [reflexivity|]. intros [|[|k]] H; [reflexivity|reflexivity|lia].
Qed.
