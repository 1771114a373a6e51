(** Theorems about the task scheduler (C26, C27). *)
From Coq Require Import ZArith List Lia Bool Arith Permutation.
From Verif Require Import TaskModel TaskSpec TaskProofs.
Import ListNotations.

(** Three tasks and two workers; task 8 is abandoned before its turn. *)
Definition sample : list event :=
  [Launch 7; Launch 8; Launch 9; Take 1; Begin 1; Launch 5; Abandon 8; Take 2; Take 2; Begin 2; End 1; Take 1; Begin 1; End 2; End 1].
Example sample_runs : match run init sample with
  | Some s => map j_task (begun s) = [9; 7; 5] /\ map j_task (dropped s) = [8] /\ map j_task (finished s) = [9; 7; 5] /\ waiting s = []
  | None => False end.
Proof. vm_compute. auto. Qed.

(** * C26 *)

(** Each launch is accounted for exactly once: it is waiting, or executing, or
    its execution has finished, or it was dropped; the launches have distinct
    numbers, one for each call of [launch]; and what has begun to execute is what
    is executing or has finished. *)
Theorem task_once : forall (es : list event) (s : st),
  run init es = Some s ->
  map j_task (launched s) = launches es
  /\ NoDup (launched s)
  /\ Permutation (launched s) (waiting s ++ map snd (running s) ++ finished s ++ dropped s)
  /\ Permutation (begun s) (map snd (running s) ++ finished s)
  /\ NoDup (begun s).
Proof.
  intros es s H. pose proof (reach _ _ H) as I. pose proof (launched_nodup _ _ I) as N.
  destruct I as [I1 I2 I3 I4 _ _ _ _ _ _ _ _ _ _ _ _].
  split; [auto|]. split; [auto|]. split; [|split; auto].
  - rewrite I1. unfold waiting, in_lock. rewrite <- !app_assoc. reflexivity.
  - apply (Permutation_NoDup (Permutation_sym I3)). apply (Permutation_NoDup I1) in N.
    apply NoDup_app_remove_l in N. apply NoDup_app_remove_l in N. apply NoDup_app_remove_l in N. rewrite app_assoc in N.
    now apply NoDup_app_remove_r in N.
Qed.
Print Assumptions task_once.
Example task_once_ex : launches sample = [7; 8; 9; 5].
Proof. reflexivity. Qed.

(** Only an abandoned task is dropped: if nobody abandons the task of a launch,
    then when nothing is waiting or executing any more, it has been executed. *)
Theorem task_not_lost : forall (es : list event) (s : st) (j : job),
  run init es = Some s -> In j (launched s) -> ~ In (Abandon (j_task j)) es ->
  In j (waiting s) \/ In j (begun s).
Proof.
  intros es s j H Hj Hn. destruct (reach _ _ H) as [I1 I2 I3 _ _ _ I7 _ _ _ _ _ _ _ _ _].
  apply (Permutation_in j I1) in Hj. rewrite !in_app_iff in Hj. unfold waiting. rewrite !in_app_iff.
  destruct Hj as [Hj|[Hj|[Hj|[Hj|[Hj|Hj]]]]]; auto; try (now right; apply (Permutation_in j (Permutation_sym I3)), in_app_iff; auto).
  destruct (Hn (I7 _ Hj)).
Qed.
Print Assumptions task_not_lost.
Example task_not_lost_ex : match run init sample with
  | Some s => forallb (fun j => existsb (Nat.eqb (j_task j)) [7; 8; 9; 5]) (launched s) = true | None => False end.
Proof. vm_compute. auto. Qed.

(** Two executions of one task never overlap, even if it is launched many times. *)
Theorem task_exclusive : forall (es : list event) (s : st),
  run init es = Some s -> NoDup (map (fun r => j_task (snd r)) (running s)) /\ NoDup (map fst (running s)).
Proof.
  intros es s H. destruct (reach _ _ H) as [_ _ _ _ _ _ _ _ _ _ _ _ _ _ I15 I16]. split; auto. now apply NoDup_app_remove_r in I16.
Qed.
Print Assumptions task_exclusive.
Example task_exclusive_ex : exists s, run init [Launch 7; Launch 8; Take 1; Begin 1; Take 2; Begin 2] = Some s
  /\ map (fun r => j_task (snd r)) (running s) = [7; 8] /\ map fst (running s) = [2; 1].
Proof. eexists. split; [vm_compute; reflexivity|]. vm_compute. auto. Qed.

(** No starvation.  Any worker that is not executing can take a job whenever one
    is queued and nobody holds the queue mutex. *)
Theorem task_available : forall (s : st) (w : nat),
  front s ++ back s <> [] -> locker s = None -> busy s w = false -> exists s', step s (Take w) = Some s'.
Proof.
  intros s w Hq Hl Hb. cbn [step]. unfold take. rewrite Hl, Hb. destruct (front s) as [|x q] eqn:F.
  - destruct (pop_back (back s)) as [[f j]|] eqn:E; [|apply pop_back_none in E; rewrite E in Hq; now destruct Hq].
    destruct (is_gone _ _); eexists; reflexivity.
  - destruct (pop_back (x :: q)) as [[f j]|] eqn:E; [|apply pop_back_none in E; discriminate].
    destruct (is_gone _ _); eexists; reflexivity.
Qed.
Print Assumptions task_available.
Example task_available_ex : match run init [Launch 7] with Some s => locker s = None /\ front s ++ back s <> [] /\ busy s 1 = false | None => False end.
Proof. vm_compute. repeat split; discriminate. Qed.

(** A queued job is taken after a number of takes which later launches cannot
    increase without bound: it moves to the front queue after as many takes as
    there are jobs there, plus one; and then it is taken after as many takes as
    there are jobs behind it, plus one. *)
Theorem task_no_starvation : forall (es : list event) (s s' : st) (j : job),
  run s es = Some s' ->
  (In j (back s) -> length (front s) < takes es -> In j (front s') \/ In j (taken s'))
  /\ (forall a b, front s = a ++ j :: b -> length b < takes es -> In j (taken s')).
Proof.
  intros es s s' j H. split.
  - intros Hj Hn. eapply back_soon; eauto.
  - intros a b Hf Hn. eapply front_soon; eauto.
Qed.
Print Assumptions task_no_starvation.
Example task_no_starvation_ex : exists s s', run init [Launch 7; Launch 8] = Some s /\ length (back s) = 2
  /\ run s [Launch 9; Take 1] = Some s' /\ length (front s) < takes [Launch 9; Take 1].
Proof. eexists. eexists. split; [vm_compute; reflexivity|]. split; [reflexivity|]. split; [vm_compute; reflexivity|]. cbn. lia. Qed.

(** A job that has been taken is dropped, or executes as soon as no other worker
    executes the same task; while it waits for that, the queue is locked. *)
Theorem task_taken_begins : forall (es : list event) (s : st) (j : job),
  run init es = Some s -> In j (taken s) ->
  In j (dropped s) \/ In j (begun s)
  \/ exists w, locker s = Some (w, j)
       /\ (held s (j_task j) = false -> exists s', step s (Begin w) = Some s' /\ In j (begun s')).
Proof.
  intros es s j H Hj. destruct (reach _ _ H) as [_ I2 I3 _ _ _ _ _ _ _ _ _ _ _ _ _].
  apply (Permutation_in j I2) in Hj. rewrite !in_app_iff in Hj. unfold in_lock in Hj.
  assert (B : In j (map snd (running s)) \/ In j (finished s) -> In j (begun s)).
  { intros K. apply (Permutation_in j (Permutation_sym I3)), in_app_iff. auto. }
  destruct Hj as [Hj|[Hj|[Hj|Hj]]]; auto. destruct (locker s) as [[w k]|] eqn:L; [|contradiction]. destruct Hj as [->|[]].
  right. right. exists w. split; auto. intros Hh. cbn [step]. unfold begin_. rewrite L, Nat.eqb_refl, Hh. cbn [negb].
  eexists. split; [reflexivity|]. cbn. rewrite in_app_iff. cbn. auto.
Qed.
Print Assumptions task_taken_begins.
Example task_taken_begins_ex : match run init [Launch 7; Take 1] with Some s => locker s = Some (1, mkJ 0 7 0) /\ held s 7 = false | None => False end.
Proof. vm_compute. auto. Qed.

(** The other side of that: if a task is launched again while it executes, the
    worker that takes it keeps the queue locked until the first execution ends.
    Until then nothing can be launched and nothing can be taken; if the execution
    launches another task itself, the process stops for ever. *)
Theorem task_relaunch_blocks : exists es s,
  run init es = Some s /\ map (fun r => (fst r, j_task (snd r))) (running s) = [(1, 7)]
  /\ forall e s', step s e = Some s' -> e = End 1 \/ exists t, e = Abandon t.
Proof.
  exists [Launch 7; Launch 7; Take 1; Begin 1; Take 2]. eexists. split; [vm_compute; reflexivity|]. split; [reflexivity|].
  intros e s' H. destruct e as [t|w|w|w|t]; cbn [step] in H.
  - discriminate.
  - discriminate.
  - unfold begin_ in H. cbn [locker] in H. destruct (negb _); [discriminate|]. cbn in H. discriminate.
  - unfold end_ in H. cbn [running remove_worker] in H. destruct (Nat.eqb_spec 1 w) as [<-|]; [auto|discriminate].
  - eauto.
Qed.
Print Assumptions task_relaunch_blocks.

(** * C27 *)

(** Tasks are not taken in the order in which they were launched. *)
Theorem task_fifo_refuted : exists es s a b,
  run init es = Some s /\ launched s = [a; b] /\ taken s = [b; a] /\ begun s = [b; a].
Proof.
  exists [Launch 7; Launch 8; Take 1; Begin 1; Take 2; Begin 2]. eexists. eexists. eexists.
  split; [vm_compute; reflexivity|]. split; [reflexivity|]. split; reflexivity.
Qed.
Print Assumptions task_fifo_refuted.

(** What holds: the queue is processed in batches, [j_batch] being the number of
    batches that were begun before the launch.  An earlier batch comes entirely
    before a later one; within a batch, the last launch is the first taken. *)
Theorem task_order_partial : forall (es : list event) (s : st) (a b : job),
  run init es = Some s -> before a b (taken s) ->
  j_batch a < j_batch b \/ (j_batch a = j_batch b /\ before b a (launched s)).
Proof.
  intros es s a b H Hb. pose proof (reach _ _ H) as I. pose proof (launched_nodup _ _ I) as N.
  destruct I as [I1 I2 _ _ I5 _ _ _ _ I10 _ _ _ _ _ _].
  destruct (sorted_before _ _ _ _ I10 Hb) as [K|[K1 K2]]; auto. right. split; auto.
  assert (A : In a (launched s) /\ In b (launched s)).
  { assert (forall x, In x (taken s) -> In x (launched s)).
    { intros x Hx. apply (Permutation_in x (Permutation_sym I1)). apply (Permutation_in x I2) in Hx. rewrite !in_app_iff in *. tauto. }
    destruct Hb as (x & y & z & E). split; apply H0; rewrite E, !in_app_iff; cbn; rewrite in_app_iff; cbn; auto. }
  destruct A as [A B]. assert (N2 : a <> b) by (intros ->; lia). destruct (two_in _ _ _ B A (not_eq_sym N2)) as [K|(x & y & z & E)]; auto.
  (* a before b in the launches would mean a smaller number *)
  exfalso. assert (Ea : nth_error (launched s) (length x) = Some a).
  { rewrite E, nth_error_app2 by lia. now rewrite Nat.sub_diag. }
  assert (Eb : nth_error (launched s) (length (x ++ a :: y)) = Some b).
  { rewrite E. change (x ++ a :: y ++ b :: z) with (x ++ (a :: y) ++ b :: z). rewrite app_assoc, nth_error_app2 by lia. now rewrite Nat.sub_diag. }
  apply I5 in Ea. apply I5 in Eb. rewrite app_length in Eb. cbn in Eb. lia.
Qed.
Print Assumptions task_order_partial.
Example task_order_partial_ex : match run init sample with Some s => map (fun j => (j_task j, j_batch j)) (taken s) = [(9, 0); (8, 0); (7, 0); (5, 1)] | None => False end.
Proof. vm_compute. auto. Qed.

(** Batches follow the order of launches, and a job of a later batch is not taken
    before all jobs of the earlier ones have been. *)
Theorem task_batches : forall (es : list event) (s : st) (a b : job),
  run init es = Some s ->
  (before a b (launched s) -> j_batch a <= j_batch b)
  /\ (In a (launched s) -> In b (taken s) -> j_batch a < j_batch b -> before a b (taken s)).
Proof.
  intros es s a b H. destruct (reach _ _ H) as [I1 I2 _ _ _ _ _ [I8 _] [I9 _] I10 I11 _ I13 I14 _ _]. split.
  - intros Hb. exact (sorted_before _ _ _ _ I13 Hb).
  - intros Ha Hb Hlt. rewrite Forall_forall in *.
    assert (Ta : In a (taken s)).
    { apply (Permutation_in a I1) in Ha. rewrite !in_app_iff in Ha. pose proof (I11 _ Hb) as Kb. cbn in Kb.
      destruct Ha as [Ha|[Ha|Ha]].
      - pose proof (I9 _ Ha) as Ka. cbn in Ka. lia.
      - pose proof (I8 _ Ha) as Ka. cbn in Ka. lia.
      - apply (Permutation_in a (Permutation_sym I2)). rewrite !in_app_iff. tauto. }
    assert (N : a <> b) by (intros ->; lia).
    destruct (two_in _ _ _ Ta Hb N) as [K|K]; auto. destruct (sorted_before _ _ _ _ I10 K) as [K2|[K2 _]]; lia.
Qed.
Print Assumptions task_batches.

(** In particular, a task that is launched when nothing is queued is taken before
    every task that is launched after a worker has come for it. *)
Theorem task_order_idle : forall (es more : list event) (s s' : st) (a b : job),
  run init es = Some s -> run s more = Some s' ->
  In a (taken s) -> In b (launched s') -> ~ In b (launched s) -> In b (taken s') ->
  before a b (taken s').
Proof.
  intros es more s s' a b H H' Ha Hb Hn Hb'.
  assert (H2 : run init (es ++ more) = Some s') by (rewrite run_app, H; auto).
  destruct (reach _ _ H) as [I1 I2 _ _ _ _ _ _ _ _ _ _ _ _ _ _].
  destruct (taken_run _ _ _ H') as [l Hl]. rewrite Hl in *.
  assert (Sub : In b (taken s) -> In b (launched s)).
  { intros Hx. apply (Permutation_in b (Permutation_sym I1)). apply (Permutation_in b I2) in Hx. rewrite !in_app_iff in *. tauto. }
  apply in_app_iff in Hb' as [K|K]; [destruct (Hn (Sub K))|].
  apply in_split in Ha as (x & y & ->). apply in_split in K as (u & v & ->). exists x, (y ++ u), v. now rewrite <- !app_assoc.
Qed.
Print Assumptions task_order_idle.
