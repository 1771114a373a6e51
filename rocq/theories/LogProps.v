(** The logger: theorems.

    C22: messages are kept, in order.  C23: what a message can put into the log. *)
From Coq Require Import ZArith List Lia Bool ZifyBool.
From Coq Require Import String.
From Verif Require Import Base BaseLemmas Text LogModel LogSpec LogProofs.
Import ListNotations.
Open Scope list_scope.
Open Scope Z_scope.
Notation length := List.length.

(** * C23 *)

(** The parts of a record which do not come from the message have no line breaks. *)
Definition meta_ok (color : list Z) (m : meta) : Prop :=
  (forall x, In x [color; tag m; lwpid m; thrd m; func m; file m; line m] -> ~ In 10 x)
  /\ (forall x, In x [year m; mon m; day m; hour m; minute m; sec m; nsec m] -> 0 <= x).

(** Whatever the message is, its record is one line. *)
Theorem logger_one_line : forall color m text, meta_ok color m -> bytes text ->
  exists r, record_text color m text = r ++ [10] /\ ~ In 10 r.
Proof.
  intros color m text [L T] B.
  assert (Lc : ~ In 10 color) by (apply L; cbn; auto 10).
  assert (Ltag : ~ In 10 (tag m)) by (apply L; cbn; auto 10).
  assert (Llw : ~ In 10 (lwpid m)) by (apply L; cbn; auto 10).
  assert (Lth : ~ In 10 (thrd m)) by (apply L; cbn; auto 10).
  assert (Lfu : ~ In 10 (func m)) by (apply L; cbn; auto 10).
  assert (Lfi : ~ In 10 (file m)) by (apply L; cbn; auto 10).
  assert (Lli : ~ In 10 (line m)) by (apply L; cbn; auto 20).
  assert (D : forall w x, In x [year m; mon m; day m; hour m; minute m; sec m; nsec m] -> ~ In 10 (digits w x)).
  { intros w x Hx. apply digits_no_lf. auto. }
  assert (C : forall code, ~ In 10 code -> ~ In 10 (do_color color code)) by (intros code; apply color_no_lf).
  assert (Cs : forall code, existsb (Z.eqb 10) code = false -> ~ In 10 (do_color color code)).
  { intros code E. apply C. intros K. assert (existsb (Z.eqb 10) code = true) by (apply existsb_exists; exists 10; auto). congruence. }
  assert (K : forall l, existsb (Z.eqb 10) l = false -> ~ In 10 l).
  { intros l E H. assert (existsb (Z.eqb 10) l = true) by (apply existsb_exists; exists 10; auto). congruence. }
  unfold record_text, put_tail. rewrite !app_assoc.
  match goal with |- exists r, ?a ++ [10] = _ /\ _ => exists a; split; [reflexivity|] end.
  rewrite <- !app_assoc.
  assert (H : ~ In 10 (rtrim (put_head color m ++ put_text color text))).
  { intros H. apply rtrim_incl in H. revert H. unfold put_head. rewrite !in_app_iff.
    pose proof (put_text_no_lf color text B) as P.
    intros H. repeat match type of H with _ \/ _ => destruct H as [H|H] end;
      try (revert H; first [exact P | exact Ltag | apply C; exact Lc | apply Cs; reflexivity | apply K; reflexivity | apply D; cbn; tauto ]). }
  rewrite !in_app_iff. intros G. repeat match type of G with _ \/ _ => destruct G as [G|G] end;
    try (revert G; first [exact H | assumption | apply Cs; reflexivity | apply K; reflexivity]).
Qed.
Print Assumptions logger_one_line.

(** Control characters in the expansion of a message, without colours: a TAB, or
    the ESC of the line break sequence ESC 'E' TAB. *)
Theorem logger_no_control : forall text a c b, bytes text -> put_text [] text = a ++ c :: b -> control c ->
  c = 9 \/ (c = 27 /\ exists b', b = 69 :: 9 :: b').
Proof.
  intros text a c b B. rewrite put_text_plain by auto. revert a. induction B as [|x text Hx B IH]; intros a H C.
  - destruct a; discriminate.
  - cbn [flat_map] in H. apply control_app_inv in H as [(b1 & H & ->)|(a2 & H & ->)]; [|now apply (IH a2)].
    clear IH. destruct (escape_cases x Hx) as [(E & Hc & N)|[(-> & E)|(q & E & _ & F & _)]]; rewrite E in H.
    + destruct a as [|? [|]]; try discriminate. injection H as -> <-. unfold control in C. lia.
    + unfold nel_ht in H. destruct a as [|? [|? [|? a]]]; try discriminate.
      * injection H as <- <-. right. split; [reflexivity|]. now exists (flat_map s_escapes text).
      * injection H as _ <- <-. unfold control in C. lia.
      * injection H as _ _ <- _. auto.
      * destruct a; discriminate.
    + destruct a as [|y a].
      * injection H as <- _. unfold control in C. lia.
      * injection H as _ H. rewrite H in F. apply Forall_app in F as [_ F]. inversion F; subst. unfold control in C. lia.
Qed.
Print Assumptions logger_no_control.

(** Each line break sequence comes from a line break in the message, and each TAB
    from a TAB or a line break. *)
Theorem logger_breaks : forall text, bytes text ->
  occurrences 27 (put_text [] text) = occurrences 10 text
  /\ occurrences 9 (put_text [] text) = (occurrences 9%Z text + occurrences 10%Z text)%nat.
Proof.
  intros text B. rewrite put_text_plain by auto. unfold occurrences. induction B as [|c text Hc B IH]; [auto|].
  cbn [flat_map]. rewrite !count_occ_app. destruct IH as [-> ->].
  replace (c :: text) with ([c] ++ text) by reflexivity. rewrite !count_occ_app.
  enough (count_occ Z.eq_dec (s_escapes c) 27 = count_occ Z.eq_dec [c] 10 /\
          count_occ Z.eq_dec (s_escapes c) 9 = (count_occ Z.eq_dec [c] 9%Z + count_occ Z.eq_dec [c] 10%Z)%nat) by lia.
  destruct (escape_cases c Hc) as [(-> & E & N)|[(-> & ->)|(q & -> & _ & F & N1 & N2 & _)]]; cbn [count_occ].
  - destruct (Z.eq_dec c 27), (Z.eq_dec c 10), (Z.eq_dec c 9); lia.
  - auto.
  - assert (Q : forall k, k < 48 -> count_occ Z.eq_dec q k = 0%nat).
    { intros k Hk. apply count_occ_not_In. intros I. rewrite Forall_forall in F. specialize (F _ I). lia. }
    rewrite !Q by lia. destruct (Z.eq_dec c 10), (Z.eq_dec c 9); try lia. auto.
Qed.
Print Assumptions logger_breaks.

(** A message without backslashes can be read back from the log.  Missing: those
    with backslashes, for which this is false. *)
Theorem logger_unescape_partial : forall text, bytes text -> ~ In 92 text -> unescape (put_text [] text) = text.
Proof.
  intros text B. rewrite put_text_plain by auto. induction B as [|c text Hc B IH]; intros N; [reflexivity|].
  cbn [flat_map]. rewrite unescape_one; [|auto|intros ->; apply N; now left]. f_equal. apply IH. intros K. apply N. now right.
Qed.
Print Assumptions logger_unescape_partial.

(** FINDING: a backslash is not escaped, so two messages may look the same. *)
Theorem logger_escape_refuted : exists t1 t2, bytes t1 /\ bytes t2 /\ t1 <> t2 /\ put_text [] t1 = put_text [] t2.
Proof.
  exists [92; 48], [0]. repeat split; try discriminate; unfold bytes, byte; repeat (apply Forall_cons; [lia|]); apply Forall_nil.
Qed.
Print Assumptions logger_escape_refuted.

(** FINDING: the UTF-8 form of a C1 control character (here CSI, U+009B) passes
    through, so a terminal which knows it can be controlled by a message. *)
Theorem logger_c1_refuted : forall color, put_text color [194; 155] = [194; 155].
Proof. reflexivity. Qed.
Print Assumptions logger_c1_refuted.

Example logger_sample :
  let m := mkM 2024 3 9 1 2 3 45 (txt "INFO") (txt "12") (txt "main") (txt "f") (txt "a.cpp") (txt "7") in
  meta_ok (txt "32") m
  /\ record_text [] m [97; 10; 0; 27; 32] =
     txt "2024-03-09 01:02:03.000000045 INFO a" ++ [27; 69; 9] ++ txt "\0\x1B" ++ [27; 69; 9]
     ++ txt "@@ thread 12 [main] inside function `f` at 'a.cpp:7'" ++ [27; 69; 10]
  /\ record_text (txt "32") m [0] =
     [27] ++ txt "[32m2024-03-09 01:02:03.000000045 " ++ [27] ++ txt "[22;7mINFO" ++ [27] ++ txt "[0m " ++ [27] ++ txt "[0m" ++ [27] ++ txt "[32m"
     ++ [27] ++ txt "[7m\0" ++ [27] ++ txt "[27m" ++ [27] ++ txt "[0m" ++ [27; 69; 9]
     ++ [27] ++ txt "[90m@@ thread 12 [main] " ++ [27] ++ txt "[34minside function `f` at 'a.cpp:7'" ++ [27; 69] ++ [27] ++ txt "[0m" ++ [10].
Proof.
  intros m. split; [|split; vm_compute; reflexivity]. split; cbn; intros x H;
    repeat (destruct H as [<-|H]); try contradiction; try lia; cbn; intuition lia.
Qed.

(** * C22 *)

(** Messages are written or skipped in the order in which they were enqueued,
    each once, and none gets lost on the way. *)
Theorem logger_order : forall c es s, run (init c) es = Some s ->
  map (fun x => (m_level (f_msg x), m_text (f_msg x))) (done s) ++ pending s = enqueues es.
Proof.
  intros c es s H. destruct (reach _ _ _ H) as [I _ _ _ _ _]. rewrite <- I, map_app, map_map. reflexivity.
Qed.
Print Assumptions logger_order.

(** When a message is skipped: its level does not exist, or it is expendable and
    the writer thread took it, when more than one thousand messages were waiting. *)
Theorem logger_drop : forall c es s x, run (init c) es = Some s -> In x (done s) -> f_out x = None ->
  exists e1 e2 s1, run (init c) e1 = Some s1 /\ In (f_msg x) (queue s1)
    /\ ((es = e1 ++ TakeLoop :: e2 \/ es = e1 ++ TakeSync :: e2) /\ nth_error (conf s1) (m_level (f_msg x)) = None
        \/ es = e1 ++ TakeLoop :: e2 /\ (1000 < length (queue s1))%nat
           /\ exists l, nth_error (conf s1) (m_level (f_msg x)) = Some l /\ expendable l = true).
Proof.
  intros c es s x H Hx Ho. destruct (reach _ _ _ H) as [_ _ I _ _ _]. destruct (I x Hx) as [(e1 & e2 & s1 & E & R & N & C & Q) D].
  exists e1, e2, s1. split; [auto|]. split; [auto|]. rewrite Ho in D. unfold decide in D. cbn in D. rewrite C.
  destruct (nth_error (f_conf x) (m_level (f_msg x))) as [l|] eqn:L.
  - right. destruct (f_kind x); [|discriminate]. split; [auto|]. destruct (1000 <? _) eqn:G; cbn in D; [|discriminate].
    destruct (expendable l) eqn:X; [|discriminate]. split; [|eauto]. rewrite N. clear - G. lia.
  - left. split; [|auto]. destruct (f_kind x); auto.
Qed.
Print Assumptions logger_drop.

(** What is not skipped goes to all files of its level at that time. *)
Theorem logger_written : forall c es s x fs, run (init c) es = Some s -> In x (done s) -> f_out x = Some fs ->
  exists e1 e2 s1 l, run (init c) e1 = Some s1 /\ In (f_msg x) (queue s1)
    /\ (es = e1 ++ TakeLoop :: e2 \/ es = e1 ++ TakeSync :: e2)
    /\ nth_error (conf s1) (m_level (f_msg x)) = Some l
    /\ forall f, In f fs <-> f <> [] /\ In f (files l).
Proof.
  intros c es s x fs H Hx Ho. destruct (reach _ _ _ H) as [_ _ I _ _ _]. destruct (I x Hx) as [(e1 & e2 & s1 & E & R & N & C & Q) D].
  rewrite Ho in D. unfold decide in D. cbn in D.
  destruct (nth_error (f_conf x) (m_level (f_msg x))) as [l|] eqn:L; [|discriminate].
  exists e1, e2, s1, l. split; [auto|]. split; [auto|]. split; [destruct (f_kind x); auto|]. rewrite C. split; [auto|].
  assert (F : fs = filter (fun f => match f with [] => false | _ => true end) (files l)).
  { destruct (f_kind x); [destruct (_ && _) in D; [discriminate|]|]; now injection D. }
  intros f. rewrite F, filter_In. destruct f; split; intros [? ?]; split; auto; try discriminate; contradiction.
Qed.
Print Assumptions logger_written.

Lemma contents_level f n l c d : f <> [] -> count_occ (list_eq_dec Z.eq_dec) (files l) f = 1%nat ->
  nth_error c n = Some l -> expendable l = false ->
  (forall x, In x d -> f_conf x = c /\ f_out x = decide (mkW (f_kind x) [] (f_batch x) (f_conf x) 0) (f_msg x)) ->
  of_level n (contents f d) = of_level n (map (fun x => (m_level (f_msg x), m_text (f_msg x))) d).
Proof.
  intros Nf Cf L X H. induction d as [|x d IH]; [reflexivity|]. cbn [contents flat_map map]. unfold of_level in *.
  rewrite filter_app. fold (contents f d). rewrite IH by (intros; apply H; now right). cbn [filter fst].
  destruct (H x (or_introl eq_refl)) as [Hc Ho]. destruct (Nat.eqb_spec (m_level (f_msg x)) n) as [E|E].
  - rewrite Ho. unfold decide. cbn. rewrite Hc, E, L, X, andb_false_r.
    replace (match f_kind x with ByLoop => _ | BySync => _ end) with
      (Some (filter (fun f => match f with [] => false | _ => true end) (files l))) by (destruct (f_kind x); reflexivity).
    change ((n, m_text (f_msg x)) :: filter (fun x => (fst x =? n)%nat) (map (fun x => (m_level (f_msg x), m_text (f_msg x))) d))
      with ([(n, m_text (f_msg x))] ++ filter (fun x => (fst x =? n)%nat) (map (fun x => (m_level (f_msg x), m_text (f_msg x))) d)).
    f_equal.
    assert (G : filter (fun g => if list_eq_dec Z.eq_dec g f then true else false)
                (filter (fun f => match f with [] => false | _ => true end) (files l)) = [f]).
    { clear - Nf Cf. induction (files l) as [|g fl IH]; cbn in *; [discriminate|].
      destruct (list_eq_dec Z.eq_dec g f) as [->|N].
      - destruct f as [|z f]; [contradiction|]. cbn [filter]. destruct (list_eq_dec Z.eq_dec (z :: f) (z :: f)); [|contradiction]. f_equal.
        injection Cf as Cf. clear - Cf. induction fl as [|g fl IH]; cbn in *; [reflexivity|].
        destruct (list_eq_dec Z.eq_dec g (z :: f)); [discriminate|]. destruct g; [auto|]. cbn [filter].
        destruct (list_eq_dec Z.eq_dec (z0 :: g) (z :: f)); [contradiction|]. auto.
      - destruct g; [auto|]. cbn [filter]. destruct (list_eq_dec Z.eq_dec (z :: g) f); [contradiction|]. auto. }
    rewrite G. cbn. now rewrite Nat.eqb_refl.
  - replace (filter _ (match f_out x with Some _ => _ | None => _ end)) with (@nil (nat * list Z)); [reflexivity|].
    destruct (f_out x) as [fs|]; [|reflexivity]. induction (filter _ fs) as [|g gs IHg]; [reflexivity|]. cbn.
    destruct (Nat.eqb_spec (m_level (f_msg x)) n); [contradiction|]. auto.
Qed.

(** While the configuration stays the same, a file of a level which is not
    expendable receives all messages of this level, in order, each once. *)
Theorem logger_file : forall c es s n l f, run (init c) es = Some s -> (forall c', ~ In (Reload c') es) ->
  nth_error c n = Some l -> expendable l = false -> f <> [] -> count_occ (list_eq_dec Z.eq_dec) (files l) f = 1%nat ->
  of_level n (contents f (done s)) ++ of_level n (pending s) = of_level n (enqueues es).
Proof.
  intros c es s n l f H NR L X Nf Cf. rewrite <- (logger_order _ _ _ H). unfold of_level at 3. rewrite filter_app. f_equal.
  apply (contents_level f n l c); auto. destruct (reach _ _ _ H) as [_ _ I _ _ _]. intros x Hx.
  destruct (I x Hx) as [(e1 & e2 & s1 & E & R & N & C & Q) D]. split; [|auto]. rewrite <- C. apply (conf_fixed c e1); auto.
  intros c' K. apply (NR c'). rewrite E. apply in_app_iff. auto.
Qed.
Print Assumptions logger_file.

Lemma done_mono s es s' : run s es = Some s' -> exists d, done s' = done s ++ d.
Proof.
  revert s. induction es as [|e es IH]; cbn; intros s H; [injection H as ->; exists []; now rewrite app_nil_r|].
  destruct (step s e) as [s1|] eqn:E; [|discriminate]. destruct (IH _ H) as [d ->].
  enough (exists d1, done s1 = done s ++ d1) as [d1 ->] by (exists (d1 ++ d); now rewrite app_assoc).
  clear - E. destruct e as [l t| | | | |cf]; cbn [step] in E.
  - injection E as <-. exists []. now rewrite app_nil_r.
  - unfold take_loop in E. destruct (writing s); [discriminate|]. destruct (queue s); [discriminate|]. injection E as <-. exists []. now rewrite app_nil_r.
  - unfold take_sync in E. destruct (writing s); [discriminate|]. destruct (queue s); injection E as <-; exists []; now rewrite app_nil_r.
  - unfold write_one in E. destruct (writing s) as [w|]; [|discriminate]. destruct (w_todo w); [discriminate|]. injection E as <-. eexists. reflexivity.
  - unfold finish in E. destruct (writing s) as [w|]; [|discriminate]. destruct (w_todo w); [|discriminate]. injection E as <-. exists []. now rewrite app_nil_r.
  - unfold reload in E. destruct (writing s); [discriminate|]. injection E as <-. exists []. now rewrite app_nil_r.
Qed.

Lemma seen_finish c n es e2 s s' : run (init c) es = Some s -> (exists w, writing s = Some w /\ w_seen w = n) ->
  run s e2 = Some s' -> In Finish e2 -> (n <= length (done s'))%nat.
Proof.
  revert es s. induction e2 as [|e e2 IH]; intros es s H (w & W & S) R F; [destruct F|]. cbn in R.
  destruct (step s e) as [s1|] eqn:E; [|discriminate].
  assert (H1 : run (init c) (es ++ [e]) = Some s1) by (rewrite run_app, H; cbn; now rewrite E).
  pose proof (reach _ _ _ H) as I.
  destruct e as [l t| | | | |cf]; cbn [step] in E; unfold take_loop, take_sync, write_one, finish, reload in E; rewrite ?W in E; try discriminate.
  - apply (IH _ s1 H1); auto; [|destruct F; [discriminate|auto]]. injection E as <-. exists w. auto.
  - apply (IH _ s1 H1); auto; [|destruct F; [discriminate|auto]]. destruct (w_todo w); [discriminate|]. injection E as <-. eexists. split; [reflexivity|]. auto.
  - clear IH. destruct (done_mono _ _ _ R) as [d ->]. destruct (w_todo w) eqn:T; [|discriminate]. injection E as <-. cbn [done].
    pose proof (i_seen _ _ _ I w W) as Q. rewrite T in Q. cbn in Q. rewrite app_length. lia.
Qed.

Lemma enqueues_len c es s : run (init c) es = Some s -> length (enqueues es) = enqueued s.
Proof.
  intros H. pose proof (inv_len _ _ _ (reach _ _ _ H)) as L. destruct (reach _ _ _ H) as [I _ _ _ _ _].
  rewrite <- I, map_length, !app_length, map_length. lia.
Qed.

(** When [synchronize] returns, all messages enqueued before it have been dealt
    with: it either finds nothing to do or writes them itself. *)
Theorem logger_sync : forall c e1 e2 s1 s2 s3, run (init c) e1 = Some s1 -> step s1 TakeSync = Some s2 -> run s2 e2 = Some s3 ->
  writing s2 = None \/ In Finish e2 ->
  firstn (length (enqueues e1)) (map (fun x => (m_level (f_msg x), m_text (f_msg x))) (done s3)) = enqueues e1.
Proof.
  intros c e1 e2 s1 s2 s3 H1 H2 H3 F.
  assert (H : run (init c) (e1 ++ TakeSync :: e2) = Some s3) by (rewrite run_app, H1; cbn [run]; now rewrite H2).
  assert (H12 : run (init c) (e1 ++ [TakeSync]) = Some s2) by (rewrite run_app, H1; cbn [run]; now rewrite H2).
  assert (L : (length (enqueues e1) <= length (done s3))%nat).
  { rewrite (enqueues_len _ _ _ H1). destruct F as [F|F].
    - pose proof (inv_len _ _ _ (reach _ _ _ H12)) as Le. unfold todo in Le. rewrite F in Le. cbn [step] in H2. unfold take_sync in H2.
      destruct (writing s1); [discriminate|]. destruct (queue s1) eqn:Q; injection H2 as <-; [|discriminate]. cbn in Le.
      destruct (done_mono _ _ _ H3) as [d ->]. cbn. rewrite app_length. lia.
    - cbn [step] in H2. unfold take_sync in H2. destruct (writing s1) eqn:W; [discriminate|]. destruct (queue s1) eqn:Q; injection H2 as <-.
      + pose proof (inv_len _ _ _ (reach _ _ _ H1)) as Le. unfold todo in Le. rewrite W, Q in Le. cbn in Le.
        destruct (done_mono _ _ _ H3) as [d ->]. cbn. rewrite app_length. lia.
      + refine (seen_finish c _ _ _ _ _ H12 _ H3 F). eexists. split; reflexivity. }
  pose proof (logger_order _ _ _ H) as O. rewrite enqueues_app in O. cbn [enqueues] in O.
  apply (f_equal (firstn (length (enqueues e1)))) in O. rewrite firstn_app in O.
  rewrite map_length in O. replace (length (enqueues e1) - length (done s3))%nat with 0%nat in O by lia. cbn [firstn] in O.
  rewrite app_nil_r in O. rewrite O, firstn_app, firstn_all, Nat.sub_diag. cbn. now rewrite app_nil_r.
Qed.
Print Assumptions logger_sync.

(** The writer can always go on until nothing is left. *)
Theorem logger_progress : forall c es s, run (init c) es = Some s ->
  exists es' s', run s es' = Some s' /\ pending s' = [] /\ writing s' = None
    /\ (forall e, In e es' -> e = TakeLoop \/ e = WriteOne \/ e = Finish) /\ (length es' <= 2 * length (pending s) + 3)%nat.
Proof.
  intros c es s _.
  assert (A : forall n s w, writing s = Some w -> length (w_todo w) = n ->
    exists s', run s (repeat WriteOne n ++ [Finish]) = Some s' /\ writing s' = None /\ queue s' = queue s).
  { clear. induction n as [|n IH]; intros s w W L; cbn [repeat app run step].
    - unfold finish. rewrite W. destruct (w_todo w); [|discriminate]. eexists. split; [reflexivity|]. auto.
    - unfold write_one. rewrite W. destruct (w_todo w) as [|m r]; [discriminate|]. cbn [length] in L. injection L as L.
      match goal with |- context [run ?x _] => destruct (IH x _ eq_refl L) as (s' & R & Wn & Q) end.
      exists s'. rewrite R. auto. }
  assert (B : forall s, writing s = None -> exists es' s', run s es' = Some s' /\ queue s' = [] /\ writing s' = None
    /\ (forall e, In e es' -> e = TakeLoop \/ e = WriteOne \/ e = Finish) /\ (length es' <= length (queue s) + 2)%nat).
  { clear s. intros s W. destruct (queue s) as [|m q] eqn:Q.
    - exists [], s. repeat split; auto; [intros e []|cbn; lia].
    - assert (T : step s TakeLoop = Some (mkS [] (Some (mkW ByLoop (m :: q) (length (m :: q)) (conf s) (enqueued s))) (conf s) (done s) (enqueued s) (synced s)))
        by (cbn [step]; unfold take_loop; now rewrite W, Q).
      match type of T with _ = Some ?x => destruct (A (length (m :: q)) x _ eq_refl eq_refl) as (s' & R & Wn & Qn) end.
      exists (TakeLoop :: repeat WriteOne (length (m :: q)) ++ [Finish]), s'. cbn [run]. rewrite T, R. repeat split; auto.
      + intros e [<-|K]; [auto|]. apply in_app_iff in K as [K|[<-|[]]]; [apply repeat_spec in K; auto|auto].
      + cbn [length]. rewrite app_length, repeat_length. cbn. lia. }
  assert (P : forall s', queue s' = [] -> writing s' = None -> pending s' = []) by (intros s' Q W; unfold pending; now rewrite Q, W).
  destruct (writing s) as [w|] eqn:W.
  - destruct (A _ _ _ W eq_refl) as (s1 & R1 & W1 & Q1). destruct (B _ W1) as (es2 & s2 & R2 & Q2 & W2 & F2 & L2).
    exists ((repeat WriteOne (length (w_todo w)) ++ [Finish]) ++ es2), s2. rewrite run_app, R1. repeat split; auto.
    + intros e K. apply in_app_iff in K as [K|K]; [|auto]. apply in_app_iff in K as [K|[<-|[]]]; [apply repeat_spec in K; auto|auto].
    + unfold pending. rewrite W, map_length, !app_length, repeat_length. cbn [length]. rewrite Q1 in L2. lia.
  - destruct (B _ W) as (es2 & s2 & R2 & Q2 & W2 & F2 & L2). exists es2, s2. repeat split; auto.
    unfold pending. rewrite W, map_length. cbn [app]. lia.
Qed.
Print Assumptions logger_progress.

(** Two levels; the second is expendable.  A message of each, and one of a level
    which does not exist; then a reload, and a synchronization. *)
Example logger_history :
  let c := [mkL false [txt "a"; txt "b"]; mkL true [txt "b"]] in
  let es := [Enqueue 0 (txt "x"); Enqueue 1 (txt "y"); TakeLoop; WriteOne; Enqueue 0 (txt "z"); WriteOne; Finish;
             Enqueue 7 (txt "w"); TakeSync; WriteOne; WriteOne; Finish; Reload []; Enqueue 0 (txt "v")] in
  exists s, run (init c) es = Some s
  /\ contents (txt "a") (done s) = [(0%nat, txt "x"); (0%nat, txt "z")]
  /\ contents (txt "b") (done s) = [(0%nat, txt "x"); (1%nat, txt "y"); (0%nat, txt "z")]
  /\ pending s = [(0%nat, txt "v")] /\ synced s = [4%nat].
Proof. eexists. split; [vm_compute; reflexivity|]. vm_compute. auto. Qed.

Lemma enqueue_many l t n : forall s, writing s = None ->
  exists s', run s (repeat (Enqueue l t) n) = Some s' /\ writing s' = None /\ conf s' = conf s /\ done s' = done s
    /\ length (queue s') = (length (queue s) + n)%nat
    /\ (Forall (fun m => m_level m = l) (queue s) -> Forall (fun m => m_level m = l) (queue s')).
Proof.
  induction n as [|n IH]; intros s W; [exists s; cbn; auto 10|]. cbn [repeat run step].
  destruct (IH (enqueue s l t) W) as (s' & R & W' & C & D & L & F). exists s'. split; [auto|]. split; [auto|]. split; [auto|]. split; [auto|].
  cbn [enqueue queue] in L. rewrite app_length in L. cbn in L. split; [lia|]. intros G. apply F. cbn [enqueue queue].
  apply Forall_app. split; [auto|]. constructor; auto.
Qed.

(** A congested batch: the first of [n] messages of an expendable level is
    skipped if [n] exceeds 1000, and is written otherwise. *)
Example logger_congested : forall n t, (1 <= n)%nat ->
  let c := [mkL false [txt "a"]; mkL true [txt "a"]] in
  exists s x, run (init c) (repeat (Enqueue 1 t) n ++ [TakeLoop; WriteOne]) = Some s /\ done s = [x]
    /\ f_out x = (if (1000 <? n)%nat then None else Some [txt "a"]).
Proof.
  intros n t Hn c. destruct (enqueue_many 1 t n (init c) eq_refl) as (s' & R & W & C & D & L & F).
  cbn [init queue done conf length] in *. specialize (F (Forall_nil _)). rewrite run_app, R. cbn [run step]. unfold take_loop. rewrite W.
  destruct (queue s') as [|m q] eqn:Q; [cbn in L; lia|]. inversion F as [|? ? Hm Hq]; subst. cbn [run step]. unfold write_one. cbn [writing w_todo].
  eexists. eexists. split; [reflexivity|]. cbn [done]. rewrite D. split; [reflexivity|]. unfold decide. cbn [f_out w_conf w_kind w_batch]. rewrite C, Hm.
  cbn [c nth_error expendable]. rewrite andb_true_r. rewrite L. cbn [Nat.add].
  destruct (Nat.ltb_spec 1000 n), (Z.ltb_spec 1000 (Z.of_nat n)); try reflexivity; lia.
Qed.
