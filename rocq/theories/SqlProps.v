(** Theorems about the texts of the statements that check a table (C98). *)
From Coq Require Import List ZArith Bool Lia.
From Coq Require Import String.
From Verif Require Import Base Text NetrefSpec RedisSpec DateSpec DateProps HnameModel MysqlModel MysqlSpec MysqlProps CktModel SqlModel SqlSpec.
Import ListNotations.
Open Scope list_scope.
Open Scope Z_scope.
Notation length := List.length.
Notation concat := List.concat.

(** *** Reading one text after another *)

Local Definition pending (m : mode) : option (list token) :=
  match m with
  | Idle => Some []
  | In_word w => Some [Word w]
  | Name_end n => Some [Name n]
  | Text_end t => Some [Text t]
  | _ => None
  end.

(** The tokens of a text whose last character ends a token, and of any text. *)
Local Definition closed (s : list Z) (ts : list token) : Prop := fold_left read s (Idle, []) = (Idle, ts).
Local Definition lexes (s : list Z) (ts : list token) : Prop :=
  exists m o p, fold_left read s (Idle, []) = (m, o) /\ pending m = Some p /\ ts = o ++ p.

Local Lemma start_frame c out : start c out = (fst (start c []), out ++ snd (start c [])).
Proof. unfold start. destruct (blank c), (wordy c), (c =? 96), (c =? 39); cbn [fst snd]; rewrite ?app_nil_r; reflexivity. Qed.

Local Lemma read_frame m out c : read (m, out) c = (fst (read (m, []) c), out ++ snd (read (m, []) c)).
Proof.
  destruct m; cbn [read].
  - apply start_frame.
  - destruct (wordy c); cbn [fst snd]; [rewrite app_nil_r; reflexivity|]. rewrite start_frame, (start_frame c ([] ++ _)). cbn [fst snd app]. rewrite <- ?app_assoc. reflexivity.
  - destruct (c =? 96); cbn [fst snd]; rewrite app_nil_r; reflexivity.
  - destruct (c =? 96); cbn [fst snd]; [rewrite app_nil_r; reflexivity|]. rewrite start_frame, (start_frame c ([] ++ _)). cbn [fst snd app]. rewrite <- ?app_assoc. reflexivity.
  - destruct (c =? 39), (c =? 92); cbn [fst snd]; rewrite app_nil_r; reflexivity.
  - cbn [fst snd]. rewrite app_nil_r. reflexivity.
  - destruct (c =? 39); cbn [fst snd]; [rewrite app_nil_r; reflexivity|]. rewrite start_frame, (start_frame c ([] ++ _)). cbn [fst snd app]. rewrite <- ?app_assoc. reflexivity.
Qed.

Local Lemma fold_frame s : forall m out, fold_left read s (m, out) = (fst (fold_left read s (m, [])), out ++ snd (fold_left read s (m, []))).
Proof.
  induction s as [|c s IH]; intros m out; cbn [fold_left]; [cbn [fst snd]; rewrite app_nil_r; reflexivity|].
  rewrite read_frame. rewrite IH. rewrite (read_frame m [] c). cbn [app]. rewrite (IH _ (snd _)). cbn [fst snd]. rewrite app_assoc. reflexivity.
Qed.

Local Lemma closed_lexes s ts : closed s ts -> lexes s ts.
Proof. intros H. exists Idle, ts, []. rewrite app_nil_r. auto. Qed.

Local Lemma lexes_tokens s ts : lexes s ts -> tokens s = Some ts.
Proof.
  intros (m & o & p & E & P & ->). unfold tokens. rewrite E. destruct m; cbn in P; try discriminate; injection P as <-; rewrite ?app_nil_r; reflexivity.
Qed.

Local Lemma closed_app a b ts us : closed a ts -> closed b us -> closed (a ++ b) (ts ++ us).
Proof. unfold closed. intros A B. rewrite fold_left_app, A, fold_frame, B. reflexivity. Qed.

Local Lemma closed_lexes_app a b ts us : closed a ts -> lexes b us -> lexes (a ++ b) (ts ++ us).
Proof.
  intros A (m & o & p & E & P & ->). exists m, (ts ++ o), p. rewrite fold_left_app, A, fold_frame, E. rewrite <- app_assoc. auto.
Qed.

(** Blanks and marks end what is before them. *)
Local Definition separator (c : Z) : bool := negb (wordy c) && negb (c =? 96) && negb (c =? 39).

Local Lemma read_separator m p c : pending m = Some p -> separator c = true -> read (m, []) c = (Idle, p ++ snd (start c [])) /\ fst (start c []) = Idle.
Proof.
  intros P C. unfold separator in C. rewrite !andb_true_iff, !negb_true_iff in C. destruct C as [[W B] Q].
  assert (S : fst (start c []) = Idle) by (unfold start; rewrite W, B, Q; destruct (blank c); reflexivity).
  split; [|exact S].
  destruct m; cbn in P; try discriminate; injection P as <-; cbn [read]; rewrite ?W, ?B, ?Q; rewrite start_frame, S; reflexivity.
Qed.

Local Lemma sep_reads a ts c b : lexes a ts -> separator c = true -> fold_left read (a ++ c :: b) (Idle, []) =
  (fst (fold_left read (c :: b) (Idle, [])), ts ++ snd (fold_left read (c :: b) (Idle, []))).
Proof.
  intros (m & o & p & E & P & ->) C. rewrite fold_left_app, E. cbn [fold_left]. rewrite read_frame.
  destruct (read_separator m p c P C) as [R S]. rewrite R. cbn [fst snd].
  destruct (read_separator Idle [] c eq_refl C) as [R' _]. rewrite R'. cbn [app].
  rewrite fold_frame, (fold_frame b Idle (snd _)). cbn [fst snd]. rewrite <- !app_assoc. reflexivity.
Qed.

Local Lemma sep_lexes a ts c b us : lexes a ts -> separator c = true -> lexes (c :: b) us -> lexes (a ++ c :: b) (ts ++ us).
Proof.
  intros A C (m & o & p & E & P & ->). exists m, (ts ++ o), p. rewrite (sep_reads a ts c b A C), E. cbn [fst snd]. rewrite <- app_assoc. auto.
Qed.

Local Lemma sep_closed a ts c b us : lexes a ts -> separator c = true -> closed (c :: b) us -> closed (a ++ c :: b) (ts ++ us).
Proof. unfold closed. intros A C B. rewrite (sep_reads a ts c b A C), B. reflexivity. Qed.

Local Lemma reads_name n : simple_name n -> forall acc, fold_left read n (In_name acc, []) = (In_name (acc ++ n), []).
Proof.
  unfold simple_name. induction n as [|c n IH]; intros H acc; cbn [fold_left]; [rewrite app_nil_r; reflexivity|].
  cbn [read]. destruct (Z.eqb_spec c 96) as [->|N]; [destruct H; left; reflexivity|].
  rewrite IH by (intros I; apply H; right; exact I). rewrite <- app_assoc. reflexivity.
Qed.

Local Lemma lexes_name n : simple_name n -> lexes (txt "`" ++ n ++ txt "`") [Name n].
Proof.
  intros H. exists (Name_end n), [], [Name n]. rewrite !fold_left_app. change (fold_left read (txt "`") (Idle, [])) with (In_name [], @nil token).
  rewrite (reads_name n H). auto.
Qed.

Local Lemma reads_word w : forall acc, forallb wordy w = true -> fold_left read w (In_word acc, []) = (In_word (acc ++ w), []).
Proof.
  induction w as [|c w IH]; intros acc H; cbn [fold_left]; [rewrite app_nil_r; reflexivity|].
  cbn [forallb] in H. apply andb_true_iff in H. destruct H as [C H]. cbn [read]. rewrite C, IH by exact H. rewrite <- app_assoc. reflexivity.
Qed.

Local Lemma wordy_not_blank c : wordy c = true -> blank c = false.
Proof. unfold wordy, blank. lia. Qed.

Local Lemma lexes_word w : w <> [] -> forallb wordy w = true -> lexes w [Word w].
Proof.
  intros N H. destruct w as [|c w]; [contradiction|]. exists (In_word (c :: w)), [], [Word (c :: w)].
  cbn [forallb] in H. apply andb_true_iff in H. destruct H as [C H]. cbn [fold_left read]. unfold start. rewrite (wordy_not_blank c C), C.
  rewrite reads_word by exact H. auto.
Qed.

Local Lemma reads_escaped s : forall acc, fold_left read (escaped s) (In_text acc, []) = (In_text (acc ++ s), []).
Proof.
  induction s as [|c s IH]; intros acc; [cbn; rewrite app_nil_r; reflexivity|].
  cbn [escaped]. rewrite fold_left_app. unfold special. destruct (c =? 39) eqn:Q; [|destruct (c =? 34) eqn:D; [|destruct (c =? 92) eqn:B]]; cbn [orb].
  - apply Z.eqb_eq in Q. subst c. cbn [fold_left read]. change (92 =? 39) with false. change (92 =? 92) with true. cbn iota. cbn [read]. change (unescape 39) with [39]. rewrite IH, <- app_assoc. reflexivity.
  - apply Z.eqb_eq in D. subst c. cbn [fold_left read]. change (92 =? 39) with false. change (92 =? 92) with true. cbn iota. cbn [read]. change (unescape 34) with [34]. rewrite IH, <- app_assoc. reflexivity.
  - apply Z.eqb_eq in B. subst c. cbn [fold_left read]. change (92 =? 39) with false. change (92 =? 92) with true. cbn iota. cbn [read]. change (unescape 92) with [92]. rewrite IH, <- app_assoc. reflexivity.
  - cbn [fold_left read]. rewrite Q, B. rewrite IH, <- app_assoc. reflexivity.
Qed.

Local Lemma lexes_escaped s : lexes ([39] ++ escaped s ++ [39]) [Text s].
Proof.
  exists (Text_end s), [], [Text s]. rewrite !fold_left_app. change (fold_left read [39] (Idle, [])) with (In_text [], @nil token).
  rewrite reads_escaped. auto.
Qed.

Local Lemma decimal_wordy t : Forall decimal t -> forallb wordy t = true.
Proof. intros H. apply forallb_forall. intros c I. rewrite Forall_forall in H. specialize (H c I). unfold decimal in H. unfold wordy. lia. Qed.

Local Lemma decimal_escaped t : Forall decimal t -> escaped t = t.
Proof. intros H. apply escaped_plain. eapply Forall_impl; [|exact H]. intros c D. unfold decimal in D. unfold special. lia. Qed.

(** A solver for texts that are given. *)
Local Ltac fixed := vm_compute; reflexivity.

Section props.
Variable double_text : Z -> option (list Z).
Variable off : Z -> Z.
Hypothesis zone : forall t, Z.abs (off t) < 360000.
Notation print := (print double_text off).
Notation literal := (literal double_text off).
Notation ordinary := (ordinary double_text).

Local Lemma lexes_value v : ordinary v -> exists t, lexes (print v) [t] /\ literal v t.
Proof.
  intros O. destruct v as [|n|x|s|ns]; cbn [SqlSpec.ordinary] in O.
  - exists (Word (txt "NULL")). split; [apply lexes_word; [discriminate|reflexivity]|constructor].
  - pose proof (sql_integer double_text off n O) as T. exists (Word (print (Int n))). split; [|constructor; exact T].
    destruct T as [(_ & N & F & _)|(_ & u & -> & N & F & _)].
    + apply lexes_word; [exact N|apply decimal_wordy; exact F].
    + apply lexes_word; [discriminate|]. cbn [forallb]. rewrite (decimal_wordy u F). reflexivity.
  - cbn [MysqlModel.print]. destruct (double_text x) as [t|] eqn:E.
    + exists (Word t). split; [apply lexes_word; apply O|constructor; exact E].
    + exists (Word (txt "NULL")). split; [apply lexes_word; [discriminate|reflexivity]|constructor; exact E].
  - exists (Text s). split; [|constructor]. cbn [MysqlModel.print]. rewrite blob_escaped. apply lexes_escaped.
  - destruct (sql_datetime double_text off ns) as (y & m & d & h & mi & s & t & E & D & L).
    { split; [|apply O]. red. change (two64 / 2) with (2 ^ 63). change (- two64 / 2) with (- 2 ^ 63). lia. }
    { exact zone. }
    exists (Text t). split; [|econstructor; eassumption]. rewrite E.
    assert (P : escaped t = t).
    { destruct D as [ty tm td th tmi ts (_ & F1 & _) (_ & F2 & _) (_ & F3 & _) (_ & F4 & _) (_ & F5 & _) (_ & F6 & _)].
      rewrite !escaped_app, (decimal_escaped ty F1), (decimal_escaped tm F2), (decimal_escaped td F3), (decimal_escaped th F4), (decimal_escaped tmi F5), (decimal_escaped ts F6). reflexivity. }
    rewrite <- P at 1. apply lexes_escaped.
Qed.

(** *** Columns *)

Local Lemma lexes_type t : t <> Dropped -> t <> Auto -> exists ts, lexes (type_text t) ts /\ type_written (type_text t) ts.
Proof.
  intros D A. destruct t; try congruence; cbn [type_text].
  - eexists. split; [apply closed_lexes; fixed|apply type_varchar].
  - eexists. split; [apply lexes_word; [discriminate|fixed]|apply type_plain; cbn; tauto].
  - eexists. split; [apply lexes_word; [discriminate|fixed]|apply type_plain; cbn; tauto].
  - eexists. split; [apply lexes_word; [discriminate|fixed]|apply type_plain; cbn; tauto].
  - eexists. split; [apply lexes_word; [discriminate|fixed]|apply type_plain; cbn; tauto].
  - eexists. split; [apply lexes_word; [discriminate|fixed]|apply type_plain; cbn; tauto].
  - eexists. split; [apply closed_lexes; fixed|apply type_datetime].
Qed.

Local Lemma sep_space a ts b us : lexes a ts -> lexes b us -> lexes (a ++ 32 :: b) (ts ++ us).
Proof. intros A B. apply sep_lexes; [exact A|reflexivity|]. apply (closed_lexes_app [32] b [] us); [reflexivity|exact B]. Qed.

Local Lemma lexes_column c : simple_name (c_name c) -> ordinary (c_default c) -> c_type c <> Dropped ->
  exists ts, lexes (column_text double_text off c) ts /\ column_written double_text off (column_definition c) ts.
Proof.
  intros N O D. unfold column_text.
  assert (E : forall b, txt "`" ++ c_name c ++ txt "` " ++ b = (txt "`" ++ c_name c ++ txt "`") ++ 32 :: b) by (intros b; rewrite <- !app_assoc; reflexivity).
  rewrite E. clear E.
  destruct (c_type c) eqn:T; [congruence|..].
  all: try (
    assert (W : exists ts, lexes (type_text (c_type c)) ts /\ type_written (type_text (c_type c)) ts) by (apply lexes_type; rewrite T; discriminate);
    destruct W as (ty & L & W); rewrite T in L, W;
    assert (Q : forall a ta, lexes a ta -> exists v, default_written double_text off (c_default c) v /\
      lexes (a ++ (if is_null (c_default c) then [] else txt " DEFAULT " ++ print (c_default c))) (ta ++ v))
     by (intros a ta A; destruct (is_null (c_default c)) eqn:Nu;
         [exists []; rewrite !app_nil_r; split; [destruct (c_default c); try discriminate; constructor|exact A]|];
         destruct (lexes_value (c_default c) O) as (t & Lt & Vt);
         exists [Word (txt "DEFAULT"); t]; split; [constructor; [destruct (c_default c); discriminate|exact Vt]|];
         change (txt " DEFAULT " ++ print (c_default c)) with (32 :: txt "DEFAULT" ++ 32 :: print (c_default c));
         apply sep_space; [exact A|]; apply (sep_space _ [Word (txt "DEFAULT")] _ [t]); [apply lexes_word; [discriminate|fixed]|exact Lt]);
    assert (Q2 : exists v, default_written double_text off (c_default c) v /\
      lexes (type_text (c_type c) ++ (if c_null c then [] else txt " NOT NULL") ++ (if is_null (c_default c) then [] else txt " DEFAULT " ++ print (c_default c)))
        (ty ++ (if negb (c_null c) then words ["NOT"; "NULL"]%string else []) ++ v))
     by (rewrite T; destruct (c_null c); cbn [negb app]; [apply (Q _ _ L)|];
         destruct (Q (type_text (c_type c) ++ txt " NOT NULL") (ty ++ words ["NOT"; "NULL"]%string)) as (v & V1 & V2);
         [rewrite T; change (txt " NOT NULL") with (32 :: txt "NOT" ++ 32 :: txt "NULL");
          apply sep_space; [exact L|]; apply (sep_space _ [Word (txt "NOT")] _ [Word (txt "NULL")]); apply lexes_word; first [discriminate|fixed]
         |exists v; split; [exact V1|]; rewrite T in V2; rewrite <- !app_assoc in V2; exact V2]);
    destruct Q2 as (v & V1 & V2); rewrite T in V2;
    exists ([Name (c_name c)] ++ ty ++ (if negb (c_null c) then words ["NOT"; "NULL"]%string else []) ++ v);
    split; [apply sep_space; [apply lexes_name; exact N|exact V2]|];
    exists ty, v; unfold column_definition; rewrite T; cbn [d_type d_default d_name d_auto d_not_null]; split; [exact W|split; [exact V1|reflexivity]]).
  exists ([Name (c_name c)] ++ words ["bigint"; "AUTO_INCREMENT"; "NOT"; "NULL"]%string). split.
  - apply sep_space; [apply lexes_name; exact N|]. rewrite app_nil_r. cbn [type_text].
    eexists _, _, _. split; [vm_compute; reflexivity|]. split; reflexivity.
  - exists [Word (txt "bigint")], []. unfold column_definition. rewrite T. cbn [d_type d_default d_name d_auto d_not_null].
    split; [apply type_plain; cbn; tauto|]. split; [constructor|reflexivity].
Qed.

(** *** Indexes *)

Local Lemma closed_index_columns l : Forall simple_name l -> l <> [] ->
  lexes (index_columns 0 l) (listed (map (fun c => [Name c]) l)).
Proof.
  intros F N.
  assert (G : forall l n, Forall simple_name l -> forall a ta, lexes a ta -> lexes (a ++ index_columns (S n) l) (ta ++ flat_map (fun c => [Mark 44; Name c]) l)).
  { clear. induction l as [|c l IH]; intros n F a ta A; cbn [index_columns flat_map]; [rewrite !app_nil_r; exact A|].
    inversion F as [|? ? C F']; subst. cbn [Nat.eqb].
    specialize (IH (S n) F' (a ++ txt ", " ++ (txt "`" ++ c ++ txt "`")) (ta ++ [Mark 44; Name c])).
    rewrite <- !app_assoc in IH. rewrite <- ?app_assoc. apply IH.
    apply sep_lexes; [exact A|reflexivity|]. apply (closed_lexes_app (txt ", ") _ [Mark 44] [Name c]); [reflexivity|apply lexes_name; exact C]. }
  destruct l as [|c l]; [contradiction|]. inversion F as [|? ? C F']; subst.
  assert (L : forall c, listed (map (fun c => [Name c]) (c :: l)) = [Name c] ++ flat_map (fun c => [Mark 44; Name c]) l).
  { clear. induction l as [|d l IH]; intros c; [reflexivity|]. cbn [map listed flat_map app]. f_equal. f_equal. apply (IH d). }
  rewrite L. cbn [index_columns Nat.eqb app]. specialize (G l O F' _ _ (lexes_name c C)). rewrite <- !app_assoc in G. exact G.
Qed.

Local Lemma lexes_closed_paren a ts : lexes a ts -> closed (a ++ txt ")") (ts ++ [Mark 41]).
Proof. intros A. apply sep_closed; [exact A|reflexivity|reflexivity]. Qed.

Local Lemma closed_index i : simple_name (i_name i) -> Forall simple_name (i_columns i) -> i_type i <> I_dropped ->
  closed (index_text i) (index_written (index_definition i)).
Proof.
  intros N F D. unfold index_text, index_written, index_definition.
  assert (C : closed (txt " (" ++ index_columns 0 (i_columns i) ++ txt ")") ([Mark 40] ++ listed (map (fun c => [Name c]) (i_columns i)) ++ [Mark 41])).
  { apply closed_app; [reflexivity|]. destruct (i_columns i) as [|c l] eqn:E; [reflexivity|]. apply lexes_closed_paren. apply closed_index_columns; [exact F|discriminate]. }
  destruct (equals (i_name i) primary) eqn:E; cbn [x_name x_unique x_columns].
  - destruct (list_eq_dec Z.eq_dec primary (txt "PRIMARY")) as [_|n]; [|destruct n; reflexivity].
    apply sep_closed; [|reflexivity|exact C]. eexists _, _, _. split; [vm_compute; reflexivity|split; reflexivity].
  - destruct (list_eq_dec Z.eq_dec (i_name i) (txt "PRIMARY")) as [e|_]; [rewrite e in E; discriminate|].
    apply sep_closed; [|reflexivity|exact C]. destruct (i_type i); [congruence| |].
    + apply (closed_lexes_app (txt "UNIQUE INDEX ") (txt "`" ++ i_name i ++ txt "`") (words ["UNIQUE"; "INDEX"]%string) [Name (i_name i)]); [fixed|apply lexes_name; exact N].
    + apply (closed_lexes_app (txt "INDEX ") (txt "`" ++ i_name i ++ txt "`") (words ["INDEX"]%string) [Name (i_name i)]); [fixed|apply lexes_name; exact N].
Qed.

(** *** Items after others *)

Local Notation after parts := (flat_map (fun p => Mark 44 :: p) parts).

Local Lemma listed_after p parts : listed (p :: parts) = p ++ after parts.
Proof.
  revert p. induction parts as [|q parts IH]; intros p; [cbn; rewrite app_nil_r; reflexivity|].
  change (listed (p :: q :: parts)) with (p ++ [Mark 44] ++ listed (q :: parts)). rewrite IH. reflexivity.
Qed.

Local Lemma comma_lexes k a ta b us : lexes a ta -> lexes b us -> (exists n, k = txt "," ++ newline ++ repeat 32 n) -> lexes (a ++ k ++ b) (ta ++ Mark 44 :: us).
Proof.
  intros A B (n & ->). cbn [txt app newline]. apply sep_lexes; [exact A|reflexivity|].
  apply (closed_lexes_app (txt "," ++ newline ++ repeat 32 n) b [Mark 44] us); [|exact B].
  unfold closed. rewrite !fold_left_app. change (fold_left read newline (fold_left read (txt ",") (Idle, []))) with (Idle, [Mark 44]).
  induction n as [|n IH]; [reflexivity|exact IH].
Qed.

Notation column_ok c := (simple_name (c_name c) /\ ordinary (c_default c)).
Notation index_ok i := (simple_name (i_name i) /\ Forall simple_name (i_columns i)).
Notation part_written := (part_written double_text off).
Notation clause_written := (clause_written double_text off).
Local Notation column_parts l := (map (fun c => Add_column (column_definition c)) (filter (fun c => match c_type c with Dropped => false | _ => true end) l)).
Local Notation index_parts l := (map (fun i => Add_index (index_definition i)) (filter (fun i => match i_type i with I_dropped => false | _ => true end) l)).

Local Lemma create_columns_kept n c l : c_type c <> Dropped -> create_columns double_text off n (c :: l) =
  (if Nat.eqb (S n) 1 then [] else txt "," ++ newline ++ txt "   ") ++ column_text double_text off c ++ create_columns double_text off (S n) l.
Proof. intros H. cbn [create_columns]. destruct (c_type c); solve [congruence|reflexivity]. Qed.

Local Lemma filter_kept c l : c_type c <> Dropped -> column_parts (c :: l) = Add_column (column_definition c) :: column_parts l.
Proof. intros H. cbn [filter]. destruct (c_type c); solve [congruence|reflexivity]. Qed.

Local Lemma dropped_dec c : {c_type c = Dropped} + {c_type c <> Dropped}.
Proof. destruct (c_type c); auto; right; discriminate. Qed.

Local Lemma more_columns l : Forall (fun c => column_ok c) l -> forall n a ta, lexes a ta ->
  exists parts, Forall2 part_written (column_parts l) parts /\ lexes (a ++ create_columns double_text off (S n) l) (ta ++ after parts).
Proof.
  induction 1 as [|c l [N O] _ IH]; intros n a ta A; [exists []; split; [constructor|cbn; rewrite !app_nil_r; exact A]|].
  destruct (dropped_dec c) as [D|D].
  - cbn [create_columns filter]. rewrite D. apply IH. exact A.
  - rewrite (create_columns_kept _ _ _ D), (filter_kept _ _ D). cbn [Nat.eqb].
    destruct (lexes_column c N O D) as (p & L & W).
    destruct (IH (S n) (a ++ (txt "," ++ newline ++ txt "   ") ++ column_text double_text off c) (ta ++ Mark 44 :: p)) as (parts & F & L').
    { apply comma_lexes; [exact A|exact L|exists 3%nat; reflexivity]. }
    exists (p :: parts). split; [constructor; [constructor; exact W|exact F]|]. cbn [flat_map].
    rewrite <- !app_assoc in L'. rewrite <- ?app_assoc. exact L'.
Qed.

Local Lemma first_columns l : Forall (fun c => column_ok c) l -> (exists c, In c l /\ c_type c <> Dropped) ->
  exists p parts, Forall2 part_written (column_parts l) (p :: parts) /\ lexes (create_columns double_text off 0 l) (p ++ after parts).
Proof.
  induction 1 as [|c l [N O] F IH]; intros (d & I & D); [destruct I|].
  destruct (dropped_dec c) as [E|E].
  - cbn [create_columns filter]. rewrite E. apply IH. destruct I as [<-|I]; [contradiction|]. exists d. auto.
  - rewrite (create_columns_kept _ _ _ E), (filter_kept _ _ E). cbn [Nat.eqb app].
    destruct (lexes_column c N O E) as (p & L & W). destruct (more_columns l F 0%nat _ _ L) as (parts & F2 & L').
    exists p, parts. split; [constructor; [constructor; exact W|exact F2]|exact L'].
Qed.

Local Lemma more_indexes l : Forall (fun i => index_ok i) l -> forall a ta, lexes a ta ->
  exists parts, Forall2 part_written (index_parts l) parts /\ lexes (a ++ create_indexes l) (ta ++ after parts).
Proof.
  induction 1 as [|i l [N C] _ IH]; intros a ta A; [exists []; split; [constructor|cbn; rewrite !app_nil_r; exact A]|].
  unfold create_indexes. cbn [flat_map filter]. fold (create_indexes l).
  assert (K : i_type i <> I_dropped -> exists parts, Forall2 part_written (Add_index (index_definition i) :: index_parts l) parts /\
     lexes (a ++ (txt "," ++ newline ++ txt "   " ++ index_text i) ++ create_indexes l) (ta ++ after parts)).
  { intros D. pose proof (closed_lexes _ _ (closed_index i N C D)) as L.
    destruct (IH (a ++ (txt "," ++ newline ++ txt "   ") ++ index_text i) (ta ++ Mark 44 :: index_written (index_definition i))) as (parts & F & L').
    { apply comma_lexes; [exact A|exact L|exists 3%nat; reflexivity]. }
    exists (index_written (index_definition i) :: parts). split; [constructor; [constructor|exact F]|]. cbn [flat_map].
    rewrite <- !app_assoc in L'. rewrite <- ?app_assoc. exact L'. }
  destruct (i_type i) eqn:D; [apply IH; exact A| |]; apply K; discriminate.
Qed.

Local Lemma more_first l : Forall (fun c => column_ok c) l -> forall a ta, lexes a ta ->
  exists ts, first_written double_text off l ts /\ lexes (a ++ create_first double_text off l) (ta ++ ts).
Proof.
  induction 1 as [|c l [N O] _ IH]; intros a ta A; [exists []; split; [constructor|cbn; rewrite !app_nil_r; exact A]|].
  unfold create_first. cbn [flat_map]. fold (create_first double_text off l).
  assert (Skip : c_type c <> Auto \/ c_default c = Null -> exists ts, first_written double_text off (c :: l) ts /\ lexes (a ++ create_first double_text off l) (ta ++ ts)).
  { intros H. destruct (IH a ta A) as (ts & F & L). exists ts. split; [apply first_other; assumption|exact L]. }
  destruct (c_type c) eqn:T; try (apply Skip; left; discriminate).
  destruct (is_null (c_default c)) eqn:Nu; [apply Skip; right; destruct (c_default c); try discriminate; reflexivity|].
  destruct (lexes_value (c_default c) O) as (t & Lt & Vt).
  destruct (IH (a ++ (txt "," ++ newline ++ txt "  ") ++ (txt "AUTO_INCREMENT = " ++ print (c_default c))) (ta ++ Mark 44 :: ([Word (txt "AUTO_INCREMENT"); Mark 61] ++ [t]))) as (ts & F & L).
  { apply comma_lexes; [exact A| |exists 2%nat; reflexivity]. apply closed_lexes_app; [fixed|exact Lt]. }
  exists ([Mark 44; Word (txt "AUTO_INCREMENT"); Mark 61; t] ++ ts). split.
  - apply first_auto; [exact T|intros E; rewrite E in Nu; discriminate|exact Vt|exact F].
  - rewrite <- !app_assoc in L. rewrite <- ?app_assoc. exact L.
Qed.

(** C98: the statement that creates a table says what has been requested. *)
Theorem create_statement name e r : simple_name name -> writable double_text r -> (exists c, In c (columns r) /\ c_type c <> Dropped) ->
  exists ts, tokens (create_text double_text off name e r) = Some ts /\ create_written double_text off name e r ts.
Proof.
  intros N [FC FI] X. destruct (first_columns _ FC X) as (p & parts & F1 & L1).
  destruct (more_indexes _ FI _ _ L1) as (q & F2 & L2).
  assert (H : lexes (txt "CREATE TABLE IF NOT EXISTS " ++ (txt "`" ++ name ++ txt "`")) (words ["CREATE"; "TABLE"; "IF"; "NOT"; "EXISTS"]%string ++ [Name name])).
  { apply closed_lexes_app; [fixed|apply lexes_name; exact N]. }
  assert (H1 : closed ((txt "CREATE TABLE IF NOT EXISTS " ++ (txt "`" ++ name ++ txt "`")) ++ (newline ++ txt "  (")) ((words ["CREATE"; "TABLE"; "IF"; "NOT"; "EXISTS"]%string ++ [Name name]) ++ [Mark 40])).
  { apply sep_closed; [exact H|reflexivity|reflexivity]. }
  pose proof (lexes_closed_paren _ _ (closed_lexes_app _ _ _ _ H1 L2)) as H2.
  assert (H3 : lexes (newline ++ txt "  " ++ engine_text e ++ txt "," ++ newline ++ txt "  CHARSET = 'utf8mb4'")
    [Word (txt "ENGINE"); Mark 61; Text (engine_name e); Mark 44; Word (txt "CHARSET"); Mark 61; Text (txt "utf8mb4")]).
  { destruct e; (eexists _, _, _; split; [vm_compute; reflexivity|split; reflexivity]). }
  pose proof (closed_lexes_app _ _ _ _ H2 H3) as H4.
  destruct (more_first _ FC _ _ H4) as (first & F3 & L3).
  eexists. split.
  - apply lexes_tokens. unfold create_text. rewrite <- !app_assoc in L3. rewrite <- ?app_assoc. exact L3.
  - exists (p :: parts ++ q), first. split; [|split; [exact F3|]].
    + unfold creation. apply (Forall2_app F1 F2).
    + rewrite listed_after, flat_map_app. rewrite <- !app_assoc. reflexivity.
Qed.

(** *** Changes *)

Variable get_int : list Z -> option Z.
Variable get_real : list Z -> option Z.

(** A change is written as clauses. *)
Local Definition change_of (cls : list clause) (x : option (list Z)) : Prop :=
  match x with
  | None => cls = []
  | Some s => exists p parts, Forall2 clause_written cls (p :: parts) /\ lexes s (p ++ after parts)
  end.

Local Lemma column_change_of cs c cls : column_ok c -> check_column get_int get_real off cs c = Ok cls ->
  change_of cls (column_change double_text off cls c).
Proof.
  intros [N O] E. unfold check_column in E.
  assert (A : c_type c <> Dropped -> change_of [Add_column (column_definition c)] (Some (txt "ADD COLUMN " ++ column_text double_text off c))).
  { intros D. destruct (lexes_column c N O D) as (p & L & W). exists (words ["ADD"; "COLUMN"]%string ++ p), []. split; [repeat constructor; exact W|].
    cbn [flat_map]. rewrite app_nil_r. apply closed_lexes_app; [fixed|exact L]. }
  assert (M : c_type c <> Dropped -> change_of [Modify_column (column_definition c)] (Some (txt "MODIFY COLUMN " ++ column_text double_text off c))).
  { intros D. destruct (lexes_column c N O D) as (p & L & W). exists (words ["MODIFY"; "COLUMN"]%string ++ p), []. split; [repeat constructor; exact W|].
    cbn [flat_map]. rewrite app_nil_r. apply closed_lexes_app; [fixed|exact L]. }
  assert (R : change_of [Drop_column (c_name c)] (Some (txt "DROP COLUMN `" ++ c_name c ++ txt "`"))).
  { exists (words ["DROP"; "COLUMN"]%string ++ [Name (c_name c)]), []. split; [repeat constructor|].
    cbn [flat_map]. rewrite app_nil_r. apply (closed_lexes_app (txt "DROP COLUMN ") (txt "`" ++ c_name c ++ txt "`")); [fixed|apply lexes_name; exact N]. }
  destruct (find_column (c_name c) cs) as [s|].
  - destruct (dropped_dec c) as [D|D].
    + rewrite D in E. injection E as <-. exact R.
    + assert (E' : match column_matches get_int get_real off c s with Same => Ok [] | Differs => Ok [Modify_column (column_definition c)] | Throws => Error | Undefined => Undef end = Ok cls)
        by (destruct (c_type c); [congruence|..]; exact E).
      destruct (column_matches get_int get_real off c s); try discriminate; injection E' as <-; [reflexivity|exact (M D)].
  - destruct (dropped_dec c) as [D|D].
    + rewrite D in E. injection E as <-. reflexivity.
    + assert (E' : Ok [Add_column (column_definition c)] = Ok cls) by (destruct (c_type c); [congruence|..]; exact E).
      injection E' as <-. exact (A D).
Qed.

Local Lemma index_change_of d i : index_ok i -> change_of (check_index d i) (index_change (check_index d i) i).
Proof.
  intros [N C]. unfold check_index.
  assert (A : i_type i <> I_dropped -> lexes (txt "ADD " ++ index_text i) (words ["ADD"]%string ++ index_written (index_definition i))).
  { intros D. apply closed_lexes_app; [fixed|]. apply closed_lexes. apply closed_index; assumption. }
  set (name := if equals (i_name i) primary then primary else i_name i).
  assert (R : exists p, clause_written (Drop_index name) p /\ lexes (drop_index_text i) p).
  { unfold name, drop_index_text. destruct (equals (i_name i) primary) eqn:E.
    - exists (words ["DROP"; "PRIMARY"; "KEY"]%string). split; [apply cl_drop_primary|]. eexists _, _, _. split; [vm_compute; reflexivity|split; reflexivity].
    - exists (words ["DROP"; "INDEX"]%string ++ [Name (i_name i)]). split.
      + apply cl_drop_index. intros e. rewrite e in E. discriminate.
      + apply (closed_lexes_app (txt "DROP INDEX ") (txt "`" ++ i_name i ++ txt "`")); [fixed|apply lexes_name; exact N]. }
  destruct R as (p & P & L).
  assert (Both : i_type i <> I_dropped -> change_of [Drop_index name; Add_index (index_definition i)] (index_change [Drop_index name; Add_index (index_definition i)] i)).
  { intros D. exists p, [words ["ADD"]%string ++ index_written (index_definition i)]. split; [constructor; [exact P|repeat constructor]|].
    cbn [flat_map]. rewrite app_nil_r.
    change (txt "," ++ newline ++ txt "   ADD " ++ index_text i) with ((txt "," ++ newline ++ txt "   ") ++ (txt "ADD " ++ index_text i)).
    apply comma_lexes; [exact L|exact (A D)|exists 3%nat; reflexivity]. }
  assert (Add : i_type i <> I_dropped -> change_of [Add_index (index_definition i)] (index_change [Add_index (index_definition i)] i)).
  { intros D. exists (words ["ADD"]%string ++ index_written (index_definition i)), []. split; [repeat constructor|]. cbn [flat_map]. rewrite app_nil_r. exact (A D). }
  destruct (lookup (i_name i) d) as [[multi cols]|].
  - destruct (i_type i) eqn:T.
    + exists p, []. split; [repeat constructor; exact P|]. cbn [flat_map]. rewrite app_nil_r. exact L.
    + match goal with |- context [if ?b then [] else _] => destruct b end; [reflexivity|apply Both; discriminate].
    + match goal with |- context [if ?b then [] else _] => destruct b end; [reflexivity|apply Both; discriminate].
  - destruct (i_type i) eqn:T; [reflexivity| |]; apply Add; discriminate.
Qed.

Local Lemma changes_column r cs : Forall (fun c => column_ok c) r -> match column_changes double_text off get_int get_real cs r, gather (check_column get_int get_real off cs) r with
  | Ok xs, Ok cls => exists css, cls = concat css /\ Forall2 change_of css xs
  | Error, Error | Undef, Undef => True
  | _, _ => False
  end.
Proof.
  induction 1 as [|c l O _ IH]; cbn [column_changes gather]; [exists []; split; constructor|].
  destruct (check_column get_int get_real off cs c) as [cl| |] eqn:E; auto.
  destruct (column_changes double_text off get_int get_real cs l), (gather (check_column get_int get_real off cs) l); auto.
  destruct IH as (css & -> & F). exists (cl :: css). split; [reflexivity|]. constructor; [|exact F]. eapply column_change_of; eassumption.
Qed.

Local Lemma more_changes css xs : Forall2 change_of css xs -> forall n a ta, lexes a ta ->
  exists parts, Forall2 clause_written (concat css) parts /\ lexes (a ++ changes (S n) xs) (ta ++ after parts).
Proof.
  induction 1 as [|cls x css xs H _ IH]; intros n a ta A; [exists []; split; [constructor|cbn; rewrite !app_nil_r; exact A]|].
  destruct x as [s|]; cbn [change_of] in H; cbn [changes concat].
  - destruct H as (p & q & F & L). cbn [Nat.eqb].
    destruct (IH (S n) (a ++ (txt "," ++ newline ++ txt "  ") ++ s) (ta ++ Mark 44 :: p ++ after q)) as (parts & F' & L').
    { apply comma_lexes; [exact A|exact L|exists 2%nat; reflexivity]. }
    exists ((p :: q) ++ parts). split; [apply Forall2_app; assumption|].
    rewrite flat_map_app. cbn [flat_map]. rewrite <- !app_assoc in L'. cbn [app] in L'. rewrite <- ?app_assoc in L'. rewrite <- ?app_assoc. cbn [app]. exact L'.
  - subst cls. apply IH. exact A.
Qed.

Local Lemma first_changes css xs : Forall2 change_of css xs -> existsb (fun x : option (list Z) => match x with Some _ => true | None => false end) xs = true ->
  exists p parts, Forall2 clause_written (concat css) (p :: parts) /\ lexes (changes 0 xs) (p ++ after parts).
Proof.
  induction 1 as [|cls x css xs H F IH]; intros E; [discriminate|].
  destruct x as [s|]; cbn [change_of] in H; cbn [changes concat].
  - destruct H as (p & q & F' & L). cbn [Nat.eqb app]. destruct (more_changes css xs F 0%nat _ _ L) as (parts & F2 & L').
    exists p, (q ++ parts). split; [apply (Forall2_app F' F2)|]. rewrite flat_map_app, app_assoc. exact L'.
  - subst cls. apply IH. exact E.
Qed.

Local Lemma no_changes css xs : Forall2 change_of css xs ->
  existsb (fun x : option (list Z) => match x with Some _ => true | None => false end) xs = false -> concat css = [].
Proof.
  induction 1 as [|cls x css xs H F IH]; intros E; [reflexivity|]. destruct x; [discriminate|]. cbn [change_of] in H. subst cls. cbn. apply IH. exact E.
Qed.

(** C98: a statement that alters the table is sent if there is a difference,
    and says what the differences are. *)
Theorem alter_statement name r t : simple_name name -> writable double_text r ->
  match alter_text double_text off get_int get_real name r t, clauses get_int get_real off r t with
  | Ok None, Ok [] => True
  | Ok (Some s), Ok (cl :: cls) => exists ts, tokens s = Some ts /\ alter_written double_text off name (cl :: cls) ts
  | Error, Error | Undef, Undef => True
  | _, _ => False
  end.
Proof.
  intros N [FC FI]. unfold alter_text, clauses. pose proof (changes_column (columns r) (t_cols t) FC) as H.
  destruct (column_changes double_text off get_int get_real (t_cols t) (columns r)) as [xs| |],
    (gather (check_column get_int get_real off (t_cols t)) (columns r)) as [cls| |]; try contradiction; auto.
  destruct H as (css & -> & F). set (d := read_indexes (flat_map rows_of (t_idxs t))).
  assert (G : Forall2 change_of (map (check_index d) (indexes r)) (map (fun i => index_change (check_index d i) i) (indexes r))).
  { clear - FI. induction FI as [|i l O _ IH]; cbn [map]; constructor; [apply index_change_of; exact O|exact IH]. }
  pose proof (Forall2_app F G) as FG.
  assert (E : concat css ++ flat_map (check_index d) (indexes r) = concat (css ++ map (check_index d) (indexes r))) by (rewrite concat_app, flat_map_concat_map; reflexivity).
  rewrite E. destruct (existsb _ _) eqn:X.
  - destruct (first_changes _ _ FG X) as (p & parts & F' & L). pose proof F' as F''. inversion F' as [|cl p' cls ps P PS E1 E2]. subst p' ps. rewrite <- E1 in F''.
    exists (words ["ALTER"; "TABLE"]%string ++ [Name name] ++ listed (p :: parts)). split; [|exists (p :: parts); split; [exact F''|reflexivity]].
    apply lexes_tokens. rewrite listed_after.
    assert (A : lexes (txt "ALTER TABLE " ++ (txt "`" ++ name ++ txt "`")) (words ["ALTER"; "TABLE"]%string ++ [Name name])) by (apply closed_lexes_app; [fixed|apply lexes_name; exact N]).
    assert (B : closed ((txt "ALTER TABLE " ++ (txt "`" ++ name ++ txt "`")) ++ (newline ++ txt "  ")) ((words ["ALTER"; "TABLE"]%string ++ [Name name]) ++ [])) by (apply sep_closed; [exact A|reflexivity|reflexivity]).
    pose proof (closed_lexes_app _ _ _ _ B L) as R. rewrite <- !app_assoc in R. rewrite <- ?app_assoc. exact R.
  - rewrite (no_changes _ _ FG X). exact Coq.Init.Logic.I.
Qed.
End props.

(** C98: the two queries name the table. *)
Theorem show_statements name : simple_name name ->
  tokens (show_columns_text name) = Some (words ["SHOW"; "COLUMNS"; "FROM"]%string ++ [Name name]) /\
  tokens (show_indexes_text name) = Some (words ["SHOW"; "INDEXES"; "FROM"]%string ++ [Name name]).
Proof.
  intros N. split; apply lexes_tokens.
  - apply (closed_lexes_app (txt "SHOW COLUMNS FROM ") (txt "`" ++ name ++ txt "`")); [fixed|apply lexes_name; exact N].
  - apply (closed_lexes_app (txt "SHOW INDEXES FROM ") (txt "`" ++ name ++ txt "`")); [fixed|apply lexes_name; exact N].
Qed.

(** C98: it is not so for all names: a backtick in a name ends it, and what is
    behind it is read as part of the statement. *)
Theorem backtick_refuted double_text off : exists name e r r',
  simple_name name /\ length (columns r) = 1%nat /\ length (columns r') = 2%nat /\ writable double_text r' /\
  tokens (create_text double_text off name e r) = tokens (create_text double_text off name e r') /\
  exists ts, tokens (create_text double_text off name e r') = Some ts /\ create_written double_text off name e r' ts
             /\ ~ create_written double_text off name e r ts.
Proof.
  exists (txt "t"), Innodb,
    (mkRequest [mkColumn (txt "a` int NOT NULL, `b") Integer false Null] []),
    (mkRequest [mkColumn (txt "a") Integer false Null; mkColumn (txt "b") Integer false Null] []).
  assert (N : forall c, c <> 96 -> simple_name [c]) by (intros c H [E|[]]; congruence).
  split; [apply N; discriminate|]. split; [reflexivity|]. split; [reflexivity|].
  split; [split; [repeat constructor; try apply N; discriminate|constructor]|]. split; [vm_compute; reflexivity|].
  eexists. split; [vm_compute; reflexivity|]. split.
  - exists [[Name (txt "a"); Word (txt "int"); Word (txt "NOT"); Word (txt "NULL")]; [Name (txt "b"); Word (txt "int"); Word (txt "NOT"); Word (txt "NULL")]], [].
    split; [|split; [|reflexivity]].
    + repeat constructor; (exists [Word (txt "int")], []; split; [apply type_plain; cbn; tauto|split; [constructor|reflexivity]]).
    + repeat (apply first_other; [left; discriminate|]). constructor.
  - intros (parts & first & F & _ & E). cbn [creation columns indexes filter map app c_type] in F.
    inversion F as [|? p ? ps P PS]. subst. inversion PS. subst. inversion P as [d l (t & v & _ & _ & Q)|]. subst. cbn [listed app d_name column_definition] in E.
    vm_compute in E. discriminate.
Qed.

(** Concrete cases. *)
Definition case_request : request := mkRequest
  [mkColumn (txt "id") Auto false (Int 1000);
   mkColumn (txt "name") Varchar false (Blob (txt "it's")) ;
   mkColumn (txt "old") Dropped false Null;
   mkColumn (txt "score") Real true Null]
  [mkIndex (txt "primary") I_unique [txt "id"]; mkIndex (txt "by_name") I_multi [txt "name"; txt "score"]].

Example create_case double_text off : writable double_text case_request /\
  create_text double_text off (txt "users") Myisam case_request =
    txt "CREATE TABLE IF NOT EXISTS `users`" ++ [10] ++
    txt "  (`id` bigint AUTO_INCREMENT NOT NULL," ++ [10] ++
    txt "   `name` varchar(255) NOT NULL DEFAULT 'it\'s'," ++ [10] ++
    txt "   `score` double," ++ [10] ++
    txt "   PRIMARY KEY (`id`)," ++ [10] ++
    txt "   INDEX `by_name` (`name`, `score`))" ++ [10] ++
    txt "  ENGINE = 'MyISAM'," ++ [10] ++
    txt "  CHARSET = 'utf8mb4'," ++ [10] ++
    txt "  AUTO_INCREMENT = 1000".
Proof.
  split; [|vm_compute; reflexivity].
  split; repeat constructor; unfold simple_name; cbn; try lia; intros H; repeat destruct H as [H|H]; try discriminate; contradiction.
Qed.

Example alter_case double_text off get_real :
  alter_text double_text off (fun _ => None) get_real (txt "users") case_request
    (mkTable [mkScol (txt "id") (txt "bigint") false Null (txt "auto_increment");
              mkScol (txt "name") (txt "longblob") true Null [];
              mkScol (txt "old") (txt "int") true Null []]
             [mkSidx (txt "by_name") true [txt "name"]]) =
  Ok (Some (txt "ALTER TABLE `users`" ++ [10] ++
    txt "  MODIFY COLUMN `name` varchar(255) NOT NULL DEFAULT 'it\'s'," ++ [10] ++
    txt "  DROP COLUMN `old`," ++ [10] ++
    txt "  ADD COLUMN `score` double," ++ [10] ++
    txt "  ADD PRIMARY KEY (`id`)," ++ [10] ++
    txt "  DROP INDEX `by_name`," ++ [10] ++
    txt "   ADD INDEX `by_name` (`name`, `score`)")).
Proof. vm_compute. reflexivity. Qed.

Print Assumptions create_statement.
Print Assumptions alter_statement.
Print Assumptions show_statements.
Print Assumptions backtick_refuted.
