(** Theorems about checking tables. *)
From Coq Require Import List ZArith Bool Lia.
From Coq Require Import String.
From Verif Require Import Base BaseLemmas Text DateModel DateProofs DateProps RedisModel RedisProofs HnameModel HnameProps MysqlModel CktModel CktSpec CktProofs.
Import ListNotations.
Open Scope list_scope.
Open Scope Z_scope.
Notation length := List.length.

(** What the client knows about numbers is true of what the server shows. *)
Definition faithful (get_int get_real : list Z -> option Z) (real_text : Z -> list Z) (r : request) : Prop :=
  (forall n, - 2 ^ 63 <= n < 2 ^ 63 -> get_int (put_int n) = Some n) /\
  (forall c x, In c (columns r) -> c_default c = Double x -> get_real (real_text x) = Some x).

Section props.
Variable get_int : list Z -> option Z.
Variable get_real : list Z -> option Z.
Variable off : Z -> Z.
Variable widths : bool.
Variable real_text : Z -> list Z.
Notation check := (check get_int get_real off widths real_text).
Notation satisfies := (satisfies get_int get_real off).
Notation column_is := (column_is get_int get_real off).

Lemma pairs_0 K : ForallOrdPairs (differ K) [].
Proof. constructor. Qed.
Lemma pairs_1 K x : ForallOrdPairs (differ K) [x].
Proof. constructor; constructor. Qed.
Lemma pairs_2 K x y : differ K x y -> ForallOrdPairs (differ K) [x; y].
Proof. intros H. constructor; [constructor; [exact H|constructor]|apply pairs_1]. Qed.

Lemma check_cases r t t' b : check r (Some t) = Ok (t', b) ->
  (clauses get_int get_real off r t = Ok [] /\ t' = t /\ b = false)
  \/ (exists cls, clauses get_int get_real off r t = Ok cls /\ cls <> [] /\ alter widths real_text off cls t = Some t' /\ b = true).
Proof.
  unfold CktModel.check. intros H. destruct (clauses get_int get_real off r t) as [[|cl cls]| |]; try discriminate.
  - injection H as <- <-. auto.
  - destruct (alter widths real_text off (cl :: cls) t) as [t1|] eqn:E; [|discriminate]. injection H as <- <-. right. eexists. repeat split; [discriminate|exact E].
Qed.

(** C45. After a check has succeeded, the table is as requested. *)
Theorem check_established r t t' b : faithful get_int get_real real_text r -> sensible r -> proper t ->
  (widths = true -> forall c, In c (columns r) -> c_type c <> Boolean) -> nullable_apart r t' ->
  check r (Some t) = Ok (t', b) -> satisfies t' r /\ proper t'.
Proof.
  intros (Gi & Gr) Sr P W Na H. apply check_cases in H. destruct H as [(H & -> & ->)|(cls & H & _ & Ha & ->)].
  - split; [|exact P]. apply (clauses_nil get_int get_real off r t P (r_typed _ Sr)), H.
  - exact (established get_int get_real off widths real_text r t cls t' Gi Gr Sr P W H Ha Na).
Qed.

(** C45. Nothing is altered if and only if the table is as requested. *)
Theorem check_unchanged r t : sensible r -> proper t ->
  (satisfies t r <-> check r (Some t) = Ok (t, false)) /\ (forall t', check r (Some t) = Ok (t', false) -> t' = t).
Proof.
  intros Sr P. rewrite <- (clauses_nil get_int get_real off r t P (r_typed _ Sr)). split; [split|].
  - intros H. unfold CktModel.check. rewrite H. reflexivity.
  - intros H. apply check_cases in H. destruct H as [(H & _)|(cls & _ & _ & _ & X)]; [exact H|discriminate].
  - intros t' H. apply check_cases in H. destruct H as [(_ & H & _)|(cls & _ & _ & _ & X)]; [exact H|discriminate].
Qed.

(** C45. A second check alters nothing. Missing: names that are spelled in
    another case, primary keys that are requested not to be unique or to have
    columns that may be null, and boolean columns in old servers, for which
    see below. *)
Theorem check_twice_partial r t t' b : faithful get_int get_real real_text r -> sensible r -> proper t ->
  (widths = true -> forall c, In c (columns r) -> c_type c <> Boolean) -> nullable_apart r t' ->
  check r (Some t) = Ok (t', b) -> check r (Some t') = Ok (t', false).
Proof.
  intros F Sr P W Na H. destruct (check_established r t t' b F Sr P W Na H) as (S' & P'). apply check_unchanged; assumption.
Qed.

Definition empty : table := mkTable [] [].
Lemma empty_proper : proper empty.
Proof. split; constructor. Qed.

Lemma creation_clauses r : clauses get_int get_real off r empty = Ok (creation r).
Proof.
  unfold clauses, creation, empty. cbn [t_cols t_idxs flat_map].
  assert (E1 : forall cs, gather (check_column get_int get_real off []) cs = Ok (map (fun c => Add_column (column_definition c)) (filter (fun c => match c_type c with Dropped => false | _ => true end) cs))).
  { induction cs as [|c cs IH]; [reflexivity|]. cbn [gather filter]. rewrite IH. unfold check_column. cbn [find_column find]. destruct (c_type c); reflexivity. }
  rewrite E1. f_equal. f_equal. induction (indexes r) as [|i l IH]; [reflexivity|]. cbn [flat_map filter]. rewrite IH. unfold check_index. cbn. destruct (i_type i); reflexivity.
Qed.

(** C45. Names are spelled alike and default values are readable, so a check
    is successful. *)
Theorem check_accepted r t : sensible r -> proper t -> spelled r t -> readable get_int get_real r t -> exists t' b, check r (Some t) = Ok (t', b).
Proof.
  intros Sr P (Sc & Si) Rd.
  pose proof P as [P1 P2 P3].
  assert (C1 : forall c, In c (columns r) -> exists a, check_column get_int get_real off (t_cols t) c = Ok a /\ Forall (ok_col (t_cols t)) a).
  { intros c Hc. unfold check_column, find_column. destruct (find _ _) as [s|] eqn:F.
    - apply find_text in F. destruct F as (Hs & En). pose proof (Rd c s Hc Hs En) as R. pose proof (proj1 (Forall_forall _ _) (r_typed _ Sr) c Hc) as T.
      assert (K : exists s0, In s0 (t_cols t) /\ key (s_name s0) = key (d_name (column_definition c))) by (exists s; rewrite column_name_of, En; auto).
      assert (V : c_type c <> Dropped -> column_matches get_int get_real off c s = Same \/ column_matches get_int get_real off c s = Differs).
      { intros Nd. unfold column_matches. destruct (type_matches (c_type c) (s_type s)) eqn:Tm; [|right; reflexivity]. apply (type_in get_int get_real) in Tm. specialize (R Tm). cbn [when and_then].
        assert (D : default_matches get_int get_real off (c_type c) (c_default c) (s_default s) = Same \/ default_matches get_int get_real off (c_type c) (c_default c) (s_default s) = Differs).
        { unfold default_matches. unfold typed in T. destruct (c_default c) as [|n|x|w|ns]; [left; reflexivity|..];
            (destruct (c_type c); try contradiction; auto);
            (destruct (s_default s) as [|n'|x'|w'|ns']; auto);
            try (destruct (get_int w'); [|contradiction]); try (destruct (get_real w'); [|contradiction]);
            (match goal with |- context [when ?b] => destruct b end; [left|right]; reflexivity). }
        destruct D as [-> | ->]; [|right; reflexivity]. cbn [and_then].
        destruct (text_eqb _ _); [|right; reflexivity]. cbn [when and_then]. destruct (c_type c); auto;
          (destruct (Bool.eqb (s_null s) _); [|right; reflexivity]; cbn [when and_then]; destruct (Bool.eqb _ _); [left|right]; reflexivity). }
      destruct (c_type c) eqn:Ct.
      1: { eexists. split; [reflexivity|]. constructor; [|constructor]. cbn [ok_col]. exists s. rewrite En. auto. }
      all: (destruct (V ltac:(discriminate)) as [-> | ->]; eexists; (split; [reflexivity|]); [constructor|constructor; [exact K|constructor]]).
    - pose proof (find_text_none _ _ _ F) as N. destruct (c_type c) eqn:Ct; eexists; (split; [reflexivity|]); [constructor|..];
        (constructor; [|constructor]; cbn [ok_col]; rewrite column_name_of; intros s Hs E; apply (N s Hs); apply Sc; try assumption; apply same_key; congruence). }
  assert (C2 : forall l, incl l (columns r) -> exists a, gather (check_column get_int get_real off (t_cols t)) l = Ok a /\ Forall (ok_col (t_cols t)) a).
  { induction l as [|c cs IH]; intros Hl; [exists []; split; [reflexivity|constructor]|]. cbn [gather].
    destruct (C1 c (Hl c (or_introl eq_refl))) as (a & -> & Fa). destruct (IH ltac:(intros c' Hc'; apply Hl; right; exact Hc')) as (b & -> & Fb).
    eexists. split; [reflexivity|]. apply Forall_app. auto. }
  destruct (C2 _ (incl_refl _)) as (a & Ga & Fa). set (ix := flat_map (check_index (read_indexes (flat_map rows_of (t_idxs t)))) (indexes r)).
  assert (Hcl : clauses get_int get_real off r t = Ok (a ++ ix)) by (unfold clauses; rewrite Ga; reflexivity).
  pose proof (clauses_origin _ _ _ _ _ _ (r_columns _ Sr) Hcl) as O1. pose proof (r_indexes _ Sr) as Ui.
  unfold CktModel.check. rewrite Hcl. destruct (a ++ ix) as [|cl cls] eqn:Ecl; [eauto|]. rewrite <- Ecl in *. clear Ecl cl cls.
  assert (Acol : forall cl, In cl a -> drop_key cl = None /\ add_key cl = None).
  { intros cl Hin. apply gather_spec in Ga. destruct Ga as (ls & F & ->). clear - F Hin. induction F as [|c b cs ls Hcb F IH]; [destruct Hin|].
    cbn [List.concat] in Hin. apply in_app_iff in Hin. destruct Hin as [Hin|Hin]; [|apply IH, Hin].
    destruct (check_column_key _ _ _ _ _ _ _ Hcb Hin) as (_ & _ & [(-> & _)|([-> | ->] & _)]); auto. }
  assert (Ix : forall i cl, In i (indexes r) -> In cl (check_index (read_indexes (flat_map rows_of (t_idxs t))) i) ->
     (exists n, cl = Drop_index n /\ key n = key (i_name i) /\ exists k, In k (t_idxs t) /\ k_name k = i_name i)
     \/ (cl = Add_index (index_definition i) /\ ((forall k, In k (t_idxs t) -> key (k_name k) <> key (i_name i)) \/ exists n, In (Drop_index n) (check_index (read_indexes (flat_map rows_of (t_idxs t))) i) /\ key n = key (i_name i)))).
  { intros i cl Hi Hin. destruct (check_index_key _ _ _ Hin) as (_ & [(n & -> & En)|(-> & Ti)]); unfold check_index in Hin |- *; rewrite indexes_read in Hin |- * by exact P;
      destruct (find (fun k => text_eqb (k_name k) (i_name i)) (t_idxs t)) as [k0|] eqn:F; cbn [option_map] in Hin |- *.
    - apply find_text in F. left. exists n. split; [reflexivity|]. split; [exact En|]. exists k0. exact F.
    - exfalso. destruct (i_type i); [destruct Hin|destruct Hin as [X|[]]; discriminate..].
    - right. split; [reflexivity|]. right. exists (if equals (i_name i) primary then primary else i_name i). split.
      + destruct (i_type i); [congruence|..]; (destruct (_ && _); [destruct Hin|left; reflexivity]).
      + destruct (equals (i_name i) primary) eqn:Ep; [apply equals_key in Ep; symmetry; exact Ep|reflexivity].
    - right. split; [reflexivity|]. left. intros k Hk E. apply (find_text_none _ _ _ F k Hk). apply Si; try assumption. apply same_key. congruence. }
  assert (Pd : ForallOrdPairs (differ drop_key) (a ++ ix)).
  { apply pairs_app.
    - apply pairs_none. intros x Hx. apply Acol, Hx.
    - apply (pairs_flat drop_key i_name); [exact Ui| |].
      + intros i cl Hi Hin. destruct (check_index_key _ _ _ Hin) as (_ & [(n & -> & En)|(-> & _)]); [right; cbn; congruence|left; reflexivity].
      + intros i Hi. unfold check_index. destruct (lookup _ _) as [(m, l)|]; destruct (i_type i); try (destruct (_ && _)); try apply pairs_0; try apply pairs_1; apply pairs_2; intros X; first [discriminate|elim X; reflexivity].
    - intros x y Hx Hy N. destruct (Acol x Hx). contradiction. }
  assert (Pa : ForallOrdPairs (differ add_key) (a ++ ix)).
  { apply pairs_app.
    - apply pairs_none. intros x Hx. apply Acol, Hx.
    - apply (pairs_flat add_key i_name); [exact Ui| |].
      + intros i cl Hi Hin. destruct (check_index_key _ _ _ Hin) as (_ & [(n & -> & En)|(-> & _)]); [left; reflexivity|right]. cbn [add_key]. rewrite index_key. reflexivity.
      + intros i Hi. unfold check_index. destruct (lookup _ _) as [(m, l)|]; destruct (i_type i); try (destruct (_ && _)); try apply pairs_0; try apply pairs_1; apply pairs_2; intros X; first [discriminate|elim X; reflexivity].
    - intros x y Hx Hy N. destruct (Acol x Hx). contradiction. }
  assert (Fall : Forall (ok_col (t_cols t)) (a ++ ix)).
  { apply Forall_app. split; [exact Fa|]. apply Forall_forall. intros cl Hin. apply in_flat_map in Hin. destruct Hin as (i & _ & Hin).
    destruct (check_index_key _ _ _ Hin) as (_ & [(n & -> & _)|(-> & _)]); exact I. }
  destruct (each_col_ok widths real_text off _ _ P1 (o_pairs _ _ _ _ _ _ O1) Fall) as (cs' & E1).
  assert (Dix : forall n, In (Drop_index n) (a ++ ix) -> exists k, In k (t_idxs t) /\ key (k_name k) = key n).
  { intros n Hin. apply in_app_iff in Hin. destruct Hin as [Hin|Hin]; [destruct (Acol _ Hin); discriminate|]. apply in_flat_map in Hin. destruct Hin as (i & Hi & Hin).
    destruct (Ix i _ Hi Hin) as [(m & [= <-] & En & k & Hk & Ek)|(X & _)]; [|discriminate]. exists k. split; [exact Hk|]. congruence. }
  destruct (each_drop_ok _ _ Pd Dix) as (ks & E2).
  destruct (each_drop _ _ _ P2 E2) as (U2 & M2). destruct (prune_spec (a ++ ix) ks U2) as (U3 & M3).
  assert (Aix : forall x, In (Add_index x) (a ++ ix) -> forall k, In k (prune (a ++ ix) ks) -> key (k_name k) <> key (x_name x)).
  { intros x Hin k Hk E. apply M3 in Hk. destruct Hk as (k0 & Hk0 & -> & _). cbn [k_name] in E. apply M2 in Hk0. destruct Hk0 as (Hk0 & N).
    apply in_app_iff in Hin. destruct Hin as [Hin|Hin]; [destruct (Acol _ Hin); discriminate|]. apply in_flat_map in Hin. destruct Hin as (i & Hi & Hin).
    destruct (Ix i _ Hi Hin) as [(m & X & _)|([= ->] & [X|(n & Hn & En)])]; [discriminate|..]; rewrite index_key in E.
    - exact (X k0 Hk0 E).
    - apply (N n); [apply in_app_iff; right; apply in_flat_map; eauto|congruence]. }
  destruct (each_add_ok _ _ Pa Aix) as (ks' & E3).
  unfold alter. rewrite E1, E2, E3. eauto.
Qed.

(** C45. A table that does not exist is created as requested. *)
Theorem check_created r : faithful get_int get_real real_text r -> sensible r ->
  (widths = true -> forall c, In c (columns r) -> c_type c <> Boolean) -> keyed r ->
  exists t, check r None = Ok (t, false) /\ satisfies t r /\ proper t.
Proof.
  intros (Gi & Gr) Sr W K.
  destruct (check_accepted r empty Sr empty_proper) as (t & b & H).
  { split; intros ? ? _ []. }
  { intros ? ? _ []. }
  assert (A : alter widths real_text off (creation r) empty = Some t).
  { apply check_cases in H. rewrite creation_clauses in H. destruct H as [(E & -> & _)|(cls & [= <-] & _ & H & _)]; [|exact H]. injection E as ->. reflexivity. }
  assert (N : nullable_apart r t).
  { intros c k Hc Nd Na Nn Hk Ek n Hn. unfold alter in A. destruct (each _ _ (t_cols empty)) as [cs|]; [|discriminate].
    destruct (each drop_index (creation r) (t_idxs empty)) as [ks|] eqn:E2; [|discriminate]. destruct (each add_index _ _) as [ks'|] eqn:E3; [|discriminate]. injection A as <-.
    cbn [t_idxs] in Hk. apply each_drop in E2; [|constructor]. destruct E2 as (U2 & M2). destruct (prune_spec (creation r) ks U2) as (U3 & M3). apply each_add in E3; [|exact U3].
    destruct E3 as (_ & M4). apply M4 in Hk. destruct Hk as [Hk|(cl & Hin & En)].
    - apply M3 in Hk. destruct Hk as (k0 & Hk0 & _). apply M2 in Hk0. destruct (proj1 Hk0).
    - destruct cl as [d|d|m|x|m]; try discriminate. cbn in En. injection En as <-. cbn [k_name k_columns] in *.
      unfold creation in Hin. apply in_app_iff in Hin. destruct Hin as [Hin|Hin]; apply in_map_iff in Hin; destruct Hin as (i & E & Hi); [discriminate|]. injection E as <-. apply filter_In in Hi. destruct Hi as (Hi & _).
      apply (K c i Hc Nd Na Nn Hi).
      + apply same_key. apply same_key in Ek. rewrite index_key in Ek. exact Ek.
      + unfold index_definition in Hn. destruct (equals _ _); exact Hn. }
  destruct (established get_int get_real off widths real_text r empty (creation r) t Gi Gr Sr empty_proper W (creation_clauses r) A N) as (S' & P').
  exists t. split; [|auto]. pose proof (proj2 (clauses_nil get_int get_real off r t P' (r_typed _ Sr)) S') as C. unfold CktModel.check. fold empty. rewrite A, C. reflexivity.
Qed.

(** C45. Columns and indexes that are not mentioned, and columns that are as
    requested already, stay; and no others appear. *)
Theorem check_frame r t t' b : sensible r -> proper t -> check r (Some t) = Ok (t', b) ->
  (forall s, In s (t_cols t) -> (forall c, In c (columns r) -> ~ same_name (c_name c) (s_name s)) \/ (exists c, In c (columns r) /\ c_type c <> Dropped /\ column_is c s) ->
     exists s', In s' (t_cols t') /\ kept s s')
  /\ (forall s', In s' (t_cols t') -> (exists s, In s (t_cols t) /\ kept s s') \/ (exists c, In c (columns r) /\ c_type c <> Dropped /\ s_name s' = c_name c))
  /\ (forall k, In k (t_idxs t) -> (forall i, In i (indexes r) -> ~ same_name (i_name i) (k_name k)) \/ (exists i, In i (indexes r) /\ i_type i <> I_dropped /\ index_is i k) ->
      (forall c n, In c (columns r) -> c_type c = Dropped -> In n (k_columns k) -> ~ same_name (c_name c) n) -> In k (t_idxs t'))
  /\ (forall k', In k' (t_idxs t') -> (exists k, In k (t_idxs t) /\ k_name k = k_name k' /\ k_multi k = k_multi k' /\ incl (k_columns k') (k_columns k))
       \/ (exists i, In i (indexes r) /\ i_type i <> I_dropped /\ same_name (i_name i) (k_name k') /\ k_columns k' = i_columns i)).
Proof.
  intros Sr P H. apply check_cases in H. destruct H as [(_ & -> & ->)|(cls & Hcl & _ & Ha & ->)].
  { split; [|split; [|split]].
    - intros s Hs _. exists s. split; [exact Hs|]. repeat split; auto.
    - intros s Hs. left. exists s. split; [exact Hs|]. repeat split; auto.
    - auto.
    - intros k Hk. left. exists k. repeat split; auto. intros x Hx. exact Hx. }
  pose proof (clauses_origin _ _ _ _ _ _ (r_columns _ Sr) Hcl) as O1. pose proof (r_columns _ Sr) as Uc. pose proof (r_indexes _ Sr) as Ui.
  pose proof P as [P1 P2 P3]. unfold alter in Ha.
  destruct (each _ cls (t_cols t)) as [cs|] eqn:E1; [|discriminate]. destruct (each drop_index cls (t_idxs t)) as [ks|] eqn:E2; [|discriminate].
  destruct (each add_index cls (prune cls ks)) as [ks'|] eqn:E3; [|discriminate]. injection Ha as <-.
  destruct (each_column _ _ _ _ _ _ P1 (o_apart _ _ _ _ _ _ O1) E1) as (U1 & M1). apply each_drop in E2; [|exact P2]. destruct E2 as (U2 & M2).
  destruct (prune_spec cls ks U2) as (U3 & M3). apply each_add in E3; [|exact U3]. destruct E3 as (U4 & M4).
  assert (Kp : forall s, kept s (not_null ks' s)).
  { intros s. unfold not_null. destruct (in_primary _ _); repeat split; auto. }
  cbn [t_cols t_idxs]. split; [|split; [|split]].
  - intros s Hs Why. exists (not_null ks' s). split; [|apply Kp]. apply in_map. apply M1. left. split; [|exact Hs].
    intros cl Hin E. destruct (o_col _ _ _ _ _ _ O1 _ _ Hin E) as (c & a & Hc & Hca & Hin'). destruct (check_column_key _ _ _ _ _ _ _ Hca Hin') as (E' & Ea & _).
    assert (Ek : key (c_name c) = key (s_name s)) by congruence.
    destruct Why as [N|(c' & Hc' & Nd & Is)]; [apply (N c Hc); apply same_key, Ek|].
    assert (c' = c) by (apply (uniq_in c_name _ _ _ Uc Hc' Hc); rewrite Ek; destruct Is as (-> & _); reflexivity). subst c'.
    assert (X : check_column get_int get_real off (t_cols t) c = Ok []).
    { apply check_column_nil; [exact P|exact (proj1 (Forall_forall _ _) (r_typed _ Sr) c Hc)|]. unfold column_done. destruct (c_type c); [congruence|eauto..]. }
    rewrite X in Hca. injection Hca as <-. discriminate.
  - intros s' Hs'. apply in_map_iff in Hs'. destruct Hs' as (s & <- & Hs). apply M1 in Hs. destruct Hs as [(_ & Hs)|(cl & Hin & Hn)].
    + left. exists s. split; [exact Hs|apply Kp].
    + right. pose proof (new_key _ _ _ _ _ Hn) as Ek. destruct (o_col _ _ _ _ _ _ O1 _ _ Hin Ek) as (c & a & Hc & Hca & Hin').
      destruct (check_column_key _ _ _ _ _ _ _ Hca Hin') as (_ & _ & [(-> & _)|(A & Nd)]); [discriminate|]. exists c. split; [exact Hc|]. split; [exact Nd|].
      rewrite not_null_name. destruct A as [-> | ->]; injection Hn as <-; apply column_name_of.
  - intros k Hk Why Nd. apply M4. left. apply M3. exists k.
    assert (Fl : filter (fun n => negb (dropped cls n)) (k_columns k) = k_columns k).
    { assert (X : forall l, (forall n, In n l -> In n (k_columns k)) -> filter (fun n => negb (dropped cls n)) l = l).
      { induction l as [|n l IH]; intros Hl; [reflexivity|]. cbn [filter]. assert (dropped cls n = false) as ->.
        { apply not_true_iff_false. rewrite dropped_spec. intros (q & Hq & Eq). destruct (o_col _ _ _ _ _ _ O1 _ _ Hq eq_refl) as (c & a & Hc & Hca & Hin).
          destruct (check_column_key _ _ _ _ _ _ _ Hca Hin) as (_ & _ & [(X1 & X2)|([X1|X1] & _)]); try discriminate. injection X1 as ->.
          apply (Nd c n Hc X2 (Hl n (or_introl eq_refl))). apply same_key. congruence. }
        cbn [negb]. rewrite IH; [reflexivity|]. intros m Hm. apply Hl. right. exact Hm. }
      apply X. auto. }
    rewrite Fl. split; [|split; [destruct k; reflexivity|exact (proj1 (Forall_forall _ _) P3 k Hk)]].
    apply M2. split; [exact Hk|]. intros n Hin E. destruct (o_idx _ _ _ _ _ _ O1 _ Hin eq_refl) as (i & Hi & Hin').
    destruct (check_index_key _ _ _ Hin') as (_ & [(m & [= <-] & Em)|(X & _)]); [|discriminate].
    destruct Why as [N|(i' & Hi' & Nt & Is)]; [apply (N i Hi); apply same_key; congruence|].
    assert (i' = i) by (apply (uniq_in i_name _ _ _ Ui Hi' Hi); destruct Is as (Is & _); congruence). subst i'.
    assert (X : check_index (read_indexes (flat_map rows_of (t_idxs t))) i = []).
    { apply check_index_nil; [exact P|]. unfold index_done. destruct (i_type i); [congruence|eauto..]. }
    rewrite X in Hin'. destruct Hin'.
  - intros k' Hk'. apply M4 in Hk'. destruct Hk' as [Hk'|(cl & Hin & Hn)].
    + left. apply M3 in Hk'. destruct Hk' as (k0 & Hk0 & -> & _). exists k0. split; [apply (M2 k0), Hk0|]. cbn [k_name k_multi k_columns]. repeat split.
      intros n Hn. apply filter_In in Hn. apply Hn.
    + right. destruct cl as [d|d|m|x|m]; try discriminate. cbn in Hn. injection Hn as <-. cbn [k_name k_columns].
      destruct (o_idx _ _ _ _ _ _ O1 _ Hin eq_refl) as (i & Hi & Hin'). destruct (check_index_key _ _ _ Hin') as (_ & [(m & X & _)|([= ->] & Nt)]); [discriminate|].
      exists i. split; [exact Hi|]. split; [exact Nt|]. split; [apply same_key; symmetry; apply index_key|]. unfold index_definition. destruct (equals _ _); reflexivity.
Qed.
End props.

(** *** What is not so *)

Definition name_a := txt "a".
Lemma distinct_one n : distinct [n].
Proof. constructor; [intros []|constructor]. Qed.
Definition one_column (ty : ctype) (null : bool) (idx : list index) : request := mkRequest [mkColumn name_a ty null Null] idx.

(** C45. In a server that shows display widths, a table with a boolean column
    is never as requested; it is altered by every check. *)
Theorem check_boolean_refuted get_int get_real off real_text : exists r t, sensible r /\ proper t /\ keyed r /\
  check get_int get_real off true real_text r None = Ok (t, true) /\ check get_int get_real off true real_text r (Some t) = Ok (t, true)
  /\ ~ satisfies get_int get_real off t r.
Proof.
  exists (one_column Boolean false []), (mkTable [mkScol name_a (txt "tinyint(4)") false Null []] []).
  assert (Sr : sensible (one_column Boolean false [])).
  { split; try (intros i []); try (repeat constructor; intros []). }
  assert (P : proper (mkTable [mkScol name_a (txt "tinyint(4)") false Null []] [])) by (split; repeat constructor; intros []).
  split; [exact Sr|]. split; [exact P|]. split; [intros c i _ _ _ _ []|]. split; [reflexivity|]. split; [reflexivity|].
  intros H. apply (check_unchanged get_int get_real off true real_text _ _ Sr P) in H. discriminate.
Qed.

(** C45. A primary key that is requested not to be unique is dropped and added
    by every check. *)
Theorem check_primary_refuted get_int get_real off widths real_text : exists r t, proper t /\ keyed r /\
  check get_int get_real off widths real_text r None = Ok (t, true) /\ check get_int get_real off widths real_text r (Some t) = Ok (t, true).
Proof.
  exists (one_column Varchar false [mkIndex primary I_multi [name_a]]), (mkTable [mkScol name_a (txt "varchar(255)") false Null []] [mkSidx primary false [name_a]]).
  split; [split; [apply distinct_one|apply distinct_one|repeat constructor; discriminate]|].
  split; [intros c i [<-|[]] _ _ X; discriminate|]. destruct widths; split; reflexivity.
Qed.

(** C45. A column of the primary key that is requested to be nullable is
    modified by every check. *)
Theorem check_nullable_refuted get_int get_real off widths real_text : exists r t, sensible r /\ proper t /\
  check get_int get_real off widths real_text r None = Ok (t, true) /\ check get_int get_real off widths real_text r (Some t) = Ok (t, true)
  /\ ~ satisfies get_int get_real off t r.
Proof.
  set (r := one_column Varchar true [mkIndex primary I_unique [name_a]]).
  set (t := mkTable [mkScol name_a (txt "varchar(255)") false Null []] [mkSidx primary false [name_a]]). exists r, t.
  assert (Sr : sensible r).
  { split.
    - repeat constructor. intros [].
    - repeat constructor. intros [].
    - repeat constructor.
    - intros i [<-|[]] _. split; [discriminate|]. intros n c _ [<-|[]] X. discriminate.
    - intros i [<-|[]] _. split; [reflexivity|discriminate]. }
  assert (P : proper t) by (split; [apply distinct_one|apply distinct_one|repeat constructor; discriminate]).
  split; [exact Sr|]. split; [exact P|]. split; [destruct widths; reflexivity|]. split; [destruct widths; reflexivity|].
  intros H. apply (check_unchanged get_int get_real off widths real_text _ _ Sr P) in H. destruct widths; discriminate.
Qed.

(** C45. The primary key is found only if its name is spelled in upper case,
    although it is created otherwise too. The check that creates the table
    fails, and so do all later ones. *)
Theorem check_spelling_refuted get_int get_real off widths real_text : exists r t,
  alter widths real_text off (creation r) empty = Some t /\ proper t /\
  check get_int get_real off widths real_text r None = Error /\ check get_int get_real off widths real_text r (Some t) = Error.
Proof.
  exists (one_column Varchar false [mkIndex (txt "primary") I_unique [name_a]]), (mkTable [mkScol name_a (txt "varchar(255)") false Null []] [mkSidx primary false [name_a]]).
  split; [destruct widths; reflexivity|]. split; [split; [apply distinct_one|apply distinct_one|repeat constructor; discriminate]|]. destruct widths; split; reflexivity.
Qed.

(** *** Examples *)

(** A function that reads numbers. *)
Definition read_int (s : list Z) : option Z :=
  match s with
  | 45 :: u => Some (- NetrefSpec.number u)
  | _ => Some (NetrefSpec.number s)
  end.
Definition sample_request : request :=
  mkRequest [mkColumn (txt "id") Auto false Null; mkColumn (txt "n") Integer false (Int 5); mkColumn (txt "old") Dropped false Null; mkColumn (txt "s") Varchar true Null]
    [mkIndex primary I_unique [txt "id"]; mkIndex (txt "by_n") I_multi [txt "n"; txt "s"]; mkIndex (txt "gone") I_dropped []].
Definition sample_before : table :=
  mkTable [mkScol (txt "id") (txt "bigint") false Null (txt "auto_increment"); mkScol (txt "n") (txt "int") true (Blob (txt "5")) []; mkScol (txt "old") (txt "double") true Null []; mkScol (txt "extra") (txt "text") true Null []]
    [mkSidx primary false [txt "id"]; mkSidx (txt "gone") true [txt "extra"]; mkSidx (txt "kept") true [txt "old"; txt "extra"]].
Definition sample_after : table :=
  mkTable [mkScol (txt "id") (txt "bigint") false Null (txt "auto_increment"); mkScol (txt "n") (txt "int") false (Blob (txt "5")) []; mkScol (txt "extra") (txt "text") true Null []; mkScol (txt "s") (txt "varchar(255)") true Null []]
    [mkSidx primary false [txt "id"]; mkSidx (txt "kept") true [txt "extra"]; mkSidx (txt "by_n") true [txt "n"; txt "s"]].

Example sample_checked : check read_int (fun _ => None) (fun _ => 0) false (fun _ => []) sample_request (Some sample_before) = Ok (sample_after, true).
Proof. vm_compute. reflexivity. Qed.
Example sample_checked_again : check read_int (fun _ => None) (fun _ => 0) false (fun _ => []) sample_request (Some sample_after) = Ok (sample_after, false).
Proof. vm_compute. reflexivity. Qed.

Ltac apart_names := repeat constructor; vm_compute; intuition discriminate.
Example sample_before_proper : proper sample_before.
Proof. split; [apart_names|apart_names|repeat constructor; discriminate]. Qed.
Example sample_after_proper : proper sample_after.
Proof. split; [apart_names|apart_names|repeat constructor; discriminate]. Qed.
Notation sample := sample_request.
Example sample_sensible : sensible sample.
Proof.
  split; [apart_names|apart_names| | |].
  - repeat constructor; vm_compute; discriminate.
  - intros i Hi Ti. destruct Hi as [<-|[<-|[<-|[]]]]; try contradiction; (split; [discriminate|]); intros n c Hn Hc T; repeat (destruct Hc as [<-|Hc]; [try discriminate|]); try destruct Hc;
      repeat (destruct Hn as [<-|Hn]; [rewrite <- map_same; vm_compute; discriminate|]); destruct Hn.
  - intros i Hi. destruct Hi as [<-|[<-|[<-|[]]]]; rewrite <- map_same; intros H; [split; [reflexivity|discriminate]|..]; vm_compute in H; discriminate.
Qed.
Example sample_keyed : keyed sample.
Proof.
  intros c i Hc Nd Na Nn Hi Hp n Hn. rewrite <- map_same in Hp |- *.
  repeat (destruct Hc as [<-|Hc]; [try discriminate; try contradiction|]); try destruct Hc.
  all: (repeat (destruct Hi as [<-|Hi]; [try (vm_compute in Hp; discriminate)|]); try destruct Hi).
  all: (repeat (destruct Hn as [<-|Hn]; [vm_compute; try discriminate|]); try destruct Hn).
  all: exfalso; auto.
Qed.
Example sample_faithful : faithful read_int (fun _ => None) (fun _ => []) sample.
Proof.
  split.
  - intros n H. destruct (put_int_text n H) as [(_ & (N & F & E))|(_ & u & -> & (_ & _ & E))].
    + destruct (put_int n) as [|c u]; [contradiction|]. inversion F as [|? ? D _]. subst. unfold read_int.
      destruct c as [|p|p]; try reflexivity. destruct (Pos.eq_dec p 45) as [->|X]; [unfold NetrefSpec.decimal in D; lia|].
      repeat (destruct p as [p|p|]; try reflexivity; try contradiction).
    + unfold read_int. f_equal. lia.
  - intros c x Hc E. repeat (destruct Hc as [<-|Hc]; [discriminate|]). destruct Hc.
Qed.
Example sample_apart : nullable_apart sample sample_after /\ spelled sample sample_before /\ readable read_int (fun _ => None) sample sample_before.
Proof.
  split; [|split; [split|]].
  - intros c k Hc Nd Na Nn Hk Hp n Hn. rewrite <- map_same in Hp |- *.
    repeat (destruct Hc as [<-|Hc]; [try discriminate; try contradiction|]); try destruct Hc.
    all: (repeat (destruct Hk as [<-|Hk]; [try (vm_compute in Hp; discriminate)|]); try destruct Hk).
    all: (repeat (destruct Hn as [<-|Hn]; [vm_compute; try discriminate|]); try destruct Hn).
    all: exfalso; auto.
  - intros c s Hc Hs E. rewrite <- map_same in E.
    repeat (destruct Hc as [<-|Hc]; [|]); try destruct Hc; repeat (destruct Hs as [<-|Hs]; [try reflexivity; vm_compute in E; discriminate|]); destruct Hs.
  - intros c s Hc Hs E. rewrite <- map_same in E.
    repeat (destruct Hc as [<-|Hc]; [|]); try destruct Hc; repeat (destruct Hs as [<-|Hs]; [try reflexivity; vm_compute in E; discriminate|]); destruct Hs.
  - intros c s Hc Hs E T.
    repeat (destruct Hc as [<-|Hc]; [|]); try destruct Hc; repeat (destruct Hs as [<-|Hs]; [try exact I; try discriminate|]); destruct Hs.
Qed.

Print Assumptions check_established.
Print Assumptions check_unchanged.
Print Assumptions check_twice_partial.
Print Assumptions check_accepted.
Print Assumptions check_created.
Print Assumptions check_frame.
Print Assumptions check_boolean_refuted.
Print Assumptions check_primary_refuted.
Print Assumptions check_nullable_refuted.
Print Assumptions check_spelling_refuted.
