(** Proofs about checking tables. *)
From Coq Require Import List ZArith Bool Lia.
From Coq Require Import String.
From Verif Require Import Base BaseLemmas Text DateModel DateProofs DateProps RedisModel RedisProofs HnameModel HnameProps MysqlModel CktModel CktSpec.
Import ListNotations.
Open Scope list_scope.
Open Scope Z_scope.
Notation length := List.length.

Definition key (n : list Z) : list Z := map lower n.

Lemma equals_key a b : equals a b = true <-> key a = key b.
Proof. rewrite name_equal. symmetry. apply map_same. Qed.
Lemma same_key a b : same_name a b <-> key a = key b.
Proof. symmetry. apply map_same. Qed.
Lemma equals_not a b : equals a b = false <-> key a <> key b.
Proof. rewrite <- equals_key. destruct (equals a b); intuition congruence. Qed.
Lemma key_dec (a b : list Z) : {key a = key b} + {key a <> key b}.
Proof. destruct (equals a b) eqn:E; [left; apply equals_key, E|right; apply equals_not, E]. Qed.
Lemma text_refl a : text_eqb a a = true.
Proof. apply text_eqb_spec. reflexivity. Qed.
Lemma text_not a b : text_eqb a b = false <-> a <> b.
Proof. rewrite <- text_eqb_spec. destruct (text_eqb a b); intuition congruence. Qed.

(** *** Lists with names *)

Section named.
Context {A : Type} (name : A -> list Z).

Definition uniq (l : list A) : Prop := distinct (map name l).

Lemma uniq_in l x y : uniq l -> In x l -> In y l -> key (name x) = key (name y) -> x = y.
Proof.
  unfold uniq, distinct. rewrite map_map. induction l as [|z l IH]; intros U Hx Hy E; [destruct Hx|].
  cbn [map] in U. inversion U as [|? ? N U']. subst. destruct Hx as [->|Hx], Hy as [->|Hy].
  - reflexivity.
  - exfalso. apply N. apply in_map_iff. exists y. auto.
  - exfalso. apply N. apply in_map_iff. exists x. auto.
  - apply IH; assumption.
Qed.

Lemma uniq_filter p l : uniq l -> uniq (filter p l).
Proof.
  unfold uniq, distinct. rewrite !map_map. induction l as [|z l IH]; intros U; [constructor|]. cbn [map filter] in *.
  inversion U as [|? ? N U']. subst. destruct (p z); [|apply IH, U']. cbn [map]. constructor; [|apply IH, U'].
  intros Hin. apply N. apply in_map_iff in Hin. destruct Hin as (y & E & Hy). apply filter_In in Hy. apply in_map_iff. exists y. split; [exact E|apply Hy].
Qed.

Lemma uniq_map f l : (forall x, key (name (f x)) = key (name x)) -> uniq l -> uniq (map f l).
Proof.
  intros F. unfold uniq, distinct. rewrite !map_map. intros U. erewrite map_ext; [exact U|]. intros x. apply F.
Qed.

Lemma uniq_snoc l x : uniq l -> (forall y, In y l -> key (name y) <> key (name x)) -> uniq (l ++ [x]).
Proof.
  unfold uniq, distinct. rewrite !map_map, map_app. intros U N. cbn [map].
  apply NoDup_rev in U. rewrite <- (rev_involutive (map _ l ++ [_])). apply NoDup_rev. rewrite rev_app_distr. cbn [rev app].
  constructor; [|exact U]. rewrite <- in_rev. intros Hin. apply in_map_iff in Hin. destruct Hin as (y & E & Hy). exact (N y Hy E).
Qed.
End named.

Lemma has_in {A} (name : A -> list Z) n l : existsb (fun s => equals (name s) n) l = true <-> exists s, In s l /\ key (name s) = key n.
Proof.
  rewrite existsb_exists. split; intros (s & Hs & E); exists s; (split; [exact Hs|]); apply equals_key, E.
Qed.
Lemma has_not {A} (name : A -> list Z) n l : existsb (fun s => equals (name s) n) l = false <-> forall s, In s l -> key (name s) <> key n.
Proof.
  split.
  - intros H s Hs E. apply not_true_iff_false in H. apply H. apply has_in. eauto.
  - intros H. apply not_true_iff_false. intros E. apply has_in in E. destruct E as (s & Hs & E). exact (H s Hs E).
Qed.

(** *** Columns in the server *)

Section server.
Variable widths : bool.
Variable real_text : Z -> list Z.
Variable off : Z -> Z.
Notation show := (show_column widths real_text off).

(** The key of a clause about a column, and what becomes of that column. *)
Definition col_key (cl : clause) : option (list Z) :=
  match cl with
  | Add_column d | Modify_column d => Some (key (d_name d))
  | Drop_column n => Some (key n)
  | _ => None
  end.
Definition col_new (cl : clause) : option scol :=
  match cl with Add_column d | Modify_column d => Some (show d) | _ => None end.

Lemma map_one {A} (name : A -> list Z) n y l : uniq name l -> (exists s, In s l /\ key (name s) = key n) ->
  key (name y) = key n -> let l' := map (fun s => if equals (name s) n then y else s) l in
  uniq name l' /\ forall x, In x l' <-> (x = y \/ (In x l /\ key (name x) <> key n)).
Proof.
  intros U (s & Hs & Es) Ey l'. split.
  - apply uniq_map; [|exact U]. intros x. destruct (equals (name x) n) eqn:E; [|reflexivity]. apply equals_key in E. congruence.
  - intros x. unfold l'. rewrite in_map_iff. split.
    + intros (z & <- & Hz). destruct (equals (name z) n) eqn:E; [left; reflexivity|]. apply equals_not in E. auto.
    + intros [->|(Hx & N)].
      * exists s. split; [|exact Hs]. apply equals_key in Es. rewrite Es. reflexivity.
      * exists x. split; [|exact Hx]. apply equals_not in N. rewrite N. reflexivity.
Qed.

Lemma apply_column_spec cl cs cs' : uniq s_name cs -> apply_column widths real_text off cl cs = Some cs' ->
  uniq s_name cs' /\ forall s, In s cs' <-> (Some (key (s_name s)) <> col_key cl /\ In s cs) \/ (col_new cl = Some s).
Proof.
  intros U H. destruct cl as [d|d|n|x|n]; cbn [apply_column col_key col_new] in *; unfold has_column in *.
  - destruct (existsb (fun s => equals (s_name s) (d_name d)) cs) eqn:E; [discriminate|]. injection H as <-. pose proof (proj1 (has_not s_name _ _) E) as E'. clear E. rename E' into E. split.
    + apply uniq_snoc; [exact U|exact E].
    + intros s. rewrite in_app_iff. cbn [In]. split.
      * intros [Hs|[<-|[]]]; [left|right; reflexivity]. split; [|exact Hs]. intros [= X]. exact (E s Hs X).
      * intros [(_ & Hs)|[= <-]]; auto.
  - destruct (existsb (fun s => equals (s_name s) (d_name d)) cs) eqn:E; [|discriminate]. injection H as <-. apply (has_in s_name) in E.
    destruct (map_one s_name (d_name d) (show d) cs U E eq_refl) as (U' & M). split; [exact U'|].
    intros s. rewrite M. split.
    + intros [->|(Hs & N)]; [right; reflexivity|left]. split; [congruence|exact Hs].
    + intros [(N & Hs)|[= <-]]; [right|left; reflexivity]. split; [exact Hs|congruence].
  - destruct (existsb (fun s => equals (s_name s) n) cs) eqn:E; [|discriminate]. injection H as <-. split; [apply uniq_filter, U|].
    intros s. rewrite filter_In, negb_true_iff, equals_not. split.
    + intros (Hs & N). left. split; [congruence|exact Hs].
    + intros [(N & Hs)|X]; [|discriminate]. split; [exact Hs|congruence].
  - injection H as <-. split; [exact U|]. intros s. split; [intros Hs; left; split; [discriminate|exact Hs]|intros [(_ & Hs)|X]; [exact Hs|discriminate]].
  - injection H as <-. split; [exact U|]. intros s. split; [intros Hs; left; split; [discriminate|exact Hs]|intros [(_ & Hs)|X]; [exact Hs|discriminate]].
Qed.

Lemma new_key cl s : col_new cl = Some s -> col_key cl = Some (key (s_name s)).
Proof. destruct cl; cbn; intros H; try discriminate; injection H as <-; reflexivity. Qed.

(** Keys of the clauses are different. *)
Definition apart (k : clause -> option (list Z)) (cls : list clause) : Prop :=
  forall l1 a l2 b l3, cls = l1 ++ a :: l2 ++ b :: l3 -> k a <> None -> k a <> k b.

Lemma apart_tl k a cls : apart k (a :: cls) -> apart k cls /\ forall b, In b cls -> k a <> None -> k a <> k b.
Proof.
  intros H. split.
  - intros l1 x l2 y l3 E. apply (H (a :: l1) x l2 y l3). cbn. rewrite E. reflexivity.
  - intros b Hb. apply in_split in Hb. destruct Hb as (l2 & l3 & E). apply (H [] a l2 b l3). cbn. rewrite E. reflexivity.
Qed.

Lemma each_column cls : forall cs cs', uniq s_name cs -> apart col_key cls -> each (apply_column widths real_text off) cls cs = Some cs' ->
  uniq s_name cs' /\ forall s, In s cs' <-> ((forall cl, In cl cls -> col_key cl <> Some (key (s_name s))) /\ In s cs) \/ (exists cl, In cl cls /\ col_new cl = Some s).
Proof.
  induction cls as [|a cls IH]; intros cs cs' U D H; cbn [each] in H.
  - injection H as <-. split; [exact U|]. intros s. split; [intros Hs; left; split; [intros cl []|exact Hs]|intros [(_ & Hs)|(cl & [] & _)]; exact Hs].
  - destruct (apply_column widths real_text off a cs) as [cs1|] eqn:E; [|discriminate].
    destruct (apply_column_spec _ _ _ U E) as (U1 & M1). apply apart_tl in D. destruct D as (D & Da).
    destruct (IH _ _ U1 D H) as (U2 & M2). split; [exact U2|]. intros s. rewrite M2, M1. split.
    + intros [(N & [(Na & Hs)|Hn])|(cl & Hc & Hn)].
      * left. split; [|exact Hs]. intros cl [<-|Hc]; [congruence|apply N, Hc].
      * right. exists a. split; [left; reflexivity|exact Hn].
      * right. exists cl. split; [right; exact Hc|exact Hn].
    + intros [(N & Hs)|(cl & [<-|Hc] & Hn)].
      * left. split; [intros cl Hc; apply N; right; exact Hc|]. left. split; [|exact Hs]. intros X. apply (N a); [left; reflexivity|congruence].
      * left. split; [|right; exact Hn]. intros cl Hc X. apply new_key in Hn. apply (Da cl Hc); congruence.
      * right. eauto.
Qed.

(** *** Indexes in the server *)

Lemma each_drop cls : forall ks ks', uniq k_name ks -> each drop_index cls ks = Some ks' ->
  uniq k_name ks' /\ forall k, In k ks' <-> In k ks /\ (forall n, In (Drop_index n) cls -> key n <> key (k_name k)).
Proof.
  induction cls as [|a cls IH]; intros ks ks' U H; cbn [each] in H.
  - injection H as <-. split; [exact U|]. intros k. split; [intros Hk; split; [exact Hk|intros n []]|intros (Hk & _); exact Hk].
  - destruct (drop_index a ks) as [ks1|] eqn:E; [|discriminate].
    assert (M1 : uniq k_name ks1 /\ forall k, In k ks1 <-> In k ks /\ (forall n, a = Drop_index n -> key n <> key (k_name k))).
    { destruct a as [d|d|n|x|n]; cbn [drop_index] in E; try (injection E as <-; split; [exact U|]; intros k; split; [intros Hk; split; [exact Hk|discriminate]|intros (Hk & _); exact Hk]).
      destruct (has_index n ks); [|discriminate]. injection E as <-. split; [apply uniq_filter, U|].
      intros k. rewrite filter_In, negb_true_iff, equals_not. split.
      - intros (Hk & N). split; [exact Hk|]. intros m [= ->]. congruence.
      - intros (Hk & N). split; [exact Hk|]. intros X. apply (N n eq_refl). congruence. }
    destruct M1 as (U1 & M1). destruct (IH _ _ U1 H) as (U2 & M2). split; [exact U2|]. intros k. rewrite M2, M1. split.
    + intros ((Hk & N1) & N2). split; [exact Hk|]. intros n [->|Hn]; [apply N1; reflexivity|apply N2, Hn].
    + intros (Hk & N). split; [split; [exact Hk|]|]; intros n Hn; apply N; [left; auto|right; exact Hn].
Qed.

Definition idx_new (cl : clause) : option sidx :=
  match cl with Add_index x => Some (mkSidx (x_name x) (negb (x_unique x)) (x_columns x)) | _ => None end.

Lemma each_add cls : forall ks ks', uniq k_name ks -> each add_index cls ks = Some ks' ->
  uniq k_name ks' /\ forall k, In k ks' <-> In k ks \/ exists cl, In cl cls /\ idx_new cl = Some k.
Proof.
  induction cls as [|a cls IH]; intros ks ks' U H; cbn [each] in H.
  - injection H as <-. split; [exact U|]. intros k. split; [auto|intros [Hk|(cl & [] & _)]; exact Hk].
  - destruct (add_index a ks) as [ks1|] eqn:E; [|discriminate].
    assert (M1 : uniq k_name ks1 /\ forall k, In k ks1 <-> In k ks \/ idx_new a = Some k).
    { destruct a as [d|d|n|x|n]; cbn [add_index idx_new] in *; try (injection E as <-; split; [exact U|]; intros k; split; [auto|intros [Hk|X]; [exact Hk|discriminate]]).
      unfold has_index in E. destruct (existsb (fun k => equals (k_name k) (x_name x)) ks) eqn:N; [discriminate|]. injection E as <-. pose proof (proj1 (has_not k_name _ _) N) as N'. clear N. rename N' into N. split.
      - apply uniq_snoc; [exact U|exact N].
      - intros k. rewrite in_app_iff. cbn [In]. split; [intros [Hk|[<-|[]]]; auto|intros [Hk|[= <-]]; auto]. }
    destruct M1 as (U1 & M1). destruct (IH _ _ U1 H) as (U2 & M2). split; [exact U2|]. intros k. rewrite M2, M1. split.
    + intros [[Hk|Hn]|(cl & Hc & Hn)]; [left; exact Hk|right; exists a; cbn; auto|right; exists cl; cbn; auto].
    + intros [Hk|(cl & [<-|Hc] & Hn)]; eauto.
Qed.

Lemma prune_spec cls ks : uniq k_name ks -> uniq k_name (prune cls ks) /\
  forall k, In k (prune cls ks) <-> exists k0, In k0 ks /\ k = mkSidx (k_name k0) (k_multi k0) (filter (fun n => negb (dropped cls n)) (k_columns k0)) /\ k_columns k <> [].
Proof.
  intros U. unfold prune. split; [apply uniq_filter, uniq_map; [reflexivity|exact U]|].
  intros k. rewrite filter_In, in_map_iff. split.
  - intros ((k0 & <- & H0) & N). exists k0. cbn [k_columns] in *. split; [exact H0|]. split; [reflexivity|].
    intros X. rewrite X in N. discriminate.
  - intros (k0 & H0 & E & N). split; [exists k0; auto|]. destruct (k_columns k); [contradiction|reflexivity].
Qed.
End server.

(** *** Reading the indexes *)

Lemma lookup_update n x d m : lookup m (update n x d) = if text_eqb n m then Some x else lookup m d.
Proof.
  induction d as [|(k, y) d IH]; cbn [update].
  - unfold lookup. cbn [find fst]. destruct (text_eqb n m); reflexivity.
  - destruct (text_eqb k n) eqn:E.
    + apply text_eqb_spec in E. subst k. unfold lookup. cbn [find fst]. destruct (text_eqb n m); reflexivity.
    + unfold lookup in *. cbn [find fst]. destruct (text_eqb k m) eqn:F; [|exact IH]. cbn [option_map snd].
      apply text_eqb_spec in F. subst k. destruct (text_eqb n m) eqn:G; [|reflexivity]. apply text_eqb_spec in G. subst m. rewrite text_refl in E. discriminate.
Qed.

Lemma set_at_end (l : list (list Z)) x y r : set_at (length l) x (l ++ y :: r) = l ++ x :: r.
Proof. induction l as [|z l IH]; [reflexivity|]. cbn. rewrite IH. reflexivity. Qed.

Lemma read_index n multi : forall rest done d, 
  match lookup n d with Some (_, l) => l | None => [] end = done ->
  let d' := fold_left add_row (map (fun p => (n, multi, snd p, fst p)) (combine (seq (S (length done)) (length rest)) rest)) d in
  lookup n d' = match rest with [] => lookup n d | _ => Some (multi, done ++ rest) end
  /\ forall m, m <> n -> lookup m d' = lookup m d.
Proof.
  induction rest as [|c rest IH]; intros done d E; cbn [length seq combine map fold_left].
  - auto.
  - cbv zeta. cbn [fst snd]. set (d1 := add_row d (n, multi, c, S (length done))).
    assert (L : lookup n d1 = Some (multi, done ++ [c]) /\ forall m, m <> n -> lookup m d1 = lookup m d).
    { unfold d1, add_row. rewrite E. split.
      - rewrite lookup_update, text_refl. f_equal. f_equal. unfold resize. rewrite Nat.max_r by lia.
        replace (S (length done) - length done)%nat with 1%nat by lia. replace (S (length done) - 1)%nat with (length done) by lia. cbn [repeat].
        apply set_at_end.
      - intros m N. rewrite lookup_update. assert (text_eqb n m = false) as -> by (apply text_not; congruence). reflexivity. }
    destruct L as (L1 & L2). specialize (IH (done ++ [c]) d1). rewrite L1 in IH. specialize (IH eq_refl).
    rewrite app_length in IH. cbn [length] in IH. rewrite Nat.add_1_r in IH. destruct IH as (I1 & I2). split.
    + rewrite I1. destruct rest as [|c' rest]; [reflexivity|]. rewrite <- app_assoc. reflexivity.
    + intros m N. rewrite (I2 m N). apply L2, N.
Qed.

Lemma read_spec ks : forall d, NoDup (map k_name ks) -> Forall (fun k => k_columns k <> []) ks -> (forall k, In k ks -> lookup (k_name k) d = None) ->
  forall n, lookup n (fold_left add_row (flat_map rows_of ks) d) =
  match find (fun k => text_eqb (k_name k) n) ks with Some k => Some (k_multi k, k_columns k) | None => lookup n d end.
Proof.
  induction ks as [|k ks IH]; intros d U F N n; cbn [flat_map find]; [reflexivity|].
  rewrite fold_left_app. inversion U as [|? ? Nk U']. subst. inversion F as [|? ? Fk F']. subst.
  pose proof (read_index (k_name k) (k_multi k) (k_columns k) [] d) as R. rewrite (N k (or_introl eq_refl)) in R.
  specialize (R eq_refl). cbv zeta in R. cbn [length app] in R. fold (rows_of k) in R. destruct R as (R1 & R2).
  rewrite IH; [|exact U'|exact F'|].
  - destruct (text_eqb (k_name k) n) eqn:E.
    + apply text_eqb_spec in E. subst n. rewrite R1. destruct (find _ ks) as [k'|] eqn:G.
      * exfalso. apply find_some in G. destruct G as (G1 & G2). apply text_eqb_spec in G2. apply Nk. rewrite <- G2. apply in_map, G1.
      * destruct (k_columns k); [contradiction|reflexivity].
    + apply text_not in E. rewrite R2 by congruence. reflexivity.
  - intros k' Hk'. rewrite R2; [apply N; right; exact Hk'|]. intros E. apply Nk. rewrite <- E. apply in_map, Hk'.
Qed.

Lemma distinct_exact l : distinct l -> NoDup l.
Proof.
  unfold distinct. induction l as [|x l IH]; intros H; [constructor|]. cbn [map] in H. inversion H as [|? ? N H']. subst.
  constructor; [|apply IH, H']. intros Hin. apply N. apply in_map, Hin.
Qed.

Lemma indexes_read t n : proper t -> lookup n (read_indexes (flat_map rows_of (t_idxs t))) =
  option_map (fun k => (k_multi k, k_columns k)) (find (fun k => text_eqb (k_name k) n) (t_idxs t)).
Proof.
  intros [_ U F]. unfold read_indexes. rewrite read_spec; [|apply distinct_exact, U|exact F|reflexivity].
  destruct (find _ _); reflexivity.
Qed.

(** *** Comparing columns *)

Lemma git_text off ns : length (print_git off ns) = 25%nat /\ Forall (fun c => c <> 0) (print_git off ns).
Proof.
  unfold print_git. destruct (localtime _ _) as [y m d h mi s w o]. split; [reflexivity|].
  assert (D : forall x, 48 + x mod 10 <> 0) by (intros x; pose proof (Z.mod_pos_bound x 10 eq_refl); lia).
  change (strftime (txt "%Y-%m-%d %T %z") (mkTm y m d h mi s w o)) with
    (four y ++ [45] ++ two m ++ [45] ++ two d ++ [32] ++ two h ++ [58] ++ two mi ++ [58] ++ two s ++ [32] ++ zone o).
  unfold four, two, zone. cbn [app].
  repeat (apply Forall_cons; [first [apply D|discriminate|destruct (o <? 0); discriminate]|]). constructor.
Qed.

Lemma prefix_same n : forall p rest, (n <= length p)%nat -> Forall (fun c => c <> 0) p -> same_prefix n (firstn n p ++ rest) p = true.
Proof.
  induction n as [|n IH]; intros [|c p] rest L F; cbn in *; try reflexivity; try lia.
  inversion F as [|? ? C F']. subst. rewrite Z.eqb_refl. destruct (Z.eqb_spec c 0); [contradiction|]. cbn. apply IH; [lia|exact F'].
Qed.

Lemma same_prefix_inv n : forall p s, (n <= length p)%nat -> Forall (fun c => c <> 0) p -> same_prefix n s p = true -> exists rest, s = firstn n p ++ rest.
Proof.
  induction n as [|n IH]; intros [|c p] s L F H; cbn in *; try lia; try (exists s; reflexivity).
  inversion F as [|? ? C F']. subst. apply andb_prop in H. destruct H as (H1 & H2). apply Z.eqb_eq in H1.
  destruct s as [|x s]; [cbn in H1; congruence|]. cbn in H1, H2. subst x. destruct (Z.eqb_spec c 0); [contradiction|]. cbn in H2.
  destruct (IH p s ltac:(lia) F' H2) as (rest & ->). exists rest. reflexivity.
Qed.

Section check.
Variable get_int : list Z -> option Z.
Variable get_real : list Z -> option Z.
Variable off : Z -> Z.
Notation column_matches := (column_matches get_int get_real off).
Notation default_matches := (default_matches get_int get_real off).

Lemma when_same b : when b = Same <-> b = true.
Proof. destruct b; cbn; intuition discriminate. Qed.
Lemma and_same a b : and_then a b = Same <-> a = Same /\ b = Same.
Proof. destruct a; cbn; intuition discriminate. Qed.

Lemma type_in t s : type_matches t s = true <-> In s (type_names t).
Proof.
  destruct t; cbn [type_matches type_names In]; rewrite ?orb_true_iff, ?text_eqb_spec; intuition congruence.
Qed.

Lemma matches_is c s : typed c -> c_type c <> Dropped -> s_name s = c_name c -> column_matches c s = Same <-> column_is get_int get_real off c s.
Proof.
  intros T Nd Nm. unfold CktModel.column_matches, column_is. rewrite !and_same, !when_same, type_in, text_eqb_spec.
  assert (G : c_type c <> Auto -> default_matches (c_type c) (c_default c) (s_default s) = Same /\ Bool.eqb (is_null (s_default s)) (is_null (c_default c)) = true
     <-> default_is get_int get_real off (c_default c) (s_default s)).
  { intros Na. unfold typed in T. destruct (c_default c) as [|n|x|w|ns] eqn:D; cbn [default_is is_null CktModel.default_matches].
    - destruct (s_default s); cbn; intuition discriminate.
    - destruct (c_type c); try contradiction; try congruence;
        (destruct (s_default s) as [|m|y|v|ms]; cbn);
        try (split; [intros (X & _)|intros (? & X & _)]; discriminate);
        (destruct (get_int v) as [k|] eqn:E; [rewrite when_same, Z.eqb_eq|]);
        (split; [intros (X & _); try discriminate; subst; eauto|intros (t & [= <-] & X); split; [congruence|reflexivity]]).
    - destruct (c_type c); try contradiction; try congruence;
        (destruct (s_default s) as [|m|y|v|ms]; cbn);
        try (split; [intros (X & _)|intros (? & X & _)]; discriminate);
        (destruct (get_real v) as [k|] eqn:E; [rewrite when_same, Z.eqb_eq|]);
        (split; [intros (X & _); try discriminate; subst; eauto|intros (t & [= <-] & X); split; [congruence|reflexivity]]).
    - destruct (c_type c); try contradiction; try congruence;
        (destruct (s_default s) as [|m|y|v|ms]; cbn; try (intuition discriminate)).
      rewrite when_same, text_eqb_spec. intuition congruence.
    - destruct (git_text off ns) as (L & F). set (git := print_git off ns) in *. clearbody git. destruct (c_type c); try contradiction; try congruence;
        (destruct (s_default s) as [|m|y|v|ms]; cbn [is_null Bool.eqb]; try (split; [intros (X & _)|intros (? & X)]; discriminate)).
      rewrite when_same. split.
      + intros (X & _). apply same_prefix_inv in X; [|rewrite L; lia|exact F]. destruct X as (rest & ->). eauto.
      + intros (rest & X). apply (f_equal (fun x => match x with Blob w => w | _ => v end)) in X. cbv beta match in X. rewrite X. split; [|reflexivity]. apply prefix_same; [rewrite L; lia|exact F]. }
  destruct (c_type c) eqn:Ct; try congruence;
    try (rewrite !and_same, !when_same, Bool.eqb_true_iff; specialize (G ltac:(discriminate)); rewrite <- G; intuition congruence).
  assert (default_matches Auto (c_default c) (s_default s) = Same) as -> by (destruct (c_default c); reflexivity).
  intuition congruence.
Qed.

Lemma find_text {A} (name : A -> list Z) n l s : find (fun x => text_eqb (name x) n) l = Some s -> In s l /\ name s = n.
Proof. intros H. apply find_some in H. destruct H as (H1 & H2). apply text_eqb_spec in H2. auto. Qed.
Lemma find_text_none {A} (name : A -> list Z) n l : find (fun x => text_eqb (name x) n) l = None -> forall s, In s l -> name s <> n.
Proof. intros H s Hs E. apply (find_none _ _ H) in Hs. apply text_not in Hs. contradiction. Qed.
Lemma find_text_some {A} (name : A -> list Z) n l s : NoDup (map name l) -> In s l -> name s = n -> find (fun x => text_eqb (name x) n) l = Some s.
Proof.
  intros U Hs E. destruct (find (fun x => text_eqb (name x) n) l) as [s'|] eqn:F.
  - apply find_text in F. destruct F as (Hs' & E'). f_equal.
    induction l as [|z l IH]; [destruct Hs|]. cbn [map] in U. inversion U as [|? ? Nz U']. subst. destruct Hs as [->|Hs], Hs' as [->|Hs'].
    + reflexivity.
    + exfalso. apply Nz. rewrite <- E'. apply in_map, Hs'.
    + exfalso. apply Nz. rewrite E'. apply in_map, Hs.
    + apply IH; auto.
  - exfalso. exact (find_text_none _ _ _ F s Hs E).
Qed.

(** Nothing has to be done for a column if and only if it is as requested. *)
Lemma check_column_nil t c : proper t -> typed c -> check_column get_int get_real off (t_cols t) c = Ok [] <-> column_done get_int get_real off c t.
Proof.
  intros P T. pose proof (distinct_exact _ (p_cols _ P)) as U. unfold check_column, find_column, column_done.
  destruct (find _ (t_cols t)) as [s|] eqn:F.
  - apply find_text in F. destruct F as (Hs & E). destruct (c_type c) eqn:Ct.
    1: { split; [discriminate|]. intros N. exfalso. exact (N s Hs E). }
    all: (destruct (CktModel.column_matches get_int get_real off c s) eqn:M;
      [split; [intros _; exists s; split; [exact Hs|]; apply matches_is; congruence|reflexivity]|..]);
      (split; [discriminate|]; intros (s' & Hs' & X); exfalso;
       assert (s' = s) by (pose proof (proj1 X) as X1; pose proof (find_text_some s_name _ _ _ U Hs E) as F1; pose proof (find_text_some s_name _ _ _ U Hs' X1) as F2; congruence);
       subst s'; apply (matches_is c s T) in X; congruence).
  - pose proof (find_text_none _ _ _ F) as N. destruct (c_type c) eqn:Ct; [split; [intros _; exact N|reflexivity]|..];
      (split; [discriminate|]; intros (s & Hs & (E & _)); exfalso; exact (N s Hs E)).
Qed.

Lemma same_columns_spec a : forall b, same_columns a b = true <-> Forall2 same_name a b.
Proof.
  induction a as [|x a IH]; intros [|y b]; cbn [same_columns]; split; intros H; try discriminate; try constructor; try (inversion H; fail).
  - apply andb_prop in H. destruct H as (H & _). apply name_equal in H. apply same_key. apply same_key in H. congruence.
  - apply andb_prop in H. apply IH. apply H.
  - inversion H as [|? ? ? ? E F]. subst. apply andb_true_iff. split; [apply name_equal, same_key; apply same_key in E; congruence|apply IH, F].
Qed.

Lemma check_index_nil t i : proper t -> check_index (read_indexes (flat_map rows_of (t_idxs t))) i = [] <-> index_done i t.
Proof.
  intros P. pose proof (distinct_exact _ (p_idxs _ P)) as U. unfold check_index, index_done. rewrite indexes_read by exact P.
  destruct (find (fun k => text_eqb (k_name k) (i_name i)) (t_idxs t)) as [k|] eqn:F; cbn [option_map].
  - apply find_text in F. destruct F as (Hk & E). destruct (i_type i) eqn:Ti.
    + split; [discriminate|]. intros N. exfalso. exact (N k Hk E).
    + rewrite <- (same_columns_spec (k_columns k) (i_columns i)) || idtac.
      destruct (Bool.eqb (k_multi k) false && same_columns (k_columns k) (i_columns i)) eqn:M.
      * split; [intros _|reflexivity]. exists k. split; [exact Hk|]. apply andb_prop in M. destruct M as (M1 & M2). apply Bool.eqb_prop in M1.
        split; [exact E|]. rewrite Ti. split; [exact M1|apply same_columns_spec, M2].
      * split; [discriminate|]. intros (k' & Hk' & X). exfalso.
        assert (k' = k) by (pose proof (proj1 X) as X1; pose proof (find_text_some k_name _ _ _ U Hk E) as F1; pose proof (find_text_some k_name _ _ _ U Hk' X1) as F2; congruence). subst k'.
        destruct X as (_ & X1 & X2). rewrite Ti in X1. rewrite X1 in M. apply same_columns_spec in X2. rewrite X2 in M. discriminate.
    + destruct (Bool.eqb (k_multi k) true && same_columns (k_columns k) (i_columns i)) eqn:M.
      * split; [intros _|reflexivity]. exists k. split; [exact Hk|]. apply andb_prop in M. destruct M as (M1 & M2). apply Bool.eqb_prop in M1.
        split; [exact E|]. rewrite Ti. split; [exact M1|apply same_columns_spec, M2].
      * split; [discriminate|]. intros (k' & Hk' & X). exfalso.
        assert (k' = k) by (pose proof (proj1 X) as X1; pose proof (find_text_some k_name _ _ _ U Hk E) as F1; pose proof (find_text_some k_name _ _ _ U Hk' X1) as F2; congruence). subst k'.
        destruct X as (_ & X1 & X2). rewrite Ti in X1. rewrite X1 in M. apply same_columns_spec in X2. rewrite X2 in M. discriminate.
  - pose proof (find_text_none _ _ _ F) as N. destruct (i_type i); [split; [intros _; exact N|reflexivity]|..];
      (split; [discriminate|]; intros (k & Hk & (E & _)); exfalso; exact (N k Hk E)).
Qed.

Lemma gather_spec {A} (f : A -> result (list clause)) l : forall cls, gather f l = Ok cls ->
  exists ls, Forall2 (fun x a => f x = Ok a) l ls /\ cls = List.concat ls.
Proof.
  induction l as [|x l IH]; intros cls H; cbn [gather] in H.
  - injection H as <-. exists []. split; [constructor|reflexivity].
  - destruct (f x) as [a| |] eqn:E; try discriminate. destruct (gather f l) as [b| |] eqn:G; try discriminate. injection H as <-.
    destruct (IH b eq_refl) as (ls & F & ->). exists (a :: ls). split; [constructor; assumption|reflexivity].
Qed.

Lemma gather_nil {A} (f : A -> result (list clause)) l : gather f l = Ok [] <-> Forall (fun x => f x = Ok []) l.
Proof.
  induction l as [|x l IH]; cbn [gather]; [split; [constructor|reflexivity]|]. split.
  - destruct (f x) as [a| |] eqn:E; try discriminate. destruct (gather f l) as [b| |]; try discriminate. intros [= X]. apply app_eq_nil in X.
    destruct X as (-> & ->). constructor; [exact E|apply IH; reflexivity].
  - intros H. inversion H as [|? ? H1 H2]. subst. rewrite H1. apply IH in H2. rewrite H2. reflexivity.
Qed.

Lemma flat_nil {A B} (f : A -> list B) l : flat_map f l = [] <-> Forall (fun x => f x = []) l.
Proof.
  induction l as [|x l IH]; cbn [flat_map]; [split; [constructor|reflexivity]|]. split.
  - intros H. apply app_eq_nil in H. destruct H as (H1 & H2). constructor; [exact H1|apply IH, H2].
  - intros H. inversion H as [|? ? H1 H2]. subst. rewrite H1. apply IH, H2.
Qed.

(** Nothing has to be done if and only if the table is as requested. *)
Lemma clauses_nil r t : proper t -> Forall typed (columns r) -> clauses get_int get_real off r t = Ok [] <-> satisfies get_int get_real off t r.
Proof.
  intros P T. unfold clauses, satisfies.
  assert (E : gather (check_column get_int get_real off (t_cols t)) (columns r) = Ok [] <-> Forall (fun c => column_done get_int get_real off c t) (columns r)).
  { rewrite gather_nil, !Forall_forall. rewrite Forall_forall in T. split; intros H c Hc; apply (check_column_nil t c P (T c Hc)), H, Hc. }
  assert (F : flat_map (check_index (read_indexes (flat_map rows_of (t_idxs t)))) (indexes r) = [] <-> Forall (fun i => index_done i t) (indexes r)).
  { rewrite flat_nil, !Forall_forall. split; intros H i Hi; apply (check_index_nil t i P), H, Hi. }
  rewrite <- E, <- F. destruct (gather _ _) as [a| |]; [|split; [discriminate|intros (X & _); discriminate]..].
  split.
  - intros [= X]. apply app_eq_nil in X. destruct X as (-> & X). auto.
  - intros ([= ->] & X). rewrite X. reflexivity.
Qed.
End check.

(** *** The statement *)

Definition differ (k : clause -> option (list Z)) (a b : clause) : Prop := k a <> None -> k a <> k b.

Lemma pairs_apart k cls : ForallOrdPairs (differ k) cls -> apart k cls.
Proof.
  induction cls as [|c cls IH]; intros H l1 a l2 b l3 E.
  - destruct l1; discriminate.
  - inversion H as [|? ? Hc H']. subst. destruct l1 as [|z l1]; cbn in E; injection E as -> E.
    + intros N. rewrite Forall_forall in Hc. apply (Hc b); [rewrite E; apply in_app_iff; right; left; reflexivity|exact N].
    + exact (IH H' l1 a l2 b l3 E).
Qed.

Lemma pairs_app {A} (R : A -> A -> Prop) a b : ForallOrdPairs R a -> ForallOrdPairs R b -> (forall x y, In x a -> In y b -> R x y) -> ForallOrdPairs R (a ++ b).
Proof.
  induction a as [|x a IH]; intros Ha Hb H; cbn; [exact Hb|]. inversion Ha as [|? ? H1 H2]. subst. constructor.
  - apply Forall_app. split; [exact H1|]. apply Forall_forall. intros y Hy. apply H; [left; reflexivity|exact Hy].
  - apply IH; auto. intros y z Hy Hz. apply H; [right; exact Hy|exact Hz].
Qed.

Lemma uniq_distinct {A} (name : A -> list Z) l : distinct (map name l) <-> uniq name l.
Proof. reflexivity. Qed.

Section statement.
Variable get_int : list Z -> option Z.
Variable get_real : list Z -> option Z.
Variable off : Z -> Z.
Notation check_column := (check_column get_int get_real off).

Lemma check_column_key cs c a cl : check_column cs c = Ok a -> In cl a ->
  col_key cl = Some (key (c_name c)) /\ a = [cl] /\
  ((cl = Drop_column (c_name c) /\ c_type c = Dropped) \/ ((cl = Add_column (column_definition c) \/ cl = Modify_column (column_definition c)) /\ c_type c <> Dropped)).
Proof.
  assert (N : d_name (column_definition c) = c_name c) by (unfold column_definition; destruct (c_type c); reflexivity).
  unfold CktModel.check_column. intros H Hc. destruct (find_column _ _).
  - destruct (c_type c) eqn:T;
      try (destruct (CktModel.column_matches get_int get_real off c s); try discriminate); injection H as <-; first [destruct Hc as [<-|[]]|destruct Hc];
      cbn [col_key]; rewrite ?N; (split; [reflexivity|]; split; [reflexivity|]); try (left; split; reflexivity); right; (split; [auto|congruence]).
  - destruct (c_type c) eqn:T; injection H as <-; first [destruct Hc as [<-|[]]|destruct Hc]; cbn [col_key]; rewrite ?N; (split; [reflexivity|]; split; [reflexivity|]); right; (split; [auto|congruence]).
Qed.

Lemma index_key i : key (x_name (index_definition i)) = key (i_name i).
Proof. unfold index_definition. destruct (equals (i_name i) primary) eqn:E; [apply equals_key in E; symmetry; exact E|reflexivity]. Qed.

Lemma check_index_key d i cl : In cl (check_index d i) ->
  col_key cl = None /\ ((exists n, cl = Drop_index n /\ key n = key (i_name i)) \/ (cl = Add_index (index_definition i) /\ i_type i <> I_dropped)).
Proof.
  unfold check_index. intros H.
  assert (N : key (if equals (i_name i) primary then primary else i_name i) = key (i_name i)).
  { destruct (equals (i_name i) primary) eqn:E; [apply equals_key in E; symmetry; exact E|reflexivity]. }
  destruct (lookup _ _) as [(m, l)|].
  - destruct (i_type i) eqn:T.
    + destruct H as [<-|[]]. split; [reflexivity|]. left. eauto.
    + destruct (_ && _); [destruct H|]. destruct H as [<-|[<-|[]]]; (split; [reflexivity|]); [left; eauto|right; split; [reflexivity|congruence]].
    + destruct (_ && _); [destruct H|]. destruct H as [<-|[<-|[]]]; (split; [reflexivity|]); [left; eauto|right; split; [reflexivity|congruence]].
  - destruct (i_type i) eqn:T; [destruct H|..]; (destruct H as [<-|[]]; split; [reflexivity|]; right; split; [reflexivity|congruence]).
Qed.

Record origin (r : request) (t : table) (cls : list clause) : Prop := {
  o_col : forall cl k, In cl cls -> col_key cl = Some k -> exists c a, In c (columns r) /\ check_column (t_cols t) c = Ok a /\ In cl a;
  o_col_in : forall c, In c (columns r) -> exists a, check_column (t_cols t) c = Ok a /\ incl a cls;
  o_idx : forall cl, In cl cls -> col_key cl = None -> exists i, In i (indexes r) /\ In cl (check_index (read_indexes (flat_map rows_of (t_idxs t))) i);
  o_idx_in : forall i, In i (indexes r) -> incl (check_index (read_indexes (flat_map rows_of (t_idxs t))) i) cls;
  o_apart : apart col_key cls;
  o_pairs : ForallOrdPairs (differ col_key) cls }.

Lemma clauses_origin r t cls : distinct (map c_name (columns r)) -> clauses get_int get_real off r t = Ok cls -> origin r t cls.
Proof.
  intros U H. unfold clauses in H. destruct (gather _ _) as [a| |] eqn:G; try discriminate. injection H as <-.
  apply gather_spec in G. destruct G as (ls & F & ->).
  set (ix := flat_map (check_index (read_indexes (flat_map rows_of (t_idxs t)))) (indexes r)).
  assert (I : forall cl, In cl ix -> col_key cl = None).
  { intros cl Hc. apply in_flat_map in Hc. destruct Hc as (i & _ & Hc). apply check_index_key in Hc. apply Hc. }
  assert (C : forall cl, In cl (List.concat ls) -> exists c a, In c (columns r) /\ check_column (t_cols t) c = Ok a /\ In cl a).
  { intros cl Hc. clear U. induction F as [|c a cs ls Hca F IH]; [destruct Hc|]. cbn [List.concat] in Hc. apply in_app_iff in Hc. destruct Hc as [Hc|Hc].
    - exists c, a. cbn. auto.
    - destruct (IH Hc) as (c' & a' & H1 & H2). exists c', a'. cbn. auto. }
  assert (D : ForallOrdPairs (differ col_key) (List.concat ls ++ ix)).
  { apply pairs_app.
    - apply uniq_distinct in U. clear C I ix. induction F as [|c a cs ls Hca F IH]; [constructor|]. cbn [List.concat]. apply pairs_app.
      + destruct a as [|x a]; [constructor|]. destruct (check_column_key _ _ _ x Hca (or_introl eq_refl)) as (_ & E & _). injection E as ->. repeat constructor.
      + apply IH. unfold uniq, distinct in U. cbn [map] in U. inversion U; assumption.
      + intros x y Hx Hy _. destruct (check_column_key _ _ _ x Hca Hx) as (-> & _). unfold uniq, distinct in U. cbn [map] in U. inversion U as [|? ? N U']. subst.
        assert (exists c', In c' cs /\ col_key y = Some (key (c_name c'))) as (c' & Hc' & ->).
        { clear - F Hy. induction F as [|c' a' cs ls Hca F IH]; [destruct Hy|]. cbn [List.concat] in Hy. apply in_app_iff in Hy. destruct Hy as [Hy|Hy].
          - destruct (check_column_key _ _ _ y Hca Hy) as (E & _). exists c'. split; [left; reflexivity|exact E].
          - destruct (IH Hy) as (c'' & H & E). exists c''. split; [right; exact H|exact E]. }
        intros [= X]. apply N. apply in_map_iff. exists (c_name c'). split; [symmetry; exact X|apply in_map, Hc'].
    - assert (X : Forall (fun cl => col_key cl = None) ix) by (apply Forall_forall; exact I). clear - X.
      induction X as [|x l Hx X IH]; constructor; [|exact IH]. apply Forall_forall. intros y _ N. congruence.
    - intros x y Hx Hy N. rewrite (I y Hy). congruence. }
  split.
  - intros cl k Hc E. apply in_app_iff in Hc. destruct Hc as [Hc|Hc]; [apply C, Hc|]. apply I in Hc. congruence.
  - intros c Hc. clear C D. induction F as [|c' a cs ls Hca F IH]; [destruct Hc|]. destruct Hc as [->|Hc].
    + exists a. split; [exact Hca|]. intros z Hz. cbn [List.concat]. rewrite <- app_assoc. apply in_app_iff. auto.
    + apply uniq_distinct in U. unfold uniq, distinct in U. cbn [map] in U. inversion U as [|? ? N U']. subst. apply uniq_distinct in U'.
      destruct (IH U' Hc) as (a' & H1 & H2). exists a'. split; [exact H1|]. intros z Hz. cbn [List.concat]. rewrite <- app_assoc. apply in_app_iff. right. apply H2, Hz.
  - intros cl Hc E. apply in_app_iff in Hc. destruct Hc as [Hc|Hc].
    + exfalso. destruct (C cl Hc) as (c & a & _ & H2 & H3). destruct (check_column_key _ _ _ cl H2 H3) as (X & _). congruence.
    + apply in_flat_map in Hc. destruct Hc as (i & H1 & H2). eauto.
  - intros i Hi z Hz. apply in_app_iff. right. apply in_flat_map. eauto.
  - apply pairs_apart, D.
  - exact D.
Qed.

Variable widths : bool.
Variable real_text : Z -> list Z.

Lemma each_uniq cls : forall cs cs', uniq s_name cs -> each (apply_column widths real_text off) cls cs = Some cs' -> uniq s_name cs'.
Proof.
  induction cls as [|a cls IH]; intros cs cs' U H; cbn [each] in H; [injection H as <-; exact U|].
  destruct (apply_column widths real_text off a cs) as [cs1|] eqn:E; [|discriminate].
  destruct (apply_column_spec _ _ _ _ _ _ U E) as (U1 & _). exact (IH _ _ U1 H).
Qed.

Lemma not_null_name ks s : s_name (not_null ks s) = s_name s.
Proof. unfold not_null. destruct (in_primary _ _); reflexivity. Qed.

Lemma alter_proper cls t t' : proper t -> (forall x, In (Add_index x) cls -> x_columns x <> []) -> alter widths real_text off cls t = Some t' -> proper t'.
Proof.
  intros [P1 P2 P3] N H. apply uniq_distinct in P1, P2. unfold alter in H.
  destruct (each _ cls (t_cols t)) as [cs|] eqn:E1; [|discriminate]. destruct (each drop_index cls (t_idxs t)) as [ks|] eqn:E2; [|discriminate].
  destruct (each add_index cls (prune cls ks)) as [ks'|] eqn:E3; [|discriminate]. injection H as <-.
  apply each_uniq in E1; [|exact P1]. apply each_drop in E2; [|exact P2]. destruct E2 as (U2 & _).
  destruct (prune_spec cls ks U2) as (U3 & M3). apply each_add in E3; [|exact U3]. destruct E3 as (U4 & M4). split; cbn [t_cols t_idxs].
  - apply uniq_distinct. apply uniq_map; [|exact E1]. intros s. rewrite not_null_name. reflexivity.
  - apply uniq_distinct, U4.
  - apply Forall_forall. intros k Hk. apply M4 in Hk. destruct Hk as [Hk|(cl & Hc & E)].
    + apply M3 in Hk. destruct Hk as (k0 & _ & _ & Hk). exact Hk.
    + destruct cl; cbn in E; try discriminate. injection E as <-. cbn. apply N, Hc.
Qed.
End statement.

(** *** The table after the statement *)

Section establish.
Variable get_int : list Z -> option Z.
Variable get_real : list Z -> option Z.
Variable off : Z -> Z.
Variable widths : bool.
Variable real_text : Z -> list Z.
Notation check_column := (check_column get_int get_real off).
Notation column_is := (column_is get_int get_real off).
Notation show := (show_column widths real_text off).

Lemma shown c : (forall n, - 2 ^ 63 <= n < 2 ^ 63 -> get_int (put_int n) = Some n) -> (forall x, c_default c = Double x -> get_real (real_text x) = Some x) ->
  typed c -> c_type c <> Dropped -> (widths = true -> c_type c <> Boolean) -> column_is c (show (column_definition c)).
Proof.
  intros Gi Gr T Nd W. unfold CktSpec.column_is.
  assert (N : s_name (show (column_definition c)) = c_name c) by (unfold column_definition; destruct (c_type c); reflexivity).
  split; [exact N|]. split.
  - unfold column_definition. destruct (c_type c) eqn:E; try congruence; cbn [show_column s_type d_type show_type type_names]; unfold show_type; destruct widths;
      try (exfalso; apply (W eq_refl); reflexivity); vm_compute; tauto.
  - assert (G : c_type c <> Auto -> s_extra (show (column_definition c)) = [] /\ s_null (show (column_definition c)) = c_null c /\ default_is get_int get_real off (c_default c) (s_default (show (column_definition c)))).
    { intros Na. unfold column_definition. unfold typed in T.
      destruct (c_type c) eqn:E; try congruence; cbn [show_column s_extra s_null s_default d_auto d_not_null d_default]; rewrite negb_involutive; (split; [reflexivity|split; [reflexivity|]]);
        destruct (c_default c) as [|n|x|w|ns]; try contradiction; cbn [show_default default_is]; try reflexivity;
        try (eexists; split; [reflexivity|]; auto; fail).
      eexists. reflexivity. }
    destruct (c_type c) eqn:E; try congruence; try (apply G; discriminate).
    unfold column_definition. rewrite E. reflexivity.
Qed.

Lemma still_is ks c s : column_is c s -> (c_type c <> Auto -> c_null c = true -> in_primary ks (s_name s) = false) -> column_is c (not_null ks s).
Proof.
  intros (E & T & M) N. unfold not_null. destruct (in_primary ks (s_name s)) eqn:P; [|repeat split; assumption].
  split; [exact E|]. split; [exact T|]. cbn [s_extra s_null s_default].
  destruct (c_type c); try exact M; destruct M as (M1 & M2 & M3); (split; [exact M1|split; [|exact M3]]);
    destruct (c_null c); try reflexivity; discriminate (N ltac:(discriminate) eq_refl).
Qed.

Lemma in_primary_false r t c n : nullable_apart r t -> In c (columns r) -> c_type c <> Dropped -> c_type c <> Auto -> c_null c = true -> n = c_name c ->
  in_primary (t_idxs t) n = false.
Proof.
  intros H Hc Nd Na Nn ->. apply not_true_iff_false. unfold in_primary. rewrite existsb_exists. intros (k & Hk & E). apply andb_prop in E. destruct E as (E1 & E2).
  apply existsb_exists in E2. destruct E2 as (m & Hm & E2). apply equals_key in E1, E2.
  apply (H c k Hc Nd Na Nn Hk ltac:(apply same_key, E1) m Hm). apply same_key, E2.
Qed.

Lemma dropped_spec cls n : dropped cls n = true <-> exists m, In (Drop_column m) cls /\ key m = key n.
Proof.
  unfold dropped. rewrite existsb_exists. split.
  - intros (cl & Hc & E). destruct cl; try discriminate. apply equals_key in E. eauto.
  - intros (m & Hm & E). exists (Drop_column m). split; [exact Hm|]. apply equals_key, E.
Qed.

Lemma check_column_of cs c a : check_column cs c = Ok a ->
  (a = [] /\ ((c_type c = Dropped /\ forall s, In s cs -> s_name s <> c_name c)
      \/ (c_type c <> Dropped /\ exists s, In s cs /\ s_name s = c_name c /\ column_matches get_int get_real off c s = Same)))
  \/ (a = [Drop_column (c_name c)] /\ c_type c = Dropped)
  \/ ((a = [Add_column (column_definition c)] \/ a = [Modify_column (column_definition c)]) /\ c_type c <> Dropped).
Proof.
  unfold CktModel.check_column, find_column. destruct (find _ cs) as [s|] eqn:F.
  - apply find_text in F. destruct F as (Hs & E). destruct (c_type c) eqn:T.
    1: { intros [= <-]. auto. }
    all: (destruct (column_matches get_int get_real off c s) eqn:M; intros H; try discriminate; injection H as <-;
      [left; split; [reflexivity|]; right; split; [congruence|]; exists s; auto|right; right; split; [auto|congruence]]).
  - pose proof (find_text_none _ _ _ F) as N. destruct (c_type c) eqn:T; intros [= <-]; [left; split; [reflexivity|]; left; auto|..];
      (right; right; split; [auto|congruence]).
Qed.

Lemma column_name_of c : d_name (column_definition c) = c_name c.
Proof. unfold column_definition. destruct (c_type c); reflexivity. Qed.

Theorem established r t cls t' :
  (forall n, - 2 ^ 63 <= n < 2 ^ 63 -> get_int (put_int n) = Some n) ->
  (forall c x, In c (columns r) -> c_default c = Double x -> get_real (real_text x) = Some x) ->
  sensible r -> proper t -> (widths = true -> forall c, In c (columns r) -> c_type c <> Boolean) ->
  clauses get_int get_real off r t = Ok cls -> alter widths real_text off cls t = Some t' -> nullable_apart r t' ->
  satisfies get_int get_real off t' r /\ proper t'.
Proof.
  intros Gi Gr Sr P W Hcl Hal Na.
  pose proof (clauses_origin _ _ _ _ _ _ (r_columns _ Sr) Hcl) as O1.
  pose proof (r_columns _ Sr) as Uc. pose proof (r_indexes _ Sr) as Ui. apply uniq_distinct in Uc, Ui.
  assert (P' : proper t').
  { apply (alter_proper off widths real_text cls t); [exact P| |exact Hal]. intros x Hx.
    destruct (o_idx _ _ _ _ _ _ O1 _ Hx eq_refl) as (i & Hi & Hx'). apply check_index_key in Hx'. destruct Hx' as (_ & [(n & E & _)|(E & Nt)]); [discriminate|].
    injection E as ->. destruct (r_used _ Sr i Hi Nt) as (N & _). unfold index_definition. destruct (equals _ _); exact N. }
  split; [|exact P'].
  pose proof P as [P1 P2 P3]. apply uniq_distinct in P1, P2. unfold alter in Hal.
  destruct (each _ cls (t_cols t)) as [cs|] eqn:E1; [|discriminate]. destruct (each drop_index cls (t_idxs t)) as [ks|] eqn:E2; [|discriminate].
  destruct (each add_index cls (prune cls ks)) as [ks'|] eqn:E3; [|discriminate]. injection Hal as <-.
  destruct (each_column _ _ _ _ _ _ P1 (o_apart _ _ _ _ _ _ O1) E1) as (U1 & M1). apply each_drop in E2; [|exact P2]. destruct E2 as (U2 & M2).
  destruct (prune_spec cls ks U2) as (U3 & M3). apply each_add in E3; [|exact U3]. destruct E3 as (U4 & M4).
  assert (Own : forall c a, In c (columns r) -> check_column (t_cols t) c = Ok a -> forall cl, In cl cls -> col_key cl = Some (key (c_name c)) -> In cl a).
  { intros c a Hc Ha cl Hin E. destruct (o_col _ _ _ _ _ _ O1 _ _ Hin E) as (c' & a' & Hc' & Ha' & Hin').
    destruct (check_column_key _ _ _ _ _ _ _ Ha' Hin') as (E' & _). assert (c' = c) by (apply (uniq_in c_name _ _ _ Uc Hc' Hc); congruence). subst c'. congruence. }
  assert (Iown : forall i cl, In i (indexes r) -> In cl cls -> (exists n, cl = Drop_index n /\ key n = key (i_name i)) \/ (exists x, cl = Add_index x /\ key (x_name x) = key (i_name i)) ->
     In cl (check_index (read_indexes (flat_map rows_of (t_idxs t))) i)).
  { intros i cl Hi Hin E. assert (K : col_key cl = None) by (destruct E as [(n & -> & _)|(x & -> & _)]; reflexivity).
    destruct (o_idx _ _ _ _ _ _ O1 _ Hin K) as (i' & Hi' & Hin'). destruct (check_index_key _ _ _ Hin') as (_ & X).
    assert (key (i_name i') = key (i_name i)).
    { destruct E as [(n & -> & E)|(x & -> & E)], X as [(m & X1 & X2)|(X1 & _)]; try discriminate; injection X1 as <- || injection X1 as ->; try congruence.
      rewrite index_key in E. exact E. }
    assert (i' = i) by (apply (uniq_in i_name _ _ _ Ui Hi' Hi); assumption). subst i'. exact Hin'. }
  split; apply Forall_forall.
  - intros c Hc. destruct (o_col_in _ _ _ _ _ _ O1 c Hc) as (a & Ha & Hincl). pose proof (Own c a Hc Ha) as Own'.
    pose proof (proj1 (Forall_forall _ _) (r_typed _ Sr) c Hc) as Tc.
    unfold column_done. cbn [t_cols].
    destruct (check_column_of _ _ _ Ha) as [(-> & [(T & N)|(T & s & Hs & En & M)])|[(-> & T)|(A & T)]].
    + rewrite T. intros s Hs E. apply in_map_iff in Hs. destruct Hs as (s0 & <- & Hs). rewrite not_null_name in E. apply M1 in Hs. destruct Hs as [(_ & Hs)|(cl & Hin & Hn)].
      * exact (N s0 Hs E).
      * apply new_key in Hn. apply (Own' cl Hin). rewrite Hn, E. reflexivity.
    + assert (G : exists s0, In s0 (map (not_null ks') cs) /\ column_is c s0).
      { exists (not_null ks' s). split.
        - apply in_map. apply M1. left. split; [|exact Hs]. intros cl Hin E. apply (Own' cl Hin). rewrite E, En. reflexivity.
        - apply still_is; [apply matches_is; assumption|]. intros Nt Nn. exact (in_primary_false r _ c _ Na Hc T Nt Nn En). }
      destruct (c_type c); [congruence|exact G..].
    + rewrite T. intros s Hs E. apply in_map_iff in Hs. destruct Hs as (s0 & <- & Hs). rewrite not_null_name in E. apply M1 in Hs. destruct Hs as [(N & Hs)|(cl & Hin & Hn)].
      * apply (N (Drop_column (c_name c))); [apply Hincl; left; reflexivity|]. cbn [col_key]. rewrite E. reflexivity.
      * pose proof (new_key _ _ _ _ _ Hn) as Hk. destruct (Own' cl Hin ltac:(rewrite Hk, E; reflexivity)) as [<-|[]]. discriminate.
    + assert (G : exists s0, In s0 (map (not_null ks') cs) /\ column_is c s0).
      { exists (not_null ks' (show (column_definition c))). split.
        - apply in_map. apply M1. right. destruct A as [->| ->]; eexists; (split; [apply Hincl; left; reflexivity|reflexivity]).
        - apply still_is; [apply shown; eauto|]. intros Nt Nn. apply (in_primary_false r _ c _ Na Hc T Nt Nn). cbn [show_column s_name]. apply column_name_of. }
      destruct (c_type c); [congruence|exact G..].
  - intros i Hi. pose proof (o_idx_in _ _ _ _ _ _ O1 i Hi) as Hincl. pose proof (Iown i) as Iown'. clear Iown.
    assert (New : i_type i <> I_dropped -> In (Add_index (index_definition i)) cls -> exists k, In k ks' /\ index_is i k).
    { intros T Hin. eexists. split; [apply M4; right; eexists; split; [exact Hin|reflexivity]|]. unfold index_is. cbn [k_name k_multi k_columns].
      assert (R : forall l, Forall2 same_name l l) by (intros l; induction l; constructor; [apply same_key; reflexivity|assumption]).
      unfold index_definition. destruct (equals (i_name i) primary) eqn:Ep; cbn [x_name x_unique x_columns negb].
      - apply equals_key in Ep. destruct (r_primary _ Sr i Hi ltac:(apply same_key, Ep)) as (X1 & X2). split; [auto|]. split; [|apply R]. destruct (i_type i); congruence.
      - split; [reflexivity|]. split; [|apply R]. destruct (i_type i); reflexivity. }
    unfold index_done. cbn [t_idxs]. remember (check_index (read_indexes (flat_map rows_of (t_idxs t))) i) as a eqn:Ha.
    unfold check_index in Ha. rewrite indexes_read in Ha by exact P.
    destruct (find (fun k => text_eqb (k_name k) (i_name i)) (t_idxs t)) as [k0|] eqn:F; cbn [option_map] in Ha.
    + apply find_text in F. destruct F as (Hk0 & En).
      assert (Dr : a = [Drop_index (if equals (i_name i) primary then primary else i_name i)] -> forall k, In k ks' -> k_name k <> i_name i).
      { intros -> k Hk E. apply M4 in Hk. destruct Hk as [Hk|(cl & Hin & Hn)].
        - apply M3 in Hk. destruct Hk as (k1 & Hk1 & -> & _). cbn [k_name] in E. apply M2 in Hk1. destruct Hk1 as (_ & N).
          eapply N; [apply Hincl; left; reflexivity|]. destruct (equals (i_name i) primary) eqn:Ep; [apply equals_key in Ep|]; congruence.
        - destruct cl as [d|d|n|x|n]; try discriminate. cbn in Hn. injection Hn as <-. cbn [k_name] in E.
          destruct (Iown' (Add_index x) Hi Hin) as [X|[]]; [right; exists x; split; [reflexivity|congruence]|]. discriminate. }
      assert (Keep : i_type i <> I_dropped -> a = [] -> k_multi k0 = (match i_type i with I_multi => true | _ => false end) -> same_columns (k_columns k0) (i_columns i) = true -> exists k, In k ks' /\ index_is i k).
      { intros Ti -> Em Ec. apply same_columns_spec in Ec. destruct (r_used _ Sr i Hi Ti) as (_ & Un).
        assert (Fl : filter (fun n => negb (dropped cls n)) (k_columns k0) = k_columns k0).
        { assert (X : forall l0 l, Forall2 same_name l0 l -> (forall n c, In n l -> In c (columns r) -> c_type c = Dropped -> ~ same_name (c_name c) n) -> filter (fun n => negb (dropped cls n)) l0 = l0).
          { clear Ec Em. induction l0 as [|n l0 IH]; intros l F2 H; [reflexivity|]. inversion F2 as [|? m ? l' Em Fm]. subst. cbn [filter].
            assert (dropped cls n = false) as ->.
            { apply not_true_iff_false. rewrite dropped_spec. intros (q & Hq & Eq). destruct (o_col _ _ _ _ _ _ O1 _ _ Hq eq_refl) as (c & a & Hc & Hac & Hin).
              destruct (check_column_key _ _ _ _ _ _ _ Hac Hin) as (_ & _ & [(X1 & X2)|([X1|X1] & _)]); try discriminate. injection X1 as ->.
              apply (H m c (or_introl eq_refl) Hc X2). apply same_key. apply same_key in Em. congruence. }
            cbn [negb]. f_equal. apply (IH l' Fm). intros x c Hx. apply H. right. exact Hx. }
          exact (X _ _ Ec Un). }
        exists k0. split; [|split; [exact En|split; [exact Em|exact Ec]]].
        apply M4. left. apply M3. exists k0. rewrite Fl. split; [|split; [destruct k0; reflexivity|exact (proj1 (Forall_forall _ _) P3 k0 Hk0)]].
        apply M2. split; [exact Hk0|]. intros n Hin E. destruct (Iown' (Drop_index n) Hi Hin). left. exists n. split; [reflexivity|congruence]. }
      destruct (i_type i) eqn:T.
      * apply Dr, Ha.
      * destruct (Bool.eqb (k_multi k0) false && same_columns (k_columns k0) (i_columns i)) eqn:B.
        { apply andb_prop in B. destruct B as (B1 & B2). apply Bool.eqb_prop in B1. apply Keep; [discriminate|assumption..]. }
        apply New; [discriminate|]. apply Hincl. rewrite Ha. right. left. reflexivity.
      * destruct (Bool.eqb (k_multi k0) true && same_columns (k_columns k0) (i_columns i)) eqn:B.
        { apply andb_prop in B. destruct B as (B1 & B2). apply Bool.eqb_prop in B1. apply Keep; [discriminate|assumption..]. }
        apply New; [discriminate|]. apply Hincl. rewrite Ha. right. left. reflexivity.
    + pose proof (find_text_none _ _ _ F) as N. destruct (i_type i) eqn:T.
      * intros k Hk E. apply M4 in Hk. destruct Hk as [Hk|(cl & Hin & Hn)].
        { apply M3 in Hk. destruct Hk as (k1 & Hk1 & -> & _). apply M2 in Hk1. exact (N k1 (proj1 Hk1) E). }
        destruct cl as [d|d|n|x|n]; try discriminate. cbn in Hn. injection Hn as <-. cbn [k_name] in E.
        pose proof (Iown' (Add_index x) Hi Hin) as X. rewrite Ha in X. apply X. right. exists x. split; [reflexivity|congruence].
      * apply New; [discriminate|]. apply Hincl. rewrite Ha. left. reflexivity.
      * apply New; [discriminate|]. apply Hincl. rewrite Ha. left. reflexivity.
Qed.
End establish.

(** *** Statements that are accepted *)

Section accept.
Variable widths : bool.
Variable real_text : Z -> list Z.
Variable off : Z -> Z.

Definition ok_col (cs : list scol) (cl : clause) : Prop :=
  match cl with
  | Add_column d => forall s, In s cs -> key (s_name s) <> key (d_name d)
  | Modify_column d => exists s, In s cs /\ key (s_name s) = key (d_name d)
  | Drop_column n => exists s, In s cs /\ key (s_name s) = key n
  | _ => True
  end.

Lemma each_col_ok cls : forall cs, uniq s_name cs -> ForallOrdPairs (differ col_key) cls -> Forall (ok_col cs) cls ->
  exists cs', each (apply_column widths real_text off) cls cs = Some cs'.
Proof.
  induction cls as [|a cls IH]; intros cs U D F; cbn [each]; [eauto|].
  inversion D as [|? ? Da D']. subst. inversion F as [|? ? Fa F']. subst.
  assert (exists cs1, apply_column widths real_text off a cs = Some cs1) as (cs1 & E).
  { destruct a as [d|d|n|x|n]; cbn [apply_column ok_col] in *; unfold has_column; eauto.
    - apply (has_not s_name) in Fa. rewrite Fa. eauto.
    - apply (has_in s_name) in Fa. rewrite Fa. eauto.
    - apply (has_in s_name) in Fa. rewrite Fa. eauto. }
  rewrite E. destruct (apply_column_spec _ _ _ _ _ _ U E) as (U1 & M). apply IH; [exact U1|exact D'|].
  rewrite Forall_forall in *. intros b Hb. pose proof (F' b Hb) as Fb. pose proof (Da b Hb) as Dab. unfold differ in Dab.
  assert (Ex : forall k, col_key b = Some k -> (exists s, In s cs /\ key (s_name s) = k) -> exists s, In s cs1 /\ key (s_name s) = k).
  { intros k Eb (s & Hs & Es). exists s. split; [|exact Es]. apply M. left. split; [|exact Hs]. intros X. apply Dab; congruence. }
  destruct b as [d|d|n|x|n]; cbn [ok_col] in *; auto; try (apply Ex; [reflexivity|exact Fb]).
  intros s Hs Es. apply M in Hs. destruct Hs as [(_ & Hs)|Hn]; [exact (Fb s Hs Es)|]. apply new_key in Hn. apply Dab; [congruence|]. rewrite Hn. cbn [col_key]. congruence.
Qed.

Definition drop_key (cl : clause) : option (list Z) := match cl with Drop_index n => Some (key n) | _ => None end.
Definition add_key (cl : clause) : option (list Z) := match cl with Add_index x => Some (key (x_name x)) | _ => None end.

Lemma each_drop_ok cls : forall ks, ForallOrdPairs (differ drop_key) cls -> (forall n, In (Drop_index n) cls -> exists k, In k ks /\ key (k_name k) = key n) ->
  exists ks', each drop_index cls ks = Some ks'.
Proof.
  induction cls as [|a cls IH]; intros ks D F; cbn [each]; [eauto|]. inversion D as [|? ? Da D']. subst.
  destruct a as [d|d|n|x|n]; cbn [drop_index]; try (apply IH; [exact D'|intros n' Hn; apply F; right; exact Hn]).
  unfold has_index. pose proof (proj2 (has_in k_name n ks) (F n (or_introl eq_refl))) as E. rewrite E. apply IH; [exact D'|].
  intros m Hm. destruct (F m (or_intror Hm)) as (k & Hk & Ek). exists k. split; [|exact Ek]. apply filter_In. split; [exact Hk|].
  apply negb_true_iff, equals_not. rewrite Forall_forall in Da. pose proof (Da _ Hm) as X. unfold differ in X. cbn [drop_key] in X. specialize (X ltac:(discriminate)). congruence.
Qed.

Lemma each_add_ok cls : forall ks, ForallOrdPairs (differ add_key) cls -> (forall x, In (Add_index x) cls -> forall k, In k ks -> key (k_name k) <> key (x_name x)) ->
  exists ks', each add_index cls ks = Some ks'.
Proof.
  induction cls as [|a cls IH]; intros ks D F; cbn [each]; [eauto|]. inversion D as [|? ? Da D']. subst.
  destruct a as [d|d|n|x|n]; cbn [add_index]; try (apply IH; [exact D'|intros n' Hn; apply F; right; exact Hn]).
  unfold has_index. pose proof (proj2 (has_not k_name (x_name x) ks) (F x (or_introl eq_refl))) as E. rewrite E. apply IH; [exact D'|].
  intros m Hm k Hk. apply in_app_iff in Hk. destruct Hk as [Hk|[<-|[]]]; [apply (F m (or_intror Hm) k Hk)|]. cbn [k_name].
  rewrite Forall_forall in Da. pose proof (Da _ Hm) as X. unfold differ in X. cbn [add_key] in X. specialize (X ltac:(discriminate)). congruence.
Qed.

Lemma pairs_flat {A} (K : clause -> option (list Z)) (name : A -> list Z) (f : A -> list clause) l : uniq name l ->
  (forall x cl, In x l -> In cl (f x) -> K cl = None \/ K cl = Some (key (name x))) -> (forall x, In x l -> ForallOrdPairs (differ K) (f x)) ->
  ForallOrdPairs (differ K) (flat_map f l).
Proof.
  induction l as [|x l IH]; intros U H F; cbn [flat_map]; [constructor|]. unfold uniq, distinct in U. cbn [map] in U. inversion U as [|? ? N U']. subst. apply pairs_app.
  - apply F. left. reflexivity.
  - apply IH; [exact U'| |]; intros; [eapply H; [right|]|apply F; right]; eassumption.
  - intros a b Ha Hb Na E. destruct (H x a (or_introl eq_refl) Ha) as [X|X]; [contradiction|].
    apply in_flat_map in Hb. destruct Hb as (y & Hy & Hb). destruct (H y b (or_intror Hy) Hb) as [Y|Y]; [congruence|].
    apply N. apply in_map_iff. exists (name y). split; [|apply in_map, Hy]. unfold key in *. congruence.
Qed.
Lemma pairs_none (K : clause -> option (list Z)) l : (forall x, In x l -> K x = None) -> ForallOrdPairs (differ K) l.
Proof.
  induction l as [|x l IH]; intros H; constructor.
  - apply Forall_forall. intros y _ N. elim N. apply H. left. reflexivity.
  - apply IH. intros y Hy. apply H. right. exact Hy.
Qed.
End accept.
