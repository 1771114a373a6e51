(** Proofs about configuration files. *)
From Coq Require Import List ZArith Bool Lia ZifyBool ZifyNat.
From Verif Require Import Base BaseLemmas NetrefSpec NetrefProofs AddrTextProofs RedisModel RedisProofs GeoModel ConfModel ConfSpec.
Import ListNotations.
Open Scope list_scope.
Open Scope Z_scope.
Notation length := List.length.

Lemma blank_spec c : blank c = true <-> c = 32 \/ c = 9.
Proof. unfold blank. lia. Qed.
Lemma start_spec c : name_start c = true <-> letter c.
Proof. unfold name_start, letter. lia. Qed.
Lemma digit_spec c : is_digit c = true <-> decimal c.
Proof. unfold is_digit, decimal. lia. Qed.
Lemma char_spec c : name_char c = true <-> letter c \/ decimal c.
Proof. unfold name_char. rewrite orb_true_iff, start_spec, digit_spec. reflexivity. Qed.

(** *** Following steps *)

Fixpoint bad (a : Z) (ds : list Z) : bool :=
  match ds with
  | [] => false
  | d :: ds => (999999 <=? a) || bad (a * 10 + (d - 48)) ds
  end.
Definition bad_index (ds : list Z) : bool := match ds with [] => false | d :: ds => bad (d - 48) ds end.

Fixpoint follow (v : value) (steps : list step) : outcome :=
  match steps with
  | [] => Found v
  | By_name n :: steps =>
    match v with
    | Obj l => match member l n with Some w => follow w steps | None => Missing end
    | _ => Throws
    end
  | By_index ds :: steps =>
    if bad_index ds then Throws
    else match v with
    | Arr l => match nth_error l (Z.to_nat (number ds)) with Some w => follow w steps | None => Missing end
    | _ => Throws
    end
  end.

Lemma member_some l k v : member l k = Some v -> has l k v.
Proof.
  induction l as [|(k', w) l IH]; cbn [member]; [discriminate|].
  destruct (text_eqb k' k) eqn:E.
  - intros [= <-]. apply text_eqb_spec in E. subst. exists [], l. split; [reflexivity|]. intros [].
  - intros H. destruct (IH H) as (p & q & -> & N). exists ((k', w) :: p), q. split; [reflexivity|].
    cbn [map fst]. intros [->|I]; [|contradiction]. rewrite (proj2 (text_eqb_spec k k) eq_refl) in E. discriminate.
Qed.

Lemma member_none l k : member l k = None -> ~ In k (map fst l).
Proof.
  induction l as [|(k', w) l IH]; cbn [member]; [intros _ []|].
  destruct (text_eqb k' k) eqn:E; [discriminate|]. intros H [<-|I]; [|exact (IH H I)].
  cbn [fst] in E. rewrite (proj2 (text_eqb_spec k' k') eq_refl) in E. discriminate.
Qed.

Lemma number_snoc_app p q a : fold_left (fun a c => 10 * a + (c - 48)) (p ++ q) a = fold_left (fun a c => 10 * a + (c - 48)) q (fold_left (fun a c => 10 * a + (c - 48)) p a).
Proof. apply fold_left_app. Qed.

Lemma bad_spec ds : forall a, bad a ds = true <->
  exists p q, ds = p ++ q /\ q <> [] /\ 999999 <= fold_left (fun a c => 10 * a + (c - 48)) p a.
Proof.
  induction ds as [|d ds IH]; intros a; cbn [bad].
  - split; [discriminate|]. intros (p & q & E & N & _). destruct p, q; cbn in E; congruence.
  - rewrite orb_true_iff, IH. split.
    + intros [H|(p & q & -> & N & H)].
      * exists [], (d :: ds). repeat split; [discriminate|cbn; lia].
      * exists (d :: p), q. repeat split; [exact N|]. cbn [fold_left]. replace (10 * a) with (a * 10) by lia. exact H.
    + intros ([|x p] & q & E & N & H).
      * left. cbn in H. lia.
      * cbn in E. injection E as <- ->. right. exists p, q. repeat split; [exact N|].
        cbn [fold_left] in H. replace (a * 10) with (10 * a) by lia. exact H.
Qed.

Lemma bad_index_spec ds : bad_index ds = true <-> too_large ds.
Proof.
  unfold bad_index, too_large. destruct ds as [|d ds].
  - split; [discriminate|]. intros (p & q & E & N & _). destruct p; cbn in E; congruence.
  - rewrite bad_spec. split.
    + intros (p & q & -> & N & H). exists (d :: p), q. repeat split; [discriminate|exact N|].
      unfold number. cbn [fold_left]. replace (10 * 0 + (d - 48)) with (d - 48) by lia. exact H.
    + intros ([|x p] & q & E & N & Nq & H); [congruence|]. cbn in E. injection E as <- ->.
      exists p, q. repeat split; [exact Nq|]. unfold number in H. cbn [fold_left] in H.
      replace (10 * 0 + (d - 48)) with (d - 48) in H by lia. exact H.
Qed.

Definition digits_ok (s : step) : Prop := match s with By_index ds => Forall decimal ds | _ => True end.

Lemma follow_leads steps : forall v, Forall digits_ok steps -> leads v steps (follow v steps).
Proof.
  induction steps as [|[n|ds] steps IH]; intros v D; cbn [follow]; [constructor|..]; inversion D as [|? ? D1 D2]; subst.
  - destruct v as [| | | | | |l|]; try (apply leads_no_object; discriminate).
    destruct (member l n) as [w|] eqn:E.
    + apply leads_name with (v := w); [apply member_some; exact E|]. apply IH, D2.
    + apply leads_no_name, member_none, E.
  - destruct (bad_index ds) eqn:B.
    + apply leads_too_large, bad_index_spec, B.
    + assert (T : ~ too_large ds) by (rewrite <- bad_index_spec; congruence).
      destruct v as [| | | | |l| |]; try (apply leads_no_array; discriminate).
      destruct (nth_error l (Z.to_nat (number ds))) as [w|] eqn:E.
      * apply leads_index with (v := w); [exact T|exact E|]. apply IH, D2.
      * apply nth_error_None in E. apply leads_no_index; [exact T|].
        assert (0 <= number ds) by (pose proof (number_acc ds 0 D1 ltac:(lia)); unfold number; lia). lia.
Qed.

(** *** Running the parser on a path *)

Lemma run_blanks_ni root b : forall cur n i t, blanks b -> run root Name_i cur n i (b ++ t) = run root Name_i cur n i t.
Proof. induction b as [|c b IH]; intros cur n i t H; [reflexivity|]. inversion H as [|? ? H1 H2]; subst. cbn [app run]. rewrite (proj2 (blank_spec c) H1). apply IH, H2. Qed.
Lemma run_blanks_nt root b : forall cur n i t, blanks b -> run root Name_t cur n i (b ++ t) = run root Name_t cur n i t.
Proof. induction b as [|c b IH]; intros cur n i t H; [reflexivity|]. inversion H as [|? ? H1 H2]; subst. cbn [app run]. rewrite (proj2 (blank_spec c) H1). apply IH, H2. Qed.
Lemma run_blanks_ii root b : forall cur n i t, blanks b -> run root Index_i cur n i (b ++ t) = run root Index_i cur n i t.
Proof. induction b as [|c b IH]; intros cur n i t H; [reflexivity|]. inversion H as [|? ? H1 H2]; subst. cbn [app run]. rewrite (proj2 (blank_spec c) H1). apply IH, H2. Qed.
Lemma run_blanks_it root b : forall cur n i t, blanks b -> run root Index_t cur n i (b ++ t) = run root Index_t cur n i t.
Proof. induction b as [|c b IH]; intros cur n i t H; [reflexivity|]. inversion H as [|? ? H1 H2]; subst. cbn [app run]. rewrite (proj2 (blank_spec c) H1). apply IH, H2. Qed.

Lemma run_chars root m : forall cur n i t, Forall (fun c => letter c \/ decimal c) m -> run root Name cur n i (m ++ t) = run root Name cur (n ++ m) i t.
Proof.
  induction m as [|c m IH]; intros cur n i t H; [rewrite app_nil_r; reflexivity|]. inversion H as [|? ? H1 H2]; subst. cbn [app run].
  rewrite (proj2 (char_spec c) H1), IH by exact H2. rewrite <- app_assoc. reflexivity.
Qed.

Lemma run_digits root ds : forall cur n i t, Forall decimal ds -> 0 <= i <= 9999999 ->
  run root Index cur n i (ds ++ t) = if bad i ds then Throws else run root Index cur n (fold_left (fun a c => 10 * a + (c - 48)) ds i) t.
Proof.
  induction ds as [|c ds IH]; intros cur n i t H R; [reflexivity|]. inversion H as [|? ? H1 H2]; subst. cbn [app run bad].
  rewrite (proj2 (digit_spec c) H1). destruct (999999 <=? i) eqn:L; cbn [orb]; [reflexivity|].
  unfold decimal in H1. rewrite Z.mod_small by lia. rewrite IH by (try assumption; lia). cbn [fold_left].
  replace (10 * i) with (i * 10) by lia. reflexivity.
Qed.

Lemma follow_name_step root cur n : (forall v, cur = Some v -> True) -> forall steps,
  match apply_name root cur n with Found v => follow v steps | o => o end
  = follow (match cur with Some v => v | None => Obj root end) (By_name n :: steps).
Proof.
  intros _ steps. cbn [follow]. destruct cur as [v|]; cbn [apply_name].
  - destruct v; try reflexivity. destruct (member l n); reflexivity.
  - destruct (member root n); reflexivity.
Qed.

Section more.
Variable root : list (list Z * value).

(** What follows in a path is handled in the same way after blanks. *)
Lemma run_name_end t : (forall v n i, exists o, run root Name_t (Some v) n i t = o) ->
  forall cur n i b steps, blanks b -> more steps t ->
  (forall v n i, run root Name_t (Some v) n i t = follow v steps) ->
  run root Name cur n i (b ++ t) = match apply_name root cur n with Found v => follow v steps | o => o end.
Proof.
  intros _ cur n i b steps B M H. destruct b as [|c b].
  - cbn [app]. inversion M as [|b1 m b2 steps' t' B1 N1 B2 M'|b1 ds b2 b3 steps' t' B1 N1 D1 B2 B3 M']; subst.
    + cbn [run follow]. destruct (apply_name root cur n); reflexivity.
    + cbn [app run] in *. change (name_char 46) with false. change (blank 46) with false. change (46 =? 46) with true. cbn [name_char] in *. cbv iota.
      destruct (apply_name root cur n) as [v| |]; [|reflexivity..]. specialize (H v n i).
      change (blank 46) with false in H. change (46 =? 46) with true in H. cbv iota in H. exact H.
    + cbn [app run] in *. change (name_char 91) with false. change (blank 91) with false. change (91 =? 46) with false. change (91 =? 91) with true. cbv iota.
      destruct (apply_name root cur n) as [v| |]; [|reflexivity..]. specialize (H v n i).
      change (blank 91) with false in H. change (91 =? 46) with false in H. change (91 =? 91) with true in H. cbv iota in H. exact H.
  - inversion B as [|? ? B1 B2]; subst. cbn [app run].
    assert (C : name_char c = false) by (destruct B1 as [-> | ->]; reflexivity). rewrite C, (proj2 (blank_spec c) B1).
    destruct (apply_name root cur n) as [v| |]; [|reflexivity..]. rewrite run_blanks_nt by exact B2. apply H.
Qed.

Lemma run_index_end v n i b2 b3 t : blanks b2 -> blanks b3 ->
  run root Index (Some v) n i (b2 ++ [93] ++ b3 ++ t)
  = match apply_index (Some v) i with Found w => run root Name_t (Some w) n i t | o => o end.
Proof.
  intros B2 B3. destruct b2 as [|c b2].
  - cbn [app run]. change (is_digit 93) with false. change (blank 93) with false. change (93 =? 93) with true. cbv iota.
    destruct (apply_index (Some v) i); [|reflexivity..]. apply run_blanks_nt, B3.
  - inversion B2 as [|? ? B1 B2']; subst. cbn [app run].
    assert (C : is_digit c = false) by (destruct B1 as [-> | ->]; reflexivity). rewrite C, (proj2 (blank_spec c) B1).
    destruct (apply_index (Some v) i); [|reflexivity..].
    rewrite run_blanks_it by exact B2'. cbn [app run]. change (blank 93) with false. change (93 =? 93) with true. cbv iota. apply run_blanks_nt, B3.
Qed.

Lemma run_more steps t : more steps t -> forall v n i, run root Name_t (Some v) n i t = follow v steps.
Proof.
  intros M. induction M as [|b1 m b2 steps t B1 N1 B2 M IH|b1 ds b2 b3 steps t B1 N1 D1 B2 B3 M IH]; intros v n i.
  - reflexivity.
  - cbn [app run]. change (blank 46) with false. change (46 =? 46) with true. cbv iota.
    rewrite run_blanks_ni by exact B1. inversion N1 as [c s L C]; subst. cbn [app run].
    assert (blank c = false) as -> by (unfold letter in L; unfold blank; lia).
    rewrite (proj2 (start_spec c) L), run_chars by exact C. cbn [app].
    rewrite run_name_end with (steps := steps); try assumption; [|eauto].
    rewrite follow_name_step by auto. reflexivity.
  - cbn [app run]. change (blank 91) with false. change (91 =? 46) with false. change (91 =? 91) with true. cbv iota.
    rewrite run_blanks_ii by exact B1. destruct ds as [|d ds]; [congruence|].
    inversion D1 as [|? ? D2 D3]; subst. change (93 :: b3 ++ t) with ([93] ++ b3 ++ t). cbn [app run].
    assert (blank d = false) as -> by (unfold decimal in D2; unfold blank; lia).
    rewrite (proj2 (digit_spec d) D2).
    rewrite run_digits by (try assumption; unfold decimal in D2; lia).
    cbn [follow bad_index]. destruct (bad (d - 48) ds); [reflexivity|].
    change (93 :: b3 ++ t) with ([93] ++ b3 ++ t). rewrite run_index_end by assumption.
    unfold number. cbn [fold_left]. replace (10 * 0 + (d - 48)) with (d - 48) by lia.
    cbn [apply_index]. destruct v; try reflexivity.
    destruct (nth_error l _); [apply IH|reflexivity].
Qed.

Lemma run_path steps t : path_text steps t -> query root t = follow (Obj root) steps.
Proof.
  intros P. inversion P as [b1 n b2 steps' t' B1 N1 B2 M]; subst. unfold query.
  rewrite run_blanks_ni by exact B1. inversion N1 as [c s L C]; subst. cbn [app run].
  assert (blank c = false) as -> by (unfold letter in L; unfold blank; lia).
  rewrite (proj2 (start_spec c) L), run_chars by exact C. cbn [app].
  rewrite run_name_end with (steps := steps'); try assumption; [|eauto|apply run_more; exact M].
  rewrite follow_name_step by auto. reflexivity.
Qed.
End more.

Lemma more_digits steps t : more steps t -> Forall digits_ok steps.
Proof. intros M. induction M; constructor; cbn; auto. Qed.

Lemma path_digits steps t : path_text steps t -> Forall digits_ok steps.
Proof. intros P. inversion P; subst. constructor; [exact I|]. eapply more_digits; eauto. Qed.

(** *** The text from an outcome *)

Section reverse.
Variable root : list (list Z * value).

Definition base (cur : option value) : value := match cur with Some v => v | None => Obj root end.

(** If a value is found then the whole text is a path. If it is missing, there
    may be anything after it, and the last bracket may not be there. *)
Definition ends (o : outcome) (q r : list Z) : Prop :=
  match o with Found _ => q = [] /\ r = [] | _ => r = [] \/ r = [93] end.

Definition goes (ps : state) (cur : option value) (n : list Z) (i : Z) (s : list Z) (o : outcome) : Prop :=
  exists steps t p q r, s = p ++ q /\ ends o q r /\ more steps t /\
  match ps with
  | Name_i => exists b1 m b2, p ++ r = b1 ++ m ++ b2 ++ t /\ blanks b1 /\ is_name m /\ blanks b2 /\ follow (base cur) (By_name m :: steps) = o
  | Name => exists m b2, p ++ r = m ++ b2 ++ t /\ Forall (fun c => letter c \/ decimal c) m /\ blanks b2 /\ follow (base cur) (By_name (n ++ m) :: steps) = o
  | Name_t => exists b2, p ++ r = b2 ++ t /\ blanks b2 /\ follow (base cur) steps = o
  | Index_i => exists b1 ds b2 b3, p ++ r = b1 ++ ds ++ b2 ++ [93] ++ b3 ++ t /\ ds <> [] /\ Forall decimal ds /\ blanks b1 /\ blanks b2 /\ blanks b3 /\ follow (base cur) (By_index ds :: steps) = o
  | Index => exists ds b2 b3, p ++ r = ds ++ b2 ++ [93] ++ b3 ++ t /\ Forall decimal ds /\ blanks b2 /\ blanks b3 /\ bad i ds = false
       /\ match base cur with Arr l => match nth_error l (Z.to_nat (fold_left (fun a c => 10 * a + (c - 48)) ds i)) with Some w => follow w steps | None => Missing end | _ => Throws end = o
  | Index_t => exists b2 b3, p ++ r = b2 ++ [93] ++ b3 ++ t /\ blanks b2 /\ blanks b3 /\ follow (base cur) steps = o
  end.

Lemma name_here cur n steps : match apply_name root cur n with Found v => follow v steps | o => o end = follow (base cur) (By_name n :: steps).
Proof. apply follow_name_step; auto. Qed.

Lemma goes_run s : forall ps cur n i o, run root ps cur n i s = o -> o <> Throws -> 0 <= i <= 9999999 -> goes ps cur n i s o.
Proof.
  induction s as [|c s IH]; intros ps cur n i o H T R.
  - cbn [run] in H. destruct ps; try congruence.
    + exists [], [], [], [], []. split; [reflexivity|]. split; [destruct o; cbn; auto|]. split; [constructor|].
      exists [], []. split; [reflexivity|]. split; [constructor|]. split; [constructor|]. rewrite app_nil_r, <- name_here. rewrite <- H. destruct (apply_name root cur n); reflexivity.
    + destruct cur as [v|]; [|congruence]. exists [], [], [], [], []. split; [reflexivity|]. split; [destruct o; cbn; auto; congruence|]. split; [constructor|].
      exists []. repeat split; [constructor|]. exact H.
  - cbn [run] in H. destruct ps.
    + (* Name_i *)
      destruct (blank c) eqn:B.
      { destruct (IH _ _ _ _ _ H T R) as (steps & t & p & q & r & Es & Fin & M & b1 & m & b2 & Ep & B1 & N & B2 & F).
        exists steps, t, (c :: p), q, r. split; [cbn; congruence|]. do 2 (split; [assumption|]).
        exists (c :: b1), m, b2. split; [cbn; congruence|]. repeat split; try assumption. constructor; [apply blank_spec, B|exact B1]. }
      destruct (name_start c) eqn:L; [|congruence].
      destruct (IH _ _ _ _ _ H T R) as (steps & t & p & q & r & Es & Fin & M & m & b2 & Ep & C & B2 & F).
      exists steps, t, (c :: p), q, r. split; [cbn; congruence|]. do 2 (split; [assumption|]).
      exists [], (c :: m), b2. split; [cbn; congruence|]. repeat split; try assumption; [constructor|apply start_spec, L].
    + (* Name *)
      destruct (name_char c) eqn:L.
      { destruct (IH _ _ _ _ _ H T R) as (steps & t & p & q & r & Es & Fin & M & m & b2 & Ep & C & B2 & F).
        exists steps, t, (c :: p), q, r. split; [cbn; congruence|]. do 2 (split; [assumption|]).
        exists (c :: m), b2. split; [cbn; congruence|]. repeat split; try assumption; [constructor; [apply char_spec, L|exact C]|].
        rewrite <- app_assoc in F. exact F. }
      assert (Miss : apply_name root cur n = o -> o = Missing -> goes Name cur n i (c :: s) o).
      { intros A ->. exists [], [], [], (c :: s), []. split; [reflexivity|]. split; [cbn; auto|]. split; [constructor|].
        exists [], []. split; [reflexivity|]. split; [constructor|]. split; [constructor|]. rewrite app_nil_r, <- name_here, A. reflexivity. }
      destruct (blank c) eqn:B; [|destruct (c =? 46) eqn:C46; [|destruct (c =? 91) eqn:C91; [|congruence]]].
      * destruct (apply_name root cur n) as [v| |] eqn:A; [|subst o; apply Miss; reflexivity|congruence].
        destruct (IH _ _ _ _ _ H T R) as (steps & t & p & q & r & Es & Fin & M & b2 & Ep & B2 & F).
        exists steps, t, (c :: p), q, r. split; [cbn; congruence|]. do 2 (split; [assumption|]).
        exists [], (c :: b2). split; [cbn; congruence|]. split; [constructor|]. split; [constructor; [apply blank_spec, B|exact B2]|].
        rewrite app_nil_r, <- name_here, A. exact F.
      * destruct (apply_name root cur n) as [v| |] eqn:A; [|subst o; apply Miss; reflexivity|congruence].
        destruct (IH _ _ _ _ _ H T R) as (steps & t & p & q & r & Es & Fin & M & b1 & m & b2 & Ep & B1 & N & B2 & F).
        exists (By_name m :: steps), ([46] ++ b1 ++ m ++ b2 ++ t), (c :: p), q, r. split; [cbn; congruence|]. split; [assumption|].
        split; [constructor; assumption|]. apply Z.eqb_eq in C46. subst c.
        exists [], []. split; [cbn; congruence|]. split; [constructor|]. split; [constructor|].
        rewrite app_nil_r, <- name_here, A. exact F.
      * destruct (apply_name root cur n) as [v| |] eqn:A; [|subst o; apply Miss; reflexivity|congruence].
        destruct (IH _ _ _ _ _ H T R) as (steps & t & p & q & r & Es & Fin & M & b1 & ds & b2 & b3 & Ep & N & D & B1 & B2 & B3 & F).
        exists (By_index ds :: steps), ([91] ++ b1 ++ ds ++ b2 ++ [93] ++ b3 ++ t), (c :: p), q, r. split; [cbn; congruence|]. split; [assumption|].
        split; [constructor; assumption|]. apply Z.eqb_eq in C91. subst c.
        exists [], []. split; [cbn in *; congruence|]. split; [constructor|]. split; [constructor|].
        rewrite app_nil_r, <- name_here, A. exact F.
    + (* Name_t *)
      destruct (blank c) eqn:B; [|destruct (c =? 46) eqn:C46; [|destruct (c =? 91) eqn:C91; [|congruence]]].
      * destruct (IH _ _ _ _ _ H T R) as (steps & t & p & q & r & Es & Fin & M & b2 & Ep & B2 & F).
        exists steps, t, (c :: p), q, r. split; [cbn; congruence|]. do 2 (split; [assumption|]).
        exists (c :: b2). split; [cbn; congruence|]. split; [constructor; [apply blank_spec, B|exact B2]|]. exact F.
      * destruct (IH _ _ _ _ _ H T R) as (steps & t & p & q & r & Es & Fin & M & b1 & m & b2 & Ep & B1 & N & B2 & F).
        exists (By_name m :: steps), ([46] ++ b1 ++ m ++ b2 ++ t), (c :: p), q, r. split; [cbn; congruence|]. split; [assumption|].
        split; [constructor; assumption|]. apply Z.eqb_eq in C46. subst c.
        exists []. split; [cbn; congruence|]. split; [constructor|]. exact F.
      * destruct (IH _ _ _ _ _ H T R) as (steps & t & p & q & r & Es & Fin & M & b1 & ds & b2 & b3 & Ep & N & D & B1 & B2 & B3 & F).
        exists (By_index ds :: steps), ([91] ++ b1 ++ ds ++ b2 ++ [93] ++ b3 ++ t), (c :: p), q, r. split; [cbn; congruence|]. split; [assumption|].
        split; [constructor; assumption|]. apply Z.eqb_eq in C91. subst c.
        exists []. split; [cbn in *; congruence|]. split; [constructor|]. exact F.
    + (* Index_i *)
      destruct (blank c) eqn:B.
      { destruct (IH _ _ _ _ _ H T R) as (steps & t & p & q & r & Es & Fin & M & b1 & ds & b2 & b3 & Ep & N & D & B1 & B2 & B3 & F).
        exists steps, t, (c :: p), q, r. split; [cbn; congruence|]. do 2 (split; [assumption|]).
        exists (c :: b1), ds, b2, b3. split; [cbn in *; congruence|]. repeat split; try assumption. constructor; [apply blank_spec, B|exact B1]. }
      destruct (is_digit c) eqn:L; [|congruence]. apply digit_spec in L.
      destruct (IH _ _ _ _ _ H T ltac:(unfold decimal in L; lia)) as (steps & t & p & q & r & Es & Fin & M & ds & b2 & b3 & Ep & D & B2 & B3 & Bd & F).
      exists steps, t, (c :: p), q, r. split; [cbn; congruence|]. do 2 (split; [assumption|]).
      exists [], (c :: ds), b2, b3. split; [cbn in *; congruence|]. split; [discriminate|]. split; [constructor; assumption|]. split; [constructor|]. do 2 (split; [assumption|]).
      cbn [follow bad_index]. rewrite Bd. unfold number. cbn [fold_left]. replace (10 * 0 + (c - 48)) with (c - 48) by lia.
      exact F.
    + (* Index *)
      destruct (is_digit c) eqn:L.
      { apply digit_spec in L. destruct (999999 <=? i) eqn:Lg; [congruence|]. unfold decimal in L.
        rewrite Z.mod_small in H by lia.
        destruct (IH _ _ _ _ _ H T ltac:(lia)) as (steps & t & p & q & r & Es & Fin & M & ds & b2 & b3 & Ep & D & B2 & B3 & Bd & F).
        exists steps, t, (c :: p), q, r. split; [cbn; congruence|]. do 2 (split; [assumption|]).
        exists (c :: ds), b2, b3. split; [cbn in *; congruence|]. split; [constructor; assumption|]. do 2 (split; [assumption|]).
        cbn [bad fold_left]. rewrite Lg, Bd. split; [reflexivity|]. replace (10 * i) with (i * 10) by lia. exact F. }
      assert (Miss : apply_index cur i = o -> o = Missing -> goes Index cur n i (c :: s) o).
      { intros A ->. exists [], [], [], (c :: s), [93]. split; [reflexivity|]. split; [cbn; auto|]. split; [constructor|].
        exists [], [], []. split; [reflexivity|]. split; [constructor|]. split; [constructor|]. split; [constructor|]. split; [reflexivity|].
        cbn [fold_left]. destruct cur as [[| | | | |l| |]|]; cbn [apply_index] in A; try discriminate.
        cbn [base]. destruct (nth_error l (Z.to_nat i)); [discriminate|reflexivity]. }
      assert (Hit : forall v steps, apply_index cur i = Found v -> follow v steps = o ->
          match base cur with Arr l => match nth_error l (Z.to_nat i) with Some w => follow w steps | None => Missing end | _ => Throws end = o).
      { intros v steps A F. destruct cur as [[| | | | |l| |]|]; cbn [apply_index] in A; try discriminate.
        cbn [base]. destruct (nth_error l (Z.to_nat i)); [injection A as ->; exact F|discriminate]. }
      destruct (blank c) eqn:B; [|destruct (c =? 93) eqn:C93; [|congruence]].
      * destruct (apply_index cur i) as [v| |] eqn:A; [|subst o; apply Miss; reflexivity|congruence].
        destruct (IH _ _ _ _ _ H T R) as (steps & t & p & q & r & Es & Fin & M & b2 & b3 & Ep & B2 & B3 & F).
        exists steps, t, (c :: p), q, r. split; [cbn; congruence|]. do 2 (split; [assumption|]).
        exists [], (c :: b2), b3. split; [cbn in *; congruence|]. split; [constructor|]. split; [constructor; [apply blank_spec, B|exact B2]|].
        split; [assumption|]. split; [reflexivity|]. cbn [fold_left]. eapply Hit; [reflexivity|exact F].
      * destruct (apply_index cur i) as [v| |] eqn:A; [|subst o; apply Miss; reflexivity|congruence].
        destruct (IH _ _ _ _ _ H T R) as (steps & t & p & q & r & Es & Fin & M & b2 & Ep & B2 & F).
        apply Z.eqb_eq in C93. subst c.
        exists steps, t, (93 :: p), q, r. split; [cbn; congruence|]. do 2 (split; [assumption|]).
        exists [], [], b2. split; [cbn in *; congruence|]. split; [constructor|]. split; [constructor|].
        split; [assumption|]. split; [reflexivity|]. cbn [fold_left]. eapply Hit; [reflexivity|exact F].
    + (* Index_t *)
      destruct (blank c) eqn:B; [|destruct (c =? 93) eqn:C93; [|congruence]].
      * destruct (IH _ _ _ _ _ H T R) as (steps & t & p & q & r & Es & Fin & M & b2 & b3 & Ep & B2 & B3 & F).
        exists steps, t, (c :: p), q, r. split; [cbn; congruence|]. do 2 (split; [assumption|]).
        exists (c :: b2), b3. split; [cbn in *; congruence|]. split; [constructor; [apply blank_spec, B|exact B2]|]. split; assumption.
      * destruct (IH _ _ _ _ _ H T R) as (steps & t & p & q & r & Es & Fin & M & b2 & Ep & B2 & F).
        apply Z.eqb_eq in C93. subst c.
        exists steps, t, (93 :: p), q, r. split; [cbn; congruence|]. do 2 (split; [assumption|]).
        exists [], b2. split; [cbn in *; congruence|]. split; [constructor|]. split; assumption.
Qed.

Lemma query_text s o : query root s = o -> o <> Throws ->
  exists steps p q r, s = p ++ q /\ ends o q r /\ path_text steps (p ++ r) /\ follow (Obj root) steps = o.
Proof.
  intros H T. destruct (goes_run s Name_i None [] 0 o H T ltac:(lia)) as (steps & t & p & q & r & Es & Fin & M & b1 & m & b2 & Ep & B1 & N & B2 & F).
  exists (By_name m :: steps), p, q, r. split; [exact Es|]. split; [exact Fin|]. rewrite Ep. split; [constructor; assumption|exact F].
Qed.
End reverse.
