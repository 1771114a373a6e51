(** Proofs about the opening handshake. *)
From Coq Require Import ZArith List Lia Bool ZifyBool String.
From Verif Require Import Base BaseLemmas Text DateModel HvalModel HvalSpec HdrModel HdrSpec HdrProofs HdrProps HnameModel HnameProps HoutSpec HoutProps AddrTextModel PoolProofs WshModel WshSpec.
Import ListNotations.
Open Scope list_scope.
Open Scope Z_scope.
Notation length := List.length.

(** ** Reading lists *)
Lemma attributes_split mktime m1 : forall l m2, attributes mktime l (m1 ++ m2) ->
  exists l1 l2, l = l1 ++ l2 /\ length l1 = length m1 /\ attributes mktime l2 m2 /\ map fst l1 = map (fun x => fst (fst x)) m1.
Proof.
  induction m1 as [|[[e n] v] m1 IH]; intros l m2 H.
  - exists [], l. auto.
  - destruct l as [|[e' a] l]; [contradiction|]. cbn [app attributes] in H. destruct H as (-> & -> & A & H).
    apply IH in H as (l1 & l2 & -> & L & H & F). exists ((e, a) :: l1), l2. cbn. rewrite L, F. auto.
Qed.
Definition falses (l : list (bool * attr)) : Prop := Forall (fun x => fst x = false) l.
Lemma falses_map l (ps : list (list Z * value)) : map fst l = map (fun x => fst (fst x)) (map (fun p => (false, fst p, snd p)) ps) -> falses l.
Proof.
  revert ps. induction l as [|[e a] l IH]; intros [|p ps] H; try discriminate; [constructor|]. cbn in H. injection H as H1 H2. constructor; [exact H1|]. eapply IH. exact H2.
Qed.

Section Run.
  Variables (mktime : tm -> Z) (integer : list Z -> Z).
  Notation as_integer := (as_integer integer).

  (** The loop over the parameters on parameters that have been read *)
  Fixpoint fold_params (default : Z) (ps : list (list Z * value)) (p : pmce) : pmce :=
    match ps with
    | [] => mkPM (default mod 256) (server_nct p) (client_nct p) (server_bits p) (client_bits p)
    | (n, v) :: ps =>
          if equals n (txt "server_no_context_takeover") then
            if negb (is_null v) then p
            else fold_params default ps (mkPM (level p) true (client_nct p) (server_bits p) (client_bits p))
          else if equals n (txt "client_no_context_takeover") then
            if negb (is_null v) then p
            else fold_params default ps (mkPM (level p) (server_nct p) true (server_bits p) (client_bits p))
          else if equals n (txt "server_max_window_bits") then
            if is_null v then fold_params default ps p
            else
              let v := as_integer v in
              if (v <? 9) || (v >? 15) then p
              else fold_params default ps (mkPM (level p) (server_nct p) (client_nct p) v (client_bits p))
          else if equals n (txt "client_max_window_bits") then
            if is_null v then fold_params default ps p
            else
              let v := as_integer v in
              if (v <? 9) || (v >? 15) then p
              else fold_params default ps (mkPM (level p) (server_nct p) (client_nct p) (server_bits p) v)
          else p
    end.
  (** A place in the parameters of an element: the rest of the header is [rest], where elements begin. *)
  Definition place (s : st) (rest : list (bool * attr)) (m : list (bool * list Z * value)) : Prop :=
    exists l ms, falses l /\ at_ s = At (tail_text (l ++ rest)) /\ attributes mktime (l ++ rest) (ms ++ m) /\ length ms = length l.
  Definition begins (rest : list (bool * attr)) : Prop := match rest with [] => True | (e, _) :: _ => e = true end.

  Lemma next_attribute_more s a l v : at_ s = At (59 :: written a ++ tail_text l) -> attribute mktime a (tail_text l) v ->
    next_attribute mktime s = (mkS (hstr s) (At (tail_text l)) (label a) v, true).
  Proof. intros P A. unfold next_attribute. rewrite P. change (59 =? 44) with false. change (59 =? 59) with true. cbv iota. now apply next_from_attribute. Qed.
  Lemma next_attribute_end s rest : begins rest -> at_ s = At (tail_text rest) -> next_attribute mktime s = (s, false).
  Proof.
    intros B P. unfold next_attribute. rewrite P. destruct rest as [|[e a] rest]; [reflexivity|]. cbn in B. subst e. reflexivity.
  Qed.

  Lemma parameters_run default ps : forall l s p fuel rest m, falses l -> begins rest -> length l = length ps -> (length l < fuel)%nat ->
    at_ s = At (tail_text (l ++ rest)) -> attributes mktime (l ++ rest) (map (fun p => (false, fst p, snd p)) ps ++ m) ->
    exists s', parameters mktime integer default fuel s p = Go (s', fold_params default ps p) /\ place s' rest m /\ hstr s' = hstr s.
  Proof.
    induction ps as [|[n v] ps IH]; intros l s p fuel rest m F B L U P A.
    - destruct l; [|discriminate]. destruct fuel as [|fuel]; [cbn in U; lia|]. cbn [parameters fold_params]. rewrite (next_attribute_end s rest B P).
      assert (X : ub s = false) by (unfold ub; rewrite P; reflexivity). rewrite X. exists s. split; [reflexivity|]. split; [|reflexivity].
      exists [], []. split; [constructor|]. auto.
    - destruct l as [|[e a] l]; [discriminate|]. destruct fuel as [|fuel]; [cbn in U; lia|]. inversion F as [|? ? F1 F2]; subst. cbn in F1. subst e.
      cbn [app tail_text] in P. cbn [map app attributes fst snd] in A. destruct A as (_ & -> & A1 & A2).
      set (s1 := mkS (hstr s) (At (tail_text (l ++ rest))) (label a) v).
      assert (N : next_attribute mktime s = (s1, true)) by (apply next_attribute_more; assumption).
      assert (HERE : place s1 rest m).
      { exists l, (map (fun p => (false, fst p, snd p)) ps). split; [exact F2|]. split; [reflexivity|]. split; [exact A2|]. rewrite map_length. cbn in L. lia. }
      assert (REC : forall p', exists s', parameters mktime integer default fuel s1 p' = Go (s', fold_params default ps p') /\ place s' rest m /\ hstr s' = hstr s).
      { intros p'. destruct (IH l s1 p' fuel rest m) as (s' & E & Q & H); auto. { cbn in U. lia. } exists s'. auto. }
      cbn [parameters fold_params]. rewrite N. change (ub s1) with false. cbv iota. change (name s1) with (label a). change (val s1) with v.
      destruct (equals (label a) (txt "server_no_context_takeover")); [destruct (negb (is_null v)); [exists s1; auto|apply REC]|].
      destruct (equals (label a) (txt "client_no_context_takeover")); [destruct (negb (is_null v)); [exists s1; auto|apply REC]|].
      destruct (equals (label a) (txt "server_max_window_bits")); [destruct (is_null v); [apply REC|]; cbv zeta; destruct ((as_integer v <? 9) || (as_integer v >? 15)); [exists s1; auto|apply REC]|].
      destruct (equals (label a) (txt "client_max_window_bits")); [destruct (is_null v); [apply REC|]; cbv zeta; destruct ((as_integer v <? 9) || (as_integer v >? 15)); [exists s1; auto|apply REC]|].
      exists s1. auto.
  Qed.

  Definition fold_use (default : Z) (ps : list (list Z * value)) (p : pmce) : pmce :=
    if negb (level p =? 0) then p else if default =? 0 then p else fold_params default ps (mkPM (level p) false false 15 15).
  Lemma use_run default ps l s p rest m : falses l -> begins rest -> length l = length ps -> (length l <= length (hstr s))%nat ->
    at_ s = At (tail_text (l ++ rest)) -> attributes mktime (l ++ rest) (map (fun p => (false, fst p, snd p)) ps ++ m) ->
    exists s', use_permessage_deflate mktime integer default s p = Go (s', fold_use default ps p) /\ place s' rest m /\ hstr s' = hstr s.
  Proof.
    intros F B L U P A. unfold use_permessage_deflate, fold_use.
    assert (HERE : place s rest m).
    { exists l, (map (fun p => (false, fst p, snd p)) ps). split; [exact F|]. split; [exact P|]. split; [exact A|]. now rewrite map_length. }
    destruct (negb (level p =? 0)); [exists s; auto|]. destruct (default =? 0); [exists s; auto|]. eapply parameters_run; eauto. lia.
  Qed.

  (** [next_element] from such a place *)
  Lemma next_element_more s a rest e m : place s ((true, a) :: rest) (flat e ++ m) ->
    next_element mktime s = (mkS (hstr s) (At (tail_text rest)) (e_name e) (e_value e), true) /\ attributes mktime rest (map (fun p => (false, fst p, snd p)) (e_params e) ++ m).
  Proof.
    intros (l & ms & F & P & A & L). assert (B := A). apply attributes_app in B as (m1 & m2 & E & L1 & B).
    assert (E' : m1 = ms /\ m2 = flat e ++ m).
    { assert (LL : length m1 = length ms) by congruence. clear -E LL. revert ms E LL. induction m1 as [|x m1 IH]; intros [|y ms] E LL; try discriminate; [auto|].
      cbn in E. injection E as -> E. cbn in LL. destruct (IH ms E ltac:(lia)) as [-> ->]. auto. }
    destruct E' as [-> ->]. cbn [flat app attributes] in B. destruct B as (_ & N & B1 & B2). split; [|exact B2]. rewrite N. eapply hdr_skip; eauto.
  Qed.
  Lemma next_element_end s : place s [] [] -> exists s', next_element mktime s = (s', false) /\ ub s' = false.
  Proof.
    intros (l & ms & F & P & A & L). rewrite app_nil_r in P, A. pose proof (hdr_last mktime l _ s F A P) as [H1 H2]. exists (fst (next_element mktime s)). rewrite <- H1.
    split; [now destruct (next_element mktime s)|]. unfold ub. now rewrite H2.
  Qed.
  Lemma rest_begins mktime' es l : attributes mktime' l (List.concat (map flat es)) -> begins l.
  Proof. destruct es as [|e es]; destruct l as [|[b a] l]; cbn; tauto. Qed.

  Fixpoint fold_ext (strict : bool) (default : Z) (es : list element) (p : pmce) : walk pmce :=
    match es with
    | [] => Go p
    | e :: es =>
        if equals (e_name e) (txt "permessage-deflate") then fold_ext strict default es (fold_use default (e_params e) p)
        else if strict then Stop
        else fold_ext strict default es p
    end.

  Lemma split_params rest e m : attributes mktime rest (map (fun p => (false, fst p, snd p)) (e_params e) ++ m) ->
    exists l1 l2, rest = l1 ++ l2 /\ falses l1 /\ length l1 = length (e_params e) /\ attributes mktime l2 m.
  Proof.
    intros A. apply attributes_split in A as (l1 & l2 & -> & L & A & M). exists l1, l2. split; [reflexivity|]. rewrite map_length in L. split; [|auto]. eapply falses_map. exact M.
  Qed.

  (** One element: from the state after [next_element] *)
  Lemma extensions_run strict default es : forall s p fuel rest, (length es < fuel)%nat -> (length (tail_text rest) <= length (hstr s))%nat ->
    place s rest (List.concat (map flat es)) -> attributes mktime rest (List.concat (map flat es)) ->
    extensions mktime integer strict default fuel s p = fold_ext strict default es p.
  Proof.
    induction es as [|e es IH]; intros s p fuel rest U T PL A; (destruct fuel as [|fuel]; [cbn in U; lia|]); cbn [extensions fold_ext].
    - destruct rest as [|[b a] rest]; [|contradiction]. destruct (next_element_end s PL) as (s' & -> & ->). reflexivity.
    - destruct rest as [|[b a] rest]; [contradiction|]. assert (b = true) by (cbn in A; tauto). subst b.
      cbn [map List.concat] in PL, A. destruct (next_element_more s a rest e _ PL) as [-> A']. cbn [ub at_]. cbn [name].
      destruct (split_params rest e _ A') as (l1 & l2 & -> & F & L & A2).
      assert (B : begins l2) by (eapply rest_begins; exact A2).
      assert (T2 : (length (tail_text (l1 ++ l2)) < length (hstr s))%nat) by (cbn [tail_text length] in T; rewrite app_length in T; lia).
      assert (TL : (length (tail_text l2) <= length (tail_text (l1 ++ l2)))%nat).
      { clear. induction l1 as [|[b a] l1 IH]; [cbn; lia|]. cbn [app tail_text length]. rewrite app_length. lia. }
      set (s1 := mkS (hstr s) (At (tail_text (l1 ++ l2))) (e_name e) (e_value e)).
      destruct (equals (e_name e) (txt "permessage-deflate")).
      + destruct (use_run default (e_params e) l1 s1 p l2 (List.concat (map flat es)) F B L) as (s' & -> & PL' & H').
        * cbn [hstr s1]. pose proof (tail_length (l1 ++ l2)) as Q. rewrite app_length in Q. lia.
        * reflexivity.
        * exact A'.
        * apply (IH s' _ fuel l2); [cbn in U; lia| |exact PL'|exact A2]. rewrite H'. cbn [hstr s1]. lia.
      + destruct strict; [reflexivity|]. apply (IH s1 _ fuel l2); [cbn in U; lia| | |exact A2].
        * cbn [hstr s1]. lia.
        * exists l1, (map (fun p => (false, fst p, snd p)) (e_params e)). split; [exact F|]. split; [reflexivity|]. split; [exact A'|]. now rewrite map_length.
  Qed.

  Lemma blank_header h : Forall is_ws h -> exists s, next_element mktime (reload h) = (s, false) /\ ub s = false.
  Proof.
    intros H. unfold next_element, reload. cbn [at_]. unfold next_from. assert (E : skip ws h = []).
    { rewrite <- (app_nil_r h). apply skip_app; [exact H|exact I]. } cbn [hstr]. rewrite E. eexists. split; [reflexivity|]. reflexivity.
  Qed.

  Lemma extensions_header strict default h es p : header mktime h es ->
    extensions mktime integer strict default (S (length h)) (reload h) p = fold_ext strict default es p.
  Proof.
    intros [[W ->]|(a & v & l & m & -> & A & AL & E)].
    - cbn [extensions fold_ext]. destruct (blank_header h W) as (s & -> & ->). reflexivity.
    - destruct es as [|e es]; [discriminate|]. cbn [map List.concat flat app] in E. injection E as E1 E2 E3. subst m.
      cbn [extensions fold_ext]. change (next_element mktime (reload (written a ++ tail_text l))) with (next_from mktime (reload (written a ++ tail_text l)) (written a ++ tail_text l)).
      rewrite (next_from_attribute _ _ _ _ _ A). cbn [ub at_ name hstr reload]. rewrite E1.
      destruct (split_params l e _ AL) as (l1 & l2 & -> & F & L & A2). assert (B : begins l2) by (eapply rest_begins; exact A2).
      assert (NE : (0 < length (written a))%nat).
      { destruct A as (_ & _ & N & _). unfold written. destruct (label a) as [|c t]; [congruence|]. rewrite !app_length. cbn [length]. lia. }
      set (s1 := mkS (written a ++ tail_text (l1 ++ l2)) (At (tail_text (l1 ++ l2))) (e_name e) v).
      assert (TL : (length (tail_text l2) <= length (tail_text (l1 ++ l2)))%nat).
      { clear. induction l1 as [|[b a] l1 IH]; [cbn; lia|]. cbn [app tail_text length]. rewrite app_length. lia. }
      assert (LE : (length es <= length l2)%nat).
      { clear -A2. revert l2 A2. induction es as [|e es IH]; intros l2 A2; [cbn; lia|]. cbn [map List.concat] in A2. apply attributes_split in A2 as (x & y & -> & Lx & Ay & _).
        apply IH in Ay. rewrite app_length. unfold flat in Lx. cbn [length] in *. lia. }
      pose proof (tail_length l2) as T2. pose proof (tail_length (l1 ++ l2)) as T3. rewrite app_length in T3.
      assert (G : forall s' p', place s' l2 (List.concat (map flat es)) -> hstr s' = hstr s1 ->
        extensions mktime integer strict default (length (written a ++ tail_text (l1 ++ l2))) s' p' = fold_ext strict default es p').
      { intros s' p' PL H. apply extensions_run with (rest := l2); auto.
        - rewrite app_length. lia.
        - rewrite H. cbn [hstr s1]. rewrite app_length. lia. }
      destruct (equals (e_name e) (txt "permessage-deflate")).
      + destruct (use_run default (e_params e) l1 s1 p l2 (List.concat (map flat es)) F B L) as (s' & -> & PL' & H').
        * cbn [hstr s1]. rewrite app_length. lia.
        * reflexivity.
        * exact AL.
        * now apply G.
      + destruct strict; [reflexivity|]. apply G; [|reflexivity]. exists l1, (map (fun p => (false, fst p, snd p)) (e_params e)). split; [exact F|]. split; [reflexivity|]. split; [exact AL|]. now rewrite map_length.
  Qed.

  (** [Connection] *)
  Fixpoint fold_close (es : list element) : walk unit :=
    match es with [] => Go tt | e :: es => if equals (e_name e) (txt "close") then Stop else fold_close es end.
  Lemma connection_run es : forall s fuel rest, (length es < fuel)%nat -> place s rest (List.concat (map flat es)) -> attributes mktime rest (List.concat (map flat es)) ->
    connection mktime fuel s = fold_close es.
  Proof.
    induction es as [|e es IH]; intros s fuel rest U PL A; (destruct fuel as [|fuel]; [cbn in U; lia|]); cbn [connection fold_close].
    - destruct rest as [|[b a] rest]; [|contradiction]. destruct (next_element_end s PL) as (s' & -> & ->). reflexivity.
    - destruct rest as [|[b a] rest]; [contradiction|]. assert (b = true) by (cbn in A; tauto). subst b.
      cbn [map List.concat] in PL, A. destruct (next_element_more s a rest e _ PL) as [-> A']. cbn [ub at_ name].
      destruct (split_params rest e _ A') as (l1 & l2 & -> & F & L & A2).
      destruct (equals (e_name e) (txt "close")); [reflexivity|]. apply (IH _ fuel l2); [cbn in U; lia| |exact A2].
      exists l1, (map (fun p => (false, fst p, snd p)) (e_params e)). split; [exact F|]. split; [reflexivity|]. split; [exact A'|]. now rewrite map_length.
  Qed.
  Lemma connection_header h es : header mktime h es -> connection mktime (S (length h)) (reload h) = fold_close es.
  Proof.
    intros [[W ->]|(a & v & l & m & -> & A & AL & E)].
    - cbn [connection fold_close]. destruct (blank_header h W) as (s & -> & ->). reflexivity.
    - destruct es as [|e es]; [discriminate|]. cbn [map List.concat flat app] in E. injection E as E1 E2 E3. subst m.
      cbn [connection fold_close]. change (next_element mktime (reload (written a ++ tail_text l))) with (next_from mktime (reload (written a ++ tail_text l)) (written a ++ tail_text l)).
      rewrite (next_from_attribute _ _ _ _ _ A). cbn [ub at_ name hstr reload]. rewrite E1.
      destruct (split_params l e _ AL) as (l1 & l2 & -> & F & L & A2).
      assert (NE : (0 < length (written a))%nat).
      { destruct A as (_ & _ & N & _). unfold written. destruct (label a) as [|c t]; [congruence|]. rewrite !app_length. cbn [length]. lia. }
      assert (LE : (length es <= length l2)%nat).
      { clear -A2. revert l2 A2. induction es as [|e es IH]; intros l2 A2; [cbn; lia|]. cbn [map List.concat] in A2. apply attributes_split in A2 as (x & y & -> & Lx & Ay & _).
        apply IH in Ay. rewrite app_length. unfold flat in Lx. cbn [length] in *. lia. }
      pose proof (tail_length (l1 ++ l2)) as T3. rewrite app_length in T3.
      destruct (equals (e_name e) (txt "close")); [reflexivity|]. apply connection_run with (rest := l2); [rewrite app_length; lia| |exact A2].
      exists l1, (map (fun p => (false, fst p, snd p)) (e_params e)). split; [exact F|]. split; [reflexivity|]. split; [exact AL|]. now rewrite map_length.
  Qed.
End Run.

(** ** Negotiation *)
Lemma named_other n a b : equals n a = true -> (if list_eq_dec Z.eq_dec (map lower a) (map lower b) then true else false) = false -> equals n b = false.
Proof.
  intros E D. destruct (equals n b) eqn:F; [|reflexivity]. apply name_equal, map_same in E. apply name_equal, map_same in F.
  destruct (list_eq_dec Z.eq_dec (map lower a) (map lower b)); congruence.
Qed.
Definition k_snct := txt "server_no_context_takeover".
Definition k_cnct := txt "client_no_context_takeover".
Definition k_sbits := txt "server_max_window_bits".
Definition k_cbits := txt "client_max_window_bits".
Lemma four n : (equals n k_snct = true -> equals n k_cnct = false /\ equals n k_sbits = false /\ equals n k_cbits = false) /\
  (equals n k_cnct = true -> equals n k_snct = false /\ equals n k_sbits = false /\ equals n k_cbits = false) /\
  (equals n k_sbits = true -> equals n k_snct = false /\ equals n k_cnct = false /\ equals n k_cbits = false) /\
  (equals n k_cbits = true -> equals n k_snct = false /\ equals n k_cnct = false /\ equals n k_sbits = false).
Proof. repeat split; eapply named_other; try eassumption; reflexivity. Qed.

Section Nego.
  Variable integer : list Z -> Z.
  Notation as_integer := (as_integer integer).
  Lemma null_spec v : is_null v = true <-> valueless v.
  Proof. destruct v; cbn; split; intros; try congruence; tauto. Qed.
  Lemma known_two a b n : known [a; b] n <-> equals n a = true \/ equals n b = true.
  Proof.
    unfold known. rewrite <- !same_equals. split.
    - intros H. inversion H as [? ? H1|? ? H1]; subst; auto. inversion H1 as [? ? H2|? ? H2]; subst; auto. inversion H2.
    - intros [H|H]; [left|right; left]; exact H.
  Qed.
  Lemma usable_iff n v : usable integer (n, v) <->
    (equals n k_snct = true \/ equals n k_cnct = true) /\ is_null v = true \/
    (equals n k_sbits = true \/ equals n k_cbits = true) /\ (is_null v = true \/ is_null v = false /\ 9 <= as_integer v <= 15).
  Proof.
    split.
    - intros H. inversion H as [? ? K V|? ? K V|? ? K V]; subst; rewrite known_two in K.
      + left. rewrite null_spec. auto.
      + right. rewrite null_spec. auto.
      + right. split; [exact K|]. right. auto.
    - intros [[K V]|[K [V|[V R]]]].
      + apply u_takeover; [now rewrite known_two|now apply null_spec].
      + apply u_default; [now rewrite known_two|now apply null_spec].
      + destruct v; try discriminate. apply u_bits; [now rewrite known_two|exact R].
  Qed.

  (** A window, with the value that holds without a parameter *)
  Definition window_from (n : list Z) (ps : list (list Z * value)) (b0 b : Z) : Prop :=
    Forall (fun p => ~ sets n p) ps /\ b = b0 \/
    exists l m t r, ps = l ++ (m, Str t) :: r /\ same n m = true /\ Forall (fun p => ~ sets n p) r /\ b = integer t.
  Lemma window_skip n p ps b0 b : ~ sets n p -> window_from n ps b0 b -> window_from n (p :: ps) b0 b.
  Proof. intros S [[F E]|(l & m & t & r & -> & H)]; [left; auto|]. right. exists (p :: l), m, t, r. auto. Qed.
  Lemma window_set n m t ps b0 b : same n m = true -> window_from n ps (integer t) b -> window_from n ((m, Str t) :: ps) b0 b.
  Proof. intros S [[F E]|(l & m' & t' & r & -> & H)]; right; [exists [], m, t, ps; auto|]. exists ((m, Str t) :: l), m', t', r. auto. Qed.
  Lemma sets_no n m v : equals m n = false -> ~ sets n (m, v).
  Proof. intros E [S _]. cbn [fst] in S. rewrite same_equals in S. congruence. Qed.
  Lemma sets_null n m v : is_null v = true -> ~ sets n (m, v).
  Proof. intros E [_ S]. apply S. now apply null_spec. Qed.
  Lemma flagged_cons n m v ps : flagged n ((m, v) :: ps) <-> equals m n = true \/ flagged n ps.
  Proof. unfold flagged. rewrite <- same_equals. split; [intros H; inversion H; subst; auto|intros [H|H]; [left|right]; assumption]. Qed.

  Lemma fold_params_usable default ps : forall p, Forall (usable integer) ps -> let r := fold_params integer default ps p in
    level r = default mod 256 /\
    (server_nct r = true <-> server_nct p = true \/ flagged k_snct ps) /\
    (client_nct r = true <-> client_nct p = true \/ flagged k_cnct ps) /\
    window_from k_sbits ps (server_bits p) (server_bits r) /\ window_from k_cbits ps (client_bits p) (client_bits r).
  Proof.
    induction ps as [|[n v] ps IH]; intros p F; cbv zeta.
    - cbn [fold_params level server_nct client_nct server_bits client_bits]. assert (N : forall k, ~ flagged k []) by (intros k H; inversion H).
      split; [reflexivity|]. split; [specialize (N k_snct); tauto|]. split; [specialize (N k_cnct); tauto|]. split; left; auto.
    - inversion F as [|? ? F1 F2]; subst. apply usable_iff in F1. cbn [fold_params]. fold k_snct k_cnct k_sbits k_cbits.
      rewrite !flagged_cons. destruct (four n) as (D1 & D2 & D3 & D4).
      destruct (equals n k_snct) eqn:K1.
      { destruct (D1 eq_refl) as (K2 & K3 & K4). rewrite K2. destruct F1 as [[_ V]|[[C|C] _]]; try congruence. rewrite V. cbn [negb].
        specialize (IH (mkPM (level p) true (client_nct p) (server_bits p) (client_bits p)) F2). cbv zeta in IH. cbn [level server_nct client_nct server_bits client_bits] in IH.
        destruct IH as (I1 & I2 & I3 & I4 & I5). split; [exact I1|]. split; [tauto|]. split; [rewrite I3; intuition congruence|]. split; apply window_skip; auto; now apply sets_no. }
      destruct (equals n k_cnct) eqn:K2.
      { destruct (D2 eq_refl) as (_ & K3 & K4). destruct F1 as [[_ V]|[[C|C] _]]; try congruence. rewrite V. cbn [negb].
        specialize (IH (mkPM (level p) (server_nct p) true (server_bits p) (client_bits p)) F2). cbv zeta in IH. cbn [level server_nct client_nct server_bits client_bits] in IH.
        destruct IH as (I1 & I2 & I3 & I4 & I5). split; [exact I1|]. split; [rewrite I2; intuition congruence|]. split; [tauto|]. split; apply window_skip; auto; now apply sets_no. }
      destruct (equals n k_sbits) eqn:K3.
      { destruct (D3 eq_refl) as (_ & _ & K4). destruct F1 as [[[C|C] _]|[_ [V|[V R]]]]; try congruence; rewrite V.
        - specialize (IH p F2). cbv zeta in IH. destruct IH as (I1 & I2 & I3 & I4 & I5). split; [exact I1|]. split; [rewrite I2; intuition congruence|]. split; [rewrite I3; intuition congruence|].
          split; apply window_skip; auto; now apply sets_null.
        - replace ((as_integer v <? 9) || (as_integer v >? 15)) with false by lia.
          specialize (IH (mkPM (level p) (server_nct p) (client_nct p) (as_integer v) (client_bits p)) F2). cbv zeta in IH. cbn [level server_nct client_nct server_bits client_bits] in IH.
          destruct IH as (I1 & I2 & I3 & I4 & I5). split; [exact I1|]. split; [rewrite I2; intuition congruence|]. split; [rewrite I3; intuition congruence|].
          split; [|apply window_skip; auto; now apply sets_no]. destruct v as [|t|]; try discriminate. apply window_set; [now rewrite same_equals|exact I4]. }
      destruct (equals n k_cbits) eqn:K4.
      { destruct F1 as [[[C|C] _]|[_ [V|[V R]]]]; try congruence; rewrite V.
        - specialize (IH p F2). cbv zeta in IH. destruct IH as (I1 & I2 & I3 & I4 & I5). split; [exact I1|]. split; [rewrite I2; intuition congruence|]. split; [rewrite I3; intuition congruence|].
          split; apply window_skip; auto; now apply sets_null.
        - replace ((as_integer v <? 9) || (as_integer v >? 15)) with false by lia.
          specialize (IH (mkPM (level p) (server_nct p) (client_nct p) (server_bits p) (as_integer v)) F2). cbv zeta in IH. cbn [level server_nct client_nct server_bits client_bits] in IH.
          destruct IH as (I1 & I2 & I3 & I4 & I5). split; [exact I1|]. split; [rewrite I2; intuition congruence|]. split; [rewrite I3; intuition congruence|].
          split; [apply window_skip; auto; now apply sets_no|]. destruct v as [|t|]; try discriminate. apply window_set; [now rewrite same_equals|exact I5]. }
      exfalso. destruct F1 as [[[C|C] _]|[[C|C] _]]; congruence.
  Qed.
  Lemma fold_params_other default ps : forall p, ~ Forall (usable integer) ps -> level (fold_params integer default ps p) = level p.
  Proof.
    induction ps as [|[n v] ps IH]; intros p F; [exfalso; apply F; constructor|]. cbn [fold_params]. fold k_snct k_cnct k_sbits k_cbits.
    assert (G : usable integer (n, v) -> ~ Forall (usable integer) ps) by (intros U H; apply F; constructor; assumption). rewrite usable_iff in G.
    destruct (equals n k_snct) eqn:K1.
    { destruct (is_null v) eqn:V; cbn [negb]; [|reflexivity]. rewrite IH; [reflexivity|]. apply G. auto. }
    destruct (equals n k_cnct) eqn:K2.
    { destruct (is_null v) eqn:V; cbn [negb]; [|reflexivity]. rewrite IH; [reflexivity|]. apply G. auto. }
    destruct (equals n k_sbits) eqn:K3.
    { destruct (is_null v) eqn:V; [rewrite IH; [reflexivity|]; apply G; auto|]. destruct ((as_integer v <? 9) || (as_integer v >? 15)) eqn:R; [reflexivity|]. rewrite IH; [reflexivity|]. apply G.
      right. split; [auto|]. right. split; [reflexivity|lia]. }
    destruct (equals n k_cbits) eqn:K4.
    { destruct (is_null v) eqn:V; [rewrite IH; [reflexivity|]; apply G; auto|]. destruct ((as_integer v <? 9) || (as_integer v >? 15)) eqn:R; [reflexivity|]. rewrite IH; [reflexivity|]. apply G.
      right. split; [auto|]. right. split; [reflexivity|lia]. }
    reflexivity.
  Qed.

  Lemma usable_dec ps : {Forall (usable integer) ps} + {~ Forall (usable integer) ps}.
  Proof.
    apply Forall_dec. intros [n v].
    destruct ((equals n k_snct || equals n k_cnct) && is_null v || (equals n k_sbits || equals n k_cbits) && (is_null v || (9 <=? as_integer v) && (as_integer v <=? 15))) eqn:B;
      [left|right]; rewrite usable_iff; revert B; generalize (as_integer v); intros z;
      destruct (equals n k_snct), (equals n k_cnct), (equals n k_sbits), (equals n k_cbits), (is_null v); cbn [orb andb]; intros B;
      rewrite ?andb_true_iff, ?andb_false_iff, ?Z.leb_le, ?Z.leb_gt in B; intuition (try congruence; try lia).
  Qed.

  Definition terms_from (p : pmce) : terms := mkT (server_nct p) (client_nct p) (server_bits p) (client_bits p).
  Lemma terms_in_range ps t : Forall (usable integer) ps -> terms_of integer ps t -> 9 <= t_server_bits t <= 15 /\ 9 <= t_client_bits t <= 15.
  Proof.
    intros U (_ & _ & W1 & W2).
    assert (X : forall n b, n = k_sbits \/ n = k_cbits -> window integer n ps b -> 9 <= b <= 15).
    { intros n b N [[_ ->]|(l & m & tt & r & -> & S & _ & ->)]; [lia|]. apply Forall_app in U as [_ U]. inversion U as [|? ? U1 _]; subst. rewrite same_equals in S.
      apply usable_iff in U1. cbn [is_null WshModel.as_integer] in U1. destruct (four m) as (D1 & D2 & D3 & D4). destruct U1 as [[_ C]|[_ [C|[_ C]]]]; try discriminate. exact C. }
    split; [apply (X k_sbits)|apply (X k_cbits)]; auto.
  Qed.

  (** What remains after all extensions *)
  Lemma fold_ext_chosen strict default es p r : level p <> 0 -> fold_ext integer strict default es p = Go r -> r = p.
  Proof.
    intros L. induction es as [|e es IH]; cbn [fold_ext]; intros H; [congruence|]. destruct (equals (e_name e) (txt "permessage-deflate")).
    - unfold fold_use in H. replace (negb (level p =? 0)) with true in H by lia. auto.
    - destruct strict; [discriminate|]. auto.
  Qed.
  Lemma negotiates_skip default e es o : ~ acceptable integer e -> negotiates integer default es o -> negotiates integer default (e :: es) o.
  Proof.
    intros A. destruct o as [t|]; cbn [negotiates].
    - intros (D & l & x & r & -> & F & H). split; [exact D|]. exists (e :: l), x, r. split; [reflexivity|]. split; [constructor; assumption|exact H].
    - intros [D|F]; auto.
  Qed.
  Lemma fold_ext_negotiates strict default es : 0 <= default <= 9 -> forall p r, level p = 0 -> fold_ext integer strict default es p = Go r ->
    if level r =? 0 then negotiates integer default es None else level r = default /\ negotiates integer default es (Some (terms_from r)).
  Proof.
    intros D. induction es as [|e es IH]; intros p r L H.
    - cbn in H. injection H as <-. rewrite L. cbn. auto.
    - cbn [fold_ext] in H. destruct (equals (e_name e) (txt "permessage-deflate")) eqn:N.
      + destruct (Z.eq_dec default 0) as [D0|D0].
        { replace (fold_use integer default (e_params e) p) with p in H by (unfold fold_use; rewrite L; replace (default =? 0) with true by lia; reflexivity).
          specialize (IH p r L H). destruct (level r =? 0); [cbn; auto|]. cbn [negotiates] in IH. lia. }
        unfold fold_use in H. rewrite L in H. change (negb (0 =? 0)) with false in H. replace (default =? 0) with false in H by lia. cbv iota in H.
        destruct (usable_dec (e_params e)) as [U|U].
        * destruct (fold_params_usable default (e_params e) (mkPM 0 false false 15 15) U) as (I1 & I2 & I3 & I4 & I5).
          assert (M : default mod 256 = default) by (apply Z.mod_small; lia). rewrite M in I1. apply fold_ext_chosen in H; [|lia]. subst r. rewrite I1. replace (default =? 0) with false by lia.
          split; [reflexivity|]. cbn [negotiates]. split; [exact D0|]. exists [], e, es. split; [reflexivity|]. split; [constructor|]. split; [split; [now rewrite same_equals|exact U]|].
          cbn [server_nct client_nct server_bits client_bits] in I2, I3, I4, I5. unfold terms_of, terms_from. cbn [t_server_nct t_client_nct t_server_bits t_client_bits].
          split; [rewrite I2; intuition congruence|]. split; [rewrite I3; intuition congruence|]. split; assumption.
        * pose proof (fold_params_other default (e_params e) (mkPM 0 false false 15 15) U) as L'. cbn [level] in L'. specialize (IH _ r L' H).
          assert (A : ~ acceptable integer e) by (intros [_ A]; contradiction). destruct (level r =? 0); [now apply negotiates_skip|]. destruct IH as [I1 I2]. split; [exact I1|]. now apply negotiates_skip.
      + destruct strict; [discriminate|]. specialize (IH p r L H). assert (A : ~ acceptable integer e) by (intros [A _]; rewrite same_equals in A; congruence).
        destruct (level r =? 0); [now apply negotiates_skip|]. destruct IH as [I1 I2]. split; [exact I1|]. now apply negotiates_skip.
  Qed.
  Lemma fold_ext_app strict default es1 es2 p : fold_ext integer strict default (es1 ++ es2) p =
    match fold_ext integer strict default es1 p with Go q => fold_ext integer strict default es2 q | w => w end.
  Proof. revert p. induction es1 as [|e es1 IH]; intros p; cbn [app fold_ext]; [reflexivity|]. destruct (equals (e_name e) (txt "permessage-deflate")); [apply IH|]. destruct strict; [reflexivity|apply IH]. Qed.
  Lemma fold_ext_lax default es p : exists q, fold_ext integer false default es p = Go q.
  Proof. revert p. induction es as [|e es IH]; intros p; cbn [fold_ext]; [eauto|]. destruct (equals (e_name e) (txt "permessage-deflate")); apply IH. Qed.
  Lemma fold_ext_strict default es p : (exists q, fold_ext integer true default es p = Go q) /\ Forall (fun e => same (txt "permessage-deflate") (e_name e) = true) es \/
    fold_ext integer true default es p = Stop /\ ~ Forall (fun e => same (txt "permessage-deflate") (e_name e) = true) es.
  Proof.
    revert p. induction es as [|e es IH]; intros p; cbn [fold_ext]; [left; eauto|]. destruct (equals (e_name e) (txt "permessage-deflate")) eqn:E.
    - destruct (IH (fold_use integer default (e_params e) p)) as [[H F]|[H F]]; [left|right]; (split; [exact H|]).
      + constructor; [now rewrite same_equals|exact F].
      + intros G. inversion G. auto.
    - right. split; [reflexivity|]. intros G. inversion G as [|? ? G1 _]; subst. rewrite same_equals in G1. congruence.
  Qed.
  Lemma fold_close_spec es : fold_close es = Stop /\ mentions (txt "close") es \/ fold_close es = Go tt /\ ~ mentions (txt "close") es.
  Proof.
    induction es as [|e es IH]; cbn [fold_close]; [right; split; [reflexivity|intros H; inversion H]|]. destruct (equals (e_name e) (txt "close")) eqn:E.
    - left. split; [reflexivity|]. left. now rewrite same_equals.
    - destruct IH as [[H M]|[H M]]; [left|right]; (split; [exact H|]).
      + right. exact M.
      + intros G. inversion G as [? ? G1|? ? G1]; subst; [rewrite same_equals in G1; congruence|auto].
  Qed.
End Nego.

(** ** All headers *)
Lemma lookup_cons n m v fs : lookup n ((m, v) :: fs) = if equals m n then v :: lookup n fs else lookup n fs.
Proof. unfold lookup. cbn [filter fst]. rewrite same_equals. destruct (equals m n); reflexivity. Qed.
Lemma elements_cons parsed n m v fs : elements parsed n ((m, v) :: fs) = if equals m n then parsed v ++ elements parsed n fs else elements parsed n fs.
Proof. unfold elements. rewrite lookup_cons. destruct (equals m n); reflexivity. Qed.
Lemma mentions_app n a b : mentions n (a ++ b) <-> mentions n a \/ mentions n b.
Proof. unfold mentions. apply Exists_app. Qed.
Definition digest_of (n : list Z) (len : nat) (fs : fields) (d0 d : list Z) : Prop :=
  Forall (fun x => length x <> len) (lookup n fs) /\ d = d0 \/ last_of_length n len fs d.
Lemma digest_other n len m v fs d0 d : equals m n = false -> digest_of n len fs d0 d -> digest_of n len ((m, v) :: fs) d0 d.
Proof. intros E. unfold digest_of, last_of_length. rewrite lookup_cons, E. auto. Qed.
Lemma digest_same n len m v fs d0 d : equals m n = true -> digest_of n len fs (if (length v =? len)%nat then v else d0) d -> digest_of n len ((m, v) :: fs) d0 d.
Proof.
  intros E. unfold digest_of, last_of_length. rewrite lookup_cons, E. destruct (Nat.eqb_spec (length v) len) as [L|L].
  - intros [[F ->]|(l & r & -> & H)]; right; [exists [], (lookup n fs); auto|]. exists (v :: l), r. auto.
  - intros [[F ->]|(l & r & -> & H)]; [left; auto|right]. exists (v :: l), r. auto.
Qed.

Definition n_con := txt "Connection".
Definition n_upg := txt "Upgrade".
Definition n_ver := txt "Sec-WebSocket-Version".
Definition n_key := txt "Sec-WebSocket-Key".
Definition n_ext := txt "Sec-WebSocket-Extensions".
Definition n_acc := txt "Sec-WebSocket-Accept".
Ltac others H :=
  match type of H with equals ?m ?a = true =>
    try (assert (equals m n_con = false) by (apply (named_other m a n_con H); reflexivity));
    try (assert (equals m n_upg = false) by (apply (named_other m a n_upg H); reflexivity));
    try (assert (equals m n_ver = false) by (apply (named_other m a n_ver H); reflexivity));
    try (assert (equals m n_key = false) by (apply (named_other m a n_key H); reflexivity));
    try (assert (equals m n_ext = false) by (apply (named_other m a n_ext H); reflexivity));
    try (assert (equals m n_acc = false) by (apply (named_other m a n_acc H); reflexivity))
  end.
Lemma eqb_in v w l b : (if list_eqb v w then true else b) = true \/ In w l <-> b = true \/ In w (v :: l).
Proof. cbn [In]. destruct (list_eqb v w) eqn:E; [apply list_eqb_spec in E; subst; tauto|]. assert (v <> w) by (intros H; apply list_eqb_spec in H; congruence). tauto. Qed.

Section Headers.
  Variables (mktime : tm -> Z) (integer : list Z -> Z) (parsed : list Z -> list element).

  Lemma readable_tail f fs : readable mktime parsed (f :: fs) -> readable mktime parsed fs.
  Proof. intros R h H. apply R. destruct f as [m v]. rewrite !lookup_cons. destruct (equals m (txt "Connection")), (equals m (txt "Sec-WebSocket-Extensions")); cbn [In]; tauto. Qed.

  Lemma headers_request default fs : forall sc, readable mktime parsed fs ->
    headers (request_header mktime integer default) fs sc = Stop /\ mentions (txt "close") (elements parsed n_con fs) \/
    ~ mentions (txt "close") (elements parsed n_con fs) /\
    exists sc', headers (request_header mktime integer default) fs sc = Go sc' /\
      (upgrade_ok sc' = true <-> upgrade_ok sc = true \/ In (txt "websocket") (lookup n_upg fs)) /\
      (version_ok sc' = true <-> version_ok sc = true \/ In (txt "13") (lookup n_ver fs)) /\
      digest_of n_key 24 fs (digest sc) (digest sc') /\
      fold_ext integer false default (elements parsed n_ext fs) (pm sc) = Go (pm sc').
  Proof.
    induction fs as [|[m v] fs IH]; intros sc R.
    - right. split; [intros H; inversion H|]. exists sc. split; [reflexivity|]. split; [cbn; tauto|]. split; [cbn; tauto|]. split; [left; split; [constructor|reflexivity]|reflexivity].
    - assert (R' := readable_tail _ _ R). cbn [headers request_header]. fold n_con n_upg n_ver n_key n_ext. rewrite !elements_cons, !lookup_cons.
      destruct (equals m n_con) eqn:K1.
      { others K1. repeat match goal with E : equals m _ = false |- _ => rewrite E end. cbv iota.
        assert (HH : header mktime v (parsed v)) by (apply R; left; rewrite lookup_cons; fold n_con; rewrite K1; left; reflexivity).
        rewrite (connection_header mktime integer _ _ HH), mentions_app. destruct (fold_close_spec (parsed v)) as [[-> M]|[-> M]]; [left; auto|].
        destruct (IH sc R') as [[-> M']|(M' & sc' & -> & A & B & C & D)]; [left; auto|right]. split; [tauto|]. exists sc'. split; [reflexivity|]. split; [exact A|]. split; [exact B|]. split; [now apply digest_other|exact D]. }
      destruct (equals m n_upg) eqn:K2.
      { others K2. repeat match goal with E : equals m _ = false |- _ => rewrite E end. cbv iota. match goal with |- context [headers _ fs ?x] => set (sc1 := x) end.
        destruct (IH sc1 R') as [[-> M']|(M' & sc' & -> & A & B & C & D)]; [left; auto|right]. split; [exact M'|]. exists sc'. split; [reflexivity|].
        rewrite <- eqb_in. subst sc1. destruct (list_eqb v (txt "websocket")); (split; [exact A|]); (split; [exact B|]); (split; [now apply digest_other|exact D]). }
      destruct (equals m n_ver) eqn:K3.
      { others K3. repeat match goal with E : equals m _ = false |- _ => rewrite E end. cbv iota. match goal with |- context [headers _ fs ?x] => set (sc1 := x) end.
        destruct (IH sc1 R') as [[-> M']|(M' & sc' & -> & A & B & C & D)]; [left; auto|right]. split; [exact M'|]. exists sc'. split; [reflexivity|].
        rewrite <- eqb_in. subst sc1. destruct (list_eqb v (txt "13")); (split; [exact A|]); (split; [exact B|]); (split; [now apply digest_other|exact D]). }
      destruct (equals m n_key) eqn:K4.
      { others K4. repeat match goal with E : equals m _ = false |- _ => rewrite E end. cbv iota. match goal with |- context [headers _ fs ?x] => set (sc1 := x) end.
        destruct (IH sc1 R') as [[-> M']|(M' & sc' & -> & A & B & C & D)]; [left; auto|right]. split; [exact M'|]. exists sc'. split; [reflexivity|].
        assert (E : digest_of n_key 24 ((m, v) :: fs) (digest sc) (digest sc')) by (apply digest_same; [exact K4|]; subst sc1; destruct (length v =? 24)%nat; exact C).
        subst sc1. destruct (length v =? 24)%nat; auto. }
      destruct (equals m n_ext) eqn:K5.
      { assert (HH : header mktime v (parsed v)) by (apply R; right; rewrite lookup_cons; fold n_ext; rewrite K5; left; reflexivity).
        rewrite (extensions_header mktime integer _ _ _ _ _ HH). rewrite fold_ext_app. destruct (fold_ext_lax integer default (parsed v) (pm sc)) as [q ->].
        match goal with |- context [headers _ fs ?x] => set (sc1 := x) end.
        destruct (IH sc1 R') as [[-> M']|(M' & sc' & -> & A & B & C & D)]; [left; auto|right]. split; [exact M'|]. exists sc'. split; [reflexivity|].
        split; [exact A|]. split; [exact B|]. split; [now apply digest_other|exact D]. }
      destruct (IH sc R') as [[-> M']|(M' & sc' & -> & A & B & C & D)]; [left; auto|right]. split; [exact M'|]. exists sc'. split; [reflexivity|].
      split; [exact A|]. split; [exact B|]. split; [now apply digest_other|exact D].
  Qed.

  Lemma headers_response default fs : forall sc, readable mktime parsed fs ->
    headers (response_header mktime integer default) fs sc = Stop /\
      (mentions (txt "close") (elements parsed n_con fs) \/ ~ Forall (fun e => same (txt "permessage-deflate") (e_name e) = true) (elements parsed n_ext fs)) \/
    ~ mentions (txt "close") (elements parsed n_con fs) /\ Forall (fun e => same (txt "permessage-deflate") (e_name e) = true) (elements parsed n_ext fs) /\
    exists sc', headers (response_header mktime integer default) fs sc = Go sc' /\
      (upgrade_ok sc' = true <-> upgrade_ok sc = true \/ In (txt "websocket") (lookup n_upg fs)) /\
      digest_of n_acc 28 fs (digest sc) (digest sc') /\
      fold_ext integer true default (elements parsed n_ext fs) (pm sc) = Go (pm sc').
  Proof.
    induction fs as [|[m v] fs IH]; intros sc R.
    - right. split; [intros H; inversion H|]. split; [constructor|]. exists sc. split; [reflexivity|]. split; [cbn; tauto|]. split; [left; split; [constructor|reflexivity]|reflexivity].
    - assert (R' := readable_tail _ _ R). cbn [headers response_header]. fold n_con n_upg n_acc n_ext. rewrite !elements_cons, !lookup_cons.
      destruct (equals m n_con) eqn:K1.
      { others K1. repeat match goal with E : equals m _ = false |- _ => rewrite E end. cbv iota.
        assert (HH : header mktime v (parsed v)) by (apply R; left; rewrite lookup_cons; fold n_con; rewrite K1; left; reflexivity).
        rewrite (connection_header mktime integer _ _ HH), mentions_app. destruct (fold_close_spec (parsed v)) as [[-> M]|[-> M]]; [left; auto|].
        destruct (IH sc R') as [[-> M']|(M' & F & sc' & -> & A & C & D)]; [left; intuition auto|right]. split; [tauto|]. split; [exact F|]. exists sc'. split; [reflexivity|]. split; [exact A|]. split; [now apply digest_other|exact D]. }
      destruct (equals m n_upg) eqn:K2.
      { others K2. repeat match goal with E : equals m _ = false |- _ => rewrite E end. cbv iota. match goal with |- context [headers _ fs ?x] => set (sc1 := x) end.
        destruct (IH sc1 R') as [[-> M']|(M' & F & sc' & -> & A & C & D)]; [left; auto|right]. split; [exact M'|]. split; [exact F|]. exists sc'. split; [reflexivity|].
        rewrite <- eqb_in. subst sc1. destruct (list_eqb v (txt "websocket")); (split; [exact A|]); (split; [now apply digest_other|exact D]). }
      destruct (equals m n_acc) eqn:K4.
      { others K4. repeat match goal with E : equals m _ = false |- _ => rewrite E end. cbv iota. match goal with |- context [headers _ fs ?x] => set (sc1 := x) end.
        destruct (IH sc1 R') as [[-> M']|(M' & F & sc' & -> & A & C & D)]; [left; auto|right]. split; [exact M'|]. split; [exact F|]. exists sc'. split; [reflexivity|].
        assert (E : digest_of n_acc 28 ((m, v) :: fs) (digest sc) (digest sc')) by (apply digest_same; [exact K4|]; subst sc1; destruct (length v =? 28)%nat; exact C).
        subst sc1. destruct (length v =? 28)%nat; auto. }
      destruct (equals m n_ext) eqn:K5.
      { assert (HH : header mktime v (parsed v)) by (apply R; right; rewrite lookup_cons; fold n_ext; rewrite K5; left; reflexivity).
        rewrite (extensions_header mktime integer _ _ _ _ _ HH), fold_ext_app, Forall_app. destruct (fold_ext_strict integer default (parsed v) (pm sc)) as [[[q ->] S]|[-> S]]; [|left; tauto].
        match goal with |- context [headers _ fs ?x] => set (sc1 := x) end.
        destruct (IH sc1 R') as [[-> M']|(M' & F & sc' & -> & A & C & D)]; [left; tauto|right]. split; [exact M'|]. split; [auto|]. exists sc'. split; [reflexivity|].
        split; [exact A|]. split; [now apply digest_other|exact D]. }
      destruct (IH sc R') as [[-> M']|(M' & F & sc' & -> & A & C & D)]; [left; auto|right]. split; [exact M'|]. split; [exact F|]. exists sc'. split; [reflexivity|].
      split; [exact A|]. split; [now apply digest_other|exact D].
  Qed.
End Headers.

(** ** Base64 *)
Ltac Zify.zify_post_hook ::= Z.to_euclidean_division_equations.
Lemma sextet_index v : 0 <= v < 64 -> index (sextet v) alphabet = Some v.
Proof.
  intros H. assert (E : forallb (fun n => match index (sextet (Z.of_nat n)) alphabet with Some w => w =? Z.of_nat n | None => false end) (seq 0 64) = true) by (vm_compute; reflexivity).
  rewrite forallb_forall in E. specialize (E (Z.to_nat v)). rewrite in_seq in E. specialize (E ltac:(lia)). rewrite Z2Nat.id in E by lia. destruct (index (sextet v) alphabet); [|discriminate]. f_equal. lia.
Qed.
Lemma index_range c l v : index c l = Some v -> 0 <= v < Z.of_nat (length l) /\ nth (Z.to_nat v) l 0 = c.
Proof.
  revert v. induction l as [|x l IH]; intros v H; [discriminate|]. cbn [index] in H. destruct (Z.eqb_spec x c) as [->|N].
  - injection H as <-. cbn [length]. split; [lia|reflexivity].
  - destruct (index c l) as [w|]; [|discriminate]. injection H as <-. destruct (IH w eq_refl) as [R E]. cbn [length]. split; [lia|]. replace (Z.to_nat (w + 1)) with (S (Z.to_nat w)) by lia. exact E.
Qed.
Lemma index_sextet c v : index c alphabet = Some v -> 0 <= v < 64 /\ sextet v = c.
Proof.
  intros H. apply index_range in H as [R E]. change (Z.of_nat (length alphabet)) with 64 in R. split; [exact R|]. rewrite <- E.
  assert (X : forallb (fun n => sextet (Z.of_nat n) =? nth n alphabet 0) (seq 0 64) = true) by (vm_compute; reflexivity).
  rewrite forallb_forall in X. specialize (X (Z.to_nat v)). rewrite in_seq in X. specialize (X ltac:(lia)). rewrite Z2Nat.id in X by lia. lia.
Qed.
Lemma index_pad : index 61 alphabet = None. Proof. reflexivity. Qed.
Lemma three_ind (P : list Z -> Prop) : P [] -> (forall a, P [a]) -> (forall a b, P [a; b]) -> (forall a b c s, P s -> P (a :: b :: c :: s)) -> forall s, P s.
Proof.
  intros H0 H1 H2 H3 s. assert (X : forall n s, (length s <= n)%nat -> P s); [|eapply X; apply le_n].
  clear s. induction n as [|n IH]; intros s L; destruct s as [|a [|b [|c s]]]; auto; cbn in L; [lia|]. apply H3, IH. lia.
Qed.
Lemma decode_encode s : bytes s -> decode64 (base64 s) = Some s.
Proof.
  induction s as [|a|a b|a b c s IH] using three_ind; intros B.
  - reflexivity.
  - inversion B; subst; unfold byte in *. cbn [base64 decode64]. rewrite !sextet_index by lia. rewrite index_pad. cbn [Z.eqb andb Pos.eqb]. replace ((a mod 4 * 16) mod 16 =? 0) with true by lia. f_equal. f_equal. lia.
  - inversion B as [|? ? B1 B2]; subst. inversion B2 as [|? ? B3 B4]; subst; unfold byte in *. cbn [base64 decode64]. rewrite !sextet_index by lia. rewrite index_pad. change (61 =? 61) with true. cbv iota.
    replace ((b mod 16 * 4) mod 4 =? 0) with true by lia. f_equal. f_equal; [lia|]. f_equal. lia.
  - inversion B as [|? ? B1 B2]; subst. inversion B2 as [|? ? B3 B4]; subst. inversion B4 as [|? ? B5 B6]; subst; unfold byte in B1, B3, B5. cbn [base64 decode64]. rewrite !sextet_index by lia. rewrite (IH B6). f_equal.
    f_equal; [lia|]. f_equal; [lia|]. f_equal. lia.
Qed.
Lemma encode_decode v : forall s, decode64 v = Some s -> base64 s = v.
Proof.
  assert (X : forall n v, (length v <= n)%nat -> forall s, decode64 v = Some s -> base64 s = v); [|eapply X; apply le_n].
  clear v. induction n as [|n IH]; intros v L s H.
  - destruct v; [|cbn in L; lia]. injection H as <-. reflexivity.
  - destruct v as [|a [|b [|c [|d v]]]]; try discriminate; [injection H as <-; reflexivity|]. cbn [decode64] in H.
    destruct (index a alphabet) as [x|] eqn:EA; [|discriminate]. destruct (index b alphabet) as [y|] eqn:EB; [|discriminate].
    apply index_sextet in EA as [RA <-]. apply index_sextet in EB as [RB <-].
    destruct (index c alphabet) as [z|] eqn:EC.
    + apply index_sextet in EC as [RC <-]. destruct (index d alphabet) as [w|] eqn:ED.
      * apply index_sextet in ED as [RD <-]. destruct (decode64 v) as [r|] eqn:E; [|discriminate]. injection H as <-. cbn [base64]. rewrite (IH v) by (auto; cbn in L; lia).
        f_equal; [f_equal; lia|]. f_equal; [f_equal; lia|]. f_equal; [f_equal; lia|]. f_equal. f_equal. lia.
      * destruct (Z.eqb_spec d 61) as [->|]; [|discriminate]. destruct v; [|discriminate]. destruct (Z.eqb_spec (z mod 4) 0) as [M|]; [|discriminate]. injection H as <-. cbn [base64].
        f_equal; [f_equal; lia|]. f_equal; [f_equal; lia|]. f_equal. f_equal. lia.
    + destruct (Z.eqb_spec c 61) as [->|]; [|discriminate]. destruct (Z.eqb_spec d 61) as [->|]; [|discriminate]. cbn [andb] in H. destruct v; [|discriminate].
      destruct (Z.eqb_spec (y mod 16) 0) as [M|]; [|discriminate]. injection H as <-. cbn [base64]. f_equal; [f_equal; lia|]. f_equal. f_equal. lia.
Qed.
Lemma base64_length s : length (base64 s) = (4 * ((length s + 2) / 3))%nat.
Proof.
  induction s as [|a|a b|a b c s IH] using three_ind; try reflexivity. cbn [base64 length]. rewrite IH. replace (S (S (S (length s))) + 2)%nat with (1 * 3 + (length s + 2))%nat by lia.
  rewrite Nat.div_add_l by lia. lia.
Qed.
Lemma sextet_pos v : 0 <= v -> sextet v <> 0.
Proof. intros H. unfold sextet. destruct (v <? 26) eqn:?, (v <? 52) eqn:?, (v <? 62) eqn:?, (v =? 62) eqn:?; lia. Qed.
Lemma base64_head s : bytes s -> s <> [] -> hd 0 (base64 s) <> 0.
Proof. intros B N. destruct s as [|a [|b [|c s]]]; [congruence| | |]; inversion B; subst; unfold byte in *; cbn [base64 hd]; apply sextet_pos; lia. Qed.

(** ** The extension in a response can be read *)
Lemma token_b t : forallb (fun c => negb (sep c)) t = true -> is_token t.
Proof. intros H. apply Forall_forall. intros c Hc. rewrite forallb_forall in H. specialize (H c Hc). apply HvalProofs.sep_false. now destruct (sep c). Qed.
Lemma decimal_digits n : 9 <= n <= 15 -> Forall (fun c => 48 <= c <= 57) (decimal n) /\ put_du 20 n = decimal n.
Proof.
  intros H. assert (C : n = 9 \/ n = 10 \/ n = 11 \/ n = 12 \/ n = 13 \/ n = 14 \/ n = 15) by lia.
  repeat destruct C as [->|C]; try subst n; (split; [cbn; repeat constructor; lia|reflexivity]).
Qed.
Definition flag (n : list Z) : bool * attr := (false, mkA [32] n [] None).
Definition setting (n v : list Z) : bool * attr := (false, mkA [32] n [] (Some ([], v, []))).
Lemma attribute_flag mktime n rest : is_token n -> n <> [] -> ends rest -> attribute mktime (snd (flag n)) rest Null.
Proof.
  intros T N E. unfold attribute, flag. cbn [snd before label after assigned]. split; [constructor; [left; reflexivity|constructor]|]. split; [exact T|]. split; [exact N|].
  split; [constructor|]. split; [exact E|reflexivity].
Qed.
Lemma attribute_setting mktime n v rest : is_token n -> n <> [] -> v <> [] -> ends rest -> Forall (fun c => 48 <= c <= 57) v -> ~ In 58 rest -> attribute mktime (snd (setting n v)) rest (Str v).
Proof.
  intros T N V E D C. unfold attribute, setting. cbn [snd before label after assigned]. split; [constructor; [left; reflexivity|constructor]|]. split; [exact T|]. split; [exact N|].
  split; [constructor|]. split; [exact E|]. split; [constructor|]. split; [constructor|]. destruct v as [|c v]; [congruence|]. split.
  - cbn [app]. inversion D; subst. unfold is_ws. lia.
  - cbn [app]. apply hdr_plain; [| | | |].
    + eapply Forall_impl; [|exact D]. cbn. unfold is_blank. lia.
    + inversion D; subst. cbn [hd]. lia.
    + discriminate.
    + destruct rest as [|x rest]; [exact I|]. cbn in E. tauto.
    + intros X. apply (in_app_or (c :: v)) in X as [X|X]; [|contradiction]. rewrite Forall_forall in D. specialize (D _ X). cbn in D. lia.
Qed.
Definition settings (t : terms) : list (bool * attr) :=
  (if t_client_nct t then [flag (txt "client_no_context_takeover")] else [])
  ++ (if t_server_bits t =? 15 then [] else [setting (txt "server_max_window_bits") (decimal (t_server_bits t))])
  ++ (if t_client_bits t =? 15 then [] else [setting (txt "client_max_window_bits") (decimal (t_client_bits t))]).
Lemma ends_tail l : ends (tail_text l).
Proof. destruct l as [|[[] a] l]; cbn; auto. Qed.
Definition range (t : terms) : Prop := 9 <= t_server_bits t <= 15 /\ 9 <= t_client_bits t <= 15.
Lemma attributes_settings mktime t : range t -> attributes mktime (settings t) (map (fun p => (false, fst p, snd p)) (response_params t)).
Proof.
  intros [R1 R2]. destruct (decimal_digits _ R1) as [D1 _]. destruct (decimal_digits _ R2) as [D2 _].
  assert (N : forall n, decimal n <> []) by (intros n; unfold decimal; destruct (n <? 10); discriminate).
  unfold settings, response_params.
  assert (A3 : attributes mktime (if t_client_bits t =? 15 then [] else [setting (txt "client_max_window_bits") (decimal (t_client_bits t))])
                (map (fun p => (false, fst p, snd p)) (if t_client_bits t =? 15 then [] else [(txt "client_max_window_bits", Str (decimal (t_client_bits t)))]))).
  { destruct (t_client_bits t =? 15); [exact I|]. cbn [map fst snd attributes setting]. split; [reflexivity|]. split; [reflexivity|]. split; [|exact I].
    apply (attribute_setting mktime (txt "client_max_window_bits")); auto; [now apply token_b|discriminate|exact I]. }
  set (l3 := if t_client_bits t =? 15 then [] else [setting (txt "client_max_window_bits") (decimal (t_client_bits t))]) in *.
  set (m3 := if t_client_bits t =? 15 then [] else [(txt "client_max_window_bits", Str (decimal (t_client_bits t)))]) in *.
  assert (C3 : ~ In 58 (tail_text l3)).
  { subst l3. destruct (t_client_bits t =? 15); [intros []|]. unfold setting. cbn [tail_text written before label after assigned app]. intros X. rewrite ?app_nil_r in X.
    destruct X as [X|[X|X]]; try discriminate. apply in_app_or in X as [X|[X|X]]; [|discriminate|].
    - revert X. vm_compute. intuition discriminate.
    - rewrite Forall_forall in D2. specialize (D2 _ X). cbn in D2. lia. }
  clearbody l3 m3.
  assert (A2 : attributes mktime ((if t_server_bits t =? 15 then [] else [setting (txt "server_max_window_bits") (decimal (t_server_bits t))]) ++ l3)
                (map (fun p => (false, fst p, snd p)) ((if t_server_bits t =? 15 then [] else [(txt "server_max_window_bits", Str (decimal (t_server_bits t)))]) ++ m3))).
  { destruct (t_server_bits t =? 15); [exact A3|]. cbn [map fst snd attributes setting app]. split; [reflexivity|]. split; [reflexivity|]. split; [|exact A3].
    apply (attribute_setting mktime (txt "server_max_window_bits")); auto; [now apply token_b|discriminate|apply ends_tail]. }
  destruct (t_client_nct t); [|exact A2]. cbn [app]. unfold flag. cbn [map fst snd]. cbn [attributes]. split; [reflexivity|]. split; [reflexivity|]. split; [|exact A2].
  apply (attribute_flag mktime (txt "client_no_context_takeover")); [now apply token_b|discriminate|apply ends_tail].
Qed.
Definition print_terms (t : terms) : list Z := print_pmce (mkPM 1 (t_server_nct t) (t_client_nct t) (t_server_bits t) (t_client_bits t)).
Lemma print_settings t : range t -> print_terms t = written (mkA [] (txt "permessage-deflate") [] None) ++ tail_text (settings t).
Proof.
  intros [R1 R2]. destruct (decimal_digits _ R1) as [_ P1]. destruct (decimal_digits _ R2) as [_ P2]. unfold print_terms, print_pmce, settings. cbn [client_nct server_bits client_bits].
  rewrite P1, P2. unfold written. cbn [before label after assigned app]. rewrite !app_nil_r. f_equal.
  destruct (t_client_nct t), (t_server_bits t =? 15), (t_client_bits t =? 15); cbn [negb app flag setting tail_text written before label after assigned]; rewrite ?app_nil_r; cbn [app];
    rewrite <- ?app_assoc; reflexivity.
Qed.
Lemma print_header mktime t : range t -> header mktime (print_terms t) [mkE (txt "permessage-deflate") Null (response_params t)].
Proof.
  intros R. right. exists (mkA [] (txt "permessage-deflate") [] None), Null, (settings t), (map (fun p => (false, fst p, snd p)) (response_params t)).
  split; [now apply print_settings|]. split; [|split; [now apply attributes_settings|]].
  - unfold attribute. cbn [before label after assigned]. split; [constructor|]. split; [now apply token_b|]. split; [discriminate|]. split; [constructor|]. split; [apply ends_tail|reflexivity].
  - cbn [map List.concat flat e_name e_value e_params label]. now rewrite app_nil_r.
Qed.
Lemma word_header mktime w : forallb (fun c => negb (sep c)) w = true -> w <> [] -> header mktime w [mkE w Null []].
Proof.
  intros T N. right. exists (mkA [] w [] None), Null, [], []. split; [unfold written; cbn; now rewrite !app_nil_r|]. split; [|split; [exact I|reflexivity]].
  unfold attribute. cbn [before label after assigned]. split; [constructor|]. split; [now apply token_b|]. split; [exact N|]. split; [constructor|]. split; [exact I|reflexivity].
Qed.
Lemma fold_response integer default t p : (forall n, 9 <= n <= 15 -> integer (decimal n) = n) -> range t ->
  fold_params integer default (response_params t) p = mkPM (default mod 256) (server_nct p) (client_nct p || t_client_nct t)
    (if t_server_bits t =? 15 then server_bits p else t_server_bits t) (if t_client_bits t =? 15 then client_bits p else t_client_bits t).
Proof.
  intros D [R1 R2]. pose proof (D _ R1) as D1. pose proof (D _ R2) as D2. unfold response_params.
  assert (X : forall b, 9 <= b <= 15 -> (b <? 9) || (b >? 15) = false) by (intros; lia). pose proof (X _ R1) as X1. pose proof (X _ R2) as X2.
  destruct (t_client_nct t), (t_server_bits t =? 15), (t_client_bits t =? 15); cbn [app fold_params];
    repeat match goal with |- context [equals (txt ?a) (txt ?b)] => let r := eval vm_compute in (equals (txt a) (txt b)) in change (equals (txt a) (txt b)) with r end; cbv iota;
    cbn [is_null negb as_integer]; rewrite ?D1, ?D2, ?X1, ?X2; cbn [level server_nct client_nct server_bits client_bits]; rewrite ?orb_true_r, ?orb_false_r; reflexivity.
Qed.

(** ** What holds without any assumption about the headers *)
Section Any.
  Variables (mktime : tm -> Z) (integer : list Z -> Z).
  Definition sound (default : Z) (p : pmce) : Prop := (level p = 0 \/ level p = default mod 256) /\ 9 <= server_bits p <= 15 /\ 9 <= client_bits p <= 15.
  Lemma parameters_sound default fuel : forall s p s' p', sound default p -> parameters mktime integer default fuel s p = Go (s', p') -> sound default p'.
  Proof.
    induction fuel as [|fuel IH]; intros s p s' p' S H; [discriminate|]. cbn [parameters] in H. destruct (next_attribute mktime s) as [s1 found].
    destruct (ub s1); [discriminate|]. destruct S as (S1 & S2 & S3).
    assert (K : sound default p) by (unfold sound; auto).
    destruct found; [|injection H as <- <-; unfold sound; cbn [level server_bits client_bits]; auto].
    destruct (equals (name s1) (txt "server_no_context_takeover")); [destruct (negb (is_null (val s1))); [injection H as <- <-; exact K|eapply IH; [|exact H]; exact K]|].
    destruct (equals (name s1) (txt "client_no_context_takeover")); [destruct (negb (is_null (val s1))); [injection H as <- <-; exact K|eapply IH; [|exact H]; exact K]|].
    destruct (equals (name s1) (txt "server_max_window_bits")).
    { destruct (is_null (val s1)); [eapply IH; [|exact H]; exact K|]. cbv zeta in H. destruct ((as_integer integer (val s1) <? 9) || (as_integer integer (val s1) >? 15)) eqn:R; [injection H as <- <-; exact K|].
      eapply IH; [|exact H]. unfold sound. cbn [level server_bits client_bits]. split; [auto|]. split; lia. }
    destruct (equals (name s1) (txt "client_max_window_bits")).
    { destruct (is_null (val s1)); [eapply IH; [|exact H]; exact K|]. cbv zeta in H. destruct ((as_integer integer (val s1) <? 9) || (as_integer integer (val s1) >? 15)) eqn:R; [injection H as <- <-; exact K|].
      eapply IH; [|exact H]. unfold sound. cbn [level server_bits client_bits]. split; [auto|]. split; lia. }
    injection H as <- <-. exact K.
  Qed.
  Lemma use_sound default s p s' p' : sound default p -> use_permessage_deflate mktime integer default s p = Go (s', p') -> sound default p'.
  Proof.
    intros S H. unfold use_permessage_deflate in H. destruct (negb (level p =? 0)); [injection H as <- <-; exact S|]. destruct (default =? 0); [injection H as <- <-; exact S|].
    eapply parameters_sound; [|exact H]. destruct S as (S1 & _). unfold sound. cbn [level server_bits client_bits]. split; [exact S1|]. lia.
  Qed.
  Lemma extensions_sound strict default fuel : forall s p p', sound default p -> extensions mktime integer strict default fuel s p = Go p' -> sound default p'.
  Proof.
    induction fuel as [|fuel IH]; intros s p p' S H; [discriminate|]. cbn [extensions] in H. destruct (next_element mktime s) as [s1 found]. destruct (ub s1); [discriminate|].
    destruct found; [|injection H as <-; exact S]. destruct (equals (name s1) (txt "permessage-deflate")).
    - destruct (use_permessage_deflate mktime integer default s1 p) as [[s2 p2]| |] eqn:E; try discriminate. eapply IH; [|exact H]. eapply use_sound; eauto.
    - destruct strict; [discriminate|]. eapply IH; eauto.
  Qed.
  Lemma headers_request_any default fs : forall sc sc', sound default (pm sc) -> headers (request_header mktime integer default) fs sc = Go sc' ->
      (upgrade_ok sc' = true <-> upgrade_ok sc = true \/ In (txt "websocket") (lookup n_upg fs)) /\
      (version_ok sc' = true <-> version_ok sc = true \/ In (txt "13") (lookup n_ver fs)) /\
      digest_of n_key 24 fs (digest sc) (digest sc') /\ sound default (pm sc').
  Proof.
    induction fs as [|[m v] fs IH]; intros sc sc' S H.
    - injection H as <-. split; [cbn; tauto|]. split; [cbn; tauto|]. split; [left; split; [constructor|reflexivity]|exact S].
    - cbn [headers] in H. destruct (request_header mktime integer default sc (m, v)) as [sc1| |] eqn:E; try discriminate.
      cbn [request_header] in E. fold n_con n_upg n_ver n_key n_ext in E. rewrite !lookup_cons.
      destruct (equals m n_con) eqn:K1.
      { others K1. repeat match goal with E : equals m _ = false |- _ => rewrite E end. cbv iota. destruct (connection mktime (Datatypes.S (length v)) (reload v)); try discriminate. injection E as <-.
        destruct (IH sc sc' S H) as (A & B & C & D). split; [exact A|]. split; [exact B|]. split; [now apply digest_other|exact D]. }
      destruct (equals m n_upg) eqn:K2.
      { others K2. repeat match goal with E : equals m _ = false |- _ => rewrite E end. cbv iota. injection E as <-. rewrite <- eqb_in.
        destruct (list_eqb v (txt "websocket")); (pose proof (fun X => IH _ sc' X H) as Q; specialize (Q S); destruct Q as (A & B & C & D)); (split; [exact A|]); (split; [exact B|]); (split; [now apply digest_other|exact D]). }
      destruct (equals m n_ver) eqn:K3.
      { others K3. repeat match goal with E : equals m _ = false |- _ => rewrite E end. cbv iota. injection E as <-. rewrite <- eqb_in.
        destruct (list_eqb v (txt "13")); (pose proof (fun X => IH _ sc' X H) as Q; specialize (Q S); destruct Q as (A & B & C & D)); (split; [exact A|]); (split; [exact B|]); (split; [now apply digest_other|exact D]). }
      destruct (equals m n_key) eqn:K4.
      { others K4. repeat match goal with E : equals m _ = false |- _ => rewrite E end. cbv iota. injection E as <-.
        assert (X : digest_of n_key 24 ((m, v) :: fs) (digest sc) (digest sc')).
        { apply digest_same; [exact K4|]. destruct (length v =? 24)%nat; (pose proof (fun X => IH _ sc' X H) as Q; specialize (Q S); destruct Q as (A & B & C & D)); exact C. }
        destruct (length v =? 24)%nat; (pose proof (fun X => IH _ sc' X H) as Q; specialize (Q S); destruct Q as (A & B & C & D)); auto. }
      destruct (equals m n_ext) eqn:K5.
      { destruct (extensions mktime integer false default (Datatypes.S (length v)) (reload v) (pm sc)) as [p| |] eqn:X; try discriminate. injection E as <-.
        destruct (IH (mkScan (upgrade_ok sc) (version_ok sc) (digest sc) p) sc' ltac:(cbn [pm]; eapply extensions_sound; [exact S|exact X]) H) as (A & B & C & D). split; [exact A|]. split; [exact B|]. split; [now apply digest_other|exact D]. }
      injection E as <-. destruct (IH sc sc' S H) as (A & B & C & D). split; [exact A|]. split; [exact B|]. split; [now apply digest_other|exact D].
  Qed.
  Lemma headers_response_any default fs : forall sc sc', sound default (pm sc) -> headers (response_header mktime integer default) fs sc = Go sc' ->
      (upgrade_ok sc' = true <-> upgrade_ok sc = true \/ In (txt "websocket") (lookup n_upg fs)) /\
      digest_of n_acc 28 fs (digest sc) (digest sc') /\ sound default (pm sc').
  Proof.
    induction fs as [|[m v] fs IH]; intros sc sc' S H.
    - injection H as <-. split; [cbn; tauto|]. split; [left; split; [constructor|reflexivity]|exact S].
    - cbn [headers] in H. destruct (response_header mktime integer default sc (m, v)) as [sc1| |] eqn:E; try discriminate.
      cbn [response_header] in E. fold n_con n_upg n_acc n_ext in E. rewrite !lookup_cons.
      destruct (equals m n_con) eqn:K1.
      { others K1. repeat match goal with E : equals m _ = false |- _ => rewrite E end. cbv iota. destruct (connection mktime (Datatypes.S (length v)) (reload v)); try discriminate. injection E as <-.
        destruct (IH sc sc' S H) as (A & C & D). split; [exact A|]. split; [now apply digest_other|exact D]. }
      destruct (equals m n_upg) eqn:K2.
      { others K2. repeat match goal with E : equals m _ = false |- _ => rewrite E end. cbv iota. injection E as <-. rewrite <- eqb_in.
        destruct (list_eqb v (txt "websocket")); (pose proof (fun X => IH _ sc' X H) as Q; specialize (Q S); destruct Q as (A & C & D)); (split; [exact A|]); (split; [now apply digest_other|exact D]). }
      destruct (equals m n_acc) eqn:K4.
      { others K4. repeat match goal with E : equals m _ = false |- _ => rewrite E end. cbv iota. injection E as <-.
        assert (X : digest_of n_acc 28 ((m, v) :: fs) (digest sc) (digest sc')).
        { apply digest_same; [exact K4|]. destruct (length v =? 28)%nat; (pose proof (fun X => IH _ sc' X H) as Q; specialize (Q S); destruct Q as (A & C & D)); exact C. }
        destruct (length v =? 28)%nat; (pose proof (fun X => IH _ sc' X H) as Q; specialize (Q S); destruct Q as (A & C & D)); auto. }
      destruct (equals m n_ext) eqn:K5.
      { destruct (extensions mktime integer true default (Datatypes.S (length v)) (reload v) (pm sc)) as [p| |] eqn:X; try discriminate. injection E as <-.
        destruct (IH (mkScan (upgrade_ok sc) (version_ok sc) (digest sc) p) sc' ltac:(cbn [pm]; eapply extensions_sound; [exact S|exact X]) H) as (A & C & D). split; [exact A|]. split; [now apply digest_other|exact D]. }
      injection E as <-. destruct (IH sc sc' S H) as (A & C & D). split; [exact A|]. split; [now apply digest_other|exact D].
  Qed.
End Any.

(** ** The loops end, and nothing is undefined if no date overflows *)
Definition suffix (u h : list Z) : Prop := exists a, h = a ++ u.
Lemma suffix_trans a b c : suffix a b -> suffix b c -> suffix a c.
Proof. intros [x ->] [y ->]. exists (y ++ x). now rewrite app_assoc. Qed.
Lemma suffix_app a b : suffix b (a ++ b). Proof. now exists a. Qed.
Lemma suffix_refl a : suffix a a. Proof. now exists []. Qed.
Definition rem (s : st) : nat := match at_ s with Start => length (hstr s) | At r => length r | _ => 0%nat end.
Definition okay (mktime : tm -> Z) (s : st) : Prop :=
  calm mktime (hstr s) /\ match at_ s with Start | Bad => True | At r => suffix r (hstr s) | Ub => False end.
Lemma okay_ub mktime s : okay mktime s -> ub s = false.
Proof. intros [_ H]. unfold ub. destruct (at_ s); tauto. Qed.
Lemma read_value_calm mktime h p : calm mktime h -> suffix p h -> read_value mktime p <> None.
Proof.
  intros C [a E]. specialize (C a p E). unfold read_value. rewrite parse_value_cases. destruct (parse_quoted (cstr p)); try discriminate; unfold unquoted_value;
    destruct (DateModel.parse mktime (cstr p) (length (cstr p))) as [|ns [|n]|]; try congruence; destruct (parse_unquoted (cstr p)); discriminate.
Qed.
Lemma next_from_okay mktime s rest s' b : okay mktime s -> suffix rest (hstr s) -> next_from mktime s rest = (s', b) ->
  okay mktime s' /\ hstr s' = hstr s /\ (if b then (rem s' < length rest)%nat else (rem s' <= length rest)%nat).
Proof.
  intros [C _] X H. destruct b.
  - apply next_from_true in H as (a & r & v & -> & (_ & _ & N & _) & ->). unfold okay, rem. cbn [hstr at_]. split; [split; [exact C|]|].
    + eapply suffix_trans; [apply suffix_app|exact X].
    + split; [reflexivity|]. unfold written. destruct (label a); [congruence|]. rewrite !app_length. cbn [length]. lia.
  - rewrite next_from_eq in H. cbv zeta in H. destruct (skip_split rest) as (w1 & E1 & _ & _). destruct (skip ws rest) as [|c p].
    { injection H as <-. unfold okay, rem. cbn [hstr at_]. auto. }
    destruct ((c =? 59) || (c =? 44)); [injection H as <-; unfold okay, rem; cbn [hstr at_]; auto|].
    destruct (HvalProps.hv_token (c :: p)) as (r1 & E2 & _ & _). destruct (parse_token (c :: p)) as [|x t]; [injection H as <-; unfold okay, rem; cbn [hstr at_]; split; [auto|split; [reflexivity|lia]]|].
    rewrite E2, skipn_exact in H. destruct (skip_split r1) as (w2 & E3 & _ & _).
    assert (S1 : suffix (skip ws r1) (hstr s)).
    { eapply suffix_trans; [|exact X]. rewrite E1, E2. eapply suffix_trans; [|apply suffix_app]. eapply suffix_trans; [|apply suffix_app]. rewrite E3 at 2. apply suffix_app. }
    destruct (after_name mktime (skip ws r1)) as [[v q]|] eqn:AN.
    + destruct (skip ws q) as [|d z]; [discriminate|]. destruct ((d =? 59) || (d =? 44)); [discriminate|]. injection H as <-. unfold okay, rem. cbn [hstr at_]. split; [auto|split; [reflexivity|lia]].
    + exfalso. destruct (skip ws r1) as [|d z]; [discriminate|]. destruct (Z.eq_dec d 61) as [->|D]; [|rewrite after_name_other in AN by exact D; discriminate]. cbn [after_name] in AN.
      revert AN. apply (read_value_calm mktime (hstr s)); [exact C|]. destruct (skip_split z) as (w3 & E4 & _ & _). eapply suffix_trans; [|exact S1].
      exists (61 :: w3). cbn [app]. f_equal. exact E4.
Qed.
Lemma suffix_tail c r h : suffix (c :: r) h -> suffix r h.
Proof. intros [a ->]. exists (a ++ [c]). now rewrite <- app_assoc. Qed.
Lemma next_attribute_okay mktime s s' b : okay mktime s -> next_attribute mktime s = (s', b) ->
  okay mktime s' /\ hstr s' = hstr s /\ (if b then (rem s' < rem s)%nat else (rem s' <= rem s)%nat).
Proof.
  intros K H. unfold next_attribute in H. assert (K2 := K). destruct K2 as [C P]. unfold rem at 2 4. destruct (at_ s) as [|[|c r]| |] eqn:A; [| | | |contradiction].
  - eapply next_from_okay; [exact K|apply suffix_refl|exact H].
  - injection H as <- <-. unfold rem. rewrite A. auto.
  - destruct (c =? 44); [injection H as <- <-; unfold rem; rewrite A; auto|]. destruct (c =? 59).
    + destruct (next_from_okay mktime s r s' b K (suffix_tail _ _ _ P) H) as (H1 & H2 & H3). split; [exact H1|]. split; [exact H2|]. cbn [length]. destruct b; lia.
    + injection H as <- <-. unfold okay, rem. cbn [hstr at_]. split; [auto|]. split; [reflexivity|lia].
  - injection H as <- <-. unfold rem. rewrite A. auto.
Qed.
Lemma element_loop_okay mktime fuel : forall s s' b, okay mktime s -> element_loop mktime fuel s = (s', b) ->
  okay mktime s' /\ hstr s' = hstr s /\ (if b then (rem s' < rem s)%nat else (rem s' <= rem s)%nat).
Proof.
  induction fuel as [|fuel IH]; intros s s' b K H; cbn [element_loop] in H; [injection H as <- <-; auto|].
  assert (K2 := K). destruct K2 as [C P]. unfold rem at 2 4. destruct (at_ s) as [|[|c r]| |] eqn:A; try (injection H as <- <-; unfold rem; rewrite A; auto); [].
  destruct (c =? 44).
  - destruct (next_from_okay mktime s r s' b K (suffix_tail _ _ _ P) H) as (H1 & H2 & H3). split; [exact H1|]. split; [exact H2|]. cbn [length]. destruct b; lia.
  - destruct (c =? 59).
    + destruct (next_from mktime s r) as [s1 b1] eqn:N. cbn [fst] in H. destruct (next_from_okay mktime s r s1 b1 K (suffix_tail _ _ _ P) N) as (H1 & H2 & H3).
      destruct (IH s1 s' b H1 H) as (G1 & G2 & G3). split; [exact G1|]. split; [congruence|]. cbn [length]. destruct b, b1; lia.
    + injection H as <- <-. unfold okay, rem. cbn [hstr at_]. split; [auto|]. split; [reflexivity|cbn; lia].
Qed.
Lemma next_element_okay mktime s s' b : okay mktime s -> next_element mktime s = (s', b) ->
  okay mktime s' /\ hstr s' = hstr s /\ (if b then (rem s' < rem s)%nat else (rem s' <= rem s)%nat).
Proof.
  intros K H. unfold next_element in H. assert (K2 := K). destruct K2 as [C P]. destruct (at_ s) as [|r| |] eqn:A; [| | |contradiction].
  - unfold rem at 2 4. rewrite A. eapply next_from_okay; [exact K|apply suffix_refl|exact H].
  - eapply element_loop_okay; eauto.
  - injection H as <- <-. auto.
Qed.

Section Total.
  Variables (mktime : tm -> Z) (integer : list Z -> Z).
  Lemma parameters_total default fuel : forall s p, okay mktime s -> (rem s < fuel)%nat ->
    exists s' p', parameters mktime integer default fuel s p = Go (s', p') /\ okay mktime s' /\ hstr s' = hstr s /\ (rem s' <= rem s)%nat.
  Proof.
    induction fuel as [|fuel IH]; intros s p K L; [lia|]. cbn [parameters]. destruct (next_attribute mktime s) as [s1 b] eqn:N.
    destruct (next_attribute_okay mktime s s1 b K N) as (K1 & H1 & R1). rewrite (okay_ub mktime s1 K1).
    assert (G : forall p' : pmce, exists s' p'', Go (s1, p') = Go (s', p'') /\ okay mktime s' /\ hstr s' = hstr s /\ (rem s' <= rem s)%nat) by (intros p'; exists s1, p'; destruct b; repeat split; auto; try apply K1; lia).
    destruct b; [|apply G].
    assert (RR : forall p', exists s' p'', parameters mktime integer default fuel s1 p' = Go (s', p'') /\ okay mktime s' /\ hstr s' = hstr s /\ (rem s' <= rem s)%nat).
    { intros p'. destruct (IH s1 p' K1 ltac:(lia)) as (s' & p'' & E & K' & H' & R'). exists s', p''. split; [exact E|]. split; [exact K'|]. split; [congruence|lia]. }
    repeat match goal with |- context [if ?x then _ else _] => destruct x; [first [apply G|apply RR|idtac]|first [apply G|apply RR|idtac]] end; first [apply G|apply RR].
  Qed.
  Lemma use_total default s p : okay mktime s -> (rem s <= length (hstr s))%nat ->
    exists s' p', use_permessage_deflate mktime integer default s p = Go (s', p') /\ okay mktime s' /\ hstr s' = hstr s /\ (rem s' <= rem s)%nat.
  Proof.
    intros K L. unfold use_permessage_deflate. destruct (negb (level p =? 0)); [exists s, p; auto|]. destruct (default =? 0); [exists s, p; auto|]. apply parameters_total; [exact K|lia].
  Qed.
  Lemma extensions_total strict default fuel : forall s p, okay mktime s -> (rem s < fuel)%nat -> (rem s <= length (hstr s))%nat -> extensions mktime integer strict default fuel s p <> Undef.
  Proof.
    induction fuel as [|fuel IH]; intros s p K L B; [lia|]. cbn [extensions]. destruct (next_element mktime s) as [s1 b] eqn:N.
    destruct (next_element_okay mktime s s1 b K N) as (K1 & H1 & R1). rewrite (okay_ub mktime s1 K1). destruct b; [|discriminate].
    destruct (equals (name s1) (txt "permessage-deflate")).
    - destruct (use_total default s1 p K1) as (s' & p' & -> & K' & H' & R'); [rewrite H1; lia|]. apply IH; [exact K'|lia|]. rewrite H', H1. lia.
    - destruct strict; [discriminate|]. apply IH; [exact K1|lia|rewrite H1; lia].
  Qed.
  Lemma connection_total fuel : forall s, okay mktime s -> (rem s < fuel)%nat -> connection mktime fuel s <> Undef.
  Proof.
    induction fuel as [|fuel IH]; intros s K L; [lia|]. cbn [connection]. destruct (next_element mktime s) as [s1 b] eqn:N.
    destruct (next_element_okay mktime s s1 b K N) as (K1 & H1 & R1). rewrite (okay_ub mktime s1 K1). destruct b; [|discriminate].
    destruct (equals (name s1) (txt "close")); [discriminate|]. apply IH; [exact K1|lia].
  Qed.
  Lemma start_okay h : calm mktime h -> okay mktime (reload h) /\ rem (reload h) = length h.
  Proof. intros C. split; [split; [exact C|exact I]|reflexivity]. Qed.
  Lemma headers_total default fs h : h = request_header mktime integer default \/ h = response_header mktime integer default ->
    (forall n v, In (n, v) fs -> calm mktime v) -> forall sc, headers h fs sc <> Undef.
  Proof.
    intros HH. induction fs as [|[m v] fs IH]; intros C sc; cbn [headers]; [discriminate|].
    assert (CV : calm mktime v) by (apply (C m); left; reflexivity). destruct (start_okay v CV) as [OK RM].
    assert (X1 : connection mktime (S (length v)) (reload v) <> Undef) by (apply connection_total; [exact OK|lia]).
    assert (X2 : forall strict p, extensions mktime integer strict default (S (length v)) (reload v) p <> Undef) by (intros; apply extensions_total; [exact OK|lia|cbn [hstr reload]; lia]).
    assert (Y : h sc (m, v) <> Undef).
    { destruct HH as [-> | ->]; cbn [request_header response_header];
        repeat match goal with |- (if ?x then _ else _) <> _ => destruct x end; try discriminate;
        try (destruct (connection mktime (S (length v)) (reload v)); congruence);
        match goal with |- context [extensions mktime integer ?b default ?f ?s ?p] => specialize (X2 b p); destruct (extensions mktime integer b default f s p); congruence end. }
    destruct (h sc (m, v)) as [sc1| |]; [|discriminate|congruence]. apply IH. intros n w I. apply (C n). right. exact I.
  Qed.
End Total.
