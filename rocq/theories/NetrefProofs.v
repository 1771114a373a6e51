(** Proofs about network references. *)
From Coq Require Import ZArith List Lia Bool ZifyBool ZifyNat Arith.
From Verif Require Import Base BaseLemmas UriSpec UriProofs NetrefModel NetrefSpec.
Import ListNotations.
Open Scope Z_scope.

Definition stops (p : Z -> bool) (t : list Z) : Prop := match t with [] => True | c :: _ => p c = false end.

Lemma span_exists p t : exists a b, t = a ++ b /\ Forall (fun c => p c = true) a /\ stops p b.
Proof.
  induction t as [|c t (a & b & E & Ha & Hb)]; [exists [], []; repeat split; constructor|].
  destruct (p c) eqn:Ec.
  - exists (c :: a), b. subst. repeat split; auto.
  - exists [], (c :: t). repeat split; auto.
Qed.

Lemma run_app p a b : Forall (fun c => p c = true) a -> stops p b -> run p (a ++ b) = length a.
Proof.
  intros Ha Hb. induction Ha as [|c a Hc Ha IH]; cbn [app run length].
  - destruct b; [reflexivity|]. cbn in *. now rewrite Hb.
  - now rewrite Hc, IH.
Qed.

Lemma at_char_app p t c : at_char (p ++ t) (length p) c = match t with x :: _ => x =? c | [] => false end.
Proof.
  unfold at_char. rewrite nth_error_app2, Nat.sub_diag by lia. destruct t; reflexivity.
Qed.

Definition starts_not (c : Z) (t : list Z) : Prop := match t with x :: _ => x <> c | [] => True end.

Lemma at_char_not p t c : starts_not c t -> at_char (p ++ t) (length p) c = false.
Proof. intros H. rewrite at_char_app. destruct t; [reflexivity|]. cbn in H. lia. Qed.

Lemma skipn_S p c (t : list Z) : skipn (S (length p)) (p ++ c :: t) = t.
Proof.
  replace (p ++ c :: t) with ((p ++ [c]) ++ t) by (rewrite <- app_assoc; reflexivity).
  replace (S (length p)) with (length (p ++ [c])) by (rewrite app_length; cbn; lia). apply skipn_app_len.
Qed.

(** ** The classes *)
Lemma path_class_spec c : path_class c = path_char c.
Proof. unfold path_class, path_char, pchar, unreserved, sub_delim, alnum. cbn [existsb]. rewrite !orb_false_r.
  destruct ((48 <=? c) && (c <=? 57)), ((65 <=? c) && (c <=? 90)), ((97 <=? c) && (c <=? 122)); cbn [orb]; try reflexivity.
  lia. Qed.
Lemma query_class_spec c : query_class c = query_char c.
Proof. unfold query_class. rewrite path_class_spec. unfold path_char, query_char. reflexivity. Qed.

Definition host_ok (v6 : bool) (c : Z) : Prop := letter_or_digit c \/ (if v6 then c = 58 else c = 45) \/ c = 46.
Lemma v6_class_spec c : v6_class c = true <-> host_ok true c.
Proof. unfold v6_class, alnum, host_ok, letter_or_digit. lia. Qed.
Lemma host_class_spec c : host_class c = true <-> host_ok false c.
Proof. unfold host_class, alnum, host_ok, letter_or_digit. lia. Qed.
Lemma digit_class_spec c : digit_class c = true <-> decimal c.
Proof. unfold digit_class, decimal. lia. Qed.
Lemma fragment_class_spec c : fragment_class c = true <-> query_char c = true \/ c = 35.
Proof. unfold fragment_class. rewrite query_class_spec, orb_true_iff, Z.eqb_eq. reflexivity. Qed.

Lemma Forall_iff_l {A} (P Q : A -> Prop) l : (forall x, P x <-> Q x) -> Forall P l <-> Forall Q l.
Proof. intros H. split; apply Forall_impl; intros; now apply H. Qed.

(** ** Port numbers *)
Lemma number_acc ds : forall a, Forall decimal ds -> 0 <= a ->
  fold_left (fun a c => 10 * a + (c - 48)) ds a >= a.
Proof.
  induction ds as [|c ds IH]; intros a Hd Ha; [cbn; lia|]. inversion_clear Hd as [|? ? Hc Hds]. cbn [fold_left].
  unfold decimal in Hc. specialize (IH (10 * a + (c - 48)) Hds ltac:(lia)). lia.
Qed.

Lemma port_value_spec ds : forall a, Forall decimal ds -> 0 <= a <= 65535 ->
  port_value ds a = (let v := fold_left (fun a c => 10 * a + (c - 48)) ds a in if v <=? 65535 then Some v else None).
Proof.
  induction ds as [|c ds IH]; intros a Hd Ha; cbn [port_value fold_left].
  - cbv zeta. assert (a <=? 65535 = true) as -> by lia. reflexivity.
  - inversion_clear Hd as [|? ? Hc Hds]. cbv zeta. unfold decimal in Hc.
    replace (a * 10 + c - 48) with (10 * a + (c - 48)) by lia.
    destruct (10 * a + (c - 48) <=? 65535) eqn:E.
    + rewrite IH by (auto; lia). reflexivity.
    + assert (G := number_acc ds (10 * a + (c - 48)) Hds ltac:(lia)).
      destruct (fold_left _ ds (10 * a + (c - 48)) <=? 65535) eqn:E2; [lia|reflexivity].
Qed.

(** ** The stages *)
Definition len_view (off : nat) (o : option (list Z)) : option (nat * nat) := option_map (fun x => (off, length x)) o.

Definition path_ok (p : list Z) : Prop := (exists q, p = 47 :: q) /\ Forall (fun c => path_char c = true) p.

Lemma path_run o p t w : when o path_ok -> (match o with Some _ => stops path_class t | None => starts_not 47 t end) ->
  take_path (p ++ opt_text (fun x => x) o ++ t) w (length p)
  = (mkRef (r_host w) (r_v6 w) (r_port w) (r_num w)
       (match o with Some x => Some (length p, length x) | None => r_path w end) (r_query w) (r_fragment w),
     length (p ++ opt_text (fun x => x) o)).
Proof.
  intros Ho Hs. unfold take_path. destruct o as [x|]; cbn [opt_text when] in *.
  - destruct Ho as [[q ->] Hx]. rewrite at_char_app. cbn [app]. rewrite Z.eqb_refl.
    rewrite skipn_app_len. change (47 :: q ++ t) with ((47 :: q) ++ t). rewrite run_app; auto.
    + now rewrite app_length.
    + eapply Forall_impl; [|exact Hx]. intros c Hc. now rewrite path_class_spec.
  - cbn [app]. rewrite at_char_not by auto. rewrite app_nil_r. destruct w; reflexivity.
Qed.

Lemma path_exists t : exists o t', t = opt_text (fun x => x) o ++ t' /\ when o path_ok /\
  (match o with Some _ => stops path_class t' | None => starts_not 47 t' end).
Proof.
  destruct t as [|c t]; [exists None, []; repeat split|]. destruct (Z.eq_dec c 47) as [->|Hc].
  - destruct (span_exists path_class t) as (a & b & -> & Ha & Hb). exists (Some (47 :: a)), b. cbn [opt_text when app].
    split; [reflexivity|]. split; [|exact Hb]. split; [eauto|]. constructor; [reflexivity|].
    eapply Forall_impl; [|exact Ha]. intros x Hx. now rewrite <- path_class_spec.
  - exists None, (c :: t). repeat split. exact Hc.
Qed.

Lemma query_run o p t w : when o (Forall (fun c => query_char c = true)) ->
  (match o with Some _ => stops query_class t | None => starts_not 63 t end) ->
  take_query (p ++ opt_text (fun x => [63] ++ x) o ++ t) w (length p)
  = (mkRef (r_host w) (r_v6 w) (r_port w) (r_num w) (r_path w)
       (match o with Some x => Some (S (length p), length x) | None => r_query w end) (r_fragment w),
     length (p ++ opt_text (fun x => [63] ++ x) o)).
Proof.
  intros Ho Hs. unfold take_query. destruct o as [x|]; cbn [opt_text when app] in *.
  - rewrite at_char_app. rewrite Z.eqb_refl. rewrite skipn_S, run_app; auto.
    + rewrite app_length. cbn [length]. f_equal. lia.
    + eapply Forall_impl; [|exact Ho]. intros c Hc. now rewrite query_class_spec.
  - rewrite at_char_not by auto. rewrite app_nil_r. destruct w; reflexivity.
Qed.

Lemma query_exists t : exists o t', t = opt_text (fun x => [63] ++ x) o ++ t' /\ when o (Forall (fun c => query_char c = true)) /\
  (match o with Some _ => stops query_class t' | None => starts_not 63 t' end).
Proof.
  destruct t as [|c t]; [exists None, []; repeat split|]. destruct (Z.eq_dec c 63) as [->|Hc].
  - destruct (span_exists query_class t) as (a & b & -> & Ha & Hb). exists (Some a), b. cbn [opt_text when app].
    split; [reflexivity|]. split; [|exact Hb].
    eapply Forall_impl; [|exact Ha]. intros x Hx. now rewrite <- query_class_spec.
  - exists None, (c :: t). repeat split. exact Hc.
Qed.

Lemma fragment_run o p t w : when o (Forall (fun c => query_char c = true \/ c = 35)) ->
  (match o with Some _ => stops fragment_class t | None => starts_not 35 t end) ->
  take_fragment (p ++ opt_text (fun x => [35] ++ x) o ++ t) w (length p)
  = (mkRef (r_host w) (r_v6 w) (r_port w) (r_num w) (r_path w) (r_query w)
       (match o with Some x => Some (S (length p), length x) | None => r_fragment w end),
     length (p ++ opt_text (fun x => [35] ++ x) o)).
Proof.
  intros Ho Hs. unfold take_fragment. destruct o as [x|]; cbn [opt_text when app] in *.
  - rewrite at_char_app. rewrite Z.eqb_refl. rewrite skipn_S, run_app; auto.
    + rewrite app_length. cbn [length]. f_equal. lia.
    + eapply Forall_impl; [|exact Ho]. intros c Hc. now apply fragment_class_spec.
  - rewrite at_char_not by auto. rewrite app_nil_r. destruct w; reflexivity.
Qed.

Lemma fragment_exists t : exists o t', t = opt_text (fun x => [35] ++ x) o ++ t' /\ when o (Forall (fun c => query_char c = true \/ c = 35)) /\
  (match o with Some _ => stops fragment_class t' | None => starts_not 35 t' end).
Proof.
  destruct t as [|c t]; [exists None, []; repeat split|]. destruct (Z.eq_dec c 35) as [->|Hc].
  - destruct (span_exists fragment_class t) as (a & b & -> & Ha & Hb). exists (Some a), b. cbn [opt_text when app].
    split; [reflexivity|]. split; [|exact Hb].
    eapply Forall_impl; [|exact Ha]. intros x Hx. now apply fragment_class_spec.
  - exists None, (c :: t). repeat split. exact Hc.
Qed.

Definition port_ok (ds : list Z) : Prop := ds <> [] /\ Forall decimal ds /\ number ds <= 65535.

Lemma length_zero_iff {A} (l : list A) : (length l =? 0)%nat = true <-> l = [].
Proof. destruct l; cbn; split; congruence. Qed.

Lemma port_run o p t w : when o port_ok ->
  (match o with Some _ => stops digit_class t | None => starts_not 58 t end) ->
  take_port (p ++ opt_text (fun x => [58] ++ x) o ++ t) w (length p)
  = (mkRef (r_host w) (r_v6 w)
       (match o with Some x => Some (S (length p), length x) | None => r_port w end)
       (match o with Some x => Some (number x) | None => r_num w end) (r_path w) (r_query w) (r_fragment w),
     Some (length (p ++ opt_text (fun x => [58] ++ x) o))).
Proof.
  intros Ho Hs. unfold take_port. destruct o as [x|]; cbn [opt_text when app] in *.
  - destruct Ho as (Hne & Hd & Hn). rewrite at_char_app. rewrite Z.eqb_refl. rewrite skipn_S, run_app; auto.
    2:{ eapply Forall_impl; [|exact Hd]. intros c Hc. now apply digit_class_spec. }
    cbv zeta. destruct (length x =? 0)%nat eqn:E; [apply length_zero_iff in E; congruence|].
    rewrite firstn_app, Nat.sub_diag, firstn_all. cbn [firstn]. rewrite app_nil_r.
    rewrite port_value_spec by (auto; lia). cbv zeta. fold (number x). assert (number x <=? 65535 = true) as -> by lia.
    rewrite app_length. cbn [length]. do 2 f_equal. lia.
  - rewrite at_char_not by auto. rewrite app_nil_r. destruct w; reflexivity.
Qed.

Lemma port_exists p t w : (exists o t', t = opt_text (fun x => [58] ++ x) o ++ t' /\ when o port_ok /\
  (match o with Some _ => stops digit_class t' | None => starts_not 58 t' end))
  \/ take_port (p ++ t) w (length p) = (w, None).
Proof.
  destruct t as [|c t]; [left; exists None, []; repeat split|]. destruct (Z.eq_dec c 58) as [->|Hc].
  - destruct (span_exists digit_class t) as (a & b & -> & Ha & Hb).
    assert (Hd : Forall decimal a) by (eapply Forall_impl; [|exact Ha]; intros x Hx; now apply digit_class_spec).
    destruct a as [|a0 a1] eqn:Ea.
    + right. unfold take_port. rewrite at_char_app, Z.eqb_refl, skipn_S. rewrite (run_app _ [] b) by auto. reflexivity.
    + rewrite <- Ea in *. destruct (number a <=? 65535) eqn:E.
      * left. exists (Some a), b. cbn [opt_text when app]. split; [reflexivity|]. split; [|exact Hb].
        split; [congruence|]. split; [exact Hd|lia].
      * right. unfold take_port. rewrite at_char_app, Z.eqb_refl, skipn_S. rewrite (run_app _ a b) by auto. cbv zeta.
        destruct (length a =? 0)%nat; [reflexivity|].
        rewrite firstn_app, Nat.sub_diag, firstn_all. cbn [firstn]. rewrite app_nil_r.
        rewrite port_value_spec by (auto; lia). cbv zeta. fold (number a). now rewrite E.
  - left. exists None, (c :: t). repeat split. exact Hc.
Qed.

Definition host_text (v6 : bool) (h : list Z) : list Z := if v6 then [91] ++ h ++ [93] else h.

Lemma host_run v6 h t : h <> [] -> Forall (host_ok v6) h -> (v6 = false -> stops host_class t) ->
  take_host (host_text v6 h ++ t)
  = Some (mkRef (Some (if v6 then 1 else 0, length h))%nat v6 None None None None None, length (host_text v6 h)).
Proof.
  intros Hne Hh Ht. unfold take_host, host_text. destruct v6; cbn [app].
  - change (at_char (91 :: (h ++ [93]) ++ t) 0 91) with true. cbv iota. cbn [skipn].
    rewrite <- app_assoc. cbn [app]. rewrite run_app.
    + cbv zeta. destruct (length h =? 0)%nat eqn:E; [apply length_zero_iff in E; congruence|].
      assert (at_char (91 :: h ++ 93 :: t) (1 + length h) 93 = true) as ->.
      { change (91 :: h ++ 93 :: t) with ((91 :: h) ++ 93 :: t). change (1 + length h)%nat with (length (91 :: h)).
        rewrite at_char_app. reflexivity. }
      cbn [orb negb]. repeat f_equal. cbn [length]. rewrite app_length. cbn. lia.
    + eapply Forall_impl; [|exact Hh]. intros c Hc. now apply v6_class_spec.
    + reflexivity.
  - destruct h as [|c h]; [congruence|]. assert (Hc : host_ok false c) by (inversion Hh; auto).
    assert (at_char ((c :: h) ++ t) 0 91 = false) as ->.
    { cbn. unfold host_ok, letter_or_digit in Hc. lia. }
    rewrite run_app; [reflexivity| |auto].
    eapply Forall_impl; [|exact Hh]. intros x Hx. now apply host_class_spec.
Qed.

Lemma host_exists s : (exists v6 h t, s = host_text v6 h ++ t /\ h <> [] /\ Forall (host_ok v6) h /\ (v6 = false -> stops host_class t))
  \/ take_host s = None.
Proof.
  destruct s as [|c s]; [right; reflexivity|]. destruct (Z.eq_dec c 91) as [->|Hc].
  - destruct (span_exists v6_class s) as (a & b & -> & Ha & Hb).
    assert (Hh : Forall (host_ok true) a) by (eapply Forall_impl; [|exact Ha]; intros x Hx; now apply v6_class_spec).
    unfold take_host. change (at_char (91 :: a ++ b) 0 91) with true. cbv iota. cbn [skipn]. rewrite run_app by auto. cbv zeta.
    destruct (length a =? 0)%nat eqn:E; [right; reflexivity|].
    change (91 :: a ++ b) with ((91 :: a) ++ b). change (1 + length a)%nat with (length (91 :: a)). rewrite at_char_app.
    destruct b as [|x b]; [right; reflexivity|]. destruct (x =? 93) eqn:Ex; [|right; reflexivity].
    left. assert (x = 93) as -> by lia. exists true, a, b. cbn [host_text app]. rewrite <- app_assoc. cbn [app].
    split; [reflexivity|]. split; [intros ->; discriminate E|]. split; [exact Hh|discriminate].
  - destruct (span_exists host_class (c :: s)) as (a & b & Es & Ha & Hb).
    assert (Hh : Forall (host_ok false) a) by (eapply Forall_impl; [|exact Ha]; intros x Hx; now apply host_class_spec).
    destruct a as [|a0 a1].
    + right. unfold take_host. assert (at_char (c :: s) 0 91 = false) as -> by (cbn; lia). rewrite Es, run_app by auto. reflexivity.
    + left. exists false, (a0 :: a1), b. rewrite Es. split; [reflexivity|]. split; [discriminate|]. auto.
Qed.

(** ** All together *)
Definition ref_stops (r : reference) (t : list Z) : Prop :=
  match fragment r with
  | Some _ => stops fragment_class t
  | None =>
      starts_not 35 t /\
      match query r with
      | Some _ => stops query_class t
      | None =>
          starts_not 63 t /\
          match path r with
          | Some _ => stops path_class t
          | None =>
              starts_not 47 t /\
              match port r with
              | Some _ => stops digit_class t
              | None => starts_not 58 t /\ (bracketed r = false -> stops host_class t)
              end
          end
      end
  end.

(** What is written for a reference, with offsets counted along its text. *)
Definition written (r : reference) : netref :=
  let h := length (host_text (bracketed r) (host r)) in
  let p := (h + length (opt_text (fun p => [58%Z] ++ p) (port r)))%nat in
  let q := (p + length (opt_text (fun p => p) (path r)))%nat in
  let f := (q + length (opt_text (fun p => [63%Z] ++ p) (query r)))%nat in
  mkRef (Some (if bracketed r then 1 else 0, length (host r)))%nat (bracketed r)
    (len_view (S h) (port r)) (option_map number (port r))
    (len_view p (path r)) (len_view (S q) (query r)) (len_view (S f) (fragment r)).

Lemma valid_path r : valid r -> when (path r) path_ok.
Proof. intros H. apply H. Qed.

Lemma parse_valid r t : valid r -> ref_stops r t ->
  parse_ref (text_of r ++ t) = (written r, length (text_of r)).
Proof.
  intros (Hh & Hhc & Hpo & Hpa & Hq & Hf) Hst.
  set (tf := opt_text (fun f => [35] ++ f) (fragment r) ++ t).
  set (tq := opt_text (fun q => [63] ++ q) (query r) ++ tf).
  set (tp := opt_text (fun p => p) (path r) ++ tq).
  set (th := opt_text (fun p => [58] ++ p) (port r) ++ tp).
  assert (E : text_of r ++ t = host_text (bracketed r) (host r) ++ th).
  { unfold text_of, th, tp, tq, tf, host_text. now rewrite <- !app_assoc. }
  assert (Sf : match fragment r with Some _ => stops fragment_class t | None => starts_not 35 t end).
  { unfold ref_stops in Hst. destruct (fragment r); tauto. }
  assert (Sq : match query r with Some _ => stops query_class tf | None => starts_not 63 tf end).
  { unfold ref_stops in Hst. unfold tf. destruct (fragment r), (query r); cbn [opt_text app] in *; try reflexivity; try discriminate; tauto. }
  assert (Sp : match path r with Some _ => stops path_class tq | None => starts_not 47 tq end).
  { unfold ref_stops in Hst. unfold tq, tf. destruct (query r), (fragment r), (path r); cbn [opt_text app] in *; try reflexivity; try discriminate; tauto. }
  assert (So : match port r with Some _ => stops digit_class tp | None => starts_not 58 tp end).
  { unfold ref_stops in Hst. unfold tp, tq, tf. destruct (path r) as [pp|].
    - destruct Hpa as [[q ->] _]. destruct (port r); cbn; [reflexivity|discriminate].
    - destruct (query r), (fragment r), (port r); cbn [opt_text app] in *; try reflexivity; try discriminate; tauto. }
  assert (Sh : bracketed r = false -> stops host_class th).
  { intros B. unfold ref_stops in Hst. unfold th, tp, tq, tf. destruct (port r) as [pp|]; [reflexivity|].
    destruct (path r) as [pp|].
    - destruct Hpa as [[q ->] _]. reflexivity.
    - destruct (query r), (fragment r); cbn [opt_text app] in *; try reflexivity; try tauto. }
  unfold parse_ref. rewrite E, host_run by auto.
  unfold th. rewrite port_run by auto.
  assert (L1 := app_length (host_text (bracketed r) (host r)) (opt_text (fun p => [58] ++ p) (port r))).
  rewrite app_assoc. unfold tp. set (p1 := host_text (bracketed r) (host r) ++ opt_text (fun p => [58] ++ p) (port r)) in *.
  rewrite path_run by auto. 
  assert (L2 := app_length p1 (opt_text (fun p => p) (path r))).
  rewrite app_assoc. unfold tq. set (p2 := p1 ++ opt_text (fun p => p) (path r)) in *.
  rewrite query_run by auto.
  assert (L3 := app_length p2 (opt_text (fun p => [63] ++ p) (query r))).
  rewrite app_assoc. unfold tf. set (p3 := p2 ++ opt_text (fun p => [63] ++ p) (query r)) in *.
  rewrite fragment_run by auto.
  assert (E4 : text_of r = p3 ++ opt_text (fun p => [35] ++ p) (fragment r)).
  { unfold text_of, p3, p2, p1, host_text. now rewrite <- !app_assoc. }
  rewrite E4. cbn [r_host r_v6 r_port r_num r_path r_query r_fragment]. unfold written, len_view.
  rewrite <- L1, <- L2, <- L3.
  destruct (port r), (path r), (query r), (fragment r); reflexivity.
Qed.

Lemma parse_exists s : (exists r t, s = text_of r ++ t /\ valid r /\ ref_stops r t) \/ snd (parse_ref s) = O.
Proof.
  destruct (host_exists s) as [(v6 & h & t1 & E & Hne & Hh & St)|N].
  2:{ right. unfold parse_ref. now rewrite N. }
  destruct (port_exists (host_text v6 h) t1 (mkRef (Some (if v6 then 1 else 0, length h))%nat v6 None None None None None))
    as [(po & t2 & E2 & Hpo & Spo)|N].
  2:{ right. unfold parse_ref. rewrite E, host_run by auto. now rewrite N. }
  destruct (path_exists t2) as (pa & t3 & E3 & Hpa & Spa).
  destruct (query_exists t3) as (q & t4 & E4 & Hq & Sq).
  destruct (fragment_exists t4) as (f & t5 & E5 & Hf & Sf).
  left. exists (mkReference h v6 po pa q f), t5. split; [|split].
  - unfold text_of. cbn [host bracketed port path query fragment]. subst. unfold host_text. now rewrite <- !app_assoc.
  - unfold valid. cbn [host bracketed port path query fragment]. repeat split; auto.
  - unfold ref_stops. cbn [host bracketed port path query fragment]. destruct f; [exact Sf|].
    cbn [opt_text app] in E5. subst t4. split; [exact Sf|].
    destruct q; [exact Sq|]. cbn [opt_text app] in E4. subst t3. split; [exact Sq|].
    destruct pa; [exact Spa|]. cbn [opt_text app] in E3. subst t2. split; [exact Spa|].
    destruct po; [exact Spo|]. cbn [opt_text app] in E2. subst t1. split; [exact Spo|exact St].
Qed.

(** The views of [written] designate the parts. *)
Lemma view_app pre x post : view (pre ++ x ++ post) (length pre, length x) = x.
Proof. unfold view. cbn [fst snd]. rewrite skipn_app_len, firstn_app, Nat.sub_diag, firstn_all. cbn. apply app_nil_r. Qed.

Lemma view_at s pre x post n m : s = pre ++ x ++ post -> n = length pre -> m = length x -> view s (n, m) = x.
Proof. intros -> -> ->. apply view_app. Qed.

Lemma written_views r t : let s := text_of r ++ t in
  option_map (view s) (r_host (written r)) = Some (host r)
  /\ option_map (view s) (r_port (written r)) = port r
  /\ option_map (view s) (r_path (written r)) = path r
  /\ option_map (view s) (r_query (written r)) = query r
  /\ option_map (view s) (r_fragment (written r)) = fragment r.
Proof.
  cbv zeta. unfold written, len_view. cbn [r_host r_port r_path r_query r_fragment option_map].
  set (H := host_text (bracketed r) (host r)).
  assert (E : text_of r ++ t = H ++ opt_text (fun p => [58] ++ p) (port r)
     ++ opt_text (fun p => p) (path r) ++ opt_text (fun p => [63] ++ p) (query r)
     ++ opt_text (fun p => [35] ++ p) (fragment r) ++ t).
  { unfold text_of. fold (host_text (bracketed r) (host r)). fold H. now rewrite <- !app_assoc. }
  rewrite E. split; [|split; [|split; [|split]]].
  - f_equal. unfold H, host_text. destruct (bracketed r).
    + rewrite <- !app_assoc. cbn [app]. apply (view_app [91]).
    + apply (view_app []).
  - destruct (port r) as [x|]; [|reflexivity]. cbn [option_map opt_text app]. f_equal.
    eapply (view_at _ (H ++ [58])); [rewrite <- app_assoc; reflexivity|rewrite app_length; cbn; lia|reflexivity].
  - destruct (path r) as [x|]; [|reflexivity]. cbn [option_map opt_text]. f_equal.
    eapply (view_at _ (H ++ opt_text (fun p => [58] ++ p) (port r))); [rewrite <- app_assoc; reflexivity|now rewrite app_length|reflexivity].
  - destruct (query r) as [x|]; [|reflexivity]. cbn [option_map opt_text]. f_equal.
    eapply (view_at _ (H ++ opt_text (fun p => [58] ++ p) (port r) ++ opt_text (fun p => p) (path r) ++ [63]));
      [rewrite <- !app_assoc; reflexivity|rewrite !app_length; cbn [length]; lia|reflexivity].
  - destruct (fragment r) as [x|]; [|reflexivity]. cbn [option_map opt_text]. f_equal.
    eapply (view_at _ (H ++ opt_text (fun p => [58] ++ p) (port r) ++ opt_text (fun p => p) (path r)
       ++ opt_text (fun p => [63] ++ p) (query r) ++ [35]));
      [rewrite <- !app_assoc; reflexivity|rewrite !app_length; cbn [length]; lia|reflexivity].
Qed.

Lemma text_nonempty r : valid r -> length (text_of r) <> O.
Proof.
  intros (Hne & _) C. apply length_zero_iff_nil in C. unfold text_of in C. apply app_eq_nil in C. destruct C as [C _].
  destruct (bracketed r); [discriminate|congruence].
Qed.
