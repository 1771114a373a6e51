(** Lemmas about the reception of HTTP requests. *)
From Coq Require Import ZArith List Bool Lia String.
From Verif Require Import Base Text UriSpec HnameModel NetrefModel NetrefSpec NetrefProofs HnameProps HreqModel HreqSpec.
From Verif Require HoutSpec HoutProps.
Import ListNotations.
Open Scope list_scope.
Open Scope Z_scope.
Notation length := List.length.

(** * Texts *)
Lemma skipn_skipn_add {A} a b (l : list A) : skipn a (skipn b l) = skipn (a + b) l.
Proof.
  revert l. induction b as [|b IH]; intros l; [now rewrite Nat.add_0_r|]. rewrite Nat.add_succ_r.
  destruct l as [|x l]; [now rewrite !skipn_nil|]. cbn [skipn]. apply IH.
Qed.
Lemma starts_spec p s : starts p s = true <-> exists b, s = p ++ b.
Proof.
  unfold starts. destruct list_eq_dec as [E|E]; split; intros H; try discriminate; try reflexivity.
  - exists (skipn (length p) s). rewrite <- E at 1. now rewrite firstn_skipn.
  - exfalso. destruct H as [b ->]. apply E. now rewrite firstn_app, Nat.sub_diag, firstn_all, app_nil_r.
Qed.
Lemma contains_spec p s : contains p s = true <-> occurs p s.
Proof.
  unfold occurs. induction s as [|c s IH]; cbn [contains]; rewrite orb_true_iff, starts_spec.
  - split.
    + intros [[b H]|H]; [|discriminate]. now exists [], b.
    + intros (a & b & H). left. exists b. destruct a; [exact H|discriminate].
  - rewrite IH. split.
    + intros [[b H]|(a & b & ->)]; [now exists [], b|]. now exists (c :: a), b.
    + intros (a & b & H). destruct a as [|x a]; [left; now exists b|]. right. injection H as -> H. now exists a, b.
Qed.
Lemma contains_false p s : contains p s = false <-> ~ occurs p s.
Proof. rewrite <- contains_spec. destruct (contains p s); split; congruence. Qed.

Lemma find_at s : find_of (txt "@/") s = None /\ ~ In 64 s /\ ~ In 47 s
  \/ exists a c b, s = a ++ c :: b /\ (c = 64 \/ c = 47) /\ ~ In 64 a /\ ~ In 47 a /\ find_of (txt "@/") s = Some (length a).
Proof.
  induction s as [|x s IH]; [left; cbn; tauto|]. cbn [find_of].
  assert (X : existsb (Z.eqb x) (txt "@/") = (x =? 64) || (x =? 47)) by (cbn; now rewrite orb_false_r). rewrite X.
  destruct ((x =? 64) || (x =? 47)) eqn:E.
  - right. exists [], x, s. split; [reflexivity|]. split; [lia|]. cbn. tauto.
  - destruct IH as [(-> & N1 & N2)|(a & c & b & -> & C & N1 & N2 & ->)].
    + left. cbn. split; [reflexivity|]. split; intros [H|H]; subst; try tauto; discriminate.
    + right. exists (x :: a), c, b. cbn. split; [reflexivity|]. split; [exact C|].
      split; [|split; [|reflexivity]]; intros [H|H]; subst; try tauto; discriminate.
Qed.

Lemma slash_first_spec s : slash_first s <-> (~ In 64 s /\ ~ In 47 s) \/ exists a b, s = a ++ 47 :: b /\ ~ In 64 a /\ ~ In 47 a.
Proof.
  induction s as [|c s IH]; cbn [slash_first]; [cbn; tauto|]. rewrite IH. split.
  - intros [->|[N [[N1 N2]|(a & b & -> & N1 & N2)]]].
    + right. exists [], s. cbn. tauto.
    + destruct (Z.eq_dec c 47) as [->|]; [right; exists [], s; cbn; tauto|]. left. cbn. intuition congruence.
    + destruct (Z.eq_dec c 47) as [->|]; [right; exists [], (a ++ 47 :: b); cbn; tauto|].
      right. exists (c :: a), b. cbn. intuition congruence.
  - intros [[N1 N2]|(a & b & H & N1 & N2)].
    + right. cbn in N1, N2. intuition congruence.
    + destruct a as [|x a]; injection H as -> H; [now left|]. right. cbn in N1, N2. split; [intuition congruence|].
      right. exists a, b. intuition.
Qed.

(** * Targets *)
Definition with_resource (h : headers) (q : resource) : headers :=
  mkH (method h) (q_proxy q) (q_ssl q) (q_port q) (q_host q) (q_user q) (q_path q) (q_query q) (fields h).
Definition bare (h : headers) : Prop :=
  is_proxy h = false /\ is_ssl h = false /\ port h = 0 /\ raw_userinfo h = [] /\ raw_query h = [].

Lemma same_split scheme rest n s : HoutSpec.same scheme s = true -> length s = n ->
  (n + 3 <=? length (scheme ++ txt "://" ++ rest))%nat = true
  /\ equals (firstn (n + 3) (scheme ++ txt "://" ++ rest)) (s ++ txt "://") = true
  /\ skipn (n + 3) (scheme ++ txt "://" ++ rest) = rest.
Proof.
  intros H E.
  assert (Ls : length scheme = n).
  { rewrite <- E. clear E. revert s H. induction scheme as [|x a IH]; intros [|y s]; cbn; try discriminate; [reflexivity|].
    rewrite andb_true_iff. intros [_ H]. f_equal. now apply IH. }
  rewrite app_assoc. assert (L3 : length (scheme ++ txt "://") = (n + 3)%nat) by (rewrite app_length; cbn; lia).
  split; [|split].
  - apply Nat.leb_le. rewrite app_length. lia.
  - rewrite <- L3, firstn_app, Nat.sub_diag, firstn_all, firstn_O, app_nil_r.
    rewrite HoutProps.same_equals in H. rewrite name_equal in *. rewrite <- map_same in *. rewrite !map_app. now rewrite H.
  - rewrite <- L3, skipn_app, Nat.sub_diag, skipn_all. reflexivity.
Qed.

Lemma equals_split n s u : length s = n -> (n + 3 <=? length u)%nat && equals (firstn (n + 3) u) (s ++ txt "://") = true ->
  exists scheme, HoutSpec.same scheme s = true /\ u = scheme ++ txt "://" ++ skipn (n + 3) u.
Proof.
  intros E H. apply andb_true_iff in H as [H1 H]. apply Nat.leb_le in H1.
  rewrite name_equal, <- map_same in H.
  exists (firstn n u). split.
  - rewrite HoutProps.same_equals, name_equal, <- map_same.
    assert (F := f_equal (firstn n) H). rewrite !firstn_map, firstn_firstn, Nat.min_l in F by lia.
    rewrite firstn_app, <- E, Nat.sub_diag, firstn_all, app_nil_r in F. rewrite <- F. rewrite E. reflexivity.
  - assert (F := f_equal (skipn n) H). rewrite !skipn_map in F.
    rewrite skipn_app, <- E, Nat.sub_diag, skipn_all in F. cbn [app] in F. rewrite E in F.
    assert (G : skipn n (firstn (n + 3) u) = txt "://").
    { revert F. generalize (skipn n (firstn (n + 3) u)) as x. intros x F. cbn in F.
      destruct x as [|a [|b [|c [|d x]]]]; try discriminate. injection F as Fa Fb Fc. unfold lower in *.
      repeat match goal with H : context [if ?b then _ else _] |- _ => destruct b eqn:?; cbn in * end; try lia. cbn. repeat f_equal; lia. }
    rewrite <- G, app_assoc. rewrite <- (firstn_skipn n u) at 1. rewrite <- app_assoc. f_equal.
    rewrite skipn_firstn_comm. replace (n + 3 - n)%nat with 3%nat by lia.
    rewrite <- (firstn_skipn 3 (skipn n u)) at 1. f_equal. rewrite skipn_skipn_add. f_equal. lia.
Qed.

(** The part of [analyse] for the absolute form, and the part for the origin form *)
Definition analyse_absolute (h : headers) (uri : list Z) : headers * errno :=
  let '(h, uri) :=
    match find_of (txt "@/") uri with
    | Some t => if nth t uri 0 =? 64 then
                  (mkH (method h) (is_proxy h) (is_ssl h) (HreqModel.port h) (raw_host h) (firstn t uri) (raw_path h) (raw_query h) (fields h),
                   skipn (t + 1) uri)
                else (h, uri)
    | None => (h, uri)
    end in
  let '(w, n) := parse_ref uri in
  if negb (n =? length uri)%nat then (h, HPE_INVALID_HOST)
  else (take_ref (set_host h (view_text uri (r_host w))) uri w, HPE_OK).
Definition analyse_origin (h : headers) (uri : list Z) : headers * errno :=
  if negb (nth 0 uri 0 =? 47) then (h, HPE_INVALID_PATH)
  else
    let uri := 97 :: uri in
    let '(w, n) := parse_ref uri in
    if negb (n =? length uri)%nat then (h, HPE_INVALID_HOST)
    else match hosts (fields h) with
         | [] => (h, HPE_INVALID_URL)
         | [v] => (take_ref (set_host h v) uri w, HPE_OK)
         | v :: _ => (set_host h v, HPE_INVALID_URL)
         end.
Definition set_scheme (h : headers) (ssl : bool) (n : Z) : headers :=
  mkH (method h) true ssl n (raw_host h) (raw_userinfo h) (raw_path h) (raw_query h) (fields h).
Lemma analyse_cases h uri : is_proxy h = false ->
  analyse h uri =
    if (7 <=? length uri)%nat && equals (firstn 7 uri) (txt "http://") then analyse_absolute (set_scheme h false 80) (skipn 7 uri)
    else if (8 <=? length uri)%nat && equals (firstn 8 uri) (txt "https://") then analyse_absolute (set_scheme h true 443) (skipn 8 uri)
    else if contains (txt "://") uri then (h, HPE_INVALID_URL)
    else analyse_origin h uri.
Proof.
  intros P. unfold analyse. destruct (_ && _); [reflexivity|]. destruct (_ && _); [reflexivity|].
  destruct contains; [reflexivity|]. rewrite P. reflexivity.
Qed.

Lemma view_option s v o : option_map (view s) v = o -> view_text s v = or_else o [].
Proof. intros <-. destruct v as [[a n]|]; reflexivity. Qed.
Lemma or_else_slash (p : option (list Z)) : when p (fun p => exists q, p = 47 :: q) ->
  match or_else p [] with [] => txt "/" | p => p end = or_else p (txt "/").
Proof. destruct p as [p|]; [|reflexivity]. cbn. now intros [q ->]. Qed.

(** What is taken from a valid reference *)
Lemma take_ref_valid h r : valid r ->
  take_ref h (text_of r) (written r) =
  mkH (method h) (is_proxy h) (is_ssl h) (match NetrefSpec.port r with Some d => number d | None => HreqModel.port h end)
      (raw_host h) (raw_userinfo h) (or_else (path r) (txt "/")) (match or_else (query r) [] with [] => raw_query h | q => q end) (fields h).
Proof.
  intros V. destruct (written_views r []) as (W1 & W2 & W3 & W4 & W5). rewrite app_nil_r in *.
  unfold take_ref. rewrite (view_option _ _ _ W3), (view_option _ _ _ W4).
  rewrite or_else_slash.
  2:{ destruct V as (_ & _ & _ & V & _). destruct (path r); [apply V|exact I]. }
  f_equal. unfold written. cbn [r_port r_num]. destruct (NetrefSpec.port r) as [d|] eqn:P; cbn [len_view option_map]; [|reflexivity].
  destruct V as (_ & _ & V & _). rewrite P in V. destruct V as (V & _). destruct d as [|x d]; [congruence|reflexivity].
Qed.
Lemma parse_whole uri w n : parse_ref uri = (w, n) -> n = length uri -> uri <> [] ->
  exists r, valid r /\ uri = text_of r /\ w = written r.
Proof.
  intros P E N. destruct (parse_exists uri) as [(r & t & U & V & St)|Z0].
  - subst uri. rewrite (parse_valid r t V St) in P. injection P as <- <-. rewrite app_length in E.
    assert (t = []) as -> by (destruct t; [reflexivity|cbn in E; lia]). exists r. rewrite app_nil_r. auto.
  - rewrite P in Z0. cbn in Z0. destruct uri; [congruence|cbn in E; lia].
Qed.
Lemma stops_nil r : ref_stops r [].
Proof. unfold ref_stops. destruct (fragment r), (query r), (path r), (NetrefSpec.port r); cbn; auto. Qed.
Lemma parse_text r : valid r -> parse_ref (text_of r) = (written r, length (text_of r)).
Proof. intros V. rewrite <- (app_nil_r (text_of r)) at 1. apply parse_valid; [exact V|apply stops_nil]. Qed.
Lemma text_not_nil r : valid r -> text_of r <> [].
Proof. intros (H & _) E. unfold text_of in E. apply app_eq_nil in E as [E _]. destruct (bracketed r); [discriminate|congruence]. Qed.

(** The user information and the rest *)
Lemma absolute_split uri : exists user rest,
  uri = opt_text (fun u => u ++ [64]) user ++ rest
  /\ (match user with Some u => ~ In 64 u /\ ~ In 47 u | None => slash_first rest end)
  /\ forall h, analyse_absolute h uri =
       let h := mkH (method h) (is_proxy h) (is_ssl h) (HreqModel.port h) (raw_host h) (or_else user (raw_userinfo h)) (raw_path h) (raw_query h) (fields h) in
       let '(w, n) := parse_ref rest in
       if negb (n =? length rest)%nat then (h, HPE_INVALID_HOST)
       else (take_ref (set_host h (view_text rest (r_host w))) rest w, HPE_OK).
Proof.
  destruct (find_at uri) as [(F & N1 & N2)|(a & c & b & -> & C & N1 & N2 & F)].
  - exists None, uri. split; [reflexivity|]. split; [apply slash_first_spec; tauto|]. intros [] . unfold analyse_absolute. rewrite F. reflexivity.
  - unfold analyse_absolute. rewrite F. destruct (Z.eq_dec c 64) as [->|NC].
    + exists (Some a), b. split; [cbn; now rewrite <- app_assoc|]. split; [tauto|]. intros h.
      rewrite app_nth2, Nat.sub_diag by lia. cbn [nth].
      rewrite firstn_app, Nat.sub_diag, firstn_all, firstn_O, app_nil_r.
      rewrite skipn_app. replace (length a + 1 - length a)%nat with 1%nat by lia. rewrite skipn_all2 by lia. reflexivity.
    + assert (c = 47) as -> by (destruct C; congruence). exists None, (a ++ 47 :: b). split; [reflexivity|].
      split; [apply slash_first_spec; right; exists a, b; tauto|]. intros []. 
      rewrite app_nth2, Nat.sub_diag by lia. reflexivity.
Qed.

Lemma split_unique u v a b : ~ In 64 u -> ~ In 64 v -> (u : list Z) ++ 64 :: a = v ++ 64 :: b -> u = v /\ a = b.
Proof.
  revert v. induction u as [|x u IH]; intros [|y v] Nu Nv E; cbn in *.
  - injection E. auto.
  - injection E as <- E. tauto.
  - injection E as -> E. tauto.
  - injection E as -> E. destruct (IH v) as [-> ->]; auto.
Qed.
Lemma user_unique u1 r1 u2 r2 :
  opt_text (fun u => u ++ [64]) u1 ++ r1 = opt_text (fun u => u ++ [64]) u2 ++ r2 ->
  (match u1 with Some u => ~ In 64 u /\ ~ In 47 u | None => slash_first r1 end) ->
  (match u2 with Some u => ~ In 64 u /\ ~ In 47 u | None => slash_first r2 end) ->
  u1 = u2 /\ r1 = r2.
Proof.
  assert (X : forall u r s, s = (u ++ [64]) ++ r -> ~ In 64 u /\ ~ In 47 u -> slash_first s -> False).
  { intros u r s -> (N1 & N2) H. apply slash_first_spec in H as [[H _]|(a & b & E & H1 & H2)].
    - apply H. rewrite !in_app_iff. cbn. tauto.
    - rewrite <- app_assoc in E. cbn in E. revert a E H1 H2. induction u as [|x u IH]; intros [|y a] E H1 H2; cbn in *.
      + discriminate.
      + injection E as <- E. tauto.
      + injection E as -> E. tauto.
      + injection E as -> E. apply (IH ltac:(tauto) ltac:(tauto) a E); tauto. }
  intros E H1 H2. destruct u1 as [u1|], u2 as [u2|]; cbn [opt_text app] in E; cbv beta iota in H1, H2.
  - rewrite <- !app_assoc in E. cbn in E. destruct (split_unique _ _ _ _ (proj1 H1) (proj1 H2) E) as [-> ->]. auto.
  - exfalso. apply (X u1 r1 r2); auto.
  - exfalso. apply (X u2 r2 r1); auto.
  - auto.
Qed.

Lemma absolute_reads h user r : valid r ->
  (match user with Some u => ~ In 64 u /\ ~ In 47 u | None => slash_first (text_of r) end) ->
  raw_userinfo h = [] -> raw_query h = [] ->
  analyse_absolute h (opt_text (fun u => u ++ [64]) user ++ text_of r) =
  (mkH (method h) (is_proxy h) (is_ssl h) (match NetrefSpec.port r with Some d => number d | None => HreqModel.port h end)
      (host r) (or_else user []) (or_else (path r) (txt "/")) (or_else (query r) []) (fields h), HPE_OK).
Proof.
  intros V C Hu Hq. destruct (absolute_split (opt_text (fun u => u ++ [64]) user ++ text_of r)) as (u & rest & E & C' & R).
  destruct (user_unique _ _ _ _ E C C') as [<- <-]. rewrite R. cbn zeta. rewrite parse_text by exact V. rewrite Nat.eqb_refl. cbn [negb].
  rewrite take_ref_valid by exact V. f_equal. unfold set_host. cbn [method is_proxy is_ssl HreqModel.port raw_host raw_userinfo raw_path raw_query fields].
  rewrite Hu, Hq. destruct (written_views r []) as (W1 & _). rewrite app_nil_r in W1. rewrite (view_option _ _ _ W1). cbn [or_else].
  f_equal. destruct (or_else (query r) []); reflexivity.
Qed.

Definition hosts_some fs : hosts (some_fields fs) = HoutSpec.lookup (txt "Host") fs.
Proof.
  unfold hosts, HoutSpec.lookup, some_fields. induction fs as [|[n v] fs IH]; [reflexivity|]. cbn [map filter fst snd].
  rewrite HoutProps.same_equals. destruct equals; cbn [map]; rewrite IH; reflexivity.
Qed.

(** The reference that the parser makes of a target in origin form *)
Definition origin_ref (p : list Z) (q f : option (list Z)) : reference := mkReference [97] false None (Some p) q f.
Lemma origin_text p q f : 97 :: p ++ opt_text (fun x => [63] ++ x) q ++ opt_text (fun x => [35] ++ x) f = text_of (origin_ref p q f).
Proof. reflexivity. Qed.
Lemma origin_valid p q f : (exists p', p = 47 :: p') -> Forall (fun c => path_char c = true) p ->
  when q (Forall (fun c => query_char c = true)) -> when f (Forall (fun c => query_char c = true \/ c = 35)) -> valid (origin_ref p q f).
Proof.
  intros. unfold valid, origin_ref. cbn. split; [discriminate|]. split; [|split; [exact I|]]; [|tauto].
  constructor; [|constructor]. left. unfold letter_or_digit. lia.
Qed.

Lemma scheme_absent uri : ~ occurs (txt "://") uri ->
  (7 <=? length uri)%nat && equals (firstn 7 uri) (txt "http://") = false
  /\ (8 <=? length uri)%nat && equals (firstn 8 uri) (txt "https://") = false.
Proof.
  intros N. split; apply not_true_iff_false; intros H.
  - apply (equals_split 4 (txt "http")) in H as (s & _ & H); [|reflexivity]. apply N. rewrite H. exists s. eexists. reflexivity.
  - apply (equals_split 5 (txt "https")) in H as (s & _ & H); [|reflexivity]. apply N. rewrite H. exists s. eexists. reflexivity.
Qed.

Lemma analyse_complete h fs t q : bare h -> fields h = some_fields fs -> request_target fs t q ->
  analyse h t = (with_resource h q, HPE_OK).
Proof.
  intros (B1 & B2 & B3 & B4 & B5) F [T|T]; rewrite analyse_cases by exact B1.
  - destruct T as (s & user & r & V & -> & C & Sch & P1 & P2 & P3 & P4 & P5).
    unfold with_resource. rewrite P1, P2, P3, P4, P5. destruct Sch as [(S1 & -> & ->)|(S1 & -> & ->)].
    + destruct (same_split s (opt_text (fun u => u ++ [64]) user ++ text_of r) 4 (txt "http") S1 eq_refl) as (X1 & X2 & X3).
      change (4 + 3)%nat with 7%nat in *. change (txt "http" ++ txt "://") with (txt "http://") in X2.
      rewrite X1, X2, X3. cbn [andb]. rewrite absolute_reads; auto.
    + destruct (same_split s (opt_text (fun u => u ++ [64]) user ++ text_of r) 5 (txt "https") S1 eq_refl) as (X1 & X2 & X3).
      change (5 + 3)%nat with 8%nat in *. change (txt "https" ++ txt "://") with (txt "https://") in X2.
      rewrite X1, X2, X3. cbn [andb].
      replace (_ && equals (firstn 7 _) (txt "http://")) with false; [rewrite absolute_reads; auto|].
      symmetry. apply not_true_iff_false. intros H. apply (equals_split 4 (txt "http")) in H as (s' & H1 & H2); [|reflexivity].
      rewrite HoutProps.same_equals, name_equal, <- map_same in H1, S1.
      assert (L1 := f_equal (@List.length Z) H1). assert (L2 := f_equal (@List.length Z) S1). rewrite !map_length in L1, L2. cbn in L1, L2.
      destruct s as [|s0 [|s1 [|s2 [|s3 [|s4 [|]]]]]]; try discriminate. destruct s' as [|t0 [|t1 [|t2 [|t3 [|]]]]]; try discriminate.
  - destruct T as (p & qu & fr & -> & N & Hp & Cp & Cq & Cf & Ho & P1 & P2 & P3 & P4 & P5 & P6).
    destruct (scheme_absent _ N) as [-> ->]. replace (contains _ _) with false by (symmetry; now apply contains_false).
    unfold analyse_origin. destruct Hp as [p' ->]. cbn [app nth]. cbn [negb Z.eqb Pos.eqb].
    assert (V := origin_valid (47 :: p') qu fr (ex_intro _ p' eq_refl) Cp Cq Cf).
    pose proof (origin_text (47 :: p') qu fr) as E. cbn [app] in E. cbn zeta. rewrite E, (parse_text _ V). rewrite Nat.eqb_refl. cbn [negb].
    rewrite F, hosts_some, Ho, take_ref_valid by exact V. f_equal. unfold with_resource, set_host, origin_ref.
    cbn [method is_proxy is_ssl HreqModel.port raw_host raw_userinfo raw_path raw_query fields path query NetrefSpec.port].
    rewrite P1, P2, P3, P4, P5, P6, B1, B2, B3, B4, B5. f_equal. now destruct (or_else qu []).
Qed.

Lemma analyse_sound h fs t h' : bare h -> fields h = some_fields fs -> analyse h t = (h', HPE_OK) ->
  (exists q, request_target fs t q /\ h' = with_resource h q)
  \/ (raw_host h' = [] /\ exists s u, (HoutSpec.same s (txt "http") = true \/ HoutSpec.same s (txt "https") = true) /\ t = s ++ txt "://" ++ opt_text (fun u => u ++ [64]) u).
Proof.
  intros B F H. pose proof B as (B1 & B2 & B3 & B4 & B5). rewrite analyse_cases in H by exact B1.
  assert (ABS : forall k ssl port s, analyse_absolute (set_scheme h ssl port) (skipn (k + 3) t) = (h', HPE_OK) ->
    t = s ++ txt "://" ++ skipn (k + 3) t ->
    (raw_host h' = [] /\ exists u, t = s ++ txt "://" ++ opt_text (fun u => u ++ [64]) u) \/ exists user r, valid r /\ t = s ++ txt "://" ++ opt_text (fun u => u ++ [64]) user ++ text_of r
      /\ (match user with Some u => ~ In 64 u /\ ~ In 47 u | None => slash_first (text_of r) end)
      /\ h' = with_resource h (mkRes true ssl (match NetrefSpec.port r with Some d => number d | None => port end) (host r) (or_else user []) (or_else (path r) (txt "/")) (or_else (query r) []))).
  { intros k ssl port s A T. destruct (absolute_split (skipn (k + 3) t)) as (user & rest & E & C & R).
    pose proof A as A'. rewrite R in A'. cbn zeta in A'. destruct (parse_ref rest) as [w n] eqn:P.
    destruct (n =? length rest)%nat eqn:L; [|discriminate]. apply Nat.eqb_eq in L.
    destruct rest as [|x rest].
    { injection A' as <-. left. cbn in P. injection P as <- <-. split; [reflexivity|]. exists user. rewrite app_nil_r in E. now rewrite <- E. }
    destruct (parse_whole _ _ _ P L) as (r & V & Er & ->) ; [discriminate|]. rewrite Er in E, C.
    right. exists user, r. split; [exact V|]. split; [now rewrite <- E|]. split; [exact C|].
    rewrite E in A. rewrite (absolute_reads _ user r V C) in A by assumption. injection A as <-. reflexivity. }
  destruct (_ && equals (firstn 7 t) _) eqn:X.
  { pose proof (equals_split 4 (txt "http") t eq_refl X) as (s & S1 & S2).
    destruct (ABS 4%nat false 80 s H S2) as [[N (u & U)]|(user & r & V & T & C & ->)]; [right; split; [exact N|]; exists s, u; auto|]. left.
    eexists. split; [left|reflexivity]. exists s, user, r. cbn [q_ssl q_port q_proxy q_host q_user q_path q_query]. repeat (split; [assumption|]).
    split; [left|]; repeat split; auto. }
  destruct (_ && equals (firstn 8 t) _) eqn:X2.
  { pose proof (equals_split 5 (txt "https") t eq_refl X2) as (s & S1 & S2).
    destruct (ABS 5%nat true 443 s H S2) as [[N (u & U)]|(user & r & V & T & C & ->)]; [right; split; [exact N|]; exists s, u; auto|]. left.
    eexists. split; [left|reflexivity]. exists s, user, r. cbn [q_ssl q_port q_proxy q_host q_user q_path q_query]. repeat (split; [assumption|]).
    split; [right|]; repeat split; auto. }
  destruct (contains (txt "://") t) eqn:K; [discriminate|]. apply contains_false in K.
  unfold analyse_origin in H. destruct (nth 0 t 0 =? 47) eqn:Sl; [|discriminate]. cbn [negb] in H. cbn zeta in H.
  destruct t as [|c t]; [discriminate|]. cbn [nth] in Sl. apply Z.eqb_eq in Sl as ->.
  destruct (parse_ref (97 :: 47 :: t)) as [w n] eqn:P. destruct (n =? _)%nat eqn:L; [|discriminate]. apply Nat.eqb_eq in L. cbn [negb] in H.
  rewrite F, hosts_some in H. destruct (HoutSpec.lookup (txt "Host") fs) as [|v [|]] eqn:Ho; try discriminate. injection H as <-.
  destruct (parse_whole _ _ _ P L) as (r & V & E & ->); [discriminate|].
  rewrite E, take_ref_valid by exact V.
  assert (R : host r = [97] /\ bracketed r = false /\ NetrefSpec.port r = None /\ exists p, path r = Some (47 :: p)).
  { destruct V as (Vh & Vc & Vp & Vpa & _). unfold text_of in E. destruct (bracketed r) eqn:Br; [cbn in E; discriminate|].
    destruct (host r) as [|a [|b hh]] eqn:Hh; [congruence| |].
    - cbn [app] in E. injection E as <- E. split; [reflexivity|]. split; [reflexivity|].
      destruct (NetrefSpec.port r) as [d|]; [cbn in E; discriminate|]. split; [reflexivity|]. cbn [opt_text app] in E.
      destruct (path r) as [p|]; [|exfalso; cbn [opt_text app] in E; destruct (query r), (fragment r); cbn in E; discriminate].
      destruct Vpa as ((p' & ->) & _). now exists p'.
    - exfalso. cbn [app] in E. injection E as <- <- E. inversion Vc as [|? ? _ Vc']; subst. inversion Vc' as [|? ? Vc'' _]; subst.
      unfold letter_or_digit in Vc''. destruct Vc'' as [|[|]]; lia. }
  destruct r as [rh rb rp rpa rq rf]. cbn [host bracketed NetrefSpec.port path] in R. destruct R as (-> & -> & -> & p & ->).
  cbn in E. injection E as E.
  left. exists (mkRes false false 0 v [] (47 :: p) (or_else rq [])). split.
  - right. exists (47 :: p), rq, rf. cbn [q_host q_proxy q_ssl q_port q_user q_path q_query app].
    destruct V as (_ & _ & _ & V1 & V2 & V3). cbn [path query fragment when] in V1, V2, V3.
    split; [rewrite E; reflexivity|]. split; [exact K|]. split; [now exists p|]. tauto.
  - unfold with_resource, set_host. cbn. rewrite B1, B2, B3, B4, B5. f_equal. now destruct (or_else rq []).
Qed.

Lemma analyse_rest h t : is_proxy h = false ->
  method (fst (analyse h t)) = method h
  /\ match snd (analyse h t) with HPE_OK | HPE_INVALID_URL | HPE_INVALID_HOST | HPE_INVALID_PATH => True | _ => False end.
Proof.
  intros P. rewrite analyse_cases by exact P.
  assert (X : forall b n uri, method (fst (analyse_absolute (set_scheme h b n) uri)) = method h
    /\ match snd (analyse_absolute (set_scheme h b n) uri) with HPE_OK | HPE_INVALID_URL | HPE_INVALID_HOST | HPE_INVALID_PATH => True | _ => False end).
  { intros b n uri. destruct (absolute_split uri) as (u & r & _ & _ & ->). cbn zeta. destruct (parse_ref r). destruct negb; split; reflexivity || exact I. }
  destruct (_ && _); [apply X|]. destruct (_ && _); [apply X|]. destruct contains; [split; [reflexivity|exact I]|].
  unfold analyse_origin. destruct negb; [split; [reflexivity|exact I]|]. cbn zeta. destruct (parse_ref (97 :: t)). destruct negb; [split; [reflexivity|exact I]|].
  destruct (hosts (fields h)) as [|v [|]]; split; reflexivity || exact I.
Qed.

(** * Pieces *)
Arguments accepts_payload : simpl never.
Arguments estimate_size : simpl never.
Arguments fields_size : simpl never.
Definition size_field (x : list Z * option (list Z)) : Z := 4 + Z.of_nat (length (fst x)) + Z.of_nat (length (value_text (snd x))).
Lemma fields_size_app a b : fields_size (a ++ b) = fields_size a + fields_size b.
Proof. induction a as [|x a IH]; [reflexivity|]. cbn [app]. unfold fields_size in *. cbn [fold_right]. rewrite IH. lia. Qed.
Lemma fields_size_one x : fields_size [x] = size_field x.
Proof. unfold fields_size, size_field. cbn [fold_right]. lia. Qed.
Lemma fields_size_nonneg a : 0 <= fields_size a.
Proof. induction a as [|x a IH]; unfold fields_size in *; cbn [fold_right]; lia. Qed.
Lemma last_app {A} (l : list A) x : last_of (l ++ [x]) = Some x.
Proof. induction l as [|y l IH]; [reflexivity|]. cbn. destruct (l ++ [x]) eqn:E; [now destruct l|exact IH]. Qed.
Lemma set_last_app {A} (l : list A) x y : set_last (l ++ [x]) y = l ++ [y].
Proof. induction l as [|z l IH]; [reflexivity|]. cbn. destruct (l ++ [x]) eqn:E; [now destruct l|]. now rewrite IH. Qed.
Lemma last_none {A} (l : list A) : last_of l = None <-> l = [].
Proof. split; [|now intros ->]. induction l as [|x l IH]; [reflexivity|]. cbn. destruct l; [discriminate|]. intros H. now apply IH in H. Qed.
Lemma last_some {A} (l : list A) x : last_of l = Some x -> exists a, l = a ++ [x].
Proof.
  induction l as [|y l IH]; [discriminate|]. cbn. destruct l as [|z l]; [intros [= ->]; now exists []|].
  intros H. apply IH in H as [a ->]. now exists (y :: a).
Qed.

(** What a piece of a head or a body does if no limit is exceeded *)
Definition feed (h : headers) (c : call) : headers :=
  match c with
  | Url s => set_host h (raw_host h ++ s)
  | Field s =>
      let f := match last_of (fields h) with Some (_, None) => fields h | _ => fields h ++ [([], None)] end in
      match last_of f with Some (n, v) => set_fields h (set_last f (n ++ s, v)) | None => h end
  | Value s =>
      match last_of (fields h) with Some (n, v) => set_fields h (set_last (fields h) (n, Some (value_text v ++ s))) | None => h end
  | _ => h
  end.
Definition pfeed (p : parser) (c : call) : parser :=
  match c with
  | Body s => if accepts_payload (verb p) then set_payload p (payload p ++ s) else p
  | c => set_hd p (feed (hd p) c)
  end.
Definition pfeeds (p : parser) (cs : list call) : parser := fold_left pfeed cs p.

Definition quiet (c : call) : Prop := match c with Url _ | Field _ | Value _ | Body _ => True | _ => False end.
(** A piece is accepted. *)
Definition fits (L : limits) (p : parser) (c : call) : Prop :=
  match c with
  | Url _ | Field _ => estimate_size (hd (pfeed p c)) <= max_header_length L
  | Value _ => estimate_size (hd (pfeed p c)) <= max_header_length L /\ fields (hd p) <> []
  | Body _ => accepts_payload (verb p) = true -> Z.of_nat (length (payload (pfeed p c))) <= max_content_length L
  | _ => False
  end.
Fixpoint okseq (L : limits) (p : parser) (cs : list call) : Prop :=
  match cs with [] => True | c :: r => fits L p c /\ okseq L (pfeed p c) r end.

Lemma pfeed_keeps p c : err (pfeed p c) = err p /\ hreq (pfeed p c) = hreq p /\ close (pfeed p c) = close p /\ verb (pfeed p c) = verb p.
Proof. destruct c; cbn [pfeed]; try (split; [|split; [|split]]; reflexivity). destruct accepts_payload; split; [|split; [|split]| |split; [|split]]; reflexivity. Qed.
Lemma pfeeds_keeps p cs : err (pfeeds p cs) = err p /\ hreq (pfeeds p cs) = hreq p /\ close (pfeeds p cs) = close p /\ verb (pfeeds p cs) = verb p.
Proof.
  revert p. induction cs as [|c cs IH]; intros p; [cbn; auto|]. cbn [pfeeds fold_left]. destruct (IH (pfeed p c)) as (I1 & I2 & I3 & I4).
  destruct (pfeed_keeps p c) as (K1 & K2 & K3 & K4). unfold pfeeds in *. rewrite I1, I2, I3, I4. auto.
Qed.
Lemma pfeeds_app p a b : pfeeds p (a ++ b) = pfeeds (pfeeds p a) b.
Proof. apply fold_left_app. Qed.

Lemma size_set_fields h f : estimate_size (set_fields h f) = estimate_size h - fields_size (fields h) + fields_size f.
Proof. unfold estimate_size, set_fields. cbn. lia. Qed.

(** A piece makes the headers longer by its length, or by four more if it starts a header. *)
Lemma callback_quiet L p c : quiet c -> (match c with Value _ => fields (hd p) <> [] | _ => True end) ->
  (fits L p c /\ callback L p c = Next (pfeed p c)) \/ (~ fits L p c /\ callback L p c = Throws).
Proof.
  destruct c as [s|s|s| |s| |]; intros Q H; try contradiction; cbn [callback fits].
  - unfold on_url. cbn [pfeed feed hd set_hd]. unfold estimate_size. cbn [set_host raw_host raw_userinfo raw_path raw_query fields].
    rewrite app_length. destruct (_ <? _) eqn:E; [right|left]; (split; [lia|reflexivity]).
  - unfold on_header_field. cbn [pfeed feed hd set_hd].
    set (f := match last_of (fields (hd p)) with Some (_, None) => fields (hd p) | _ => fields (hd p) ++ [([], None)] end) in *.
    destruct (last_of f) as [[n v]|] eqn:Lf.
    + apply last_some in Lf as [a Ef]. rewrite Ef in *. rewrite set_last_app in *. rewrite !size_set_fields in *.
      rewrite !fields_size_app, !fields_size_one in *. unfold size_field in *. cbn [fst snd] in *. rewrite app_length in *.
      destruct (_ <? _) eqn:E; [right|left]; (split; [cbn [set_fields fields] in *; lia|reflexivity]).
    + exfalso. apply last_none in Lf. unfold f in Lf. destruct (last_of (fields (hd p))) as [[n [v|]]|] eqn:Z0.
      * now destruct (fields (hd p)).
      * rewrite Lf in Z0. discriminate.
      * now destruct (fields (hd p)).
  - unfold on_header_value. cbn [pfeed feed hd set_hd] in *. destruct (last_of (fields (hd p))) as [[n v]|] eqn:Lf; [|apply last_none in Lf; congruence].
    apply last_some in Lf as [a Ef]. rewrite Ef in *. rewrite set_last_app in *. rewrite size_set_fields. rewrite Ef.
    rewrite !fields_size_app, !fields_size_one. unfold size_field. cbn [fst snd value_text]. rewrite app_length.
    destruct (_ <? _) eqn:E; [right|left]; (split; [intuition lia|reflexivity]).
  - unfold on_body. cbn [pfeed] in *. destruct (accepts_payload (verb p)); [|left; split; [discriminate|reflexivity]]. cbn [payload set_payload]. rewrite app_length.
    destruct (_ <? _) eqn:E; [right|left]; (split; [intuition lia|reflexivity]).
Qed.
Lemma fits_quiet L p c : fits L p c -> quiet c /\ match c with Value _ => fields (hd p) <> [] | _ => True end.
Proof. destruct c; cbn; intuition. Qed.
Lemma callback_fits L p c : fits L p c -> callback L p c = Next (pfeed p c).
Proof. intros F. destruct (fits_quiet _ _ _ F) as [Q V]. destruct (callback_quiet L p c Q V) as [[_ H]|[H _]]; [exact H|contradiction]. Qed.

Lemma execute_ok L p cs more : err p = HPE_OK -> okseq L p cs -> execute L p (cs ++ more) = execute L (pfeeds p cs) more.
Proof.
  revert p. induction cs as [|c cs IH]; intros p E H; [reflexivity|]. destruct H as (F & H).
  cbn [app execute]. rewrite E, callback_fits by assumption. cbn [pfeeds fold_left]. apply IH; [|exact H].
  destruct (pfeed_keeps p c) as (-> & _). exact E.
Qed.

Lemma okseq_app L p a b : okseq L p (a ++ b) <-> okseq L p a /\ okseq L (pfeeds p a) b.
Proof.
  revert p. induction a as [|c a IH]; intros p; cbn [app okseq pfeeds fold_left]; [tauto|].
  rewrite IH. unfold pfeeds. tauto.
Qed.
Lemma okseq_quiet L p cs : okseq L p cs -> marks cs = O.
Proof.
  revert p. induction cs as [|c cs IH]; intros p H; [reflexivity|]. destruct H as (F & H). apply IH in H.
  unfold marks in *. cbn [filter]. destruct c; cbn in F; try contradiction; exact H.
Qed.

(** Taking from the buffer does not matter. *)
Lemma pfeed_payload p c d : pfeed (set_payload p d) c = set_payload (pfeed p c) (match c with Body s => if accepts_payload (verb p) then d ++ s else d | _ => d end).
Proof. destruct c; try reflexivity. cbn. destruct accepts_payload; reflexivity. Qed.
Lemma pfeeds_payload p cs d : pfeeds (set_payload p d) cs = set_payload (pfeeds p cs) (payload (pfeeds (set_payload p d) cs)).
Proof.
  revert p d. induction cs as [|c cs IH]; intros p d; [reflexivity|]. unfold pfeeds in *. cbn [fold_left]. rewrite pfeed_payload. apply IH.
Qed.
Lemma payload_cut p cs a d : payload p = a ++ d -> payload (pfeeds p cs) = a ++ payload (pfeeds (set_payload p d) cs).
Proof.
  revert p d. induction cs as [|c cs IH]; intros p d H; [exact H|]. unfold pfeeds in *. cbn [fold_left]. rewrite pfeed_payload. apply IH.
  destruct c; cbn; try exact H. destruct accepts_payload; [|exact H]. cbn. rewrite H. now rewrite app_assoc.
Qed.
Lemma okseq_payload L p cs d : okseq L p cs -> (length d <= length (payload p))%nat -> okseq L (set_payload p d) cs.
Proof.
  revert p d. induction cs as [|c cs IH]; intros p d H Hd; [exact I|]. destruct H as (F & H). cbn [okseq].
  rewrite pfeed_payload. set (d' := match c with Body s => _ | _ => d end).
  assert (Hd' : (length d' <= length (payload (pfeed p c)))%nat).
  { unfold d'. destruct c; cbn; try exact Hd. destruct accepts_payload; [|exact Hd]. cbn. rewrite !app_length. lia. }
  split; [|now apply IH]. destruct c; cbn [fits] in *; try exact F. rewrite pfeed_payload. cbn [set_payload payload verb] in *. intros Ac. specialize (F Ac).
  unfold d' in Hd'. lia.
Qed.

(** * Pieces that are a message *)
Lemma grows p c : quiet c -> estimate_size (hd p) <= estimate_size (hd (pfeed p c)).
Proof.
  destruct c as [s|s|s| |s| |]; intros Q; try contradiction; cbn [pfeed feed hd set_hd].
  - unfold estimate_size. cbn. rewrite app_length. lia.
  - set (f := match last_of (fields (hd p)) with Some (_, None) => fields (hd p) | _ => fields (hd p) ++ [([], None)] end).
    assert (F : fields_size (fields (hd p)) <= fields_size f).
    { unfold f. destruct (last_of (fields (hd p))) as [[n [v|]]|]; rewrite ?fields_size_app, ?fields_size_one; unfold size_field; cbn; lia. }
    destruct (last_of f) as [[n v]|] eqn:Lf; [|lia]. apply last_some in Lf as [a Ef]. rewrite Ef in *. rewrite set_last_app, size_set_fields.
    rewrite !fields_size_app, !fields_size_one in *. unfold size_field in *. cbn [fst snd] in *. rewrite app_length. lia.
  - destruct (last_of (fields (hd p))) as [[n v]|] eqn:Lf; [|lia]. apply last_some in Lf as [a Ef]. rewrite Ef. rewrite set_last_app, size_set_fields, Ef.
    rewrite !fields_size_app, !fields_size_one. unfold size_field. cbn [fst snd value_text]. rewrite app_length. lia.
  - destruct accepts_payload; cbn; lia.
Qed.
Lemma payload_grows p c : (length (payload p) <= length (payload (pfeed p c)))%nat.
Proof. destruct c; cbn; try lia. destruct accepts_payload; cbn; rewrite ?app_length; lia. Qed.
Lemma payload_grows_all p cs : (length (payload p) <= length (payload (pfeeds p cs)))%nat.
Proof.
  revert p. induction cs as [|c cs IH]; intros p; [cbn; lia|]. unfold pfeeds in *. cbn [fold_left].
  pose proof (payload_grows p c). specialize (IH (pfeed p c)). lia.
Qed.
(** Shape: all pieces, and no value without a name *)
Fixpoint shape (named : bool) (cs : list call) : Prop :=
  match cs with
  | [] => True
  | c :: r => match c with
              | Url _ | Body _ => shape named r
              | Field _ => shape true r
              | Value _ => named = true /\ shape named r
              | _ => False
              end
  end.
Lemma grows_all p cs b : shape b cs -> estimate_size (hd p) <= estimate_size (hd (pfeeds p cs)) /\ (length (payload p) <= length (payload (pfeeds p cs)))%nat.
Proof.
  revert p b. induction cs as [|c cs IH]; intros p b H; [cbn; lia|]. unfold pfeeds in *. cbn [fold_left].
  assert (Q : quiet c /\ exists b', shape b' cs) by (destruct c; cbn in *; try contradiction; split; try exact I; try (exists b; tauto); now exists true).
  destruct Q as (Q & b' & Sh). destruct (IH (pfeed p c) b' Sh). pose proof (grows p c Q). pose proof (payload_grows p c). lia.
Qed.
Lemma shape_next p c b cs : shape b (c :: cs) -> (b = true -> fields (hd p) <> []) ->
  quiet c /\ (match c with Value _ => fields (hd p) <> [] | _ => True end)
  /\ exists b', shape b' cs /\ (b' = true -> fields (hd (pfeed p c)) <> []).
Proof.
  intros H B. destruct c as [s|s|s| |s| |]; cbn in H; try contradiction; (split; [exact I|]).
  - split; [exact I|]. exists b. split; [exact H|]. exact B.
  - split; [exact I|]. exists true. split; [exact H|]. intros _. cbn [pfeed feed hd set_hd].
    set (f := match last_of (fields (hd p)) with Some (_, None) => fields (hd p) | _ => fields (hd p) ++ [([], None)] end).
    destruct (last_of f) as [[n v]|] eqn:Lf.
    + apply last_some in Lf as [a ->]. rewrite set_last_app. cbn. now destruct a.
    + apply last_none in Lf. exfalso. unfold f in Lf. destruct (last_of (fields (hd p))) as [[n [v|]]|] eqn:Z0.
      * now destruct (fields (hd p)).
      * rewrite Lf in Z0. discriminate.
      * now destruct (fields (hd p)).
  - split; [tauto|]. exists b. split; [tauto|]. intros E. cbn [pfeed feed hd set_hd]. apply B in E.
    destruct (last_of (fields (hd p))) as [[n v]|] eqn:Lf; [|exact E]. apply last_some in Lf as [a ->]. rewrite set_last_app. cbn. now destruct a.
  - split; [exact I|]. exists b. split; [exact H|]. intros E. cbn. destruct accepts_payload; cbn; auto.
Qed.
Lemma okseq_shape L p cs b : shape b cs -> (b = true -> fields (hd p) <> []) ->
  (Forall (fun c => match c with Body _ => True | _ => False end) cs \/ estimate_size (hd (pfeeds p cs)) <= max_header_length L) ->
  Z.of_nat (length (payload (pfeeds p cs))) <= max_content_length L -> okseq L p cs.
Proof.
  revert p b. induction cs as [|c cs IH]; intros p b H B H1 H2; [exact I|]. cbn [okseq].
  destruct (shape_next p c b cs H B) as (Q & V & b' & Sh & B'). unfold pfeeds in H1, H2. cbn [fold_left] in H1, H2.
  destruct (grows_all (pfeed p c) cs b' Sh) as [G1 G2]. unfold pfeeds in G1, G2. split.
  - destruct c; try contradiction; cbn [fits]; try (intros _; lia).
    all: destruct H1 as [H1|H1]; [inversion H1; contradiction|]. all: try lia. split; [lia|exact V].
  - apply (IH _ b'); auto. destruct H1 as [H1|H1]; [left; now inversion H1|now right].
Qed.
(** Either all pieces are accepted, or an exception is thrown. *)
Lemma okseq_or L p cs b : err p = HPE_OK -> shape b cs -> (b = true -> fields (hd p) <> []) ->
  okseq L p cs \/ (~ okseq L p cs /\ forall more, execute L p (cs ++ more) = Thrown).
Proof.
  revert p b. induction cs as [|c cs IH]; intros p b E H B; [left; exact I|].
  destruct (shape_next p c b cs H B) as (Q & V & b' & Sh & B'). cbn [okseq app execute].
  destruct (callback_quiet L p c Q V) as [[F C]|[F C]].
  - assert (E' : err (pfeed p c) = HPE_OK) by (destruct (pfeed_keeps p c) as (-> & _); exact E). destruct (IH (pfeed p c) b' E' Sh B') as [O|[O T]].
    + left. auto.
    + right. split; [tauto|]. intros more. rewrite E, C. apply T.
  - right. split; [tauto|]. intros more. rewrite E, C. reflexivity.
Qed.
Lemma okseq_size L p cs : okseq L p cs -> Forall (fun c => match c with Body _ => True | _ => False end) cs \/ estimate_size (hd (pfeeds p cs)) <= max_header_length L.
Proof.
  revert p. induction cs as [|c cs IH]; intros p H; [left; constructor|]. destruct H as [F H]. unfold pfeeds in *. cbn [fold_left].
  destruct (IH _ H) as [I|I]; [|now right]. destruct c as [s|s|s| |s| |]; cbn [fits] in F; try contradiction; try (left; constructor; [exact Logic.I|exact I]).
  all: right; assert (X : forall q, hd (fold_left pfeed cs q) = hd q) by (clear - I; induction I as [|c cs Hc I IH]; intros q; [reflexivity|]; cbn [fold_left]; rewrite IH; destruct c; try contradiction; cbn; destruct accepts_payload; reflexivity).
  all: rewrite X; tauto.
Qed.
Lemma okseq_payload_size L p cs : okseq L p cs -> payload (pfeeds p cs) = payload p \/ Z.of_nat (length (payload (pfeeds p cs))) <= max_content_length L.
Proof.
  revert p. induction cs as [|c cs IH]; intros p H; [left; reflexivity|]. destruct H as [F H]. unfold pfeeds in *. cbn [fold_left].
  destruct (IH _ H) as [I|I]; [|now right]. rewrite I. destruct c as [s|s|s| |s| |]; try (left; reflexivity). cbn [fits] in F. cbn [pfeed] in *.
  destruct accepts_payload; [right; now apply F|now left].
Qed.

Lemma feeds_urls p ps : pfeeds p (map Url ps) = set_hd p (set_host (hd p) (raw_host (hd p) ++ List.concat ps)).
Proof.
  revert p. induction ps as [|s ps IH]; intros p; cbn [map List.concat].
  - rewrite app_nil_r. destruct p as [? []]; reflexivity.
  - unfold pfeeds in *. cbn [fold_left]. rewrite IH. cbn. unfold set_host. cbn. now rewrite <- app_assoc.
Qed.
Lemma feeds_bodies p ps : pfeeds p (map Body ps) = set_payload p (payload p ++ if accepts_payload (verb p) then List.concat ps else []).
Proof.
  revert p. induction ps as [|s ps IH]; intros p; cbn [map List.concat].
  - destruct accepts_payload; rewrite app_nil_r; destruct p; reflexivity.
  - unfold pfeeds in *. cbn [fold_left pfeed]. destruct (accepts_payload (verb p)) eqn:E; rewrite IH; cbn [verb set_payload payload]; rewrite E; [|reflexivity].
    cbn. now rewrite <- app_assoc.
Qed.
(** The last header, if any, has its value. *)
Definition settled (f : list (list Z * option (list Z))) : Prop := match last_of f with Some (_, None) => False | _ => True end.
Lemma feeds_names p f n ps : fields (hd p) = f ++ [(n, None)] ->
  pfeeds p (map Field ps) = set_hd p (set_fields (hd p) (f ++ [(n ++ List.concat ps, None)])).
Proof.
  revert p n. induction ps as [|s ps IH]; intros p n H; cbn [map List.concat].
  - rewrite app_nil_r, <- H. destruct p as [? []]; reflexivity.
  - unfold pfeeds in *. cbn [fold_left pfeed feed]. rewrite H, last_app. cbv beta iota. rewrite last_app, set_last_app.
    rewrite (IH _ (n ++ s)) by reflexivity. cbn. now rewrite <- app_assoc.
Qed.
Lemma feeds_values p f n v ps : fields (hd p) = f ++ [(n, Some v)] ->
  pfeeds p (map Value ps) = set_hd p (set_fields (hd p) (f ++ [(n, Some (v ++ List.concat ps))])).
Proof.
  revert p v. induction ps as [|s ps IH]; intros p v H; cbn [map List.concat].
  - rewrite app_nil_r, <- H. destruct p as [? []]; reflexivity.
  - unfold pfeeds in *. cbn [fold_left pfeed feed]. rewrite H, last_app. cbv beta iota. rewrite set_last_app.
    rewrite (IH _ (v ++ s)) by reflexivity. cbn. now rewrite <- app_assoc.
Qed.
Lemma feeds_field p f cs : settled (fields (hd p)) -> field_calls f cs ->
  pfeeds p cs = set_hd p (set_fields (hd p) (fields (hd p) ++ [(fst f, Some (snd f))])).
Proof.
  intros St (a & b & (pa & Na & Ca & ->) & (pb & Nb & Cb & ->) & ->). rewrite pfeeds_app.
  destruct pa as [|s pa]; [congruence|]. destruct pb as [|t pb]; [congruence|]. cbn [map List.concat] in *.
  assert (E : pfeeds p (map Field (s :: pa)) = set_hd p (set_fields (hd p) (fields (hd p) ++ [(fst f, None)]))).
  { unfold pfeeds. cbn [map fold_left]. fold (pfeeds (pfeed p (Field s)) (map Field pa)).
    assert (E : pfeed p (Field s) = set_hd p (set_fields (hd p) (fields (hd p) ++ [(s, None)]))).
    { cbn [pfeed feed]. unfold settled in St. destruct (last_of (fields (hd p))) as [[n [v|]]|]; try contradiction; rewrite last_app, set_last_app; reflexivity. }
    rewrite E, (feeds_names _ (fields (hd p)) s) by reflexivity. cbn. rewrite Ca. reflexivity. }
  cbn [map] in E. rewrite E. unfold pfeeds. cbn [map fold_left]. fold (pfeeds (pfeed (set_hd p (set_fields (hd p) (fields (hd p) ++ [(fst f, None)]))) (Value t)) (map Value pb)).
  assert (E2 : pfeed (set_hd p (set_fields (hd p) (fields (hd p) ++ [(fst f, None)]))) (Value t) = set_hd p (set_fields (hd p) (fields (hd p) ++ [(fst f, Some t)]))).
  { cbn [pfeed feed hd set_hd set_fields fields]. rewrite last_app, set_last_app. reflexivity. }
  rewrite E2, (feeds_values _ (fields (hd p)) (fst f) t) by reflexivity. cbn. rewrite Cb. reflexivity.
Qed.
Lemma feeds_fields p fs cs : settled (fields (hd p)) -> fields_calls fs cs ->
  pfeeds p cs = set_hd p (set_fields (hd p) (fields (hd p) ++ some_fields fs)).
Proof.
  intros St (css & F & ->). revert p St. induction F as [|f c fs css Hf F IH]; intros p St.
  - cbn. rewrite app_nil_r. destruct p as [? []]; reflexivity.
  - cbn [List.concat]. rewrite pfeeds_app, (feeds_field p f c St Hf), IH.
    + cbn. now rewrite <- app_assoc.
    + cbn. unfold settled. now rewrite last_app.
Qed.
Lemma settled_some fs : settled (some_fields fs).
Proof.
  unfold settled. destruct (last_of (some_fields fs)) as [[n v]|] eqn:E; [|exact I]. apply last_some in E as [a E].
  assert (I : In (n, v) (some_fields fs)) by (rewrite E; apply in_app_iff; right; now left). unfold some_fields in I. apply in_map_iff in I as (x & H & _). now injection H as _ <-.
Qed.
Lemma shape_app b a c : shape b a -> (forall b', (b = true -> b' = true) -> shape b' c) -> shape b (a ++ c).
Proof.
  revert b. induction a as [|x a IH]; intros b H H2; [apply H2; auto|]. destruct x; cbn in *; try contradiction; try (apply IH; auto; fail).
  destruct H. split; [assumption|]. now apply IH.
Qed.
Lemma shape_map k b ps : (k = Url \/ k = Body \/ k = Field \/ (k = Value /\ b = true)) -> shape b (map k ps).
Proof.
  intros H. revert b H. induction ps as [|s ps IH]; intros b H; [exact I|]. destruct H as [->|[->|[->|[-> ->]]]]; cbn; try (apply IH; auto; fail).
  split; [reflexivity|]. apply IH. auto.
Qed.
Lemma shape_fields b fs cs : fields_calls fs cs -> shape b cs.
Proof.
  intros (css & F & ->). revert b. induction F as [|f c fs css (x & y & (px & Nx & _ & ->) & (py & _ & _ & ->) & ->) F IH]; intros b; [exact I|].
  cbn [List.concat]. apply shape_app; [|intros; apply IH]. destruct px as [|s px]; [congruence|]. cbn [map app shape].
  apply shape_app; [apply shape_map; auto|]. intros b' Hb. apply shape_map. right. right. right. split; [reflexivity|]. apply Hb. reflexivity.
Qed.

(** Heads and tails *)
Definition head_state (m : message) : headers := mkH [] false false 0 (m_target m) [] [] [] (some_fields (m_fields m)).
Lemma feeds_head m cs p : head_calls m cs -> hd p = no_headers -> payload p = [] ->
  shape false cs /\ pfeeds p cs = set_hd p (head_state m).
Proof.
  intros (u & f & (ps & Np & Cu & ->) & F & ->) Hp Hd. split.
  - apply shape_app; [apply shape_map; auto|]. intros. now apply (shape_fields _ (m_fields m)).
  - rewrite pfeeds_app, feeds_urls, (feeds_fields _ (m_fields m)); auto.
    + rewrite Hp, Cu. reflexivity.
    + rewrite Hp. exact I.
Qed.
Lemma accepts_spec m : accepts_payload (m_method m) = true <-> In (m_method m) [txt "POST"; txt "PUT"; txt "PATCH"].
Proof.
  unfold accepts_payload. rewrite existsb_exists. split.
  - intros (x & H1 & H2). destruct list_eq_dec; [now subst|discriminate].
  - intros H. exists (m_method m). split; [exact H|]. now destruct list_eq_dec.
Qed.
Lemma payload_of_eq m : (if accepts_payload (m_method m) then m_body m else []) = payload_of m.
Proof. unfold payload_of. destruct in_dec as [H|H]; rewrite <- accepts_spec in H; destruct accepts_payload; try congruence. Qed.
Lemma feeds_tail m q cs p : tail_calls m cs -> hd p = headers_of m q (m_fields m) -> payload p = [] -> verb p = m_method m ->
  shape false cs /\ pfeeds p cs = set_payload (set_hd p (headers_of m q (m_fields m ++ m_trailers m))) (payload_of m).
Proof.
  intros (b & f & (ps & Cb & ->) & F & ->) Hp Hd Hv. split.
  - apply shape_app; [apply shape_map; auto|]. intros. now apply (shape_fields _ (m_trailers m)).
  - rewrite pfeeds_app, feeds_bodies, (feeds_fields _ (m_trailers m)); auto.
    + cbn. rewrite Hp, Hd, Hv, Cb, payload_of_eq. unfold set_payload, set_hd, set_fields, headers_of. cbn. unfold some_fields. now rewrite map_app.
    + cbn. rewrite Hp. apply settled_some.
Qed.
Lemma some_size fs : fields_size (some_fields fs) = field_size fs.
Proof. induction fs as [|[n v] fs IH]; [reflexivity|]. unfold fields_size, field_size in *. cbn [some_fields map fold_right fst snd value_text]. cbn [some_fields map] in IH. unfold some_fields in IH. rewrite IH. lia. Qed.
Lemma field_size_app a b : field_size (a ++ b) = field_size a + field_size b.
Proof. rewrite <- !some_size. unfold some_fields. now rewrite map_app, fields_size_app. Qed.

(** * Sessions *)
Lemma parse_all L p cs : err p = HPE_OK -> okseq L p cs -> parse L p cs = Left (pfeeds p cs) [].
Proof.
  intros E H. unfold parse. rewrite <- (app_nil_r cs) at 1. rewrite execute_ok by assumption.
  destruct (pfeeds_keeps p cs) as (K & _). cbn [execute]. rewrite K, E. unfold unpause. now rewrite K, E.
Qed.
Lemma parse_head L p r m q cs : err p = HPE_OK -> okseq L p r -> hd (pfeeds p r) = head_state m ->
  request_target (m_fields m) (m_target m) q -> (length (m_method m) <= 7)%nat ->
  parse L p (r ++ Headers_complete (m_method m) (m_keep m) :: cs) =
  Left (mkP HPE_OK (headers_of m q (m_fields m)) (payload (pfeeds p r)) Hreq_headers_done (negb (m_keep m)) (m_method m)) cs.
Proof.
  intros E H Hh T Lm. unfold parse. rewrite execute_ok by assumption. destruct (pfeeds_keeps p r) as (K & _).
  cbn [execute callback]. rewrite K, E. unfold on_headers_complete.
  replace (8 <=? length (m_method m))%nat with false by (symmetry; apply Nat.leb_gt; lia).
  rewrite Hh. cbn [raw_host]. rewrite firstn_all2 by lia.
  rewrite (analyse_complete _ (m_fields m) (m_target m) q).
  - cbn [execute err]. destruct cs; reflexivity.
  - cbn. unfold bare. cbn. auto.
  - reflexivity.
  - exact T.
Qed.
Lemma parse_tail L p r cs : err p = HPE_OK -> okseq L p r ->
  parse L p (r ++ Message_complete :: cs) =
  Left (mkP HPE_OK (hd (pfeeds p r)) (payload (pfeeds p r)) Hreq_payload_done (close p) (verb p)) cs.
Proof.
  intros E H. unfold parse. rewrite execute_ok by assumption. destruct (pfeeds_keeps p r) as (K1 & _ & K3 & K4).
  cbn [execute callback]. rewrite K1, E. unfold on_message_complete. rewrite K3, K4. cbn [execute err]. destruct cs; reflexivity.
Qed.

(** Histories *)
Fixpoint carry (taken : list Z) (tr : list event) : list Z :=
  match tr with
  | [] => taken
  | On_stream t :: tr => carry (taken ++ t) tr
  | On_finish _ _ _ :: tr => carry [] tr
  | _ :: tr => carry taken tr
  end.
Lemma whole_app t a b : whole_payloads t (a ++ b) = whole_payloads t a ++ whole_payloads (carry t a) b.
Proof. revert t. induction a as [|e a IH]; intros t; [reflexivity|]. destruct e; cbn [app whole_payloads carry]; rewrite IH; reflexivity. Qed.
Lemma carry_app t a b : carry t (a ++ b) = carry (carry t a) b.
Proof. revert t. induction a as [|e a IH]; intros t; [reflexivity|]. destruct e; cbn [app carry]; apply IH. Qed.

Lemma parse_big L p r b cs : err p = HPE_OK -> shape b r -> (b = true -> fields (hd p) <> []) -> ~ okseq L p r -> parse L p (r ++ cs) = Thrown.
Proof. intros E Sh B N. destruct (okseq_or L p r b E Sh B) as [O|[_ T]]; [contradiction|]. unfold parse. now rewrite T. Qed.

(** An error *)
Definition wrong (e : errno) : Prop := match e with HPE_OK | HPE_PAUSED => False | _ => True end.
Lemma parse_wrong L p r c cs p' : err p = HPE_OK -> okseq L p r -> callback L (pfeeds p r) c = Next p' -> wrong (err p') ->
  parse L p (r ++ c :: cs) = Left p' cs /\ is_error p' = true.
Proof.
  intros E O C W. unfold parse. rewrite execute_ok by assumption. destruct (pfeeds_keeps p r) as (K & _). cbn [execute]. rewrite K, E, C.
  unfold is_error, wrong in *. destruct cs; cbn [execute]; unfold unpause; destruct (err p') eqn:X; try contradiction; rewrite X; auto.
Qed.

(** Names in a list of pieces: what has been read of a head is enough to continue. *)
Lemma shape_rest p a c b : shape b (a ++ c) -> (b = true -> fields (hd p) <> []) ->
  exists b', shape b' c /\ (b' = true -> fields (hd (pfeeds p a)) <> []).
Proof.
  revert p b. induction a as [|x a IH]; intros p b H B; [exists b; auto|]. cbn [app] in H.
  destruct (shape_next p x b _ H B) as (_ & _ & b' & Sh & B'). exact (IH (pfeed p x) b' Sh B').
Qed.

Section Delivery.
  Variables (L : limits) (A : application).
  Hypothesis (PA : plain A) (L0 : 0 <= max_header_length L) (L1 : 0 <= max_content_length L).

  Definition fresh_parser (p : parser) : Prop := err p = HPE_OK /\ hreq p = Hreq_new /\ close p = false.
  Definition after_parser (m : message) (p : parser) : Prop := err p = HPE_OK /\ hreq p = Hreq_headers_done /\ close p = negb (m_keep m) /\ verb p = m_method m.
  (** Where a session is in a stream: the calls to come, and what is still to be told *)
  Inductive position (s : session) : list call -> list event -> Prop :=
  | At_end : fresh_parser (par s) -> carry [] (trace s) = [] -> position s [] []
  | In_head m q r tl evs :
      fresh_parser (par s) -> carry [] (trace s) = [] ->
      okseq L (par s) r -> hd (pfeeds (par s) r) = head_state m -> payload (pfeeds (par s) r) = [] -> acceptable_head L m q -> tail_stream L A m q tl evs ->
      position s (r ++ Headers_complete (m_method m) (m_keep m) :: tl) (told_head m q :: evs)
  | In_bad_head r c junk p' :
      fresh_parser (par s) -> okseq L (par s) r -> callback L (pfeeds (par s) r) c = Next p' -> wrong (err p') ->
      position s (r ++ c :: junk) [On_error (is_head p') (status_of (err p'))]
  | In_long_head b r junk :
      fresh_parser (par s) -> shape b r -> (b = true -> fields (hd (par s)) <> []) -> ~ okseq L (par s) r ->
      position s (r ++ junk) [Exception]
  | In_tail m q r rest evs :
      after_parser m (par s) ->
      okseq L (par s) r -> hd (pfeeds (par s) r) = headers_of m q (m_fields m ++ m_trailers m) ->
      carry [] (trace s) ++ payload (pfeeds (par s) r) = payload_of m -> stream L A rest evs ->
      position s (r ++ Message_complete :: rest) (told_end m q :: evs)
  | In_bad_tail m r e junk :
      after_parser m (par s) -> okseq L (par s) r -> method (hd (pfeeds (par s) r)) = m_method m ->
      position s (r ++ Fail e :: junk) [On_error (was_head m) (error_status e)]
  | In_long_tail m b r junk :
      after_parser m (par s) -> shape b r -> (b = true -> fields (hd (par s)) <> []) -> ~ okseq L (par s) r -> (forall tr, a_take A tr = O) ->
      position s (r ++ junk) [Exception]
  | Failed todo b st : is_error (par s) = true -> In (On_error b st) (trace s) -> position s todo []
  | Gone todo : gone s = true -> In Exception (trace s) -> position s todo [].

  Lemma okseq_head m h p : head_calls m h -> hd p = no_headers -> payload p = [] -> head_fits L m -> okseq L p h.
  Proof.
    intros Hh Hp Hd Hf. destruct (feeds_head m h p Hh Hp Hd) as [Sh Fe]. apply (okseq_shape _ _ _ false Sh); [discriminate| |].
    - right. rewrite Fe. cbn. unfold estimate_size, head_state. cbn. rewrite some_size. unfold head_fits in Hf. lia.
    - rewrite Fe. cbn. rewrite Hd. cbn. lia.
  Qed.
  Lemma stream_position s cs evs : fresh_parser (par s) -> payload (par s) = [] -> hd (par s) = no_headers -> carry [] (trace s) = [] ->
    stream L A cs evs -> position s cs evs.
  Proof.
    intros F F2 Hh C [|m q h tl evs' Hm Ac Ht|m h h2 e junk Hm Hf|m h junk Hm Hf Hl|m h junk Hm Hf Hl Hn|m h junk Hm Hf].
    - now apply At_end.
    - pose proof F as (F1 & F3 & F4). destruct (feeds_head m h (par s) Hm Hh F2) as [Sh Fe].
      apply In_head; auto.
      + apply (okseq_head m); auto. apply Ac.
      + now rewrite Fe.
      + rewrite Fe. exact F2.
    - pose proof F as (F1 & F3 & F4). assert (O := okseq_head m _ _ Hm Hh F2 Hf). apply okseq_app in O as [O _].
      assert (M : method (hd (pfeeds (par s) h)) = []).
      { assert (X : forall p, method (hd (pfeeds p h)) = method (hd p)).
        { clear. induction h as [|c h IH]; intros p; [reflexivity|]. unfold pfeeds in *. cbn [fold_left]. rewrite IH.
          destruct c; cbn [pfeed feed set_hd hd]; try reflexivity; repeat match goal with |- context [match ?x with _ => _ end] => destruct x; try reflexivity end. }
        rewrite X, Hh. reflexivity. }
      pose proof (In_bad_head s h (Fail e) junk _ F O eq_refl) as P. cbn [set_err err is_head hd] in P.
      replace (On_error false (error_status e)) with (On_error (is_head (set_err (pfeeds (par s) h) (match e with HPE_OK | HPE_PAUSED => HPE_OTHER | e => e end))) (status_of (match e with HPE_OK | HPE_PAUSED => HPE_OTHER | e => e end))).
      { apply P. destruct e; exact I. }
      f_equal; [|destruct e; reflexivity]. unfold is_head. cbn [set_err hd]. rewrite M. reflexivity.
    - pose proof F as (F1 & F3 & F4). assert (O := okseq_head m _ _ Hm Hh F2 Hf).
      pose proof (In_bad_head s h (Headers_complete (m_method m) (m_keep m)) junk _ F O eq_refl) as P.
      unfold on_headers_complete in P. replace (8 <=? length (m_method m))%nat with true in P by (symmetry; apply Nat.leb_le; lia).
      cbn [err] in P. specialize (P I). unfold is_head in P. cbn [hd method] in P. destruct list_eq_dec as [E|E]; [|exact P].
      exfalso. assert (X := f_equal (@List.length Z) E). rewrite firstn_length, Nat.min_l in X by lia. discriminate X.
    - pose proof F as (F1 & F3 & F4). assert (O := okseq_head m _ _ Hm Hh F2 Hf).
      pose proof (In_bad_head s h (Headers_complete (m_method m) (m_keep m)) junk _ F O eq_refl) as P.
      unfold on_headers_complete in P. replace (8 <=? length (m_method m))%nat with false in P by (symmetry; apply Nat.leb_gt; lia).
      destruct (feeds_head m h (par s) Hm Hh F2) as [Sh Fe]. rewrite Fe in P. cbn [set_hd hd head_state is_proxy is_ssl HreqModel.port raw_host raw_userinfo raw_path raw_query fields set_host method payload hreq close] in P.
      rewrite firstn_all2 in P by lia.
      match type of P with context [analyse ?hh ?tt] => set (h0 := hh) in P; pose proof (analyse_rest h0 tt eq_refl) as [Xm Xe]; pose proof (analyse_sound h0 (m_fields m) tt) as Snd; destruct (analyse h0 tt) as [h' e] eqn:Ea end.
      cbn [fst snd] in Xm, Xe. unfold is_head in P. cbn [hd err] in P.
      assert (W : method h' = m_method m) by (rewrite Xm; reflexivity).
      destruct e; try contradiction.
      + exfalso. destruct Hn as [N1 N2]. destruct (Snd h') as [(q & T & _)|(_ & T)]; auto; [unfold bare; cbn; auto|]. exact (N1 q T).
      + specialize (P I). cbn [err hd] in P. rewrite W in P. exact P.
      + specialize (P I). cbn [err hd] in P. rewrite W in P. exact P.
      + specialize (P I). cbn [err hd] in P. rewrite W in P. exact P.
    - pose proof F as (F1 & F3 & F4). destruct (feeds_head m h (par s) Hm Hh F2) as [Sh Fe].
      apply (In_long_head _ false); auto; [discriminate|]. intros O. apply Hf. apply okseq_size in O as [O|O].
      + exfalso. destruct Hm as (u & f & (ps & Np & _ & ->) & _ & ->). destruct ps; [congruence|]. inversion O. contradiction.
      + rewrite Fe in O. cbn in O. unfold estimate_size, head_state in O. cbn in O. rewrite some_size in O. unfold head_fits. lia.
  Qed.

  Lemma tail_position s m q cs evs : after_parser m (par s) -> hd (par s) = headers_of m q (m_fields m) -> payload (par s) = [] -> carry [] (trace s) = [] ->
    tail_stream L A m q cs evs -> position s cs evs.
  Proof.
    intros F Hh Hd C H. pose proof F as (F1 & F2 & F3 & F4).
    assert (Ok : forall t, tail_calls m t -> tail_fits L m q -> okseq L (par s) t).
    { intros t Ht [T1 T2]. destruct (feeds_tail m q t (par s) Ht Hh Hd F4) as [Sh Fe]. apply (okseq_shape _ _ _ false Sh); [discriminate| |].
      - destruct T1 as [T1|T1].
        + left. destruct Ht as (b & f & (ps & _ & ->) & (css & Fs & ->) & ->). rewrite T1 in Fs. inversion Fs; subst. cbn. rewrite app_nil_r. apply Forall_forall. intros x Hx. apply in_map_iff in Hx as (y & <- & _). exact I.
        + right. rewrite Fe. cbn. unfold estimate_size, headers_of. cbn. rewrite some_size, field_size_app. unfold resource_size in T1. lia.
      - rewrite Fe. exact T2. }
    destruct H as [m q t rest evs Ht Tf St|m q t t2 e junk Ht Tf|m q t junk Ht Tf Tk].
    - destruct (feeds_tail m q t (par s) Ht Hh Hd F4) as [Sh Fe]. apply In_tail; auto.
      + now rewrite Fe.
      + rewrite C, Fe. reflexivity.
    - assert (O := Ok _ Ht Tf). apply okseq_app in O as [O _]. apply (In_bad_tail s m); auto.
      assert (X : forall p, method (hd (pfeeds p t)) = method (hd p)).
      { clear. induction t as [|c h IH]; intros p; [reflexivity|]. unfold pfeeds in *. cbn [fold_left]. rewrite IH.
        destruct c; cbn [pfeed feed set_hd hd]; try reflexivity; repeat match goal with |- context [match ?x with _ => _ end] => destruct x; try reflexivity end. }
      rewrite X, Hh. reflexivity.
    - destruct (feeds_tail m q t (par s) Ht Hh Hd F4) as [Sh Fe]. apply (In_long_tail s m false); auto; [discriminate|]. intros O. apply Tf. split.
      + destruct (m_trailers m) as [|f0 fs] eqn:Tr; [now left|right]. rewrite <- Tr in *. apply okseq_size in O as [O|O].
        * exfalso. destruct Ht as (b & f & _ & (css & Fs & ->) & ->). rewrite Tr in Fs. inversion Fs as [|? c0 ? css' Hf0 ? E1 E2]; subst. apply Forall_app in O as [_ O]. cbn [List.concat] in O. apply Forall_app in O as [O _].
          destruct Hf0 as (x & y & (px & Nx & _ & ->) & _ & ->). destruct px; [congruence|]. inversion O. contradiction.
        * rewrite Fe in O. cbn in O. unfold estimate_size, headers_of in O. cbn in O. rewrite some_size, field_size_app in O. unfold resource_size. lia.
      + apply okseq_payload_size in O as [O|O]; rewrite Fe in O; cbn in O; [|exact O]. rewrite O, Hd. cbn. lia.
  Qed.

  Lemma cut_at {X} (cs todo r rest : list X) c : cs ++ todo = r ++ c :: rest ->
    (exists r2, r = cs ++ r2 /\ todo = r2 ++ c :: rest) \/ (exists cs2, cs = r ++ c :: cs2 /\ rest = cs2 ++ todo).
  Proof.
    revert r. induction cs as [|x cs IH]; intros r H; [left; now exists r|]. destruct r as [|y r]; injection H as -> H.
    - right. exists cs. auto.
    - destruct (IH r H) as [(r2 & -> & ->)|(cs2 & -> & ->)]; [left; now exists r2|right; now exists cs2].
  Qed.
  Lemma cut_in {X} (cs todo r rest : list X) : cs ++ todo = r ++ rest ->
    (exists r2, r = cs ++ r2 /\ todo = r2 ++ rest) \/ (exists cs2, cs = r ++ cs2 /\ rest = cs2 ++ todo).
  Proof.
    revert r. induction cs as [|x cs IH]; intros r H; [left; now exists r|]. destruct r as [|y r].
    - right. exists (x :: cs). auto.
    - injection H as -> H. destruct (IH r H) as [(r2 & -> & ->)|(cs2 & -> & ->)]; [left; now exists r2|right; now exists cs2].
  Qed.

  Definition Inv (s : session) (todo : list call) (rem total : list event) : Prop :=
    (gone s = false \/ (rem = [] /\ In Exception (trace s))) /\ ack s = false /\ position s todo rem /\ whole_payloads [] (trace s) ++ rem = total.

  Lemma no_switch s e : ack (add A s e) = ack s.
  Proof. unfold add. cbn. destruct PA as [_ ->]. apply orb_false_r. Qed.

  (** A session that has thrown *)
  Lemma thrown s todo total : ack s = false -> whole_payloads [] (trace s) ++ [Exception] = total -> Inv (fail s Exception) todo [] total.
  Proof.
    intros Ha T. assert (I : In Exception (trace (fail s Exception))) by (cbn; apply in_app_iff; right; now left).
    split; [right; auto|]. split; [exact Ha|]. split; [now apply Gone|].
    cbn [fail trace]. rewrite whole_app, app_nil_r. exact T.
  Qed.
  Lemma erred s todo b st total : gone s = false -> ack s = false -> is_error (par s) = true -> whole_payloads [] (trace s) ++ [On_error b st] = total ->
    Inv (add A s (On_error b st)) todo [] total.
  Proof.
    intros Hg Ha E T. split; [now left|]. split; [now rewrite no_switch|]. split; [apply (Failed _ todo b st); [exact E|]; cbn; apply in_app_iff; right; now left|].
    cbn [add trace]. rewrite whole_app, app_nil_r. exact T.
  Qed.

  (** The second half of the loop *)
  Lemma tail_step s cs todo rem total :
    ack s = false -> (exists m, after_parser m (par s)) -> gone s = false -> position s (cs ++ todo) rem ->
    whole_payloads [] (trace s) ++ rem = total ->
    exists rem', match after_headers L A s cs with
                 | (s1, None) => Inv s1 todo rem' total
                 | (s1, Some cs') => gone s1 = false /\ (length cs' < length cs)%nat /\ Inv s1 (cs' ++ todo) rem' total
                 end.
  Proof.
    intros Ha (m0 & Q1 & Q2 & Q3 & Q4) Hg P Tot.
    inversion P as [F C E0 Er|m q r tl evs F C O H1 H2 Ac Ht E0 Er|r c junk p' F O Cb W E0 Er|b r junk F Sh B N E0 Er
                   |m q r rest evs F O H1 H2 St E0 Er|m r e junk F O Hm E0 Er|m b r junk F Sh B N Tk E0 Er|todo0 b st E Ie E0 Er|todo0 G Ie E0 Er]; subst rem.
    1-4: exfalso; destruct F as (_ & F & _); congruence.
    - pose proof F as (E1 & E2 & E3 & E4). unfold after_headers. rewrite E2. destruct (cut_at _ _ _ _ _ (eq_sym E0)) as [(r2 & -> & ->)|(cs2 & -> & ->)].
      + apply okseq_app in O as [O1 O2]. rewrite (parse_all _ _ _ E1 O1). rewrite pfeeds_app in H1, H2.
        set (p := pfeeds (par s) cs) in *. destruct (pfeeds_keeps (par s) cs) as (K1 & K2 & K3 & K4). fold p in K1, K2, K3, K4.
        unfold is_error. rewrite K1, E1. cbn zeta. rewrite K2, E2. set (k := a_take A (trace (set_par s p))).
        exists (told_end m q :: evs). split; [left; exact Hg|]. split; [rewrite no_switch; exact Ha|]. split.
        * apply (In_tail _ m q r2 rest evs); cbn [par add set_par trace]; auto.
          -- unfold after_parser. cbn. repeat split; congruence.
          -- apply okseq_payload; [exact O2|]. rewrite skipn_length. lia.
          -- rewrite pfeeds_payload. exact H1.
          -- rewrite carry_app. cbn [carry]. rewrite <- H2, <- app_assoc. f_equal. symmetry. apply payload_cut. now rewrite firstn_skipn.
        * cbn [add trace set_par]. rewrite whole_app. cbn [whole_payloads]. rewrite app_nil_r. exact Tot.
      + rewrite (parse_tail _ _ _ _ E1 O). cbn [is_error err hreq payload hd close verb set_payload].
        set (k := a_take A _). set (d := payload (pfeeds (par s) r)) in *.
        exists evs. split; [exact Hg|]. split; [rewrite app_length; cbn; lia|].
        split; [left; exact Hg|]. split; [cbn [set_par ack]; rewrite !no_switch; exact Ha|]. split.
        * apply stream_position; auto.
          -- cbn. repeat split.
          -- cbn. rewrite !carry_app. reflexivity.
        * cbn [set_par trace add par hd payload close set_payload]. rewrite !whole_app. cbn [whole_payloads]. rewrite app_nil_r, carry_app. cbn [carry].
          rewrite <- Tot, <- app_assoc. cbn [app]. f_equal. f_equal. unfold told_end. rewrite H1, E3. f_equal. rewrite <- H2, <- app_assoc. now rewrite firstn_skipn.
    - pose proof F as (E1 & E2 & E3 & E4). unfold after_headers. rewrite E2. destruct (cut_at _ _ _ _ _ (eq_sym E0)) as [(r2 & -> & ->)|(cs2 & -> & ->)].
      + apply okseq_app in O as [O1 O2]. rewrite (parse_all _ _ _ E1 O1). rewrite pfeeds_app in Hm.
        set (p := pfeeds (par s) cs) in *. destruct (pfeeds_keeps (par s) cs) as (K1 & K2 & K3 & K4). fold p in K1, K2, K3, K4.
        unfold is_error. rewrite K1, E1. cbn zeta. rewrite K2, E2. set (k := a_take A (trace (set_par s p))).
        exists [On_error (was_head m) (error_status e)]. split; [left; exact Hg|]. split; [rewrite no_switch; exact Ha|]. split.
        * apply (In_bad_tail _ m r2 e junk); cbn [par add set_par trace]; auto.
          -- unfold after_parser. cbn. repeat split; congruence.
          -- apply okseq_payload; [exact O2|]. rewrite skipn_length. lia.
          -- rewrite pfeeds_payload. exact Hm.
        * cbn [add trace set_par]. rewrite whole_app. cbn [whole_payloads]. rewrite app_nil_r. exact Tot.
      + destruct (parse_wrong L (par s) r (Fail e) cs2 (set_err (pfeeds (par s) r) (match e with HPE_OK | HPE_PAUSED => HPE_OTHER | e => e end)) E1 O eq_refl) as [-> X]; [destruct e; exact I|].
        rewrite X. exists []. 
        replace (On_error (is_head (set_err (pfeeds (par s) r) match e with HPE_OK | HPE_PAUSED => HPE_OTHER | e => e end)) (status_of (err (set_err (pfeeds (par s) r) match e with HPE_OK | HPE_PAUSED => HPE_OTHER | e => e end))))
          with (On_error (was_head m) (error_status e)).
        2:{ f_equal; [|destruct e; reflexivity]. unfold was_head, is_head. cbn [set_err hd]. now rewrite Hm. }
        apply erred; [exact Hg|exact Ha|exact X|exact Tot].
    - pose proof F as (E1 & E2 & E3 & E4). unfold after_headers. rewrite E2. destruct (cut_in _ _ _ _ (eq_sym E0)) as [(r2 & -> & ->)|(cs2 & -> & ->)].
      + destruct (okseq_or L (par s) cs b E1) as [O|[_ T]]; [clear - Sh|exact B| |].
        * revert b Sh. induction cs as [|c cs IH]; intros b Sh; [exact I|]. destruct c; cbn in *; try contradiction; try (now apply IH). split; [tauto|]. now apply IH.
        * rewrite (parse_all _ _ _ E1 O). destruct (shape_rest (par s) cs r2 b Sh B) as (b' & Sh' & B'). rewrite okseq_app in N.
          set (p := pfeeds (par s) cs) in *. destruct (pfeeds_keeps (par s) cs) as (K1 & K2 & K3 & K4). fold p in K1, K2, K3, K4.
          unfold is_error. rewrite K1, E1. cbn zeta. rewrite K2, E2. rewrite Tk. cbn [skipn firstn].
          replace (set_payload p (payload p)) with p by (destruct p; reflexivity).
          exists [Exception]. split; [left; exact Hg|]. split; [rewrite no_switch; exact Ha|]. split.
          -- apply (In_long_tail _ m b' r2 junk); cbn [par add set_par trace]; auto. unfold after_parser. repeat split; congruence.
          -- cbn [add trace set_par]. rewrite whole_app. cbn [whole_payloads]. rewrite app_nil_r. exact Tot.
        * specialize (T []). rewrite app_nil_r in T. unfold parse. rewrite T. exists []. apply thrown; [exact Ha|exact Tot].
      + rewrite (parse_big _ _ _ b _ E1 Sh B N). exists []. apply thrown; [exact Ha|exact Tot].
    - exfalso. unfold is_error in E. rewrite Q1 in E. discriminate.
    - congruence.
  Qed.

  Lemma loop_step fuel : forall s cs todo rem total, (length cs < fuel)%nat -> gone s = false -> Inv s (cs ++ todo) rem total ->
    exists rem', Inv (loop L A fuel s cs) todo rem' total.
  Proof.
    induction fuel as [|fuel IH]; intros s cs todo rem total Lf Hg (_ & Ha & P & Tot); [lia|].
    assert (G : forall r (cs2 : list call), (length cs2 <= length cs)%nat -> (exists rem', match r with (s1, None) => Inv s1 todo rem' total | (s1, Some cs') => gone s1 = false /\ (length cs' < length cs2)%nat /\ Inv s1 (cs' ++ todo) rem' total end) ->
      exists rem', Inv (match r with (s, Some cs) => loop L A fuel s cs | (s, None) => s end) todo rem' total).
    { intros [s2 [cs'|]] cs2 Lc (rem' & H); [|now exists rem']. destruct H as (Hg2 & Lc2 & H). apply (IH _ _ _ rem'); [lia|exact Hg2|exact H]. }
    cbn [loop]. rewrite Ha.
    inversion P as [F C E0 Er|m q r tl evs F C O H1 H2 Ac Ht E0 Er|r c junk p' F O Cb W E0 Er|b r junk F Sh B N E0 Er
                   |m q r rest evs F O H1 H2 St E0 Er|m r e junk F O Hm E0 Er|m b r junk F Sh B N Tk E0 Er|todo0 b st E Ie E0 Er|todo0 G0 Ie E0 Er]; subst rem.
    - destruct cs; [|discriminate]. destruct todo; [|discriminate]. destruct F as (F1 & F3 & F4). unfold is_error. rewrite F1, F3.
      unfold parse. cbn [execute]. rewrite F1. unfold unpause. rewrite F1. unfold is_error. rewrite F1, F3. exists [].
      destruct s as [a p tr g]. cbn [set_par par] in *. split; [left; exact Hg|]. split; [exact Ha|]. split; [|exact Tot]. apply At_end; [split; auto|exact C].
    - pose proof F as (F1 & F3 & F4). unfold is_error at 1. rewrite F1, F3. destruct (cut_at _ _ _ _ _ (eq_sym E0)) as [(r2 & -> & ->)|(cs2 & -> & R)].
      + apply okseq_app in O as [O1 O2]. rewrite (parse_all _ _ _ F1 O1). rewrite pfeeds_app in H1, H2.
        set (p := pfeeds (par s) cs) in *. destruct (pfeeds_keeps (par s) cs) as (K1 & K2 & K3 & K4). fold p in K1, K2, K3, K4.
        unfold is_error. rewrite K1, F1. cbn zeta. rewrite K2, F3.
        exists (told_head m q :: evs). split; [left; exact Hg|]. split; [exact Ha|]. split; [|exact Tot].
        apply (In_head _ m q r2 tl evs); cbn [par set_par trace]; auto. split; [congruence|]. split; congruence.
      + pose proof Ac as (A1 & A2 & A3 & A4). rewrite (parse_head _ _ _ m q _ F1 O H1 A2 A1). rewrite H2. cbn [is_error err hreq].
        set (h := headers_of m q (m_fields m)). cbn [hd].
        assert (Hh : (if is_proxy h then h else mkH (method h) (is_proxy h) false (HreqModel.port h) (raw_host h) (raw_userinfo h) (raw_path h) (raw_query h) (fields h)) = h).
        { unfold h, headers_of. cbn. destruct (q_proxy q) eqn:Pq; [reflexivity|]. destruct A2 as [(? & ? & ? & A2)|(? & ? & ? & A2)].
          - exfalso. assert (q_proxy q = true) by tauto. congruence.
          - assert (q_ssl q = false) as -> by tauto. reflexivity. }
        rewrite Hh. change (raw_host h) with (q_host q). destruct (q_host q) as [|h0 h1] eqn:Eh; [congruence|].
        destruct PA as [PA1 PA2]. cbn [set_hd set_par par trace add close hd payload]. match goal with |- context [a_headers A ?tr h] => destruct (PA1 tr h) as [X1 X2]; destruct (a_headers A tr h) as [h' ty] eqn:Eqh end.
        cbn [fst snd] in X1, X2. subst h'.
        match goal with |- context [after_headers L A ?s0 cs2] => set (s1 := s0) end.
        assert (E1 : exists rem', match after_headers L A s1 cs2 with (s1, None) => Inv s1 todo rem' total | (s1, Some cs') => gone s1 = false /\ (length cs' < length cs2)%nat /\ Inv s1 (cs' ++ todo) rem' total end).
        { apply (tail_step s1 cs2 todo evs); auto.
          - unfold s1. cbn. rewrite PA2, orb_false_r. exact Ha.
          - exists m. unfold s1, after_parser. cbn. auto.
          - rewrite <- R. apply (tail_position s1 m q); auto.
            + unfold s1, after_parser. cbn. auto.
            + unfold s1. cbn [trace set_par add]. rewrite carry_app. cbn [carry]. exact C.
          - unfold s1. cbn [trace set_par add]. rewrite whole_app. cbn [whole_payloads]. rewrite <- Tot, <- app_assoc. reflexivity. }
        assert (Lc : (length cs2 <= length (r ++ Headers_complete (m_method m) (m_keep m) :: cs2))%nat) by (rewrite app_length; cbn; lia).
        destruct ty; [exact (G _ cs2 Lc E1)|exact (G _ cs2 Lc E1)|congruence].
    - pose proof F as (F1 & F3 & F4). unfold is_error at 1. rewrite F1, F3. destruct (cut_at _ _ _ _ _ (eq_sym E0)) as [(r2 & -> & ->)|(cs2 & -> & ->)].
      + apply okseq_app in O as [O1 O2]. rewrite (parse_all _ _ _ F1 O1). rewrite pfeeds_app in Cb.
        set (p := pfeeds (par s) cs) in *. destruct (pfeeds_keeps (par s) cs) as (K1 & K2 & K3 & K4). fold p in K1, K2, K3, K4.
        unfold is_error. rewrite K1, F1. cbn zeta. rewrite K2, F3.
        exists [On_error (is_head p') (status_of (err p'))]. split; [left; exact Hg|]. split; [exact Ha|]. split; [|exact Tot].
        apply (In_bad_head _ r2 c junk p'); cbn [par set_par trace]; auto. split; [congruence|]. split; congruence.
      + destruct (parse_wrong L (par s) r c cs2 p' F1 O Cb W) as [-> X]. rewrite X. exists []. apply erred; [exact Hg|exact Ha|exact X|exact Tot].
    - pose proof F as (F1 & F3 & F4). unfold is_error at 1. rewrite F1, F3. destruct (cut_in _ _ _ _ (eq_sym E0)) as [(r2 & -> & ->)|(cs2 & -> & ->)].
      + destruct (okseq_or L (par s) cs b F1) as [O|[_ T]]; [clear - Sh|exact B| |].
        * revert b Sh. induction cs as [|c cs IH]; intros b Sh; [exact I|]. destruct c; cbn in *; try contradiction; try (now apply IH). split; [tauto|]. now apply IH.
        * rewrite (parse_all _ _ _ F1 O). destruct (shape_rest (par s) cs r2 b Sh B) as (b' & Sh' & B'). rewrite okseq_app in N.
          set (p := pfeeds (par s) cs) in *. destruct (pfeeds_keeps (par s) cs) as (K1 & K2 & K3 & K4). fold p in K1, K2, K3, K4.
          unfold is_error. rewrite K1, F1. cbn zeta. rewrite K2, F3.
          exists [Exception]. split; [left; exact Hg|]. split; [exact Ha|]. split; [|exact Tot].
          apply (In_long_head _ b' r2 junk); cbn [par set_par trace]; auto. split; [congruence|]. split; congruence.
        * specialize (T []). rewrite app_nil_r in T. unfold parse. rewrite T. exists []. apply thrown; [exact Ha|exact Tot].
      + rewrite (parse_big _ _ _ b _ F1 Sh B N). exists []. apply thrown; [exact Ha|exact Tot].
    - pose proof F as (E1 & E2 & E3 & E4). unfold is_error. rewrite E1, E2. apply (G _ cs); [lia|]. refine (tail_step s cs todo _ total Ha _ Hg P Tot). exists m; exact F.
    - pose proof F as (E1 & E2 & E3 & E4). unfold is_error. rewrite E1, E2. apply (G _ cs); [lia|]. refine (tail_step s cs todo _ total Ha _ Hg P Tot). exists m; exact F.
    - pose proof F as (E1 & E2 & E3 & E4). unfold is_error. rewrite E1, E2. apply (G _ cs); [lia|]. refine (tail_step s cs todo _ total Ha _ Hg P Tot). exists m; exact F.
    - rewrite E. exists []. split; [left; exact Hg|]. split; [exact Ha|]. split; [|exact Tot]. apply (Failed _ todo b st); assumption.
    - congruence.
  Qed.

  Lemma run_step css : forall s todo rem total, Inv s (List.concat css ++ todo) rem total ->
    exists rem', Inv (run L A s (data css)) todo rem' total.
  Proof.
    induction css as [|cs css IH]; intros s todo rem total H; [now exists rem|]. cbn [List.concat] in H. rewrite <- app_assoc in H.
    cbn [data map run fold_left receive]. destruct (gone s) eqn:G.
    - apply (IH _ _ rem). destruct H as ([G'|[-> I]] & Ha & P & Tot); [congruence|]. split; [right; auto|]. split; [exact Ha|]. split; [now apply Gone|exact Tot].
    - destruct (loop_step (S (length cs)) s cs _ rem total (Nat.lt_succ_diag_r _) G H) as (rem' & H'). exact (IH _ _ rem' _ H').
  Qed.

  Scheme stream_mut := Minimality for stream Sort Prop with tail_mut := Minimality for tail_stream Sort Prop.

  (** Nothing is to be told at the end of the stream. *)
  Lemma shape_nil b r : (r = [] :> list call) -> shape b r. Proof. now intros ->. Qed.
  Lemma position_end s rem : position s [] rem -> rem = [].
  Proof.
    intros P. inversion P as [F C E0 Er|m q r tl evs F C O H1 H2 Ac Ht E0 Er|r c junk p' F O Cb W E0 Er|b r junk F Sh B N E0 Er
                   |m q r rest evs F O H1 H2 St E0 Er|m r e junk F O Hm E0 Er|m b r junk F Sh B N Tk E0 Er|todo0 b st E Ie E0 Er|todo0 G Ie E0 Er]; auto.
    all: try (destruct r; discriminate).
    all: exfalso; apply app_eq_nil in E0 as [-> ->]; apply N; exact I.
  Qed.

  Definition good_event (e : event) : Prop := match e with On_headers _ _ | On_finish _ _ _ => True | _ => False end.
  Lemma marks_app a b : marks (a ++ b) = (marks a + marks b)%nat.
  Proof. unfold marks. now rewrite filter_app, app_length. Qed.
  Lemma head_marks m h : head_calls m h -> marks h = O.
  Proof.
    intros H. destruct (feeds_head m h new_parser H eq_refl eq_refl) as [Sh _]. revert Sh. generalize false. clear. intros b.
    revert b. induction h as [|c h IH]; intros b Sh; [reflexivity|]. destruct c; cbn in Sh; try contradiction; try exact (IH _ Sh). exact (IH _ (proj2 Sh)).
  Qed.
  Lemma fields_marks fs h : fields_calls fs h -> marks h = O.
  Proof.
    intros H. pose proof (shape_fields false fs h H) as Sh. revert Sh. generalize false. clear. intros b.
    revert b. induction h as [|c h IH]; intros b Sh; [reflexivity|]. destruct c; cbn in Sh; try contradiction; try exact (IH _ Sh). exact (IH _ (proj2 Sh)).
  Qed.
  Lemma tail_marks m h : tail_calls m h -> marks h = O.
  Proof.
    intros (b & f & (ps & _ & ->) & Hf & ->). rewrite marks_app, (fields_marks _ _ Hf). clear. induction ps; [reflexivity|exact IHps].
  Qed.
  Lemma stream_marks cs evs : stream L A cs evs -> Forall good_event evs -> length evs = marks cs.
  Proof.
    intros H. apply (stream_mut L A (fun cs evs => Forall good_event evs -> length evs = marks cs) (fun m q cs evs => Forall good_event evs -> length evs = marks cs)); auto; clear.
    all: try (intros; match goal with G : Forall good_event [_] |- _ => apply Forall_inv in G; destruct G end; fail).
    - intros m q h tl evs Hm _ _ IH G. inversion G; subst. rewrite marks_app, (head_marks _ _ Hm). cbn. f_equal. now apply IH.
    - intros m q h tl evs Hm _ _ IH G. inversion G; subst. rewrite marks_app, (tail_marks _ _ Hm). cbn. f_equal. now apply IH.
  Qed.
  Lemma tail_stream_marks m q cs evs : tail_stream L A m q cs evs -> Forall good_event evs -> length evs = marks cs.
  Proof.
    intros [m0 q0 t rest evs0 Ht _ Hs|m0 q0 t t2 e junk|m0 q0 t junk] G; inversion G as [|? ? G1 G2]; subst; try contradiction.
    rewrite marks_app, (tail_marks _ _ Ht). cbn. f_equal. now apply stream_marks.
  Qed.
  Lemma whole_in e tr : (match e with On_stream _ | On_finish _ _ _ => False | _ => True end) -> In e tr -> forall t, In e (whole_payloads t tr).
  Proof.
    intros N. induction tr as [|x tr IH]; intros H t; [destruct H|]. destruct H as [->|H].
    - destruct e; try contradiction; now left.
    - destruct x; cbn [whole_payloads]; try (right; now apply IH). now apply IH.
  Qed.
  Lemma position_marks s todo rem total : position s todo rem -> whole_payloads [] (trace s) ++ rem = total -> Forall good_event total -> length rem = marks todo.
  Proof.
    intros P Tot G. rewrite <- Tot in G. apply Forall_app in G as [G1 G2]. rewrite Forall_forall in G1.
    inversion P as [F C E0 Er|m q r tl evs F C O H1 H2 Ac Ht E0 Er|r c junk p' F O Cb W E0 Er|b r junk F Sh B N E0 Er
                   |m q r rest evs F O H1 H2 St E0 Er|m r e junk F O Hm E0 Er|m b r junk F Sh B N Tk E0 Er|todo0 b st E Ie E0 Er|todo0 G Ie E0 Er]; subst.
    all: try (exfalso; apply Forall_inv in G2; destruct G2; fail).
    - reflexivity.
    - rewrite marks_app, (okseq_quiet _ _ _ O). cbn. f_equal. inversion G2. now apply (tail_stream_marks m q).
    - rewrite marks_app, (okseq_quiet _ _ _ O). cbn. f_equal. inversion G2. now apply stream_marks.
    - exfalso. exact (G1 _ (whole_in (On_error b st) _ I Ie [])).
    - exfalso. exact (G1 _ (whole_in Exception _ I Ie [])).
  Qed.

  Lemma delivery css todo evs : stream L A (List.concat css ++ todo) evs ->
    exists rem, whole_payloads [] (trace (run L A start (data css))) ++ rem = evs /\ (todo = [] -> rem = [])
      /\ (Forall good_event evs -> whole_payloads [] (trace (run L A start (data css))) = firstn (marks (List.concat css)) evs).
  Proof.
    intros H. assert (I0 : Inv start (List.concat css ++ todo) evs evs).
    { split; [now left|]. split; [reflexivity|]. split; [|reflexivity]. apply stream_position; auto. repeat split. }
    destruct (run_step css _ _ _ _ I0) as (rem & _ & _ & P & Tot). exists rem. split; [exact Tot|]. split; [intros ->; exact (position_end _ _ P)|].
    intros G. pose proof (position_marks _ _ _ _ P Tot G) as M. pose proof (stream_marks _ _ H G) as M2. rewrite marks_app, <- M in M2.
    rewrite <- Tot in M2 |- *. rewrite app_length in M2. replace (marks (List.concat css)) with (length (whole_payloads [] (trace (run L A start (data css))))) by lia.
    rewrite firstn_app, Nat.sub_diag, firstn_all, firstn_O, app_nil_r. reflexivity.
  Qed.
End Delivery.
