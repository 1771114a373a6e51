(** Proofs about loading the configuration. *)
From Coq Require Import List ZArith Bool Lia ZifyBool ZifyNat String.
From Verif Require Import Base Text NetrefSpec RedisModel RedisProofs ConfModel ConfSpec ConfProofs ConfProps AddrTextModel AddrTextProofs RelModel RelSpec.
Import ListNotations.
Open Scope list_scope.
Open Scope Z_scope.
Notation length := List.length.

Lemma bind_some {A B} (x : option A) (f : A -> option B) c : bind x f = Some c <-> exists a, x = Some a /\ f a = Some c.
Proof.
  destruct x as [a|]; cbn [bind]; split; [eauto|intros (a' & [= <-] & H); exact H|discriminate|intros (a' & [=] & _)].
Qed.

(** Paths of names with dots. *)
Fixpoint dotted (ns : list (list Z)) : list Z := match ns with [] => [] | n :: ns => [46] ++ n ++ dotted ns end.
Definition path_of (ns : list (list Z)) : list Z := match ns with [] => [] | n :: ns => n ++ dotted ns end.
Definition name_ok (n : list Z) : bool := match n with [] => false | c :: s => name_start c && forallb name_char s end.

Lemma name_ok_spec n : name_ok n = true -> is_name n.
Proof.
  destruct n as [|c s]; [discriminate|]. cbn [name_ok]. intros H. apply andb_prop in H. destruct H as (A & B).
  constructor; [apply start_spec, A|]. apply Forall_forall. intros x X. rewrite forallb_forall in B. apply char_spec, B, X.
Qed.
Lemma blanks_nil : blanks []. Proof. constructor. Qed.
Lemma dotted_more ns : forall steps t, forallb name_ok ns = true -> more steps t -> more (map By_name ns ++ steps) (dotted ns ++ t).
Proof.
  induction ns as [|n ns IH]; intros steps t N M; [exact M|]. cbn [forallb] in N. apply andb_prop in N. destruct N as (A & B).
  cbn [map dotted app]. pose proof (more_name [] n [] _ _ blanks_nil (name_ok_spec _ A) blanks_nil (IH _ _ B M)) as G.
  cbn [app] in G. rewrite <- app_assoc. exact G.
Qed.
Lemma path_dotted ns : ns <> [] -> forallb name_ok ns = true -> path_text (map By_name ns) (path_of ns).
Proof.
  destruct ns as [|n ns]; [congruence|]. intros _ N. cbn [forallb] in N. apply andb_prop in N. destruct N as (A & B).
  cbn [map path_of]. pose proof (path_made [] n [] _ _ blanks_nil (name_ok_spec _ A) blanks_nil (dotted_more ns [] [] B more_end)) as G.
  cbn [app] in G. rewrite !app_nil_r in G. exact G.
Qed.
Lemma path_indexed n ns ds : forallb name_ok (n :: ns) = true -> ds <> [] -> Forall decimal ds ->
  path_text (map By_name (n :: ns) ++ [By_index ds]) (path_of (n :: ns) ++ [91] ++ ds ++ [93]).
Proof.
  intros N D1 D2. cbn [forallb] in N. apply andb_prop in N. destruct N as (A & B).
  pose proof (more_index [] ds [] [] [] [] blanks_nil D1 D2 blanks_nil blanks_nil more_end) as M. cbn [app] in M.
  pose proof (path_made [] n [] _ _ blanks_nil (name_ok_spec _ A) blanks_nil (dotted_more ns _ _ B M)) as G.
  cbn [app map path_of] in *. rewrite <- app_assoc. exact G.
Qed.

(** *** Getters *)
Definition goes_to (t : list Z) (p : list (list Z)) : Prop := t = path_of p /\ p <> [] /\ forallb name_ok p = true.

Lemma query_says r t p : goes_to t p -> says r p (query r t) /\ forall o, says r p o -> query r t = o.
Proof.
  intros (-> & N & F). pose proof (path_dotted p N F) as P. split.
  - destruct (config_path r _ _ P) as (o & L & ->). exact L.
  - intros o L. exact (config_unique r _ _ o P L).
Qed.
Lemma query_absent r t p : goes_to t p -> absent r p <-> query r t = Missing \/ query r t = Found Null.
Proof.
  intros G. destruct (query_says r t p G) as (S1 & S2). unfold absent. split.
  - intros [A|A]; [left|right]; apply S2, A.
  - intros [E|E]; [left|right]; rewrite <- E; exact S1.
Qed.
Lemma query_found r t p v : goes_to t p -> says r p (Found v) <-> query r t = Found v.
Proof.
  intros G. destruct (query_says r t p G) as (S1 & S2). split; [apply S2|]. intros <-. exact S1.
Qed.

Lemma str_or_spec r t p d s : goes_to t p -> str_or r t d = Some s <-> text_is r p d s.
Proof.
  intros G. pose proof (query_absent r t p G) as A. pose proof (fun v => query_found r t p v G) as F.
  unfold str_or, value_or, get_string, get, queried. split.
  - destruct (query r t) as [v| |] eqn:Q; [destruct v| |]; try discriminate; intros [= <-].
    + constructor. apply A. auto.
    + constructor 2. apply F. reflexivity.
    + constructor. apply A. auto.
  - intros [B|s' B].
    + apply A in B. destruct B as [-> | ->]; reflexivity.
    + apply F in B. rewrite B. reflexivity.
Qed.
Lemma int_or_spec r t p a b d n : goes_to t p -> int_or r t a b d = Some n <-> number_is r p a b d n.
Proof.
  intros G. pose proof (query_absent r t p G) as A. pose proof (fun v => query_found r t p v G) as F.
  unfold int_or, value_or, get_integer, get, queried. split.
  - destruct (query r t) as [v| |] eqn:Q; [destruct v| |]; try discriminate.
    + intros [= <-]. constructor. apply A. auto.
    + destruct ((a <=? n0) && (n0 <=? b)) eqn:E; [|discriminate]. intros [= <-]. constructor 2; [apply F; reflexivity|lia].
    + intros [= <-]. constructor. apply A. auto.
  - intros [B|s' B L].
    + apply A in B. destruct B as [-> | ->]; reflexivity.
    + apply F in B. rewrite B. replace ((a <=? s') && (s' <=? b)) with true by lia. reflexivity.
Qed.
Lemma bool_or_spec r t p d b : goes_to t p -> bool_or r t d = Some b <-> flag_is r p d b.
Proof.
  intros G. pose proof (query_absent r t p G) as A. pose proof (fun v => query_found r t p v G) as F.
  unfold bool_or, value_or, get_boolean, get, queried. split.
  - destruct (query r t) as [v| |] eqn:Q; [destruct v| |]; try discriminate; intros [= <-].
    + constructor. apply A. auto.
    + constructor 2. apply F. reflexivity.
    + constructor. apply A. auto.
  - intros [B|s' B].
    + apply A in B. destruct B as [-> | ->]; reflexivity.
    + apply F in B. rewrite B. reflexivity.
Qed.

Ltac path := split; [reflexivity|split; [discriminate|reflexivity]].
Ltac spec_all := repeat match goal with
  | H : exists _, _ |- _ => destruct H
  | H : _ /\ _ |- _ => destruct H
  | H : bind _ _ = Some _ |- _ => apply bind_some in H
  end.

Lemma load_mysql_spec r c : load_mysql r = Some c <-> mysql_says r c.
Proof.
  unfold load_mysql, mysql_says. split.
  - intros H. repeat (apply bind_some in H; destruct H as (? & ? & H)). injection H as <-. cbn [my_uri1 my_pass1 my_uri2 my_pass2 my_uri3 my_pass3 my_pool my_idle].
    repeat split; first [eapply str_or_spec; [|eassumption]; path | eapply int_or_spec; [|eassumption]; path].
  - intros (A1 & A2 & A3 & A4 & A5 & A6 & A7 & A8). destruct c as [u1 p1 u2 p2 u3 p3 n t].
    cbn [my_uri1 my_pass1 my_uri2 my_pass2 my_uri3 my_pass3 my_pool my_idle] in *.
    repeat (apply bind_some; eexists; split; [first [eapply str_or_spec; [|eassumption]; path | eapply int_or_spec; [|eassumption]; path]|]).
    reflexivity.
Qed.
Lemma load_mongo_spec r c : load_mongo r = Some c <-> mongo_says r c.
Proof.
  unfold load_mongo, mongo_says, db_says. split.
  - intros H. repeat (apply bind_some in H; destruct H as (? & ? & H)). injection H as <-. cbn [db_uri db_pass db_pool db_idle].
    repeat split; first [eapply str_or_spec; [|eassumption]; path | eapply int_or_spec; [|eassumption]; path].
  - intros (A1 & A2 & A3 & A4). destruct c as [u p n t]. cbn [db_uri db_pass db_pool db_idle] in *.
    repeat (apply bind_some; eexists; split; [first [eapply str_or_spec; [|eassumption]; path | eapply int_or_spec; [|eassumption]; path]|]).
    reflexivity.
Qed.
Lemma load_redis_spec r c : load_redis r = Some c <-> redis_says r c.
Proof.
  unfold load_redis, redis_says, db_says. split.
  - intros H. repeat (apply bind_some in H; destruct H as (? & ? & H)). injection H as <-. cbn [db_uri db_pass db_pool db_idle].
    repeat split; first [eapply str_or_spec; [|eassumption]; path | eapply int_or_spec; [|eassumption]; path].
  - intros (A1 & A2 & A3 & A4). destruct c as [u p n t]. cbn [db_uri db_pass db_pool db_idle] in *.
    repeat (apply bind_some; eexists; split; [first [eapply str_or_spec; [|eassumption]; path | eapply int_or_spec; [|eassumption]; path]|]).
    reflexivity.
Qed.

Lemma stack_spec n limit : (forall l, limit = Some l -> 0 <= l < 4294967296) -> forall z,
  z = (let m := if n =? 0 then match limit with Some l => l mod 4294967296 | None => n end else n in if m =? 0 then 16777216 else m)
  <-> stack_is n limit z.
Proof.
  intros L z. unfold stack_is. cbv zeta. destruct (n =? 0) eqn:E.
  - assert (n = 0) by lia. subst n. destruct limit as [l|].
    + specialize (L l eq_refl). rewrite Z.mod_small by lia. destruct (l =? 0) eqn:F.
      * assert (l = 0) by lia. subst l. split; [intros ->; right; right; auto|]. intros [(A & _)|[(_ & l & [= <-] & A & _)|(_ & _ & A)]]; lia.
      * split; [intros ->; right; left; split; [reflexivity|exists l; split; [reflexivity|split; [lia|reflexivity]]]|].
        intros [(A & _)|[(_ & l' & [= <-] & _ & A)|(_ & [A|A] & _)]]; [lia|exact A|discriminate|injection A as ->; lia].
    + cbn. split; [intros ->; right; right; auto|]. intros [(A & _)|[(_ & l' & [=] & _)|(_ & _ & A)]]; lia.
  - rewrite E. split; [intros ->; left; split; [lia|reflexivity]|]. intros [(_ & A)|[(A & _)|(A & _)]]; lia.
Qed.
Lemma load_fiber_spec r limit c : (forall l, limit = Some l -> 0 <= l < 4294967296) ->
  load_fiber r limit = Some c <-> fiber_says limit r c.
Proof.
  intros L. unfold load_fiber, fiber_says. split.
  - intros H. apply bind_some in H. destruct H as (n & N & H). cbv zeta in H. repeat (apply bind_some in H; destruct H as (? & ? & H)).
    injection H as <-. cbn [f_stack f_warn f_fail]. split; [|split]; [|eapply int_or_spec; [|eassumption]; path..].
    exists n. split; [eapply int_or_spec; [|eassumption]; path|]. apply (stack_spec n limit L). reflexivity.
  - intros ((n & A1 & A2) & A3 & A4). destruct c as [z w f]. cbn [f_stack f_warn f_fail] in *.
    apply bind_some. exists n. split; [eapply int_or_spec; [|eassumption]; path|]. cbv zeta.
    apply (stack_spec n limit L) in A2. cbv zeta in A2. rewrite <- A2.
    repeat (apply bind_some; eexists; split; [eapply int_or_spec; [|eassumption]; path|]).
    reflexivity.
Qed.

Lemma empty_spec s : is_empty s = true <-> s = [].
Proof. destruct s; split; (reflexivity || discriminate). Qed.
Lemma server_pure o c k s :
  (if negb (is_empty c) && is_empty k then None
   else if is_empty c && negb (is_empty k) then None
   else if negb (is_empty c) then
     if new_server o && chain o c && key o k && pair o c k && sid o then Some (Some (c, k)) else None
   else Some None) = Some s
  <-> ((c = [] /\ k = [] /\ s = None)
       \/ (c <> [] /\ k <> [] /\ s = Some (c, k) /\ new_server o = true
           /\ chain o c = true /\ key o k = true /\ pair o c k = true /\ sid o = true)).
Proof.
  pose proof (empty_spec c) as A. pose proof (empty_spec k) as B.
  destruct (is_empty c), (is_empty k); cbn [negb andb].
  - pose proof (proj1 A eq_refl). pose proof (proj1 B eq_refl). split; [intros [= <-]; auto|]. intros [(_ & _ & ->)|(N & _)]; [reflexivity|contradiction].
  - split; [discriminate|]. intros [(_ & N & _)|(N & _)]; [apply B in N; discriminate|destruct (N (proj1 A eq_refl))].
  - split; [discriminate|]. intros [(N & _)|(_ & N & _)]; [apply A in N; discriminate|destruct (N (proj1 B eq_refl))].
  - assert (N1 : c <> []) by (intros N; apply A in N; discriminate). assert (N2 : k <> []) by (intros N; apply B in N; discriminate).
    split.
    + destruct (new_server o), (chain o c), (key o k), (pair o c k), (sid o); cbn [andb]; try discriminate. intros [= <-]. right. auto 10.
    + intros [(N & _)|(_ & _ & -> & -> & -> & -> & -> & ->)]; [contradiction|reflexivity].
Qed.
Lemma client_pure o d s :
  (if negb (is_empty d) then (if ca o d then Some (Some d) else None) else Some None) = Some s
  <-> ((d = [] /\ Some s = Some None) \/ (d <> [] /\ Some s = Some (Some d) /\ ca o d = true)).
Proof.
  pose proof (empty_spec d) as A. destruct (is_empty d); cbn [negb].
  - pose proof (proj1 A eq_refl). split; [intros [= <-]; auto|]. intros [(_ & E)|(N & _)]; [congruence|contradiction].
  - assert (N1 : d <> []) by (intros N; apply A in N; discriminate). split.
    + destruct (ca o d); [|discriminate]. intros [= <-]. auto.
    + intros [(N & _)|(_ & E & ->)]; [contradiction|congruence].
Qed.
Lemma load_server_spec r o s : load_server r o = Some s <->
  exists cert k,
        text_is r [txt "network"; txt "ssl"; txt "default_certificate"] [] cert
        /\ text_is r [txt "network"; txt "ssl"; txt "default_private_key"] [] k
        /\ ((cert = [] /\ k = [] /\ s = None)
            \/ (cert <> [] /\ k <> [] /\ s = Some (cert, k) /\ new_server o = true
                /\ chain o cert = true /\ key o k = true /\ pair o cert k = true /\ sid o = true)).
Proof.
  unfold load_server. rewrite bind_some. split.
  - intros (c & C & H). apply bind_some in H. destruct H as (k & K & H). apply server_pure in H. exists c, k.
    split; [eapply str_or_spec; [|exact C]; path|]. split; [eapply str_or_spec; [|exact K]; path|]. exact H.
  - intros (c & k & C & K & H). exists c. split; [eapply str_or_spec; [|exact C]; path|].
    apply bind_some. exists k. split; [eapply str_or_spec; [|exact K]; path|]. apply server_pure. exact H.
Qed.
Lemma load_client_spec r o s : load_client r o = Some s <->
  exists dir,
        text_is r [txt "network"; txt "ssl"; txt "trusted_ca_path"] [] dir /\ new_client o = true
        /\ ((dir = [] /\ Some s = Some None) \/ (dir <> [] /\ Some s = Some (Some dir) /\ ca o dir = true)).
Proof.
  unfold load_client. destruct (new_client o); cbn [negb].
  - rewrite bind_some. split.
    + intros (d & D & H). apply client_pure in H. exists d. split; [eapply str_or_spec; [|exact D]; path|auto].
    + intros (d & D & _ & H). exists d. split; [eapply str_or_spec; [|exact D]; path|]. apply client_pure. exact H.
  - split; [discriminate|]. intros (d & _ & N & _). discriminate.
Qed.
Lemma load_net_spec r o c : load_net r o = Some c <-> net_says o r c.
Proof.
  unfold load_net, net_says. split.
  - intros H. apply bind_some in H. destruct H as (e & E & H). apply bind_some in H. destruct H as (t & T & H).
    apply bind_some in H. destruct H as (s & Sv & H). apply bind_some in H. destruct H as (cl & Cl & H). injection H as <-.
    cbn [n_events n_throttle n_server n_client].
    split; [eapply int_or_spec; [|exact E]; path|]. split; [eapply int_or_spec; [|exact T]; path|].
    apply load_server_spec in Sv. apply load_client_spec in Cl. split; assumption.
  - intros (E & T & Sv & Cl). destruct c as [e t s cl]. cbn [n_events n_throttle n_server n_client] in *.
    apply bind_some. exists e. split; [eapply int_or_spec; [|exact E]; path|].
    apply bind_some. exists t. split; [eapply int_or_spec; [|exact T]; path|].
    apply load_server_spec in Sv. apply bind_some. exists s. split; [exact Sv|].
    destruct cl as [cl|]; [|destruct Cl as (d & _ & _ & [(_ & N)|(_ & N & _)]); discriminate].
    apply load_client_spec in Cl. apply bind_some. exists cl. split; [exact Cl|reflexivity].
Qed.

Lemma load_request_spec r c : load_request r = Some c <-> parser_says (txt "max_request_content_length") r c.
Proof.
  unfold load_request, parser_says. split.
  - intros H. repeat (apply bind_some in H; destruct H as (? & ? & H)). injection H as <-. cbn [l_level l_header l_content].
    repeat split; eapply int_or_spec; [|eassumption| |eassumption| |eassumption]; path.
  - intros (A1 & A2 & A3). destruct c as [u p n]. cbn [l_level l_header l_content] in *.
    repeat (apply bind_some; eexists; split; [eapply int_or_spec; [|eassumption]; path|]).
    reflexivity.
Qed.
Lemma load_response_spec r c : load_response r = Some c <-> parser_says (txt "max_response_content_length") r c.
Proof.
  unfold load_response, parser_says. split.
  - intros H. repeat (apply bind_some in H; destruct H as (? & ? & H)). injection H as <-. cbn [l_level l_header l_content].
    repeat split; eapply int_or_spec; [|eassumption| |eassumption| |eassumption]; path.
  - intros (A1 & A2 & A3). destruct c as [u p n]. cbn [l_level l_header l_content] in *.
    repeat (apply bind_some; eexists; split; [eapply int_or_spec; [|eassumption]; path|]).
    reflexivity.
Qed.
Lemma load_frame_spec r c : load_frame r = Some c <-> frame_says r c.
Proof.
  unfold load_frame, frame_says. split.
  - intros H. repeat (apply bind_some in H; destruct H as (? & ? & H)). injection H as <-. cbn [l_level l_header l_content].
    repeat split; eapply int_or_spec; [|eassumption| |eassumption]; path.
  - intros (A1 & A2 & A3). destruct c as [u p n]. cbn [l_level l_header l_content] in *. subst p.
    repeat (apply bind_some; eexists; split; [eapply int_or_spec; [|eassumption]; path|]).
    reflexivity.
Qed.

(** *** The logger *)
Lemma follow_app a : forall v b, follow v (a ++ b) = match follow v a with Found w => follow w b | o => o end.
Proof.
  induction a as [|s a IH]; intros v b; [destruct b; reflexivity|]. cbn [app]. destruct s as [n|ds]; cbn [follow].
  - destruct v; try reflexivity. destruct (member l n); [apply IH|reflexivity].
  - destruct (bad_index ds); [reflexivity|]. destruct v; try reflexivity. destruct (nth_error l (Z.to_nat (number ds))); [apply IH|reflexivity].
Qed.

Lemma number_le_app p q : Forall decimal p -> Forall decimal q -> q <> [] -> 10 * number p <= number (p ++ q).
Proof.
  intros P Q N. unfold number. rewrite fold_left_app.
  assert (G0 : 0 <= fold_left (fun a c => 10 * a + (c - 48)) p 0).
  { assert (G : forall p a, Forall decimal p -> 0 <= a -> 0 <= fold_left (fun a c => 10 * a + (c - 48)) p a).
    { clear. induction p as [|c p IH]; intros a P A; [exact A|]. inversion P as [|? ? C P']; subst. cbn [fold_left]. apply IH; [exact P'|].
      unfold decimal in C. lia. }
    apply G; [exact P|lia]. }
  set (a := fold_left _ p 0) in *. clearbody a. clear P p.
  destruct q as [|c q]; [congruence|]. clear N. inversion Q as [|? ? C Q']; subst. cbn [fold_left]. unfold decimal in C.
  assert (G : forall q b, Forall decimal q -> 0 <= b -> b <= fold_left (fun a c => 10 * a + (c - 48)) q b).
  { clear. induction q as [|c q IH]; intros b Q B; [cbn; lia|]. inversion Q as [|? ? C Q']; subst. cbn [fold_left]. unfold decimal in C.
    specialize (IH (10 * b + (c - 48)) Q'). lia. }
  specialize (G q (10 * a + (c - 48)) Q'). lia.
Qed.

Lemma index_bad v : 0 <= v < 100000000000000000000 -> bad_index (put_du 20 v) = (9999990 <=? v).
Proof.
  intros V. destruct (put_du_spec 20 v) as (N & D & E); [change (10 ^ Z.of_nat 20) with 100000000000000000000; lia|lia|].
  destruct (9999990 <=? v) eqn:B.
  - apply bad_index_spec. exists (put_du 19 (v / 10)), [48 + v mod 10].
    destruct (put_du_spec 19 (v / 10)) as (N' & D' & E'); [change (10 ^ Z.of_nat 19) with 10000000000000000000; split; [apply Z.div_pos; lia|apply Z.div_lt_upper_bound; lia]|lia|].
    split; [change (put_du 20 v) with (if v <? 10 then [48 + v] else put_du 19 (v / 10) ++ [48 + v mod 10]); replace (v <? 10) with false by lia; reflexivity|].
    split; [exact N'|]. split; [discriminate|]. rewrite E'. apply Z.div_le_lower_bound; lia.
  - apply not_true_iff_false. rewrite bad_index_spec. intros (p & q & Epq & Np & Nq & L).
    rewrite Epq in D. apply Forall_app in D. destruct D as (Dp & Dq). pose proof (number_le_app p q Dp Dq Nq) as G.
    rewrite <- Epq, E in G. lia.
Qed.

Definition is_str (v : value) (s : list Z) : Prop := v = Str s.

Lemma file_query r name k l : name_ok name = true -> Z.of_nat k < 100000000000000000000 ->
  query r (path_of [txt "logger"; name; txt "files"]) = Found (Arr l) ->
  query r (file_path name k) = if 9999990 <=? Z.of_nat k then Throws else match nth_error l k with Some v => Found v | None => Missing end.
Proof.
  intros N K Q. destruct (put_du_spec 20 (Z.of_nat k)) as (D1 & D2 & D3); [change (10 ^ Z.of_nat 20) with 100000000000000000000; lia|lia|].
  assert (F : forallb name_ok [txt "logger"; name; txt "files"] = true) by (cbn [forallb]; rewrite N; reflexivity).
  rewrite (run_path r _ _ (path_dotted [txt "logger"; name; txt "files"] ltac:(discriminate) F)) in Q.
  pose proof (path_indexed (txt "logger") [name; txt "files"] (put_du 20 (Z.of_nat k)) F D1 D2) as P.
  assert (E : file_path name k = path_of [txt "logger"; name; txt "files"] ++ [91] ++ put_du 20 (Z.of_nat k) ++ [93]).
  { unfold file_path. cbn [path_of dotted]. rewrite <- !app_assoc. reflexivity. }
  rewrite E, (run_path r _ _ P), follow_app, Q. cbn [follow]. rewrite index_bad by lia. rewrite D3, Nat2Z.id. reflexivity.
Qed.

Lemma load_files_spec r name l : name_ok name = true -> Z.of_nat (length l) < 100000000000000000000 ->
  query r (path_of [txt "logger"; name; txt "files"]) = Found (Arr l) ->
  forall n k fs, (n + k = length l)%nat ->
  load_files r name n k = Some fs <-> skipn k l = map Str fs /\ (n = O \/ Z.of_nat (length l) <= 9999990).
Proof.
  intros N L Q n. induction n as [|n IH]; intros k fs E; cbn [load_files].
  - rewrite skipn_all2 by lia. split; [intros [= <-]; auto|]. intros (H & _). destruct fs; [reflexivity|discriminate].
  - unfold get_string, get, queried. rewrite (file_query r name k l N ltac:(lia) Q).
    destruct (nth_error l k) as [v|] eqn:V; [|apply nth_error_None in V; lia].
    assert (Sk : skipn k l = v :: skipn (S k) l).
    { clear - V. revert k V. induction l as [|x l IH]; intros [|k] V; cbn [nth_error] in V; try discriminate.
      - injection V as ->. reflexivity.
      - cbn [skipn]. rewrite (IH k V). reflexivity. }
    rewrite Sk. destruct (9999990 <=? Z.of_nat k) eqn:B.
    { split; [discriminate|]. intros (_ & [A|A]); [discriminate|]. lia. }
    destruct v; try (split; [discriminate|intros (H & _); destruct fs; discriminate]).
    specialize (IH (S k)). split.
    + intros H. apply bind_some in H. destruct H as (fs' & H1 & [= <-]). apply IH in H1; [|lia]. destruct H1 as (-> & H2).
      split; [reflexivity|]. right. lia.
    + intros (H & A). destruct fs as [|f fs]; [discriminate|]. cbn [map] in H. injection H as -> H. apply bind_some. exists fs.
      split; [|reflexivity]. apply IH; [lia|]. split; [exact H|]. right. destruct A as [A|A]; [discriminate|exact A].
Qed.

Lemma text_eqb_eq a b : text_eqb a b = true <-> a = b.
Proof. apply text_eqb_spec. Qed.
Lemma std_visible fs : existsb is_std fs = true <-> In (txt "/dev/stdout") fs \/ In (txt "/dev/stderr") fs.
Proof.
  rewrite existsb_exists. unfold is_std. split.
  - intros (x & X & E). apply orb_prop in E. destruct E as [E|E]; apply text_eqb_eq in E; subst x; auto.
  - intros [X|X]; eexists; (split; [exact X|]); apply orb_true_iff; [left|right]; apply text_eqb_eq; reflexivity.
Qed.

Lemma load_level_spec r verbose name v : name_ok name = true ->
  (forall l, says r [txt "logger"; name; txt "files"] (Found (Arr l)) -> Z.of_nat (length l) < 100000000000000000000) ->
  load_level r verbose name = Some v <-> level_says r verbose name v.
Proof.
  intros N Fit.
  assert (GC : forall x, name_ok x = true -> goes_to (txt "logger." ++ name ++ [46] ++ x) [txt "logger"; name; x]).
  { intros x X. split; [cbn [path_of dotted]; rewrite app_nil_r; reflexivity|]. split; [discriminate|]. cbn [forallb]. rewrite N, X. reflexivity. }
  pose proof (GC (txt "color") eq_refl) as G1. pose proof (GC (txt "expendable") eq_refl) as G2. pose proof (GC (txt "files") eq_refl) as G3.
  change ([46] ++ txt "color") with (txt ".color") in G1. change ([46] ++ txt "expendable") with (txt ".expendable") in G2.
  change ([46] ++ txt "files") with (txt ".files") in G3. clear GC.
  pose proof (query_absent r _ _ G3) as QA. pose proof (fun v => query_found r _ _ v G3) as QF.
  assert (FS : forall n fs, value_or (get_array_size r true (txt "logger." ++ name ++ txt ".files")) O = Some n -> load_files r name n 0 = Some fs ->
    files_are r [txt "logger"; name; txt "files"] fs).
  { unfold value_or, get_array_size, get, queried. intros n fs A B. destruct (query r (txt "logger." ++ name ++ txt ".files")) as [w| |] eqn:Q.
    - destruct w; try discriminate; injection A as <-.
      + cbn [load_files] in B. injection B as <-. constructor. apply QA. auto.
      + assert (Q' : says r [txt "logger"; name; txt "files"] (Found (Arr l))) by (apply QF; reflexivity).
        destruct G3 as (E3 & _). rewrite E3 in Q. apply (load_files_spec r name l N (Fit l Q') Q (length l) 0 fs ltac:(lia)) in B.
        destruct B as (B & C). cbn [skipn] in B. subst l. constructor 2; [exact Q'|]. rewrite map_length in C. destruct C as [C|C]; [|exact C].
        rewrite C. lia.
    - injection A as <-. cbn [load_files] in B. injection B as <-. constructor. apply QA. auto.
    - discriminate. }
  assert (SF : forall fs, files_are r [txt "logger"; name; txt "files"] fs ->
    exists n, value_or (get_array_size r true (txt "logger." ++ name ++ txt ".files")) O = Some n /\ load_files r name n 0 = Some fs).
  { unfold value_or, get_array_size, get, queried. intros fs [A|l A B].
    - exists O. apply QA in A. destruct A as [-> | ->]; split; reflexivity.
    - exists (length l). pose proof (Fit _ A) as Fl. pose proof A as Q'. apply QF in A. rewrite A. rewrite map_length. split; [reflexivity|].
      destruct G3 as (E3 & _). rewrite E3 in A.
      apply (load_files_spec r name (map Str l) N Fl A (length l) 0 l); [rewrite map_length; lia|]. rewrite map_length. auto. }
  unfold load_level, level_says. split.
  - intros H. apply bind_some in H. destruct H as (c & C & H). apply bind_some in H. destruct H as (e & E & H).
    apply bind_some in H. destruct H as (n & Hn & H). apply bind_some in H. destruct H as (fs & F & H). injection H as <-.
    cbn [v_tag v_color v_expendable v_files].
    split; [reflexivity|]. split; [eapply str_or_spec; eassumption|]. split; [eapply bool_or_spec; eassumption|].
    exists fs. split; [eapply FS; eassumption|]. cbv zeta. pose proof (std_visible fs) as SV.
    destruct verbose; cbn [andb]; [|left; auto]. destruct (existsb is_std fs); cbn [negb].
    + left. split; [right; apply SV; reflexivity|reflexivity].
    + right. split; [reflexivity|]. split; [|reflexivity]. intros X. apply SV in X. discriminate.
  - destruct v as [tg c e fl]. cbn [v_tag v_color v_expendable v_files]. intros (-> & C & E & fs & F & V). cbv zeta in V.
    apply bind_some. exists c. split; [eapply str_or_spec; eassumption|]. apply bind_some. exists e. split; [eapply bool_or_spec; eassumption|].
    destruct (SF fs F) as (n & N1 & N2). apply bind_some. exists n. split; [exact N1|]. apply bind_some. exists fs. split; [exact N2|].
    f_equal. f_equal. pose proof (std_visible fs) as SV. destruct V as [([-> |V] & ->)|(-> & V & ->)]; [reflexivity| |].
    + apply SV in V. rewrite V. destruct verbose; reflexivity.
    + destruct (existsb is_std fs); [exfalso; apply V, SV; reflexivity|reflexivity].
Qed.

Lemma load_levels_spec r verbose ns : forall l, Forall (fun n => name_ok n = true) ns ->
  (forall name l, In name ns -> says r [txt "logger"; name; txt "files"] (Found (Arr l)) -> Z.of_nat (length l) < 100000000000000000000) ->
  load_levels r verbose ns = Some l <-> Forall2 (level_says r verbose) ns l.
Proof.
  induction ns as [|n ns IH]; intros l N Fit; cbn [load_levels].
  - split; [intros [= <-]; constructor|]. intros H. inversion H. reflexivity.
  - inversion N as [|? ? N1 N2]; subst.
    assert (Fit' : forall name l, In name ns -> says r [txt "logger"; name; txt "files"] (Found (Arr l)) -> Z.of_nat (length l) < 100000000000000000000).
    { intros m k I. apply Fit. right. exact I. }
    split.
    + intros H. apply bind_some in H. destruct H as (v & V & H). apply bind_some in H. destruct H as (l' & L & [= <-]).
      constructor; [apply load_level_spec; [exact N1|intros k; apply Fit; left; reflexivity|exact V]|]. apply IH; assumption.
    + intros H. inversion H as [|? v ? l' V L]; subst. apply bind_some. exists v.
      split; [apply load_level_spec; [exact N1|intros k; apply Fit; left; reflexivity|exact V]|].
      apply bind_some. exists l'. split; [apply IH; assumption|reflexivity].
Qed.
Lemma load_logger_spec r verbose l : fits r -> load_levels r verbose names = Some l <-> logger_says r verbose l.
Proof.
  intros Fit. apply load_levels_spec; [repeat constructor|exact Fit].
Qed.

(** *** Histories *)
Lemma last_wins {A} (accepts : event -> A -> Prop) (f : st -> A) (P : event -> Prop) :
  (forall s e s', P e -> step s e = Some s' -> accepts e (f s') \/ ((forall c, ~ accepts e c) /\ f s' = f s)) ->
  forall es s s', (forall e, In e es -> P e) -> run s es = Some s' -> last_accepted accepts (f s) es (f s').
Proof.
  intros St es. induction es as [|e es IH]; intros s s' Pe R.
  - cbn [run] in R. injection R as <-. left. split; [intros e c []|reflexivity].
  - cbn [run] in R. destruct (step s e) as [s1|] eqn:E; [|discriminate].
    specialize (IH s1 s' (fun x X => Pe x (or_intror X)) R). specialize (St s e s1 (Pe e (or_introl eq_refl)) E).
    destruct IH as [(N & Q)|(b & x & a & -> & Ac & N)].
    + destruct St as [Ac|(Na & Q1)].
      * right. exists [], e, es. rewrite Q. split; [reflexivity|]. split; [exact Ac|]. intros e' c' I. apply N, I.
      * left. split; [|congruence]. intros e' c' [<-|I]; [apply Na|apply N, I].
    + right. exists (e :: b), x, a. split; [reflexivity|]. split; [exact Ac|exact N].
Qed.

Opaque load_mysql load_mongo load_redis load_net load_fiber load_levels mysql_says mongo_says redis_says net_says fiber_says logger_says.
Ltac other := right; split; [intros ? Hx; red in Hx; repeat (match type of Hx with ex _ => destruct Hx as (? & Hx) end); try (destruct Hx as (Hx & _)); discriminate|reflexivity].
Ltac step_cases St :=
  cbn [step] in St; repeat match type of St with
  | match ?x with _ => _ end = _ => destruct x eqn:?
  | (if ?x then _ else _) = _ => destruct x eqn:?
  end; try discriminate; injection St as <-; cbn [s_main s_levels s_bits s_busy s_mysql s_mongo s_redis s_net s_fiber].

Lemma step_main s e s' : True -> step s e = Some s' -> main_accepts e (s_main s') \/ ((forall c, ~ main_accepts e c) /\ s_main s' = s_main s).
Proof.
  intros _ St. destruct e as [[r|]| |r v|r|r|r|r o|r l]; step_cases St; try other. left. reflexivity.
Qed.
Lemma step_mysql s e s' : True -> step s e = Some s' -> mysql_accepts e (s_mysql s') \/ ((forall c, ~ mysql_accepts e c) /\ s_mysql s' = s_mysql s).
Proof.
  intros _ St. destruct e as [[r|]| |r v|r|r|r|r o|r l]; step_cases St; try other.
  - left. exists r. split; [reflexivity|]. apply load_mysql_spec. assumption.
  - right. split; [|reflexivity]. intros c (r' & [= <-] & H). apply load_mysql_spec in H. congruence.
Qed.
Lemma step_mongo s e s' : True -> step s e = Some s' -> mongo_accepts e (s_mongo s') \/ ((forall c, ~ mongo_accepts e c) /\ s_mongo s' = s_mongo s).
Proof.
  intros _ St. destruct e as [[r|]| |r v|r|r|r|r o|r l]; step_cases St; try other.
  - left. exists r. split; [reflexivity|]. apply load_mongo_spec. assumption.
  - right. split; [|reflexivity]. intros c (r' & [= <-] & H). apply load_mongo_spec in H. congruence.
Qed.
Lemma step_redis s e s' : True -> step s e = Some s' -> redis_accepts e (s_redis s') \/ ((forall c, ~ redis_accepts e c) /\ s_redis s' = s_redis s).
Proof.
  intros _ St. destruct e as [[r|]| |r v|r|r|r|r o|r l]; step_cases St; try other.
  - left. exists r. split; [reflexivity|]. apply load_redis_spec. assumption.
  - right. split; [|reflexivity]. intros c (r' & [= <-] & H). apply load_redis_spec in H. congruence.
Qed.
Lemma step_net s e s' : True -> step s e = Some s' -> net_accepts e (s_net s') \/ ((forall c, ~ net_accepts e c) /\ s_net s' = s_net s).
Proof.
  intros _ St. destruct e as [[r|]| |r v|r|r|r|r o|r l]; step_cases St; try other.
  - left. exists r, o. split; [reflexivity|]. apply load_net_spec. assumption.
  - right. split; [|reflexivity]. intros c (r' & o' & [= <- <-] & H). apply load_net_spec in H. congruence.
Qed.
Lemma step_fiber s e s' : (forall r l, e = Fiber r (Some l) -> 0 <= l < 4294967296) -> step s e = Some s' ->
  fiber_accepts e (s_fiber s') \/ ((forall c, ~ fiber_accepts e c) /\ s_fiber s' = s_fiber s).
Proof.
  intros Lm St. destruct e as [[r|]| |r v|r|r|r|r o|r l]; try (step_cases St; other).
  assert (L : forall z, l = Some z -> 0 <= z < 4294967296) by (intros z ->; apply (Lm r); reflexivity).
  step_cases St.
  - left. exists r, l. split; [reflexivity|]. apply load_fiber_spec; assumption.
  - right. split; [|reflexivity]. intros c (r' & l' & [= <- <-] & H). apply load_fiber_spec in H; [congruence|assumption].
Qed.
Lemma step_logger s e s' : (forall r v, e = Log_end r v -> fits r) -> step s e = Some s' ->
  logger_accepts e (s_levels s') \/ ((forall c, ~ logger_accepts e c) /\ s_levels s' = s_levels s).
Proof.
  intros Lm St. destruct e as [[r|]| |r v|r|r|r|r o|r l]; try (step_cases St; other).
  pose proof (Lm r v eq_refl) as F. step_cases St.
  - left. exists r, v. split; [reflexivity|]. apply load_logger_spec; assumption.
  - right. split; [|reflexivity]. intros c (r' & v' & [= <- <-] & H). apply load_logger_spec in H; [congruence|assumption].
Qed.

(** *** Level bits *)
Lemma bits_spec l : forall k n, 0 <= k -> 0 <= n -> Z.testbit (bits_of k l) (k + n) = match nth_error l (Z.to_nat n) with Some v => negb (match v_files v with [] => true | _ => false end) | None => false end.
Proof.
  induction l as [|v l IH]; intros k n K N; cbn [bits_of].
  - rewrite Z.bits_0. destruct (Z.to_nat n); reflexivity.
  - rewrite Z.lor_spec. destruct (Z.eq_dec n 0) as [-> |E].
    + change (Z.to_nat 0) with 0%nat. cbn [nth_error]. rewrite Z.add_0_r.
      assert (B : forall l k' i, i < k' -> 0 <= k' -> Z.testbit (bits_of k' l) i = false).
      { clear. induction l as [|v l IH]; intros k' i L K; cbn [bits_of]; [apply Z.bits_0|]. rewrite Z.lor_spec, IH by lia.
        rewrite orb_false_r. destruct (v_files v); [apply Z.bits_0|].
        destruct (Z_lt_le_dec i 0); [apply Z.testbit_neg_r; lia|]. rewrite Z.shiftl_spec by lia. apply Z.testbit_neg_r. lia. }
      rewrite B by lia. rewrite orb_false_r. destruct (v_files v); [apply Z.bits_0|]. rewrite Z.shiftl_spec by lia. rewrite Z.sub_diag. reflexivity.
    + replace (Z.to_nat n) with (S (Z.to_nat (n - 1))) by lia. cbn [nth_error]. rewrite <- (IH (k + 1) (n - 1)) by lia.
      replace (k + 1 + (n - 1)) with (k + n) by lia.
      assert (B : Z.testbit (match v_files v with [] => 0 | _ => Z.shiftl 1 k end) (k + n) = false).
      { destruct (v_files v); [apply Z.bits_0|]. rewrite Z.shiftl_spec by lia. replace (k + n - k) with n by lia.
        destruct n as [|p|p]; try lia. destruct p; reflexivity. }
      rewrite B. reflexivity.
Qed.
Lemma land_bit b l : 0 <= l -> negb (Z.land b (Z.shiftl 1 l) =? 0) = Z.testbit b l.
Proof.
  intros L. replace (Z.shiftl 1 l) with (2 ^ l) by (rewrite Z.shiftl_1_l; reflexivity).
  destruct (Z.testbit b l) eqn:T.
  - destruct (Z.land b (2 ^ l) =? 0) eqn:E; [|reflexivity]. apply Z.eqb_eq in E.
    assert (F : Z.testbit (Z.land b (2 ^ l)) l = false) by (rewrite E; apply Z.bits_0).
    rewrite Z.land_spec, T, Z.pow2_bits_true in F by lia. discriminate.
  - replace (Z.land b (2 ^ l)) with 0; [reflexivity|]. symmetry. apply Z.bits_inj'. intros i I. rewrite Z.bits_0, Z.land_spec.
    destruct (Z.eq_dec i l) as [-> |N]; [rewrite T; reflexivity|]. rewrite Z.pow2_bits_false by lia. apply andb_false_r.
Qed.
Lemma enabled_bit s l : 0 <= l -> enabled s l = (l <=? 15) && Z.testbit (s_bits s) l.
Proof. intros L. unfold enabled. rewrite land_bit by exact L. reflexivity. Qed.

Lemma levels_length r v ns : forall l, load_levels r v ns = Some l -> length l = length ns.
Proof.
  induction ns as [|n ns IH]; cbn [load_levels]; intros l H; [injection H as <-; reflexivity|].
  apply bind_some in H. destruct H as (x & _ & H). apply bind_some in H. destruct H as (l' & H & [= <-]). cbn [length]. f_equal. apply IH, H.
Qed.

Definition open_inv (s : st) : Prop :=
  (length (s_levels s) <= 6)%nat /\ (s_bits s = 4294967295 \/ s_bits s = bits_of 0 (s_levels s)) /\ (s_busy s = true -> s_bits s = 4294967295).
Lemma open_step s e s' : open_inv s -> step s e = Some s' -> open_inv s'.
Proof.
  intros I St. unfold open_inv in *. destruct I as (I0 & I1 & I2).
  destruct e as [[r|]| |r v|r|r|r|r o|r l]; step_cases St; try (split; [assumption|split; assumption]).
  - split; [assumption|]. split; [left; reflexivity|reflexivity].
  - match goal with H : load_levels _ _ _ = Some _ |- _ => apply levels_length in H; rename H into L end.
    split; [rewrite L; cbn; lia|]. split; [right; reflexivity|discriminate].
  - split; [assumption|]. split; [assumption|discriminate].
Qed.
Lemma open_run es : forall s s', open_inv s -> run s es = Some s' -> open_inv s'.
Proof.
  induction es as [|e es IH]; intros s s' I R; cbn [run] in R; [injection R as <-; exact I|].
  destruct (step s e) as [s1|] eqn:E; [|discriminate]. eapply IH; [eapply open_step; eauto|exact R].
Qed.
Lemma open_enabled s l : open_inv s -> files_of s l <> [] -> enabled s (Z.of_nat l) = true.
Proof.
  intros (I0 & I1 & _) F. unfold files_of in F. destruct (nth_error (s_levels s) l) as [v|] eqn:E; [|congruence].
  assert (L : (l < 6)%nat) by (assert ((l < length (s_levels s))%nat) by (apply nth_error_Some; congruence); lia).
  rewrite enabled_bit by lia. replace (Z.of_nat l <=? 15) with true by lia. cbn [andb]. destruct I1 as [-> | ->].
  - do 6 (destruct l as [|l]; [reflexivity|]). lia.
  - pose proof (bits_spec (s_levels s) 0 (Z.of_nat l) ltac:(lia) ltac:(lia)) as B. rewrite Z.add_0_l, Nat2Z.id, E in B. rewrite B.
    destruct (v_files v); [congruence|reflexivity].
Qed.
Lemma exact_enabled s l : s_bits s = bits_of 0 (s_levels s) -> (length (s_levels s) <= 6)%nat -> enabled s (Z.of_nat l) = true <-> files_of s l <> [].
Proof.
  intros B L. rewrite enabled_bit, B by lia. pose proof (bits_spec (s_levels s) 0 (Z.of_nat l) ltac:(lia) ltac:(lia)) as G.
  rewrite Z.add_0_l, Nat2Z.id in G. rewrite G. unfold files_of. destruct (nth_error (s_levels s) l) as [v|] eqn:E.
  - assert (Ll : (l < length (s_levels s))%nat) by (apply nth_error_Some; congruence).
    replace (Z.of_nat l <=? 15) with true by lia. cbn [andb]. destruct (v_files v); cbn [negb]; split; congruence.
  - rewrite andb_false_r. split; congruence.
Qed.
(** After a success the bits stay exact until the next attempt. *)
Lemma quiet_run es : forall s s', ~ In Log_begin es -> s_busy s = false -> run s es = Some s' ->
  s_busy s' = false /\ s_bits s' = s_bits s /\ s_levels s' = s_levels s.
Proof.
  induction es as [|e es IH]; intros s s' N B R; cbn [run] in R; [injection R as <-; auto|].
  destruct (step s e) as [s1|] eqn:E; [|discriminate].
  assert (N1 : e <> Log_begin) by (intros ->; apply N; left; reflexivity).
  assert (G : s_busy s1 = false /\ s_bits s1 = s_bits s /\ s_levels s1 = s_levels s).
  { destruct e as [[r|]| |r v|r|r|r|r o|r l]; try congruence; step_cases E; auto; congruence. }
  destruct G as (G1 & G2 & G3). destruct (IH s1 s' (fun I => N (or_intror I)) G1 R) as (A1 & A2 & A3). repeat split; congruence.
Qed.

(** *** Contexts *)
Definition of_opt (o : option nat) : list nat := match o with Some c => [c] | None => [] end.
Definition holders (s : refs) : list nat := of_opt (r_server s) ++ of_opt (r_client s) ++ r_users s.
Definition ctx_inv (s : refs) (ex : list nat) : Prop := forall c,
  r_count s c = (occurrences c (holders s) + occurrences c ex)%nat
  /\ ((c < r_next s)%nat -> occurrences c (r_freed s) = (if Nat.eqb (r_count s c) 0 then 1 else 0)%nat)
  /\ ((r_next s <= c)%nat -> r_count s c = O /\ occurrences c (r_freed s) = O).

Lemma occ_cons c x l : occurrences c (x :: l) = ((if Nat.eqb x c then 1 else 0) + occurrences c l)%nat.
Proof.
  unfold occurrences. cbn [count_occ]. destruct (Nat.eq_dec x c) as [-> |N]; [rewrite Nat.eqb_refl; reflexivity|].
  apply Nat.eqb_neq in N. rewrite N. reflexivity.
Qed.
Lemma occ_app c a b : occurrences c (a ++ b) = (occurrences c a + occurrences c b)%nat.
Proof. apply count_occ_app. Qed.
Lemma occ_nil c : occurrences c [] = O. Proof. reflexivity. Qed.

Lemma inv_new s ex : ctx_inv s ex -> ctx_inv (fst (ctx_new s)) (r_next s :: ex).
Proof.
  intros I c. destruct (I c) as (A & B & C). unfold ctx_new. cbn [fst]. unfold holders in *. cbn [r_server r_client r_users r_count r_freed r_next].
  rewrite occ_cons. unfold set. rewrite (Nat.eqb_sym (r_next s) c). destruct (Nat.eqb c (r_next s)) eqn:E.
  - apply Nat.eqb_eq in E. subst c. destruct (C (Nat.le_refl _)) as (C1 & C2). split; [lia|]. split; [intros _; exact C2|lia].
  - apply Nat.eqb_neq in E. split; [exact A|]. split; [intros L; apply B; lia|intros L; apply C; lia].
Qed.
Lemma inv_free s c ex : ctx_inv s (c :: ex) -> ctx_inv (ctx_free s (Some c)) ex.
Proof.
  intros I x. destruct (I x) as (A & B & C). unfold ctx_free. unfold holders in *. cbn [r_server r_client r_users r_count r_freed r_next].
  rewrite occ_cons in A. unfold set. rewrite (Nat.eqb_sym c x) in A. destruct (Nat.eqb x c) eqn:E.
  - apply Nat.eqb_eq in E. subst x. destruct (r_count s c) as [|n] eqn:K; [lia|]. cbn [Nat.pred].
    split; [lia|]. split; [|intros L; destruct (C L) as (C1 & _); discriminate].
    intros L. specialize (B L). cbn [Nat.eqb] in B. destruct n; cbn [Nat.eqb]; [rewrite occ_cons, Nat.eqb_refl|]; lia.
  - apply Nat.eqb_neq in E. split; [exact A|].
    assert (F : occurrences x (match Nat.pred (r_count s c) with O => c :: r_freed s | S _ => r_freed s end) = occurrences x (r_freed s)).
    { destruct (Nat.pred (r_count s c)); [|reflexivity]. rewrite occ_cons. replace (Nat.eqb c x) with false; [reflexivity|]. symmetry. apply Nat.eqb_neq. congruence. }
    rewrite F. split; [exact B|exact C].
Qed.
Lemma inv_up s c ex : ctx_inv s ex -> r_count s c <> O -> ctx_inv (ctx_up s c) (c :: ex).
Proof.
  intros I K x. destruct (I x) as (A & B & C). unfold ctx_up. unfold holders in *. cbn [r_server r_client r_users r_count r_freed r_next].
  rewrite occ_cons. unfold set. rewrite (Nat.eqb_sym c x). destruct (Nat.eqb x c) eqn:E.
  - apply Nat.eqb_eq in E. subst x. split; [lia|]. split; [|intros L; destruct (C L); contradiction].
    intros L. rewrite (B L). destruct (r_count s c); [contradiction|reflexivity].
  - split; [exact A|]. split; [exact B|exact C].
Qed.
(** Only how often contexts are referred to, matters. *)
Lemma inv_move s ex s' ex' : ctx_inv s ex -> r_count s' = r_count s -> r_freed s' = r_freed s -> r_next s' = r_next s ->
  (forall c, (occurrences c (holders s') + occurrences c ex')%nat = (occurrences c (holders s) + occurrences c ex)%nat) -> ctx_inv s' ex'.
Proof.
  intros I E1 E2 E3 H c. destruct (I c) as (A & B & C). rewrite E1, E2, E3, H. split; [exact A|]. split; [exact B|exact C].
Qed.
Lemma occ_remove c x l : In x l -> occurrences c l = ((if Nat.eqb x c then 1 else 0) + occurrences c (remove_one x l))%nat.
Proof.
  induction l as [|y l IH]; intros I; [contradiction|]. cbn [remove_one]. destruct (Nat.eqb y x) eqn:E.
  - apply Nat.eqb_eq in E. subst y. apply occ_cons.
  - destruct I as [-> |I]; [rewrite Nat.eqb_refl in E; discriminate|]. rewrite !occ_cons, IH by exact I. lia.
Qed.

Lemma inv_free_opt s o ex : ctx_inv s (of_opt o ++ ex) -> ctx_inv (ctx_free s o) ex.
Proof. destruct o as [c|]; cbn [of_opt app]; [apply inv_free|intros I; exact I]. Qed.
Lemma inv_new_opt (b : bool) s ex : ctx_inv s ex ->
  let p := if b then let '(s, c) := ctx_new s in (s, Some c) else (s, None) in ctx_inv (fst p) (of_opt (snd p) ++ ex) /\ r_server (fst p) = r_server s /\ r_client (fst p) = r_client s /\ r_users (fst p) = r_users s.
Proof.
  intros I. destruct b; cbn; [|auto]. split; [apply (inv_new s ex I)|auto].
Qed.
Lemma free_fields s o : r_server (ctx_free s o) = r_server s /\ r_client (ctx_free s o) = r_client s /\ r_users (ctx_free s o) = r_users s.
Proof. destruct o; cbn; auto. Qed.

Lemma act_inv s u s' : ctx_inv s [] -> act s u = Some s' -> ctx_inv s' [].
Proof.
  intros I A. destruct u as [sv cl ok| | |c]; unfold act in A.
  - pose proof (inv_new_opt sv s [] I) as N1. cbv zeta in N1.
    destruct (if sv then let '(s, c) := ctx_new s in (s, Some c) else (s, None)) as (s1, a) eqn:E1. cbn [fst snd] in N1. destruct N1 as (I1 & F1 & F2 & F3).
    pose proof (inv_new_opt cl s1 _ I1) as N2. cbv zeta in N2.
    destruct (if cl then let '(s, c) := ctx_new s1 in (s, Some c) else (s1, None)) as (s2, b) eqn:E2. cbn [fst snd] in N2. destruct N2 as (I2 & G1 & G2 & G3).
    destruct ok; injection A as <-.
    + apply inv_free_opt, inv_free_opt. eapply inv_move; [exact I2|reflexivity..|].
      intros c. unfold holders. cbn [r_server r_client r_users]. rewrite !occ_app, occ_nil. lia.
    + apply inv_free_opt, inv_free_opt. eapply inv_move; [exact I2|reflexivity..|]. intros c. reflexivity.
  - destruct (r_server s) as [c|] eqn:E; [|discriminate]. injection A as <-.
    assert (K : r_count s c <> O).
    { destruct (I c) as (K & _). rewrite K. unfold holders. rewrite E. cbn [of_opt app]. rewrite occ_cons, Nat.eqb_refl. lia. }
    eapply inv_move; [exact (inv_up s c [] I K)|reflexivity..|].
    intros x. unfold holders, ctx_up. cbn [r_server r_client r_users]. rewrite !occ_app, !occ_cons. lia.
  - destruct (r_client s) as [c|] eqn:E; [|discriminate]. injection A as <-.
    assert (K : r_count s c <> O).
    { destruct (I c) as (K & _). rewrite K. unfold holders. rewrite E. cbn [of_opt]. rewrite !occ_app, occ_cons, Nat.eqb_refl. lia. }
    eapply inv_move; [exact (inv_up s c [] I K)|reflexivity..|].
    intros x. unfold holders, ctx_up. cbn [r_server r_client r_users]. rewrite !occ_app, !occ_cons. lia.
  - destruct (existsb (Nat.eqb c) (r_users s)) eqn:E; [|discriminate]. injection A as <-.
    apply existsb_exists in E. destruct E as (y & Y & E). apply Nat.eqb_eq in E. subst y.
    refine (inv_free (mkRefs (r_server s) (r_client s) (remove_one c (r_users s)) (r_count s) (r_freed s) (r_next s)) c [] _).
    eapply inv_move; [exact I|reflexivity..|].
    intros x. unfold holders. cbn [r_server r_client r_users]. rewrite !occ_app, occ_cons, occ_nil, (occ_remove x c _ Y). lia.
Qed.
Lemma acts_inv us : forall s, ctx_inv s [] -> ctx_inv (acts s us) [].
Proof.
  induction us as [|u us IH]; intros s I; cbn [acts]; [exact I|]. apply IH. destruct (act s u) as [s1|] eqn:E; [eapply act_inv; eauto|exact I].
Qed.
Lemma init_ctx_inv : ctx_inv refs0 [].
Proof. intros c. cbn. split; [reflexivity|]. split; [lia|auto]. Qed.
