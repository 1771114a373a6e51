(** Theorems about loading the configuration. *)
From Coq Require Import List ZArith Bool Lia String.
From Verif Require Import Base Text ConfModel ConfSpec RelModel RelSpec RelProofs.
Import ListNotations.
Open Scope list_scope.
Open Scope Z_scope.
Notation length := List.length.

(** C91: at any time in any history, the settings of a component are all those
    of the last file that it has accepted; files which it has rejected have no
    effect. *)
Theorem rel_last es s : run init es = Some s ->
  last_accepted main_accepts [] es (s_main s)
  /\ last_accepted mysql_accepts (mkMysql [] [] [] [] [] [] 0 0) es (s_mysql s)
  /\ last_accepted mongo_accepts (mkDb [] [] 0 0) es (s_mongo s)
  /\ last_accepted redis_accepts (mkDb [] [] 0 0) es (s_redis s)
  /\ last_accepted net_accepts (mkNet 0 0 None None) es (s_net s).
Proof.
  intros R. split; [|split; [|split; [|split]]].
  - exact (last_wins _ _ _ step_main es init s (fun _ _ => Logic.I) R).
  - exact (last_wins _ _ _ step_mysql es init s (fun _ _ => Logic.I) R).
  - exact (last_wins _ _ _ step_mongo es init s (fun _ _ => Logic.I) R).
  - exact (last_wins _ _ _ step_redis es init s (fun _ _ => Logic.I) R).
  - exact (last_wins _ _ _ step_net es init s (fun _ _ => Logic.I) R).
Qed.

(** So do fibers, if the limit of the system is less than 4 GiB. *)
Theorem rel_last_fiber_partial es s : run init es = Some s -> small_limits es ->
  last_accepted fiber_accepts (mkFiber 0 0 0) es (s_fiber s).
Proof.
  intros R L. refine (last_wins _ _ _ step_fiber es init s _ R). intros e I r l ->. exact (L r l I).
Qed.

(** What levels of the logger are, and which files they have. *)
Theorem rel_last_logger es s : run init es = Some s -> (forall r v, In (Log_end r v) es -> fits r) ->
  last_accepted logger_accepts [] es (s_levels s).
Proof.
  intros R F. refine (last_wins _ _ _ step_logger es init s _ R). intros e I r v ->. exact (F r v I).
Qed.

(** No message is suppressed that has to be written to a file, not even while
    the configuration is being loaded. *)
Theorem rel_log_open es s l : run init es = Some s -> files_of s l <> [] -> enabled s (Z.of_nat l) = true.
Proof.
  intros R. apply open_enabled. refine (open_run es init s _ R). split; [cbn; lia|]. split; [right; reflexivity|discriminate].
Qed.

(** After a file was accepted, exactly the levels that have files are enabled,
    until another file is loaded. *)
Theorem rel_log_exact_partial before r v after s l : run init (before ++ Log_end r v :: after) = Some s -> fits r ->
  (exists c, logger_says r v c) -> ~ In Log_begin after ->
  enabled s (Z.of_nat l) = true <-> files_of s l <> [].
Proof.
  intros R F (c & C) N.
  assert (S : forall a b s0, run s0 (a ++ b) = match run s0 a with Some s1 => run s1 b | None => None end).
  { clear. induction a as [|e a IH]; intros b s0; cbn [app run]; [reflexivity|]. destruct (step s0 e); [apply IH|reflexivity]. }
  rewrite S in R. destruct (run init before) as [s1|] eqn:E1; [|discriminate]. cbn [run] in R.
  destruct (step s1 (Log_end r v)) as [s2|] eqn:E2; [|discriminate].
  apply load_logger_spec in C; [|exact F]. cbn [step] in E2. destruct (s_busy s1); [|discriminate]. rewrite C in E2. injection E2 as <-.
  edestruct (quiet_run after) as (_ & B & L); [exact N| |exact R|]; [reflexivity|]. cbn [s_bits s_levels] in B, L.
  apply exact_enabled; [rewrite B, L; reflexivity|]. rewrite L. apply levels_length in C. rewrite C. cbn. lia.
Qed.

(** The full statement, that a file which is rejected has no effect, is false
    of the logger: all levels stay enabled. *)
Definition bad_conf : list (list Z * value) := [(txt "logger", Obj [(txt "info", Obj [(txt "color", Int 32)])])].
Theorem rel_log_refuted : exists es r s s', run init es = Some s /\ run s [Log_begin; Log_end r false] = Some s'
  /\ (forall c, ~ logger_says r false c) /\ enabled s 5 = false /\ enabled s' 5 = true.
Proof.
  exists [Log_begin; Log_end [] false], bad_conf. eexists. eexists.
  split; [vm_compute; reflexivity|]. split; [vm_compute; reflexivity|]. split; [|split; vm_compute; reflexivity].
  intros c C. apply load_logger_spec in C; [vm_compute in C; discriminate|].
  intros name l I L. exfalso.
  assert (Q : forallb (fun n => match query bad_conf (path_of [txt "logger"; n; txt "files"]) with Missing => true | _ => false end) level_names = true)
    by (vm_compute; reflexivity).
  rewrite forallb_forall in Q. specialize (Q name I).
  apply (query_found bad_conf (path_of [txt "logger"; name; txt "files"])) in L; [rewrite L in Q; discriminate|].
  split; [reflexivity|]. split; [discriminate|]. cbn [forallb].
  assert (K : forallb name_ok level_names = true) by (vm_compute; reflexivity). rewrite forallb_forall in K. rewrite (K name I). reflexivity.
Qed.

(** And the size of stacks is not the limit of the system, if that is large. *)
Theorem rel_stack_refuted : exists r l c, load_fiber r (Some l) = Some c /\ absent r [txt "fiber"; txt "stack_vm_size"]
  /\ l = 4294967297 /\ f_stack c = 1.
Proof.
  exists [], 4294967297. eexists. split; [vm_compute; reflexivity|]. split; [|split; reflexivity].
  left. apply leads_no_name. intros [].
Qed.

(** C92: a file is accepted exactly if all of its settings are of the right type
    and in range, and they are what the file says, or the default. *)
Theorem rel_settings r :
  (forall c, load_mysql r = Some c <-> mysql_says r c)
  /\ (forall c, load_mongo r = Some c <-> mongo_says r c)
  /\ (forall c, load_redis r = Some c <-> redis_says r c)
  /\ (forall o c, load_net r o = Some c <-> net_says o r c)
  /\ (forall c, load_request r = Some c <-> parser_says (txt "max_request_content_length") r c)
  /\ (forall c, load_response r = Some c <-> parser_says (txt "max_response_content_length") r c)
  /\ (forall c, load_frame r = Some c <-> frame_says r c)
  /\ (fits r -> forall v c, load_levels r v level_names = Some c <-> logger_says r v c).
Proof.
  split; [apply load_mysql_spec|]. split; [apply load_mongo_spec|]. split; [apply load_redis_spec|]. split; [intros; apply load_net_spec|].
  split; [apply load_request_spec|]. split; [apply load_response_spec|]. split; [apply load_frame_spec|].
  intros F v c. apply (load_logger_spec r v c F).
Qed.
Theorem rel_settings_fiber_partial r limit c : (forall l, limit = Some l -> 0 <= l < 4294967296) ->
  load_fiber r limit = Some c <-> fiber_says limit r c.
Proof. intros L. apply load_fiber_spec, L. Qed.

(** The comments in etc/poseidon/main.conf are wrong about some settings: the
    default limit of requests is 1 MiB, not 3 MiB; *)
Theorem rel_request_default_refuted : exists r c, load_request r = Some c
  /\ absent r [txt "network"; txt "http"; txt "max_request_content_length"] /\ l_content c <> 3145728.
Proof.
  exists []. eexists. split; [vm_compute; reflexivity|]. split; [|vm_compute; discriminate]. left. apply leads_no_name. intros [].
Qed.
(** an empty URI does not stand for the default one; *)
Definition empty_uri : list (list Z * value) :=
  [(txt "mysql", Obj [(txt "default_service_uri", Str (txt "root@db/x")); (txt "secondary_service_uri", Str [])])].
Theorem rel_empty_uri_refuted : exists r c, load_mysql r = Some c
  /\ says r [txt "mysql"; txt "secondary_service_uri"] (Found (Str [])) /\ my_uri2 c <> my_uri1 c.
Proof.
  exists empty_uri. eexists. split; [vm_compute; reflexivity|]. split; [|vm_compute; discriminate].
  apply (query_found _ (txt "mysql.secondary_service_uri")); [path|vm_compute; reflexivity].
Qed.
(** and stacks need not be multiples of 64 KiB. *)
Definition tiny_stack : list (list Z * value) := [(txt "fiber", Obj [(txt "stack_vm_size", Int 1)])].
Theorem rel_stack_multiple_refuted : exists r limit c, load_fiber r limit = Some c
  /\ says r [txt "fiber"; txt "stack_vm_size"] (Found (Int 1)) /\ f_stack c mod 65536 <> 0.
Proof.
  exists tiny_stack, (Some 8388608). eexists. split; [vm_compute; reflexivity|]. split; [|vm_compute; discriminate].
  apply (query_found _ (txt "fiber.stack_vm_size")); [path|vm_compute; reflexivity].
Qed.

(** A configuration that is accepted, and one which is not. *)
Definition some_conf : list (list Z * value) :=
  [(txt "mysql", Obj [(txt "default_service_uri", Str (txt "root@db/x")); (txt "default_password", Str (txt "pw"));
                      (txt "tertiary_password", Str (txt "pw3")); (txt "connection_pool_size", Int 7)]);
   (txt "logger", Obj [(txt "warn", Obj [(txt "files", Arr [Str (txt "a.log"); Str (txt "b.log")])]);
                       (txt "trace", Obj [(txt "files", Arr []); (txt "expendable", Bool true)])]);
   (txt "network", Obj [(txt "ssl", Obj [(txt "default_certificate", Str (txt "c")); (txt "default_private_key", Str (txt "k"))])])].
Definition all_right : ssl := mkSsl true true (fun _ => true) (fun _ => true) (fun _ _ => true) true (fun _ => true).
Definition some_history : list event :=
  [Main (Some some_conf); Log_begin; Mysql some_conf; Log_end some_conf true; Net some_conf all_right; Main None; Mysql [(txt "mysql", Int 1)];
   Fiber [] (Some 8388608); Log_begin; Log_end some_conf false; Mysql [(txt "mysql", Obj [(txt "connection_pool_size", Int 101)])]].
Example rel_sample : exists s, run init some_history = Some s
  /\ s_main s = some_conf
  /\ s_mysql s = mkMysql (txt "root@db/x") (txt "pw") (txt "root@db/x") (txt "pw") (txt "root@db/x") (txt "pw3") 7 60
  /\ s_net s = mkNet 1024 1048576 (Some (txt "c", txt "k")) (Some None)
  /\ s_fiber s = mkFiber 8388608 15 300
  /\ map (enabled s) [0; 1; 2; 3; 4; 5; 6; 31] = [false; false; true; false; false; false; false; false]
  /\ files_of s 2 = [txt "a.log"; txt "b.log"].
Proof. eexists. split; [vm_compute; reflexivity|]. vm_compute. auto 10. Qed.

(** C93: contexts of TLS are not freed while anything uses them, and are freed
    exactly once after that. *)
Theorem rel_ctx_live us c : let s := acts refs0 us in
  r_server s = Some c \/ r_client s = Some c \/ In c (r_users s) -> ~ In c (r_freed s).
Proof.
  cbv zeta. intros U F. pose proof (acts_inv us refs0 init_ctx_inv) as I. set (s := acts refs0 us) in *. clearbody s.
  destruct (I c) as (A & B & C).
  assert (H : (0 < occurrences c (holders s))%nat).
  { unfold holders. rewrite !occ_app. destruct U as [-> |[-> |U]]; cbn [of_opt]; rewrite ?occ_cons, ?Nat.eqb_refl; try lia.
    unfold occurrences. apply (count_occ_In Nat.eq_dec) in U. lia. }
  apply (count_occ_In Nat.eq_dec) in F. fold (occurrences c (r_freed s)) in F. rewrite occ_nil in A.
  destruct (Nat.lt_ge_cases c (r_next s)) as [L|L].
  - specialize (B L). destruct (Nat.eqb (r_count s c) 0) eqn:E; [apply Nat.eqb_eq in E|]; lia.
  - destruct (C L). lia.
Qed.
Theorem rel_ctx_freed us c : let s := acts refs0 us in
  (c < r_next s)%nat -> r_server s <> Some c -> r_client s <> Some c -> ~ In c (r_users s) -> occurrences c (r_freed s) = 1%nat.
Proof.
  cbv zeta. intros L N1 N2 N3. pose proof (acts_inv us refs0 init_ctx_inv) as I. set (s := acts refs0 us) in *. clearbody s.
  destruct (I c) as (A & B & _). rewrite (B L), A, occ_nil.
  assert (H : occurrences c (holders s) = O).
  { apply (count_occ_not_In Nat.eq_dec). unfold holders. rewrite !in_app_iff. intros [X|[X|X]]; [| |contradiction].
    - destruct (r_server s) as [x|]; [|contradiction]. destruct X as [-> |[]]. congruence.
    - destruct (r_client s) as [x|]; [|contradiction]. destruct X as [-> |[]]. congruence. }
  rewrite H. reflexivity.
Qed.
(** What a socket gets changes only if a file is accepted; it is then a new
    context, or none. *)
Theorem rel_ctx_current us u : let s := acts refs0 us in let s' := acts refs0 (us ++ [u]) in
  ((forall sv cl, u <> Reload sv cl true) -> r_server s' = r_server s /\ r_client s' = r_client s)
  /\ (forall sv cl, u = Reload sv cl true ->
        (if sv then exists c, r_server s' = Some c /\ (r_next s <= c)%nat else r_server s' = None)
        /\ (if cl then exists c, r_client s' = Some c /\ (r_next s <= c)%nat else r_client s' = None)).
Proof.
  cbv zeta. assert (E : forall us s, acts s (us ++ [u]) = match act (acts s us) u with Some s => s | None => acts s us end).
  { clear. induction us as [|x us IH]; intros s; cbn [app acts]; [reflexivity|]. apply IH. }
  rewrite E. clear E. generalize (acts refs0 us). clear us. intros s. split.
  - intros N. destruct u as [sv cl [|]| | |c]; [exfalso; eapply N; reflexivity| | | |]; unfold act.
    + destruct sv, cl; cbn [ctx_new]; unfold ctx_free; cbn [r_server r_client]; auto.
    + destruct (r_server s) eqn:E; cbn [ctx_up r_server r_client]; auto.
    + destruct (r_client s) eqn:E; cbn [ctx_up r_server r_client]; auto.
    + destruct (existsb (Nat.eqb c) (r_users s)); cbn [ctx_free r_server r_client]; auto.
  - intros sv cl ->. unfold act. destruct sv, cl; cbn [ctx_new r_server r_client r_users r_count r_freed r_next];
      repeat match goal with |- context [r_server (ctx_free ?a ?b)] => rewrite (proj1 (free_fields a b)) end;
      repeat match goal with |- context [r_client (ctx_free ?a ?b)] => rewrite (proj1 (proj2 (free_fields a b))) end;
      cbn [r_server r_client]; split; try reflexivity; eexists; (split; [reflexivity|lia]).
Qed.
Example rel_ctx_sample : let s := acts refs0 [Get_server; Reload true true true; Get_server; Get_client; Reload true false false; Reload false true true; Drop 0; Get_server] in
  r_users s = [1%nat] /\ r_freed s = [0%nat; 2%nat] /\ r_server s = None /\ r_client s = Some 3%nat.
Proof. vm_compute. auto. Qed.

Print Assumptions rel_last.
Print Assumptions rel_last_fiber_partial.
Print Assumptions rel_last_logger.
Print Assumptions rel_log_open.
Print Assumptions rel_log_exact_partial.
Print Assumptions rel_log_refuted.
Print Assumptions rel_stack_refuted.
Print Assumptions rel_settings.
Print Assumptions rel_settings_fiber_partial.
Print Assumptions rel_request_default_refuted.
Print Assumptions rel_empty_uri_refuted.
Print Assumptions rel_stack_multiple_refuted.
Print Assumptions rel_ctx_live.
Print Assumptions rel_ctx_freed.
Print Assumptions rel_ctx_current.
