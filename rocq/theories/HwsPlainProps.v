(** C77: plain requests to a server of both protocols *)
From Coq Require Import ZArith List Bool String Lia.
From Verif Require Import Base Text EsModel EsSpec EsProofs EsWsProofs EsProps EsWsProps.
From Verif Require HnameModel HnameProps PoolProofs WsModel WshModel WshProps.
Import ListNotations.
Open Scope list_scope.
Open Scope Z_scope.
Notation length := List.length.

Section Plain.
  Variables (zst : Type) (inflate : zst -> list Z -> option (zst * list Z)) (addr_of : list Z -> Z).
  Variables (mktime : DateModel.tm -> Z) (integer : list Z -> Z) (sha1 : list Z -> list Z) (default maxlen : Z) (z0 : option zst).
  Notation history := (hws_server_history zst inflate addr_of mktime integer sha1 default maxlen z0).
  Notation step := (jstep zst inflate addr_of WshModel.server_op (hws_step mktime integer sha1 default) server_closed hws_also WsModel.wshs_s_accepted maxlen z0).

  Local Lemma history_snoc os o : history (os ++ [o]) = step (history os) o.
  Proof. unfold hws_server_history, jrun. now rewrite fold_left_app. Qed.

  Local Lemma not_switched os : frames zst (history os) = None -> WshModel.gone (hs zst (history os)) = false -> WshModel.ack (hs zst (history os)) = false.
  Proof.
    assert (I : forall os, frames zst (history os) = None -> WshModel.ack (hs zst (history os)) && negb (WshModel.gone (hs zst (history os))) = false).
    { clear os. intros os. induction os as [|o os IH] using rev_ind; [reflexivity|]. rewrite history_snoc.
      set (j := history os) in *. clearbody j. unfold jstep. cbv zeta beta.
      destruct o as [o|d]; destruct (frames zst j) as [w|] eqn:E.
      - destruct (server_closed o); [|intros F; cbn in F; congruence].
        destruct (WsModel.life_step zst inflate addr_of w WsModel.OpSocketClosed) as [[w' evs]|]; intros F; cbn in F; congruence.
      - cbn [frames hs]. unfold switch. match goal with |- (if ?b then _ else _) = None -> _ => destruct b; [discriminate|reflexivity] end.
      - destruct (WsModel.life_step zst inflate addr_of w (WsModel.OpStream d)) as [[w' evs]|]; intros F; cbn in F; congruence.
      - intros _. now apply IH. }
    intros F G. specialize (I os F). rewrite G in I. cbn [negb] in I. now rewrite andb_true_r in I.
  Qed.

  (** What the server does with a request that is not a handshake, after any history in which the protocol has not been switched:
      GET without a field named Upgrade (in any case of letters) and HEAD go to the callback, which is told the host, the path, a
      question mark and the query, and nothing is sent; proxy requests get the status 403 and other methods 405, the callback is not told of
      them, and the connection is closed, which the callback is told once. *)
  Theorem hws_plain_requests os now q eot :
    let j := history os in let j' := history (os ++ [Handshake _ (WshModel.Request now q eot)]) in
    frames zst j = None -> WshModel.gone (hs zst j) = false ->
    let address := WshModel.raw_host q ++ WshModel.raw_path q ++ txt "?" ++ WshModel.raw_query q in
    let closed := if WshModel.notified (hs zst j) then [] else [Ws_close 1006 None] in
    let refused status := exists fs rest,
      WshModel.trace (hs zst j') = WshModel.trace (hs zst j) ++ WshModel.Replied status fs (negb (WshModel.closing (hs zst j))) :: rest /\
      In (txt "Connection", txt "close") fs /\ WshModel.closing (hs zst j') = true /\ told zst j' = told zst j ++ closed in
    (WshModel.is_proxy q = true -> refused 403) /\
    (WshModel.is_proxy q = false -> WshModel.method q = txt "GET" ->
      (forall f, In f (WshModel.q_fields q) -> ~ HnameProps.same_name (fst f) (txt "Upgrade")) ->
      told zst j' = told zst j ++ [Ws_get address] /\ WshModel.trace (hs zst j') = WshModel.trace (hs zst j)) /\
    (WshModel.is_proxy q = false -> WshModel.method q = txt "HEAD" ->
      told zst j' = told zst j ++ [Ws_head address] /\ WshModel.trace (hs zst j') = WshModel.trace (hs zst j)) /\
    (WshModel.is_proxy q = false -> ~ In (WshModel.method q) [txt "GET"; txt "HEAD"; txt "OPTIONS"] -> refused 405).
  Proof.
    intros j j' F G address closed refused.
    assert (A := not_switched os F G). fold j in A.
    assert (RE : forall status kill, let s1 := WshModel.request_error (hs zst j) status in
      (status =? 101) = false ->
      hws_route q = Refuse status kill -> refused status).
    { intros status kill s1 N R. unfold refused, j'. rewrite history_snoc. fold j. unfold jstep. rewrite F. cbn [hs told].
      unfold hws_step, hws_also. rewrite G, R. cbn [WshModel.trace WshModel.closing].
      unfold WshModel.request_error. rewrite A. unfold WshModel.respond. rewrite N. unfold WshModel.call_close, WshModel.shut, WshModel.add.
      cbn [WshModel.notified WshModel.ack WshModel.closing WshModel.trace WshModel.con WshModel.gone].
      unfold closed. destruct (WshModel.notified (hs zst j)) eqn:NT; cbn [WshModel.notified WshModel.ack WshModel.closing WshModel.trace WshModel.con WshModel.gone].
      - eexists _, []. split; [reflexivity|]. split; [left; reflexivity|]. split; [reflexivity|].
        rewrite skipn_app, skipn_all, Nat.sub_diag. reflexivity.
      - rewrite A. cbn [negb orb WshModel.trace]. eexists _, [WshModel.On_close 1006]. split; [rewrite <- app_assoc; reflexivity|]. split; [left; reflexivity|].
        split; [reflexivity|]. rewrite <- app_assoc, skipn_app, skipn_all, Nat.sub_diag. reflexivity. }
    assert (CB : forall e, hws_route q = To_callback e -> told zst j' = told zst j ++ [e] /\ WshModel.trace (hs zst j') = WshModel.trace (hs zst j)).
    { intros e R. unfold j'. rewrite history_snoc. fold j. unfold jstep. rewrite F. cbn [hs told].
      unfold hws_step, hws_also. rewrite G, R. rewrite skipn_all. split; reflexivity. }
    assert (ME : forall m, is_method q m = true <-> WshModel.method q = m) by (intros m; apply PoolProofs.list_eqb_spec).
    assert (MN : forall m, WshModel.method q <> m -> is_method q m = false).
    { intros m N. destruct (is_method q m) eqn:E; [|reflexivity]. now apply ME in E. }
    split; [|split; [|split]].
    - intros P. eapply (RE 403); [reflexivity|]. unfold hws_route. rewrite P. reflexivity.
    - intros P M U. apply CB. unfold hws_route. rewrite P, (MN (txt "OPTIONS")), (proj2 (ME (txt "GET")) M) by (rewrite M; discriminate).
      destruct (existsb _ _) eqn:E; [|reflexivity]. apply existsb_exists in E. destruct E as (f & I & E). apply HnameProps.name_equal in E. now apply U in E.
    - intros P M. apply CB. unfold hws_route. rewrite P, (MN (txt "OPTIONS")), (MN (txt "GET")), (proj2 (ME (txt "HEAD")) M) by (rewrite M; discriminate). reflexivity.
    - intros P N. eapply (RE 405); [reflexivity|]. unfold hws_route.
      rewrite P, !MN by (intros C; apply N; rewrite C; cbn [In]; auto). reflexivity.
  Qed.
End Plain.
Print Assumptions hws_plain_requests.

Example hws_plain_requests_case :
  let h := hws_server_history unit ex_inflate (fun _ => 0) (fun _ => 0) WshProps.ex_int WshProps.ex_sha1 6 1000 None in
  let req m := Handshake _ (WshModel.Request [] (WshModel.mkQ m false (txt "h") (txt "/p") (txt "q=1") []) false) in
  told unit (h [req (txt "GET"); req (txt "HEAD"); req (txt "PUT")]) = [Ws_get (txt "h/p?q=1"); Ws_head (txt "h/p?q=1"); Ws_close 1006 None] /\
  frames unit (h [req (txt "GET"); req (txt "HEAD")]) = None /\ WshModel.gone (hs unit (h [req (txt "GET"); req (txt "HEAD")])) = false.
Proof. vm_compute. repeat split. Qed.
