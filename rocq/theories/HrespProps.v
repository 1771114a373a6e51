(** Theorems about the reception of HTTP responses. *)
From Coq Require Import ZArith List Bool Lia String.
From Verif Require Import Base Text.
From Verif Require Import HreqProofs.
From Verif Require Import HrespModel HrespSpec HrespProofs.
Import ListNotations.
Open Scope list_scope.
Open Scope Z_scope.
Notation length := List.length.

(** * C62: every response arrives, however the stream has been cut
    The pieces [css] are arbitrary, and so are the lengths which the application takes from the buffer; [stream] is what has
    been sent, and what the application shall have been told when it has been received. *)
Theorem responses_arrive L A css evs :
  plain A -> 0 <= max_content_length L ->
  stream L A (List.concat css) evs ->
  whole_payloads [] (trace (run L A start css)) = evs.
Proof. intros PA L1 H. now apply delivery. Qed.
Print Assumptions responses_arrive.

(** Complete responses that stay within the limits are a stream. *)
Definition acceptable (L : limits) (A : application) (m : message) : Prop :=
  head_fits L m /\ tail_fits L m /\ no_tunnel A m /\ m_status m <> 101.
Lemma messages_stream L A ms cs : Forall (acceptable L A) ms -> Forall2 message_calls ms cs ->
  stream L A (List.concat cs) (flat_map (fun m => told_head m :: told_end m) ms).
Proof.
  intros F H. revert F. induction H as [|m c ms cs Hm H IH]; intros F; cbn [List.concat flat_map].
  - apply (S_part L A (mkM 0 [] [] [] [] true) [] [Status 0 []]).
    + exists [Status 0 []], []. split; [exists [[]]; repeat split; discriminate|]. split; [exists []; split; [constructor|reflexivity]|reflexivity].
    + now left.
  - inversion F as [|? ? (A1 & A2 & A3 & A4) F']; subst. destruct Hm as (h & t & Hh & Ht & ->). rewrite <- !app_assoc. cbn [app]. rewrite <- ?app_assoc.
    apply S_head; auto. cbn [app]. apply T_end; auto.
Qed.
Theorem responses_complete L A ms cs css :
  plain A -> 0 <= max_content_length L ->
  Forall (acceptable L A) ms -> Forall2 message_calls ms cs -> List.concat css = List.concat cs ->
  whole_payloads [] (trace (run L A start css)) = flat_map (fun m => told_head m :: told_end m) ms.
Proof. intros PA L1 F H E. apply responses_arrive; auto. rewrite E. now apply messages_stream. Qed.
Print Assumptions responses_complete.

Definition ex_L := mkL 100 20.
(** It takes half of the payload every other time. *)
Definition ex_A := mkA (fun _ h => (h, Payload_normal)) (fun tr => (length tr mod 3)%nat).
Definition ex_m1 := mkM 200 (txt "OK") [(txt "A", txt "bc"); (txt "Chunked", [])] (txt "hello world") [(txt "T", txt "v")] true.
Definition ex_m2 := mkM 101 (txt "Switching Protocols") [(txt "Upgrade", txt "x")] [] [] false.
Definition ex_css : list (list call) :=
  [[Status 200 (txt "O")]; []; [Status 200 (txt "K"); Field (txt "A"); Value (txt "b")];
   [Value (txt "c"); Field (txt "Chun"); Field (txt "ked"); Value []; Headers_complete true; Body (txt "he")];
   [Body (txt "llo wor"); Body (txt "ld")]; [Field (txt "T"); Value (txt "v"); Message_complete; Status 101 (txt "Switching ")];
   [Status 101 (txt "Protocols"); Field (txt "Upgrade"); Value (txt "x"); Headers_complete false; Message_complete; Body (txt "1")]; [Body (txt "2"); Fail]].
Definition ex_evs : list event :=
  [On_headers (mkH 200 (txt "OK") [(txt "A", Some (txt "bc")); (txt "Chunked", Some [])]);
   On_finish (mkH 200 (txt "OK") [(txt "A", Some (txt "bc")); (txt "Chunked", Some []); (txt "T", Some (txt "v"))]) (txt "hello world");
   On_headers (mkH 101 (txt "Switching Protocols") [(txt "Upgrade", Some (txt "x"))]);
   On_finish (mkH 101 (txt "Switching Protocols") [(txt "Upgrade", Some (txt "x"))]) []; Shut_down;
   On_upgraded [Body (txt "1"); Body (txt "2"); Fail]].
Ltac one_piece t := exists [t]; split; [discriminate|split; reflexivity].
Ltac the_pieces l := exists l; split; [discriminate|split; reflexivity].
Example responses_arrive_case :
  plain ex_A /\ stream ex_L ex_A (List.concat ex_css) ex_evs /\ whole_payloads [] (trace (run ex_L ex_A start ex_css)) = ex_evs
  /\ trace (run ex_L ex_A start (firstn 5 ex_css))
     = [On_headers (mkH 200 (txt "OK") [(txt "A", Some (txt "bc")); (txt "Chunked", Some [])]); On_stream (txt "h"); On_stream (txt "el")].
Proof.
  split; [intros tr h; reflexivity|]. split; [|split; vm_compute; reflexivity].
  change (List.concat ex_css) with (firstn 8 (List.concat ex_css) ++ Headers_complete (m_keep ex_m1) :: skipn 9 (List.concat ex_css)).
  change ex_evs with (told_head ex_m1 :: List.tl ex_evs). apply S_head; [|right; vm_compute; discriminate|intros tr; discriminate|].
  - exists (firstn 2 (List.concat ex_css)), (firstn 6 (skipn 2 (List.concat ex_css))). split; [the_pieces [txt "O"; txt "K"]|]. split; [|reflexivity].
    exists [firstn 3 (skipn 2 (List.concat ex_css)); firstn 3 (skipn 5 (List.concat ex_css))]. split; [|reflexivity].
    constructor; [exists [Field (txt "A")], [Value (txt "b"); Value (txt "c")]; split; [the_pieces [txt "A"]|]; split; [the_pieces [txt "b"; txt "c"]|reflexivity]|].
    constructor; [exists [Field (txt "Chun"); Field (txt "ked")], [Value []]; split; [the_pieces [txt "Chun"; txt "ked"]|]; split; [the_pieces [@nil Z]|reflexivity]|constructor].
  - change (skipn 9 (List.concat ex_css)) with (firstn 5 (skipn 9 (List.concat ex_css)) ++ Message_complete :: skipn 15 (List.concat ex_css)).
    change (List.tl ex_evs) with (told_end ex_m1 ++ skipn 2 ex_evs). apply T_end; [|split; [right|]; vm_compute; discriminate|discriminate|].
    + exists [Body (txt "he"); Body (txt "llo wor"); Body (txt "ld")], [Field (txt "T"); Value (txt "v")]. split; [exists [txt "he"; txt "llo wor"; txt "ld"]; split; reflexivity|].
      split; [|reflexivity]. exists [[Field (txt "T"); Value (txt "v")]]. split; [|reflexivity]. constructor; [|constructor].
      exists [Field (txt "T")], [Value (txt "v")]. split; [the_pieces [txt "T"]|]; split; [the_pieces [txt "v"]|reflexivity].
    + change (skipn 15 (List.concat ex_css)) with (firstn 4 (skipn 15 (List.concat ex_css)) ++ Headers_complete (m_keep ex_m2) :: skipn 20 (List.concat ex_css)).
      change (skipn 2 ex_evs) with (told_head ex_m2 :: skipn 3 ex_evs). apply S_head; [|right; vm_compute; discriminate|intros tr; discriminate|].
      * exists [Status 101 (txt "Switching "); Status 101 (txt "Protocols")], [Field (txt "Upgrade"); Value (txt "x")]. split; [the_pieces [txt "Switching "; txt "Protocols"]|].
        split; [|reflexivity]. exists [[Field (txt "Upgrade"); Value (txt "x")]]. split; [|reflexivity]. constructor; [|constructor].
        exists [Field (txt "Upgrade")], [Value (txt "x")]. split; [the_pieces [txt "Upgrade"]|]; split; [the_pieces [txt "x"]|reflexivity].
      * change (skipn 20 (List.concat ex_css)) with ([] ++ Message_complete :: [Body (txt "1"); Body (txt "2"); Fail]).
        change (skipn 3 ex_evs) with (told_end ex_m2 ++ [On_upgraded [Body (txt "1"); Body (txt "2"); Fail]]).
        apply T_switch; [|split; [left; reflexivity|vm_compute; discriminate]|reflexivity].
        exists [], []. split; [exists []; split; reflexivity|]. split; [|reflexivity]. exists []. split; [constructor|reflexivity].
Qed.
(** A response that is too long, and an error *)
Example responses_wrong_case :
  trace (run ex_L (mkA (fun _ h => (h, Payload_normal)) (fun _ => O)) start [[Status 200 []; Headers_complete true]; [Body (txt "0123456789")]; [Body (txt "01234567890")]; [Message_complete]])
    = [On_headers (mkH 200 [] []); On_stream []; On_stream []; Exception]
  /\ trace (run ex_L ex_A start [[Status 200 []; Fail; Headers_complete true]; [Message_complete]]) = [Quick_shut_down].
Proof. split; vm_compute; reflexivity. Qed.

(** * C63: limits
    Whatever the server sends, and whatever the application does *)
Definition within (L : limits) (e : event) : Prop :=
  match e with
  | On_headers h => fields_size (fields h) <= max_header_length L
  | On_stream d | On_finish _ d => Z.of_nat (length d) <= max_content_length L
  | _ => True
  end.
(** The fields of a head and the payload which are held in memory *)
Definition sized (L : limits) (p : parser) : Prop :=
  Z.of_nat (length (payload p)) <= max_content_length L
  /\ (hresp p = Hresp_new -> fields_size (fields (hd p)) <= max_header_length L).

Lemma size_fields_le h : fields_size (fields h) <= estimate_size h.
Proof. unfold estimate_size. lia. Qed.
Lemma callback_sized L p c p' : callback L p c = Next p' -> sized L p ->
  sized L p' /\ (hresp p = Hresp_new -> fields_size (fields (hd p')) <= max_header_length L)
  /\ (err p' = Ok -> hresp p' = hresp p).
Proof.
  intros C S0. pose proof S0 as [S1 S2].
  assert (V : match c with Value _ => fields (hd p) <> [] | _ => True end).
  { destruct c as [n s|s|s| |s| |]; try exact I. intros E. cbn in C. unfold on_header_value in C. rewrite E in C. destruct (_ <? _); discriminate. }
  destruct c as [n s|s|s|k|s| |]; cbn [callback] in C.
  - injection C as <-. split; [split; [exact S1|exact S2]|]. split; [exact S2|reflexivity].
  - destruct (callback_quiet L p (Field s) I V) as [[F E]|[_ E]]; cbn [callback] in E; rewrite E in C; [|discriminate]. match type of C with Next ?q = _ => assert (p' = q) by congruence; subst p' end.
    cbn [fits] in F. pose proof (size_fields_le (hd (pfeed p (Field s)))) as X. destruct (pfeed_keeps p (Field s)) as (_ & K & _).
    split; [split; [exact S1|intros; lia]|]. split; [intros; lia|intros; exact K].
  - destruct (callback_quiet L p (Value s) I V) as [[F E]|[_ E]]; cbn [callback] in E; rewrite E in C; [|discriminate]. match type of C with Next ?q = _ => assert (p' = q) by congruence; subst p' end.
    destruct F as [F _]. pose proof (size_fields_le (hd (pfeed p (Value s)))) as X. destruct (pfeed_keeps p (Value s)) as (_ & K & _).
    split; [split; [exact S1|intros; lia]|]. split; [intros; lia|intros; exact K].
  - injection C as <-. split; [split; [exact S1|discriminate]|]. split; [exact S2|discriminate].
  - destruct (callback_quiet L p (Body s) I V) as [[F E]|[_ E]]; cbn [callback] in E; rewrite E in C; [|discriminate]. match type of C with Next ?q = _ => assert (p' = q) by congruence; subst p' end.
    split; [split; [exact F|exact S2]|]. split; [exact S2|reflexivity].
  - injection C as <-. split; [split; [exact S1|discriminate]|]. split; [exact S2|discriminate].
  - injection C as <-. split; [split; [exact S1|exact S2]|]. split; [exact S2|discriminate].
Qed.
Lemma execute_sized L cs : forall p p' cs', execute L p cs = Left p' cs' -> sized L p ->
  sized L p' /\ (hresp p = Hresp_new -> fields_size (fields (hd p')) <= max_header_length L).
Proof.
  induction cs as [|c cs IH]; intros p p' cs' H S0; cbn [execute] in H.
  - destruct (err p) eqn:E; injection H as <- <-; (split; [exact S0|exact (proj2 S0)]).
  - destruct (err p) eqn:E; try (injection H as <- <-; split; [exact S0|exact (proj2 S0)]).
    destruct (callback L p c) as [p1| |] eqn:C; try discriminate. destruct (callback_sized L p c p1 C S0) as (S1 & F & K).
    destruct (IH _ _ _ H S1) as [S2 G]. split; [exact S2|]. intros N. destruct (err p1) eqn:E1; [apply G; rewrite K; auto|..].
    all: destruct cs; cbn [execute] in H; rewrite E1 in H; injection H as <- _; exact (F N).
Qed.
Lemma parse_sized L p cs p' cs' : parse L p cs = Left p' cs' -> sized L p ->
  sized L p' /\ (hresp p = Hresp_new -> fields_size (fields (hd p')) <= max_header_length L).
Proof.
  unfold parse. destruct (execute L p cs) as [q cs2| |] eqn:E; try discriminate. intros H S0. injection H as <- <-.
  destruct (execute_sized L cs _ _ _ E S0) as [[S1 S2] F]. unfold unpause. destruct (err q) eqn:Eq; (split; [split; [exact S1|exact S2]|exact F]).
Qed.

Section Limits.
  Variables (L : limits) (A : application).
  Hypothesis (L0 : 0 <= max_header_length L) (L1 : 0 <= max_content_length L).
  Definition held (s : session) : Prop := sized L (par s) /\ Forall (within L) (trace s).

  Lemma held_add s e : held s -> within L e -> held (add s e).
  Proof. intros [H1 H2] W. split; [exact H1|]. cbn. apply Forall_app. auto. Qed.
  Lemma held_fail s e : held s -> within L e -> held (fail s e).
  Proof. intros [H1 H2] W. split; [exact H1|]. cbn. apply Forall_app. auto. Qed.
  Lemma held_par s p : held s -> sized L p -> held (set_par s p).
  Proof. intros [H1 H2] W. split; [exact W|exact H2]. Qed.
  Lemma held_ack s : held s -> held (set_ack s).
  Proof. intros H. exact H. Qed.
  Lemma next_sized p : sized L (next_message p).
  Proof. split; [cbn; lia|]. intros _. change (0 <= max_header_length L). lia. Qed.
  Lemma skip_sized p k : sized L p -> sized L (set_payload p (skipn k (payload p))).
  Proof. intros [S1 S2]. split; [cbn; rewrite skipn_length; lia|exact S2]. Qed.

  Lemma after_held s cs : held s -> held (fst (after_headers L A s cs)).
  Proof.
    intros H. unfold after_headers. destruct (hresp (par s)); [| |cbn [fst]; apply held_par; [exact H|apply next_sized]].
    all: destruct (parse L (par s) cs) as [p cs2| |] eqn:E; [|apply held_fail; [exact H|exact I]|apply held_fail; [exact H|exact I]].
    all: destruct (parse_sized L _ _ _ _ E (proj1 H)) as [S1 _]; cbn zeta; destruct (is_error p); [apply held_add; [now apply held_par|exact I]|].
    all: set (k := a_take A _).
    all: assert (H2 : held (add (set_par (set_par s p) (set_payload p (skipn k (payload p)))) (On_stream (firstn k (payload p))))).
    1,3: apply held_add; [apply held_par; [now apply held_par|now apply skip_sized]|]; cbn; rewrite firstn_length; destruct S1; lia.
    all: destruct (hresp p); try exact H2; cbn [fst]; apply held_par; [|apply next_sized].
    all: match goal with |- held (if _ then set_ack ?x else ?x) => assert (H3 : held x); [|destruct (_ =? _); [apply held_ack|]; exact H3] end.
    all: match goal with |- held (if _ then add ?x _ else ?x) => assert (H3 : held x); [|destruct close; [apply held_add; [exact H3|exact I]|exact H3]] end.
    all: apply held_add; [exact H2|]; cbn; destruct (skip_sized p k S1); assumption.
  Qed.
  Lemma loop_held fuel : forall s cs, held s -> held (loop L A fuel s cs).
  Proof.
    induction fuel as [|fuel IH]; intros s cs H; [exact H|]. cbn [loop]. destruct (ack s); [apply held_add; [exact H|exact I]|].
    destruct (is_error (par s)) eqn:E0; [exact H|].
    assert (G : forall s cs, held s -> held (match after_headers L A s cs with (s, Some cs) => loop L A fuel s cs | (s, None) => s end)).
    { intros s0 cs0 H0. pose proof (after_held s0 cs0 H0) as H1. destruct (after_headers L A s0 cs0) as [s1 [cs1|]]; [now apply IH|exact H1]. }
    destruct (hresp (par s)) eqn:N; [|now apply G|now apply G].
    destruct (parse L (par s) cs) as [p cs2| |] eqn:E; [|apply held_fail; [exact H|exact I]|apply held_fail; [exact H|exact I]].
    destruct (parse_sized L _ _ _ _ E (proj1 H)) as [S1 F]. specialize (F N).
    cbn zeta. destruct (is_error p); [apply held_add; [now apply held_par|exact I]|].
    destruct (hresp p) eqn:Np; [now apply held_par| |].
    all: set (s1 := add _ _); assert (H1 : held s1) by (apply held_add; [now apply held_par|exact F]).
    all: destruct (a_headers A (trace s1) (hd p)) as [h' ty].
    all: assert (H2 : held (set_par s1 (set_hd p h'))) by (apply held_par; [exact H1|split; [exact (proj1 S1)|cbn; congruence]]).
    all: destruct ty; [now apply G|now apply G|]; apply held_add; [|exact I]; apply held_ack; exact H2.
  Qed.
  Theorem response_limits_partial css :
    let s := run L A start css in
    sized L (par s) /\ Forall (within L) (trace s).
  Proof.
    assert (X : forall css s, held s -> held (run L A s css)).
    { intros css0. induction css0 as [|cs css0 IH]; intros s H; [exact H|]. apply IH. unfold receive. destruct (gone s); [exact H|now apply loop_held]. }
    apply X. split; [|constructor]. split; [cbn; lia|]. intros _. change (0 <= max_header_length L). lia.
  Qed.
End Limits.
Print Assumptions response_limits_partial.
Example response_limits_case :
  sized ex_L (par (run ex_L ex_A start (firstn 5 ex_css))) /\ payload (par (run ex_L ex_A start (firstn 5 ex_css))) = txt "lo world"
  /\ fields (hd (par (run ex_L ex_A start (firstn 3 ex_css)))) = [(txt "A", Some (txt "b"))].
Proof.
  unfold sized. split; [split|].
  - vm_compute. discriminate.
  - intros X. exfalso. vm_compute in X. discriminate.
  - split; vm_compute; reflexivity.
Qed.

(** It is false of the reason phrase: it has no limit, whatever the limits are. *)
Theorem reason_limit_refuted L A n :
  exists css h, In (On_headers h) (trace (run L A start css)) /\ (n <= length (reason h))%nat.
Proof.
  set (w := repeat 65 n). exists [[Status 200 w; Headers_complete true]], (mkH 200 w []). split; [|cbn [reason]; unfold w; rewrite repeat_length; lia].
  clearbody w. cbn.
  destruct (a_headers A _ _) as [h' ty]. destruct ty; cbn; now left.
Qed.
Print Assumptions reason_limit_refuted.

(** * C64: errors and switches are final *)
Definition bad (e : event) : Prop := e = Quick_shut_down \/ e = Exception \/ e = Undefined_behaviour.
Definition up (e : event) : Prop := exists cs, e = On_upgraded cs.
Definition quiet_event (e : event) : Prop := ~ bad e /\ ~ up e.
Definition final (s : session) : Prop :=
  Forall quiet_event (trace s)
  \/ (Forall (fun e => ~ up e) (trace s) /\ (gone s = true \/ (ack s = false /\ is_error (par s) = true)))
  \/ (Forall (fun e => ~ bad e) (trace s) /\ gone s = false /\ ack s = true).
Lemma quiet_no e s : Forall quiet_event (trace s) -> quiet_event e -> Forall quiet_event (trace s ++ [e]).
Proof. intros H Q. apply Forall_app. auto. Qed.
Lemma quiet_not_up l : Forall quiet_event l -> Forall (fun e => ~ up e) l.
Proof. apply Forall_impl. intros e [_ H]. exact H. Qed.
Lemma quiet_not_bad l : Forall quiet_event l -> Forall (fun e => ~ bad e) l.
Proof. apply Forall_impl. intros e [H _]. exact H. Qed.
Ltac quiet_done := split; [intros [Z0|[Z0|Z0]]; discriminate|intros [? Z0]; discriminate].
Lemma final_fail s e : Forall quiet_event (trace s) -> ~ up e -> final (fail s e).
Proof. intros H U. right. left. split; [cbn [fail trace]; apply Forall_app; split; [now apply quiet_not_up|now constructor]|now left]. Qed.
Lemma final_error s : Forall quiet_event (trace s) -> ack s = false -> is_error (par s) = true -> final (add s Quick_shut_down).
Proof. intros H Ha E. right. left. split; [cbn [add trace]; apply Forall_app; split; [now apply quiet_not_up|]|right; auto]. constructor; [intros [? ?]; discriminate|constructor]. Qed.
Lemma final_up s cs : Forall (fun e => ~ bad e) (trace s) -> gone s = false -> ack s = true -> final (add s (On_upgraded cs)).
Proof. intros H Hg Ha. right. right. split; [|auto]. cbn [add trace]. apply Forall_app. split; [exact H|]. constructor; [intros [Z0|[Z0|Z0]]; discriminate|constructor]. Qed.

Lemma after_final L A s cs : Forall quiet_event (trace s) -> ack s = false -> gone s = false ->
  match after_headers L A s cs with
  | (s1, Some _) => Forall quiet_event (trace s1) /\ gone s1 = false
  | (s1, None) => final s1
  end.
Proof.
  intros H Ha Hg. unfold after_headers. destruct (hresp (par s)); [| |auto].
  all: destruct (parse L (par s) cs) as [p cs2| |]; [|apply final_fail; [exact H|intros [? ?]; discriminate]|apply final_fail; [exact H|intros [? ?]; discriminate]].
  all: cbn zeta; destruct (is_error p) eqn:E; [now apply final_error|].
  all: set (k := a_take A _); assert (H2 : Forall quiet_event (trace s ++ [On_stream (firstn k (payload p))])) by (apply quiet_no; [exact H|quiet_done]).
  all: destruct (hresp p); try (left; exact H2).
  all: cbn [add trace gone set_par set_ack]; destruct close, (_ =? 101); cbn [add trace gone set_par set_ack ack par]; (split; [|exact Hg]).
  all: repeat (apply Forall_app; split); try exact H; (constructor; [quiet_done|constructor]).
Qed.
Lemma loop_final L A fuel : forall s cs, Forall quiet_event (trace s) -> gone s = false -> final (loop L A fuel s cs).
Proof.
  induction fuel as [|fuel IH]; intros s cs H Hg; [now left|]. cbn [loop]. destruct (ack s) eqn:Ha; [apply final_up; [now apply quiet_not_bad|exact Hg|exact Ha]|].
  destruct (is_error (par s)) eqn:E0; [now left|].
  assert (G : forall s cs, Forall quiet_event (trace s) -> ack s = false -> gone s = false -> final (match after_headers L A s cs with (s, Some cs) => loop L A fuel s cs | (s, None) => s end)).
  { intros s0 cs0 H0 A0 G0. pose proof (after_final L A s0 cs0 H0 A0 G0) as H1. destruct (after_headers L A s0 cs0) as [s1 [cs1|]]; [now apply IH|exact H1]. }
  destruct (hresp (par s)) eqn:N; [|now apply G|now apply G].
  destruct (parse L (par s) cs) as [p cs2| |] eqn:E; [|apply final_fail; [exact H|intros [? ?]; discriminate]|apply final_fail; [exact H|intros [? ?]; discriminate]].
  cbn zeta. destruct (is_error p) eqn:Ep; [now apply final_error|]. destruct (hresp p); [now left| |].
  all: set (s1 := add _ _); assert (H1 : Forall quiet_event (trace s1)) by (apply quiet_no; [exact H|quiet_done]).
  all: destruct (a_headers A (trace s1) (hd p)) as [h' ty]; destruct ty; [now apply G|now apply G|].
  all: apply final_up; [now apply quiet_not_bad|exact Hg|reflexivity].
Qed.
Lemma receive_final L A s cs : final s -> final (receive L A s cs).
Proof.
  intros F. unfold receive. destruct (gone s) eqn:Hg; [exact F|]. destruct F as [F|[(F1 & [F2|(F2 & F3)])|(F1 & _ & F2)]].
  - now apply loop_final.
  - congruence.
  - cbn [loop]. rewrite F2, F3. right. left. auto.
  - cbn [loop]. rewrite F2. now apply final_up.
Qed.
Lemma run_final L A css : forall s, final s -> final (run L A s css).
Proof. induction css as [|cs css IH]; intros s F; [exact F|]. apply IH. now apply receive_final. Qed.

Theorem response_errors_final L A css more e :
  In e (trace (run L A start css)) -> bad e ->
  trace (run L A start (css ++ more)) = trace (run L A start css).
Proof.
  intros I B. assert (F : final (run L A start css)) by (apply run_final; left; constructor).
  unfold run in *. rewrite fold_left_app. set (s := fold_left (receive L A) css start) in *. clearbody s.
  assert (X : gone s = true \/ (ack s = false /\ is_error (par s) = true)).
  { destruct F as [F|[(_ & F)|(F & _)]]; [exfalso|exact F|exfalso]; rewrite Forall_forall in F; specialize (F _ I); [exact (proj1 F B)|contradiction]. }
  clear F I. induction more as [|cs more IH]; [reflexivity|]. cbn [fold_left]. unfold receive at 2. destruct (gone s) eqn:Hg; [exact IH|].
  destruct X as [X|[X1 X2]]; [discriminate|]. cbn [loop]. rewrite X1, X2. exact IH.
Qed.
Print Assumptions response_errors_final.
Example response_errors_case :
  In Quick_shut_down (trace (run ex_L ex_A start [[Status 200 []; Fail; Headers_complete true]])) /\ bad Quick_shut_down
  /\ In Exception (trace (run ex_L ex_A start [[Status 200 []; Field (repeat 65 90)]])).
Proof. split; [vm_compute; now left|]. split; [now left|vm_compute; now left]. Qed.

Theorem response_switch_final L A css more cs :
  In (On_upgraded cs) (trace (run L A start css)) ->
  trace (run L A start (css ++ more)) = trace (run L A start css) ++ map On_upgraded more.
Proof.
  intros I. assert (F : final (run L A start css)) by (apply run_final; left; constructor).
  unfold run in *. rewrite fold_left_app. set (s := fold_left (receive L A) css start) in *. clearbody s.
  assert (X : gone s = false /\ ack s = true).
  { destruct F as [F|[(F & _)|(_ & F)]]; [exfalso|exfalso|exact F]; rewrite Forall_forall in F; specialize (F _ I); [apply (proj2 F)|apply F]; now exists cs. }
  clear F I. destruct X as [X1 X2]. revert s X1 X2. induction more as [|c more IH]; intros s X1 X2; [cbn; now rewrite app_nil_r|].
  cbn [fold_left map]. unfold receive at 2. rewrite X1. cbn [loop]. rewrite X2. rewrite IH; [cbn [add trace]; now rewrite <- app_assoc|exact X1|exact X2].
Qed.
Print Assumptions response_switch_final.
Example response_switch_case :
  In (On_upgraded [Body (txt "1")]) (trace (run ex_L ex_A start (firstn 7 ex_css)))
  /\ exists h, trace (run ex_L (mkA (fun _ h => (h, Payload_connect)) (fun _ => O)) start [[Status 200 []; Headers_complete true; Body [1]]; [Fail]])
     = [On_headers h; On_upgraded [Body [1]]; On_upgraded [Fail]].
Proof. split; [vm_compute; repeat (try (now left); right)|]. exists (mkH 200 [] []). vm_compute. reflexivity. Qed.
