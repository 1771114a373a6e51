(** Proofs about the events of easy HTTP servers and clients *)
From Coq Require Import ZArith List Bool String Lia.
From Verif Require Import Base Text EsModel EsSpec EsProofs.
From Verif Require HreqModel HreqSpec HreqProps HrespModel HrespSpec HrespProps.
Import ListNotations.
Open Scope list_scope.
Open Scope Z_scope.
Notation length := List.length.

(** ** Nothing is taken from payloads *)
Section Requests.
  Import HreqModel HreqSpec.
  Variables (L : limits) (A : application).
  Hypothesis T : forall tr, a_take A tr = O.
  Definition bare (e : event) : Prop := match e with On_stream t => t = [] | _ => True end.
  Lemma bare_add (l : list event) e : Forall bare l -> bare e -> Forall bare (l ++ [e]).
  Proof. intros H B. apply Forall_app. auto. Qed.
  Lemma after_bare s cs : Forall bare (trace s) -> Forall bare (trace (fst (after_headers L A s cs))).
  Proof.
    intros H. unfold after_headers. destruct (hreq (par s)); [| |exact H].
    all: destruct (parse L (par s) cs) as [p cs2| |]; [|apply bare_add; [exact H|exact Logic.I]|apply bare_add; [exact H|exact Logic.I]].
    all: cbn zeta; destruct (is_error p); [apply bare_add; [exact H|exact Logic.I]|].
    all: assert (B : Forall bare (trace s ++ [On_stream (firstn (a_take A (trace (set_par s p))) (payload p))])) by (apply bare_add; [exact H|rewrite T; reflexivity]).
    all: destruct (hreq p); try exact B; cbn [fst set_par trace add]; apply bare_add; [exact B|exact Logic.I].
  Qed.
  Lemma loop_bare fuel : forall s cs, Forall bare (trace s) -> Forall bare (trace (loop L A fuel s cs)).
  Proof.
    induction fuel as [|fuel IH]; intros s cs H; [exact H|]. cbn [loop]. destruct (ack s); [apply bare_add; [exact H|exact Logic.I]|].
    destruct (is_error (par s)); [exact H|].
    assert (G : forall s cs, Forall bare (trace s) -> Forall bare (trace (match after_headers L A s cs with (s, Some cs) => loop L A fuel s cs | (s, None) => s end))).
    { intros s0 cs0 H0. pose proof (after_bare s0 cs0 H0) as H1. destruct (after_headers L A s0 cs0) as [s1 [cs1|]]; [now apply IH|exact H1]. }
    destruct (hreq (par s)); [|now apply G|now apply G].
    destruct (parse L (par s) cs) as [p cs2| |]; [|apply bare_add; [exact H|exact Logic.I]|apply bare_add; [exact H|exact Logic.I]].
    cbn zeta. destruct (is_error p); [apply bare_add; [exact H|exact Logic.I]|]. destruct (hreq p); [exact H| |].
    all: set (h := if is_proxy (hd p) then hd p else _); destruct (raw_host h); [apply bare_add; [exact H|exact Logic.I]|].
    all: set (s1 := add A _ _); assert (H1 : Forall bare (trace s1)) by (apply bare_add; [exact H|exact Logic.I]).
    all: destruct (a_headers A (trace s1) h) as [h' ty]; destruct ty; [now apply G|now apply G|]; apply bare_add; [exact H1|exact Logic.I].
  Qed.
  Lemma run_bare css : forall s, Forall bare (trace s) -> Forall bare (trace (run L A s (data css))).
  Proof. induction css as [|cs css IH]; intros s H; [exact H|]. apply IH. cbn [receive]. destruct (gone s); [exact H|now apply loop_bare]. Qed.
  Lemma told_whole junk tr : Forall bare tr -> flat_map (http_told junk) (whole_payloads [] tr) = flat_map (http_told junk) tr.
  Proof.
    induction 1 as [|e tr B H IH]; [reflexivity|]. destruct e; cbn [whole_payloads flat_map]; try (now rewrite IH).
    cbn in B. subst. exact IH.
  Qed.
End Requests.
Lemma base_plain : HreqSpec.plain base_application.
Proof. split; [intros tr h; split; [reflexivity|discriminate]|reflexivity]. Qed.

Section Responses.
  Import HrespModel HrespSpec.
  Variables (L : limits) (A : application).
  Hypothesis T : forall tr, a_take A tr = O.
  Definition bare_c (e : event) : Prop := match e with On_stream t => t = [] | _ => True end.
  Lemma barec_add (l : list event) e : Forall bare_c l -> bare_c e -> Forall bare_c (l ++ [e]).
  Proof. intros H B. apply Forall_app. auto. Qed.
  Lemma after_barec s cs : Forall bare_c (trace s) -> Forall bare_c (trace (fst (after_headers L A s cs))).
  Proof.
    intros H. unfold after_headers. destruct (hresp (par s)); [| |exact H].
    all: destruct (parse L (par s) cs) as [p cs2| |]; [|apply barec_add; [exact H|exact Logic.I]|apply barec_add; [exact H|exact Logic.I]].
    all: cbn zeta; destruct (is_error p); [apply barec_add; [exact H|exact Logic.I]|].
    all: assert (B : Forall bare_c (trace s ++ [On_stream (firstn (a_take A (trace (set_par s p))) (payload p))])) by (apply barec_add; [exact H|rewrite T; reflexivity]).
    all: destruct (hresp p); try exact B; cbn [set_par par add]; destruct (close _), (_ =? 101); cbn [fst set_par set_ack trace add par]; repeat (apply barec_add; [|exact Logic.I]); exact B.
  Qed.
  Lemma loop_barec fuel : forall s cs, Forall bare_c (trace s) -> Forall bare_c (trace (loop L A fuel s cs)).
  Proof.
    induction fuel as [|fuel IH]; intros s cs H; [exact H|]. cbn [loop]. destruct (ack s); [apply barec_add; [exact H|exact Logic.I]|].
    destruct (is_error (par s)); [exact H|].
    assert (G : forall s cs, Forall bare_c (trace s) -> Forall bare_c (trace (match after_headers L A s cs with (s, Some cs) => loop L A fuel s cs | (s, None) => s end))).
    { intros s0 cs0 H0. pose proof (after_barec s0 cs0 H0) as H1. destruct (after_headers L A s0 cs0) as [s1 [cs1|]]; [now apply IH|exact H1]. }
    destruct (hresp (par s)); [|now apply G|now apply G].
    destruct (parse L (par s) cs) as [p cs2| |]; [|apply barec_add; [exact H|exact Logic.I]|apply barec_add; [exact H|exact Logic.I]].
    cbn zeta. destruct (is_error p); [apply barec_add; [exact H|exact Logic.I]|]. destruct (hresp p); [exact H| |].
    all: set (s1 := add _ _); assert (H1 : Forall bare_c (trace s1)) by (apply barec_add; [exact H|exact Logic.I]).
    all: destruct (a_headers A (trace s1) (hd p)) as [h' ty]; destruct ty; [now apply G|now apply G|]; apply barec_add; [exact H1|exact Logic.I].
  Qed.
  Lemma run_barec css : forall s, Forall bare_c (trace s) -> Forall bare_c (trace (run L A s css)).
  Proof. induction css as [|cs css IH]; intros s H; [exact H|]. apply IH. unfold receive. destruct (gone s); [exact H|now apply loop_barec]. Qed.
  Lemma told_wholec tr : Forall bare_c tr -> Forall (fun e => match e with On_upgraded _ => False | _ => True end) (whole_payloads [] tr) ->
    flat_map client_told (whole_payloads [] tr) = flat_map client_told tr.
  Proof.
    induction 1 as [|e tr B H IH]; [reflexivity|]. destruct e; cbn [whole_payloads flat_map]; intros U; try (inversion U as [|? ? U1 U2]; subst; (now rewrite (IH U2)) || destruct U1).
    cbn in B. subst. exact (IH U).
  Qed.
End Responses.
Lemma client_plain : HrespSpec.plain client_application.
Proof. intros tr h. reflexivity. Qed.

(** ** Counting requests *)
Section Count.
  Import HreqModel HreqSpec.
  Definition mark (c : call) : list bool := match c with Headers_complete _ _ => [true] | Message_complete => [false] | _ => [] end.
  Lemma marks_mark cs : marks cs = length (flat_map mark cs).
  Proof. induction cs as [|c cs IH]; [reflexivity|]. unfold marks in *. destruct c; cbn [filter flat_map mark length app]; congruence. Qed.
  Lemma whole_mark cs : whole_requests cs = length (filter negb (flat_map mark cs)).
  Proof. induction cs as [|c cs IH]; [reflexivity|]. unfold whole_requests in *. destruct c; cbn [filter flat_map mark length app negb]; congruence. Qed.
  Lemma pieces_mark k t cs : (forall s, mark (k s) = []) -> pieces k t cs -> flat_map mark cs = [].
  Proof. intros K (ps & _ & _ & ->). induction ps as [|p ps IH]; [reflexivity|]. cbn [map flat_map]. now rewrite K. Qed.
  Lemma fields_mark fs cs : fields_calls fs cs -> flat_map mark cs = [].
  Proof.
    intros (css & F & ->). induction F as [|f c fs css (a & b & Ha & Hb & ->) F IH]; [reflexivity|]. cbn [List.concat]. rewrite !flat_map_app, IH, (pieces_mark Field _ a (fun _ => eq_refl) Ha), (pieces_mark Value _ b (fun _ => eq_refl) Hb). reflexivity.
  Qed.
  Lemma message_mark m cs : message_calls m cs -> flat_map mark cs = [true; false].
  Proof.
    intros (h & t & (u & f & Hu & Hf & ->) & (b & f2 & (ps & _ & ->) & Hf2 & ->) & ->). rewrite !flat_map_app, (pieces_mark Url _ u (fun _ => eq_refl) Hu), (fields_mark _ f Hf), (fields_mark _ f2 Hf2).
    assert (B : flat_map mark (map Body ps) = []) by (induction ps as [|p ps IH]; [reflexivity|exact IH]). now rewrite B.
  Qed.
  Lemma half n : forall p q, p ++ q = List.concat (repeat [true; false] n) -> length (filter negb p) = Nat.div2 (length p).
  Proof.
    induction n as [|n IH]; intros p q E; cbn [repeat List.concat app] in E; [now apply app_eq_nil in E as [-> _]|].
    destruct p as [|x [|y p]]; [reflexivity|injection E as -> _; reflexivity|]. cbn [app] in E. injection E as -> -> E. cbn [filter negb length Nat.div2]. f_equal. exact (IH _ _ E).
  Qed.
  Lemma whole_half (mqs : list (message * resource)) calls cs todo : Forall2 (fun mq cs => message_calls (fst mq) cs) mqs calls -> cs ++ todo = List.concat calls -> whole_requests cs = Nat.div2 (marks cs).
  Proof.
    intros F E. rewrite whole_mark, marks_mark. apply (half (length calls) _ (flat_map mark todo)). rewrite <- flat_map_app, E. clear E. induction F as [|mq c mqs calls H F IH]; [reflexivity|]. cbn [List.concat length repeat]. rewrite flat_map_app, (message_mark _ _ H). now rewrite IH.
  Qed.
  Lemma told_firstn junk mqs : Forall (fun mq => q_proxy (snd mq) = false) mqs -> forall n,
    flat_map (http_told junk) (firstn n (flat_map told mqs)) = map (fun mq => mkSE easy_http_message (headers_of (fst mq) (snd mq) (m_fields (fst mq) ++ m_trailers (fst mq))) (payload_of (fst mq)) (negb (m_keep (fst mq))) false 0) (firstn (Nat.div2 n) mqs).
  Proof.
    induction 1 as [|mq mqs P H IH]; intros n; [now rewrite !firstn_nil|]. destruct n as [|[|n]]; [reflexivity| |]; cbn [flat_map told app firstn Nat.div2 told_head told_end http_told headers_of is_proxy]; rewrite P; [reflexivity|].
    cbn [app map]. exact (f_equal _ (IH n)).
  Qed.
End Count.
