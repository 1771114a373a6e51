(** C36, C37: Redis replies are converted and printed faithfully, and the
    result of scanning is what the server has. *)
From Coq Require Import List ZArith Bool Lia.
From Coq Require Import String.
From Verif Require Import Base Text RedisModel RedisSpec RedisProofs.
Import ListNotations.
Open Scope list_scope.
Open Scope Z_scope.
Notation length := List.length.

(** [fetch_reply] stores exactly the value that the reply denotes, whatever
    its nesting, without using an invalid pointer. *)
Theorem redis_fetch r x : denotes r x -> fetch_reply r = Some ([], x).
Proof. exact (fetch_ok r x). Qed.

(** A status is stored as a status, and no value. *)
Theorem redis_fetch_status s : fetch_reply (Reply_status s) = Some (s, Nil).
Proof. reflexivity. Qed.

(** Any other reply is converted; the statuses, errors and other things inside
    of arrays are replaced with null values. *)
Theorem redis_fetch_any r : (forall s, r <> Reply_status s) -> exists x, shown r x /\ fetch_reply r = Some ([], x).
Proof. intros N. destruct (shown_total r) as (x & H). exists x. split; [exact H|apply fetch_shown; assumption]. Qed.

(** Therefore the reply of [EXEC] after two commands that set keys can not be
    told from two null values. *)
Theorem redis_nested_status_refuted : exists r1 r2, r1 <> r2
  /\ r1 = Reply_array [Reply_status (txt "OK"); Reply_status (txt "OK")]
  /\ r2 = Reply_array [Reply_nil; Reply_nil]
  /\ fetch_reply r1 = fetch_reply r2.
Proof. do 2 eexists. split; [|split; [reflexivity|split; [reflexivity|vm_compute; reflexivity]]]. discriminate. Qed.

(** [print_to] writes the text of the value, whatever its nesting. *)
Theorem redis_print quote v : int64s v -> exists t, print quote v = Some t /\ text_of quote v t.
Proof. exact (print_ok quote v). Qed.

(** The future completes with exactly those keys that were found by any SCAN
    and have a string as the value, each once, and with those values. *)
Theorem redis_scan_and_get server slot pattern rounds get fuel :
  scanned server pattern 0 (txt "0") rounds -> gets server (length rounds) get ->
  (forall k, exists x, denotes (get k) x) -> (length rounds <= fuel)%nat ->
  exists d, scan_and_get server slot fuel pattern = Some d /\ NoDup (map fst d)
    /\ (forall k s, In (k, s) d <-> (exists r, In r rounds /\ In k (snd r)) /\ get k = Reply_string s).
Proof.
  intros Hs Hg Hd F. destruct (scan_ok server slot pattern rounds fuel 0 (txt "0") [] F (NoDup_nil _) Hs) as (d & E & N & I).
  unfold scan_and_get. rewrite E. cbn [Nat.add]. cbn [map In] in I.
  assert (D : forall ks, exists vs, Forall2 denotes (map get ks) vs /\
    exists f, vs = map f ks /\ forall k s, In k ks -> (f k = Str s <-> get k = Reply_string s)).
  { intros ks. clear - Hd. induction ks as [|k ks (vs & V & f & -> & Hf)].
    - exists []. split; [constructor|]. exists (fun _ => Nil). split; [reflexivity|]. intros k s [].
    - destruct (Hd k) as (x & Hx). set (f' := fun j => if text_eqb j k then x else f j).
      assert (Hk : forall s, x = Str s <-> get k = Reply_string s).
      { intros s. inversion Hx; split; congruence. }
      exists (map f' (k :: ks)). split.
      + cbn [map]. constructor.
        * unfold f'. replace (text_eqb k k) with true by (symmetry; apply text_eqb_spec; reflexivity). exact Hx.
        * assert (G : forall ys, (forall y, In y ys -> In y ks) -> Forall2 denotes (map get ys) (map f ys) -> Forall2 denotes (map get ys) (map f' ys)).
          { induction ys as [|y ys IH]; intros Hy F; [constructor|]. cbn [map] in *. inversion F; subst. constructor.
            - unfold f'. destruct (text_eqb y k) eqn:Ey; [apply text_eqb_spec in Ey; subst y; exact Hx|assumption].
            - apply IH; [intros z Hz; apply Hy; right; exact Hz|assumption]. }
          apply G; [auto|exact V].
      + exists f'. split; [reflexivity|]. intros j s Hj. unfold f'. destruct (text_eqb j k) eqn:Ej.
        * apply text_eqb_spec in Ej. subst j. apply Hk.
        * apply Hf. destruct Hj as [<-|Hj]; [|exact Hj].
          assert (text_eqb k k = true) by (apply text_eqb_spec; reflexivity). congruence. }
  destruct d as [|kv d'].
  - exists []. split; [reflexivity|]. split; [constructor|]. intros k s. cbn [In]. split; [tauto|].
    intros [H _]. exact (proj2 (I k) (or_intror H)).
  - set (d := kv :: d') in *. destruct (D (map fst d)) as (vs & V & f & -> & Hf).
    rewrite (ask_denotes server _ _ _ (Arr (map f (map fst d))) (Hg (map fst d))) by (constructor; exact V).
    cbn [open_array]. eexists. split; [reflexivity|]. split; [apply fill_keys; exact N|].
    intros k s. rewrite (fill_ok server slot f d k s N). split.
    + intros [A B]. split; [apply I in A; destruct A as [[]|A]; exact A|apply Hf; assumption].
    + intros [A B]. assert (C : In k (map fst d)) by (apply I; right; exact A). split; [exact C|apply Hf; assumption].
Qed.

(** A reply with nested and empty arrays, and its text. *)
Definition example_reply : reply :=
  Reply_array [Reply_integer (-7); Reply_array [Reply_string (txt "a"); Reply_array []; Reply_nil]; Reply_string (txt "b")].
Definition example_value : value :=
  Arr [Int (-7); Arr [Str (txt "a"); Arr []; Nil]; Str (txt "b")].

Example redis_example : denotes example_reply example_value /\ fetch_reply example_reply = Some ([], example_value)
  /\ int64s example_value
  /\ print (fun s => s) example_value = Some ([91;45;55;44;91;34;97;34;44;91;93;44;110;105;108;93;44;34;98;34;93]).
Proof.
  split; [repeat constructor|]. split; [vm_compute; reflexivity|].
  split; [repeat (constructor; try lia)|vm_compute; reflexivity].
Qed.

(** A server with three keys, one of which is a list, scanned in two rounds
    where one key is returned twice. *)
Definition example_get (k : list Z) : reply :=
  if text_eqb k (txt "a") then Reply_string (txt "1")
  else if text_eqb k (txt "c") then Reply_string (txt "3") else Reply_nil.
Definition example_server (n : nat) (cmd : list (list Z)) : option reply :=
  match n with
  | O => Some (Reply_array [Reply_string (txt "5"); Reply_array (map Reply_string [txt "a"; txt "b"])])
  | S O => Some (Reply_array [Reply_string (txt "0"); Reply_array (map Reply_string [txt "a"; txt "c"])])
  | _ => Some (Reply_array (map example_get (tl cmd)))
  end.

Example scan_example :
  scanned example_server (txt "*") 0 (txt "0") [(txt "5", [txt "a"; txt "b"]); (txt "0", [txt "a"; txt "c"])]
  /\ gets example_server 2 example_get
  /\ scan_and_get example_server (fun d _ => length d) 2 (txt "*") = Some [(txt "a", txt "1"); (txt "c", txt "3")].
Proof.
  split; [|split; [intros keys; reflexivity|vm_compute; reflexivity]].
  cbn [scanned]. split; [reflexivity|]. destruct (list_eq_dec Z.eq_dec (txt "5") (txt "0")) as [C|_]; [discriminate|].
  split; [reflexivity|]. destruct (list_eq_dec Z.eq_dec (txt "0") (txt "0")) as [_|C]; [reflexivity|destruct C; reflexivity].
Qed.

Print Assumptions redis_fetch.
Print Assumptions redis_fetch_status.
Print Assumptions redis_fetch_any.
Print Assumptions redis_nested_status_refuted.
Print Assumptions redis_print.
Print Assumptions redis_scan_and_get.
