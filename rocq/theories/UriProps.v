(** Theorems about URI query strings and paths (C14, C15, C16). *)
From Coq Require Import ZArith List Lia Bool.
From Coq Require Import (notations) String.
From Verif Require Import Base Text BaseLemmas UriModel UriSpec UriProofs.
Import ListNotations.
Open Scope Z_scope.

(** * C14: query strings *)

(** Encoding any non-empty list of key/value pairs and parsing the text gives
    back exactly those pairs, in order, without an error. *)
Theorem query_round_trip : forall kvs : list (list Z * list Z),
  kvs <> [] ->
  Forall (fun kv => bytes (fst kv) /\ bytes (snd kv)) kvs ->
  Z.of_nat (length (encode_query kvs)) < 2 ^ 63 ->
  parse_query (encode_query kvs) = (map (fun kv => (fst kv, Some (snd kv))) kvs, false).
Proof.
  intros kvs Hne H L. rewrite parse_query_spec by (auto using encode_query_bytes). now apply query_round.
Qed.
Print Assumptions query_round_trip.

Example query_round_trip_ex :
  parse_query (encode_query [(txt "a=b&c", txt "1+1 = 2%"); ([], [0; 255]); (txt "x/y", [])])
  = ([(txt "a=b&c", Some (txt "1+1 = 2%")); ([], Some [0; 255]); (txt "x/y", Some [])], false).
Proof. vm_compute. reflexivity. Qed.

(** Encoded text consists of characters that RFC 3986 allows in a query. *)
Theorem query_encoded_legal : forall kvs : list (list Z * list Z),
  Forall (fun kv => bytes (fst kv) /\ bytes (snd kv)) kvs ->
  Forall (fun c => query_char c = true) (encode_query kvs).
Proof. exact encode_query_legal. Qed.
Print Assumptions query_encoded_legal.

Example query_encoded_legal_ex : encode_query [(txt "k v", txt "a&=#"); (txt "=", txt "?")] = txt "k+v=a%26=%23&%3D=%3F".
Proof. vm_compute. reflexivity. Qed.

(** On every text the parser yields the pairs of the specification: the pieces
    between '&', split at their first '=', decoded, up to the first piece that
    holds an illegal character or a malformed escape. *)
Theorem query_parse : forall s : list Z,
  bytes s -> Z.of_nat (length s) < 2 ^ 63 -> parse_query s = query_of s.
Proof. exact parse_query_spec. Qed.
Print Assumptions query_parse.

Example query_parse_ex :
  parse_query (txt "a=1&b&=c&&d=%4") = ([(txt "a", Some (txt "1")); (txt "b", None); ([], Some (txt "c")); ([], None)], true).
Proof. vm_compute. reflexivity. Qed.
Example query_parse_illegal : parse_query (txt "a=1&b=[") = ([(txt "a", Some (txt "1"))], true).
Proof. vm_compute. reflexivity. Qed.

(** * C15: canonical paths *)

(** If every escape in the text is well-formed, the result is the path of the
    decoded text with empty, "." and ".." segments resolved. *)
Theorem path_canonicalize : forall s d : list Z,
  pct_decode s = Some d ->
  canonicalize s = canonical_text d /\ canonical (canonicalize s).
Proof. intros s d H. rewrite (canonicalize_spec s d H). split; [reflexivity|apply canonical_text_canonical]. Qed.
Print Assumptions path_canonicalize.

Example path_canonicalize_ex :
  pct_decode (txt "/a/./b//%2e%2E/../../c%2Fd/e/..") <> None
  /\ canonicalize (txt "/a/./b//%2e%2E/../../c%2Fd/e/..") = txt "/c/d/".
Proof. vm_compute. split; [discriminate|reflexivity]. Qed.

(** The specification itself: canonical paths are left alone, so resolving a
    second time changes nothing. *)
Theorem path_canonical_fixed : forall p : list Z, canonical p -> canonical_text p = p.
Proof. exact canonical_fixed. Qed.
Print Assumptions path_canonical_fixed.

Example path_canonical_fixed_ex : canonical (txt "/a/b c/d") /\ canonical_text (txt "/a/b c/d") = txt "/a/b c/d".
Proof.
  split; [|reflexivity]. exists [txt "a"; txt "b c"], (txt "d"). split; [reflexivity|].
  assert (P : forall x, x = txt "a" \/ x = txt "b c" \/ x = txt "d" -> proper x).
  { intros x [->|[->| ->]]; (split; [discriminate|split; [discriminate|split; [discriminate|cbn; lia]]]). }
  split; [repeat constructor; apply P; auto|right; apply P; auto].
Qed.

(** A malformed escape ends the path where it stands, and the last segment is
    then returned unresolved: the result need not be canonical and may end in
    "..". *)
Theorem path_canonical_refuted : exists s : list Z, bytes s /\ ~ canonical (canonicalize s).
Proof.
  exists (txt "/a/..%zz"). split; [repeat constructor; unfold byte; cbn; lia|].
  assert (E : canonicalize (txt "/a/..%zz") = txt "/a/..") by (vm_compute; reflexivity). rewrite E.
  intros C. apply canonical_fixed in C. revert C. vm_compute. discriminate.
Qed.
Print Assumptions path_canonical_refuted.

(** For every text whatsoever, the result is a slash, complete segments none of
    which is empty, "." or "..", and one last slash-free segment.  Missing from
    the full property: that the last segment is not "." or "..", which fails
    after a malformed escape. *)
Theorem path_canonical_partial : forall s : list Z,
  exists (segs : list (list Z)) (last : list Z),
    canonicalize s = [47] ++ flat_map (fun seg => seg ++ [47]) segs ++ last
    /\ Forall proper segs /\ ~ In 47 last.
Proof.
  intros s. destruct (canonicalize_any s) as (w & st & Hw & Hst & E). exists (rev st), w. split; [|split].
  - rewrite E. unfold dir_text. now rewrite <- app_assoc.
  - now apply Forall_rev.
  - exact Hw.
Qed.
Print Assumptions path_canonical_partial.

Example path_canonical_partial_ex : canonicalize (txt "x/../../y/%4") = txt "/y/".
Proof. vm_compute. reflexivity. Qed.

(** * C16: encoding a path and decoding it *)

Theorem path_round_trip : forall p : list Z,
  bytes p -> canonicalize (encode_path p) = canonical_text p.
Proof. exact encode_path_canonical. Qed.
Print Assumptions path_round_trip.

Theorem path_round_trip_exact : forall p : list Z,
  bytes p -> canonical p -> canonicalize (encode_path p) = p.
Proof. intros p Hb Hc. rewrite encode_path_canonical by exact Hb. now apply canonical_fixed. Qed.
Print Assumptions path_round_trip_exact.

Example path_round_trip_ex : canonicalize (encode_path (txt "/100% ?/#x/" ++ [255; 0])) = txt "/100% ?/#x/" ++ [255; 0].
Proof. vm_compute. reflexivity. Qed.

Theorem path_encoded_legal : forall p : list Z,
  bytes p -> encode_path p <> [] /\ Forall (fun c => path_char c = true) (encode_path p).
Proof.
  intros p Hp. split; [|now apply encode_path_legal]. unfold encode_path.
  destruct (flat_map _ p) eqn:E; discriminate.
Qed.
Print Assumptions path_encoded_legal.

Example path_encoded_legal_ex : encode_path (txt "/a b/%") = txt "/a%20b/%25" /\ encode_path [] = txt "/".
Proof. vm_compute. auto. Qed.

(** * C14, C16: the encoded text, octet by octet *)
Local Lemma escape_percent c : byte c -> escape c = percent c.
Proof.
  intros B. assert (H : forallb (fun k => if list_eq_dec Z.eq_dec (escape (Z.of_nat k)) (percent (Z.of_nat k)) then true else false) (seq 0 256) = true)
    by (vm_compute; reflexivity).
  rewrite forallb_forall in H. specialize (H (Z.to_nat c)). unfold byte in B. rewrite Z2Nat.id in H by lia.
  destruct (list_eq_dec Z.eq_dec (escape c) (percent c)); [assumption|].
  enough (false = true) by discriminate. apply H. apply in_seq. lia.
Qed.
Local Lemma safe_unreserved c : path_safe c = unreserved c || (c =? 47).
Proof.
  unfold path_safe, is_alnum, unreserved. cbn [existsb].
  destruct (c =? 45), (c =? 46), (c =? 95), (c =? 126), (c =? 47); rewrite ?orb_true_r, ?orb_false_r; reflexivity.
Qed.
Local Lemma flat_map_same (f g : Z -> list Z) s : bytes s -> (forall c, byte c -> f c = g c) -> flat_map f s = flat_map g s.
Proof. intros B H. induction B; cbn [flat_map]; [reflexivity|]. now rewrite H, IHB. Qed.

(** The path that is sent: letters, digits and "-._~/" are as they were, each other octet is a percent sign and two upper-case
    digits, and an empty path is a slash. *)
Theorem path_encoded_exact : forall p : list Z,
  bytes p -> encode_path p = match p with [] => [47] | _ => path_written p end.
Proof.
  intros p B. unfold encode_path, path_written.
  rewrite (flat_map_same _ (fun c => if unreserved c || (c =? 47) then [c] else percent c) p B).
  - destruct p as [|c p]; [reflexivity|]. cbn [flat_map]. destruct (unreserved c || (c =? 47)); reflexivity.
  - intros c Hc. rewrite safe_unreserved. destruct (unreserved c || (c =? 47)); [reflexivity|now apply escape_percent].
Qed.
Print Assumptions path_encoded_exact.

Example path_encoded_exact_ex : encode_path (txt "/AZaz09-._~/ " ++ [255; 10]) = txt "/AZaz09-._~/%20%FF%0A".
Proof. vm_compute. reflexivity. Qed.

(** The query that is sent: the pairs with '&' between them. *)
Theorem query_encoded_exact : forall kvs : list (list Z * list Z),
  Forall (fun kv => bytes (fst kv) /\ bytes (snd kv)) kvs ->
  match kvs with
  | [] => encode_query kvs = []
  | kv :: more => encode_query kvs = pair_written kv ++ flat_map (fun kv => [38] ++ pair_written kv) more
  end.
Proof.
  assert (Q : forall b s, bytes s -> flat_map (encode_query_char b) s = query_written b s).
  { intros b s B. unfold query_written. apply flat_map_same; [exact B|]. intros c Hc. unfold encode_query_char.
    rewrite safe_unreserved. destruct (unreserved c || (c =? 47) || (b && (c =? 61))); [reflexivity|].
    destruct (c =? 32); [reflexivity|now apply escape_percent]. }
  assert (A : forall raw kv, bytes (fst kv) -> bytes (snd kv) -> append_query raw kv = (match raw with [] => [] | _ => raw ++ [38] end) ++ pair_written kv).
  { intros raw kv B1 B2. unfold append_query, pair_written. now rewrite !Q. }
  assert (N : forall kv, pair_written kv <> []).
  { intros kv E. unfold pair_written in E. destruct (query_written false (fst kv)); discriminate. }
  assert (G : forall more raw, raw <> [] -> Forall (fun kv => bytes (fst kv) /\ bytes (snd kv)) more ->
    fold_left append_query more raw = raw ++ flat_map (fun kv => [38] ++ pair_written kv) more).
  { induction more as [|kv more IH]; intros raw R F; cbn [fold_left flat_map]; [now rewrite app_nil_r|].
    inversion F as [|? ? [B1 B2] F']; subst. rewrite A by assumption. destruct raw as [|x raw]; [congruence|].
    rewrite IH; [|discriminate|exact F']. rewrite <- !app_assoc. reflexivity. }
  intros [|kv more] F; [reflexivity|]. inversion F as [|? ? [B1 B2] F']; subst.
  unfold encode_query. cbn [fold_left]. rewrite A by assumption. cbn [app]. now apply G.
Qed.
Print Assumptions query_encoded_exact.

Example query_encoded_exact_ex : encode_query [(txt "A z=1", txt "0=~"); (txt "/", txt "+&")] = txt "A+z%3D1=0=~&/=%2B%26".
Proof. vm_compute. reflexivity. Qed.
