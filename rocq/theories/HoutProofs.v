(** Proofs about written HTTP messages. *)
From Coq Require Import ZArith List Lia Bool ZifyBool String.
From Verif Require Import Base BaseLemmas Text DateModel HvalModel HvalProofs HdrModel HnameModel AddrTextModel NetrefSpec NetrefProofs AddrTextProofs HoutModel HoutSpec.
Import ListNotations.
Open Scope list_scope.
Open Scope Z_scope.
Notation length := List.length.
Ltac Zify.zify_post_hook ::= Z.div_mod_to_equations.

Lemma line_app l r : printable l -> line (l ++ crlf ++ r) = Some (l, r).
Proof.
  induction 1 as [|c l [H1 H2] F IH]; [reflexivity|]. change ((c :: l) ++ crlf ++ r) with (c :: (l ++ crlf ++ r)). cbn [line].
  replace (c =? 13) with false by lia. replace (c =? 10) with false by lia. now rewrite IH.
Qed.
Lemma cut_app c a b : Forall (fun x => x <> c) a -> cut c (a ++ c :: b) = Some (a, b).
Proof. induction 1 as [|x a H F IH]; cbn; [now rewrite Z.eqb_refl|]. replace (x =? c) with false by lia. now rewrite IH. Qed.
Lemma strip_app p s : strip p (p ++ s) = Some s.
Proof. induction p as [|c p IH]; [destruct s; reflexivity|]. cbn. now rewrite Z.eqb_refl. Qed.
Lemma ltrim_neat s : neat s -> ltrim s = s.
Proof. destruct s as [|c s]; [reflexivity|]. cbn. now intros ->. Qed.

Definition written (f : list Z * list Z) : list Z := fst f ++ txt ": " ++ snd f.
(** A field line of the session, which is like those of the application except for its name *)
Definition lined (f : list Z * list Z) : Prop :=
  Forall (fun c => c <> 13 /\ c <> 10 /\ c <> 58 /\ white c = false) (fst f) /\ printable (snd f) /\ neat (snd f) /\ neat (rev (snd f)).
Lemma good_lined f : good_field f -> lined f.
Proof. unfold good_field, lined. tauto. Qed.
Lemma field_written f : lined f -> fst f <> [] -> field (written f) = Some f.
Proof.
  destruct f as [n v]. unfold lined, written. cbn [fst snd]. intros (N & _ & V1 & V2) E. unfold field. change (n ++ txt ": " ++ v) with (n ++ 58 :: (32 :: v)).
  rewrite cut_app by (eapply Forall_impl; [|exact N]; cbn; tauto). destruct n as [|c n]; [congruence|].
  replace (existsb white (c :: n)) with false.
  2:{ symmetry. destruct (existsb white (c :: n)) eqn:X; [|reflexivity]. apply existsb_exists in X as (x & I & W). rewrite Forall_forall in N. specialize (N x I). cbn in N. rewrite W in N. intuition discriminate. }
  f_equal. f_equal. unfold trim. change (ltrim (32 :: v)) with (ltrim v). rewrite (ltrim_neat v V1), (ltrim_neat (rev v) V2). apply rev_involutive.
Qed.
Lemma written_printable f : lined f -> printable (written f).
Proof.
  destruct f as [n v]. intros (N & V & _). unfold printable, written. cbn [fst snd] in *. apply Forall_app. split; [eapply Forall_impl; [|exact N]; cbn; tauto|].
  apply Forall_app. split; [|exact V]. change (txt ": ") with [58; 32]. apply Forall_cons; [lia|]. apply Forall_cons; [lia|]. apply Forall_nil.
Qed.

(** The lines of a header *)
Definition nonempty (f : list Z * list Z) : bool := match fst f with [] => false | _ => true end.
Definition lines (fs : list (list Z * list Z)) : list Z := List.concat (map (fun f => written f ++ crlf) fs).
Lemma encode_lines fs r : encode_fields fs ++ crlf ++ r = crlf ++ lines (filter nonempty fs) ++ r.
Proof.
  unfold lines. induction fs as [|[n v] fs IH]; [reflexivity|]. unfold encode_fields in *. cbn [map List.concat filter]. unfold nonempty at 1. cbn [fst snd].
  destruct n as [|c n]; [exact IH|]. cbn [map List.concat]. rewrite <- !app_assoc. f_equal. unfold written at 1. cbn [fst snd]. rewrite <- !app_assoc. f_equal. f_equal. f_equal. exact IH.
Qed.
Lemma field_lines_back fs : forall fuel r, Forall lined fs -> Forall (fun f => nonempty f = true) fs -> (length fs < fuel)%nat ->
  field_lines fuel (lines fs ++ crlf ++ r) = Some (fs, r).
Proof.
  unfold lines. induction fs as [|f fs IH]; intros fuel r G N L; (destruct fuel as [|fuel]; [cbn in L; lia|]); cbn [field_lines map List.concat app].
  - pose proof (line_app [] r ltac:(constructor)) as E0; cbn [app] in E0; rewrite E0; reflexivity.
  - inversion G as [|? ? G1 G2]; subst. inversion N as [|? ? N1 N2]; subst. rewrite <- !app_assoc. rewrite line_app by now apply written_printable.
    assert (E : fst f <> []) by (unfold nonempty in N1; destruct (fst f); congruence). destruct (written f) as [|c l] eqn:W; [unfold written in W; destruct (fst f); [congruence|discriminate]|].
    rewrite <- W. rewrite field_written by auto. rewrite IH; auto. cbn in L. lia.
Qed.
Lemma lines_length fs : (length fs <= length (lines fs))%nat.
Proof. unfold lines. induction fs as [|f fs IH]; cbn; [lia|]. rewrite !app_length. cbn. lia. Qed.

(** Numbers *)
Lemma digits_number s : forall acc, Forall decimal s -> digits 10 acc s = Some (fold_left (fun a c => 10 * a + (c - 48)) s acc).
Proof.
  induction s as [|c s IH]; intros acc F; cbn [digits fold_left]; [reflexivity|]. inversion F as [|? ? F1 F2]; subst. unfold decimal in F1.
  unfold digit_value. replace ((48 <=? c) && (c <=? 57)) with true by lia. replace (c - 48 <? 10) with true by lia. rewrite IH by auto. f_equal. f_equal. lia.
Qed.
Lemma integer_du v : 0 <= v < 10 ^ 20 -> integer 10 (put_du 20 v) = Some v.
Proof.
  intros H. destruct (put_du_spec 20 v H ltac:(lia)) as (N & D & V). unfold integer. destruct (put_du 20 v) as [|c s] eqn:E; [congruence|].
  rewrite digits_number by exact D. f_equal. exact V.
Qed.
Lemma digits_app b s : forall acc v c d, digits b acc s = Some v -> digit_value c = Some d -> d < b -> digits b acc (s ++ [c]) = Some (v * b + d).
Proof.
  induction s as [|x s IH]; intros acc v c d H D L; cbn [app digits] in *.
  - injection H as <-. rewrite D. replace (d <? b) with true by lia. reflexivity.
  - destruct (digit_value x) as [e|]; [|discriminate]. destruct (e <? b); [|discriminate]. eapply IH; eauto.
Qed.
Lemma hex_digit_value v : 0 <= v < 16 -> digit_value (hex_digit v) = Some v.
Proof.
  intros H. unfold hex_digit, digit_value. destruct (v <? 10) eqn:E.
  - replace ((48 <=? 48 + v) && (48 + v <=? 57)) with true by lia. f_equal. lia.
  - replace ((48 <=? 55 + v) && (55 + v <=? 57)) with false by lia. replace ((65 <=? 55 + v) && (55 + v <=? 70)) with true by lia. f_equal. lia.
Qed.
Lemma put_xu_spec n : forall v, 0 <= v < 16 ^ Z.of_nat n -> (0 < n)%nat ->
  put_xu n v <> [] /\ Forall (fun c => 48 <= c) (put_xu n v) /\ digits 16 0 (put_xu n v) = Some v.
Proof.
  induction n as [|n IH]; intros v H P; [lia|]. cbn [put_xu]. destruct (v <? 16) eqn:E.
  - split; [discriminate|]. split; [constructor; [|constructor]; unfold hex_digit; destruct (v <? 10); lia|]. cbn [digits]. rewrite hex_digit_value by lia. rewrite E. f_equal; lia.
  - destruct n as [|n']; [cbn in H; lia|]. rewrite Nat2Z.inj_succ, Z.pow_succ_r in H by lia. destruct (IH (v / 16) ltac:(lia) ltac:(lia)) as (H1 & H2 & H3).
    split; [intros C; apply app_eq_nil in C as [_ C]; discriminate|]. split.
    + apply Forall_app. split; [exact H2|]. constructor; [|constructor]. unfold hex_digit. destruct (v mod 16 <? 10); lia.
    + rewrite (digits_app 16 _ 0 (v / 16) _ (v mod 16)); [f_equal; lia|exact H3|apply hex_digit_value; lia|lia].
Qed.

(** Chunks *)
Lemma skipn_len {A} (a b : list A) : skipn (length a) (a ++ b) = b.
Proof. rewrite skipn_app, skipn_all, Nat.sub_diag. reflexivity. Qed.
Lemma firstn_len {A} (a b : list A) : firstn (length a) (a ++ b) = a.
Proof. rewrite firstn_app, firstn_all, Nat.sub_diag. apply app_nil_r. Qed.
Definition fits (d : list Z) : Prop := Z.of_nat (length d) < 2 ^ 63.
Lemma size_line d : fits d -> put_xu 16 (Z.of_nat (length d)) <> [] /\ printable (put_xu 16 (Z.of_nat (length d))) /\ integer 16 (put_xu 16 (Z.of_nat (length d))) = Some (Z.of_nat (length d)).
Proof.
  intros F. unfold fits in F. destruct (put_xu_spec 16 (Z.of_nat (length d))) as (H1 & H2 & H3); [|lia|].
  { change (16 ^ Z.of_nat 16) with (2 ^ 64). change (2 ^ 64) with (2 * 2 ^ 63). lia. }
  split; [exact H1|]. split; [unfold printable; eapply Forall_impl; [|exact H2]; cbn; intros; lia|]. unfold integer. destruct (put_xu 16 (Z.of_nat (length d))); [congruence|exact H3].
Qed.
Definition pieces (ds : list (list Z)) : list Z := List.concat (map (fun d => match d with [] => [] | _ => chunk d end) ds).
Lemma dechunk_last fuel r : dechunk (S (S fuel)) (last_chunk ++ r) = Some ([], r).
Proof.
  unfold last_chunk. rewrite <- !app_assoc. cbn [dechunk]. rewrite line_app by (change (txt "0") with [48]; apply Forall_cons; [lia|apply Forall_nil]). change (integer 16 (txt "0")) with (Some 0). change (0 =? 0) with true. cbv iota.
  cbn [field_lines]. pose proof (line_app [] r ltac:(constructor)) as E0; cbn [app] in E0; rewrite E0; reflexivity.
Qed.
Lemma dechunk_pieces ds : forall fuel r, Forall fits ds -> (length ds + 1 < fuel)%nat -> dechunk fuel (pieces ds ++ last_chunk ++ r) = Some (List.concat ds, r).
Proof.
  unfold pieces. induction ds as [|d ds IH]; intros fuel r F L; cbn [map List.concat app].
  - destruct fuel as [|[|fuel]]; [cbn in L; lia|cbn in L; lia|]. apply dechunk_last.
  - inversion F as [|? ? F1 F2]; subst. destruct d as [|c d]; [cbn [app]; apply IH; auto; cbn in L; lia|]. destruct fuel as [|fuel]; [cbn in L; lia|].
    destruct (size_line (c :: d) F1) as (_ & P & I). unfold chunk. rewrite <- !app_assoc. cbn [dechunk]. rewrite line_app by exact P. rewrite I.
    assert (Ln : 0 < Z.of_nat (length (c :: d))) by (cbn [length]; lia).
    replace (Z.of_nat (length (c :: d)) =? 0) with false by lia.
    match goal with |- context [Z.of_nat (length ?x) <? _] => replace (Z.of_nat (length x) <? Z.of_nat (length (c :: d))) with false by (symmetry; apply Z.ltb_ge; rewrite !app_length; lia) end.
    rewrite Nat2Z.id, skipn_len, firstn_len.
    change ([13; 10]) with crlf. rewrite strip_app. rewrite IH by (auto; cbn in L; lia). reflexivity.
Qed.

(** The fields that delimit the body *)
Lemma lookup_good n fs : (forall f, In f fs -> same n (fst f) = false) -> lookup n fs = [].
Proof. unfold lookup. intros H. induction fs as [|f fs IH]; [reflexivity|]. cbn [filter]. rewrite (H f) by (now left). apply IH. intros g I. apply H. now right. Qed.
Lemma lookup_app n a b : lookup n (a ++ b) = lookup n a ++ lookup n b.
Proof. unfold lookup. now rewrite filter_app, map_app. Qed.
Lemma good_te fs : Forall good_field fs -> lookup (txt "Transfer-Encoding") fs = [].
Proof. intros G. apply lookup_good. intros f I. rewrite Forall_forall in G. apply G in I. unfold good_field in I. tauto. Qed.
Lemma good_cl fs : Forall good_field fs -> lookup (txt "Content-Length") fs = [].
Proof. intros G. apply lookup_good. intros f I. rewrite Forall_forall in G. apply G in I. unfold good_field in I. tauto. Qed.

Definition length_field (data : list Z) : list Z * list Z := (txt "Content-Length", put_du 20 (Z.of_nat (length data))).
Definition chunked_field : list Z * list Z := (txt "Transfer-Encoding", txt "chunked").

Lemma decimal_lined n s : Forall (fun c => c <> 13 /\ c <> 10 /\ c <> 58 /\ white c = false) n -> Forall decimal s -> lined (n, s).
Proof.
  intros N D. unfold lined. cbn [fst snd]. split; [exact N|]. assert (W : forall c, decimal c -> white c = false) by (intros c H; unfold decimal in H; unfold white; lia).
  split; [eapply Forall_impl; [|exact D]; unfold decimal; intros; lia|]. split.
  - destruct D; cbn; auto.
  - assert (D' : Forall decimal (rev s)) by (apply Forall_rev; exact D). destruct D'; cbn; auto.
Qed.
Ltac chars := cbn; repeat (apply Forall_cons; [unfold white; lia|]); apply Forall_nil.
Lemma length_lined data : fits data -> lined (length_field data).
Proof.
  intros F. unfold fits in F. apply decimal_lined; [chars|]. apply put_du_spec; [|lia]. change (10 ^ Z.of_nat 20) with 100000000000000000000. lia.
Qed.
Lemma chunked_lined : lined chunked_field.
Proof. unfold lined, chunked_field. cbn [fst snd]. split; [chars|]. split; [chars|]. split; reflexivity. Qed.

(** * Responses *)
Definition why (str : Z -> list Z) (h : s_head) : list Z := match reason h with [] => str (status h) | r => r end.
Lemma three_digits v : 100 <= v <= 999 -> put_du 20 v = [48 + v / 100; 48 + v / 10 mod 10; 48 + v mod 10].
Proof.
  intros H. cbn [put_du]. replace (v <? 10) with false by lia. replace (v / 10 <? 10) with false by lia. replace (v / 10 / 10 <? 10) with true by lia.
  cbn [app]. f_equal. rewrite Z.div_div by lia. reflexivity.
Qed.
Lemma status_line_back str h : 100 <= status h <= 999 -> status_line (txt "HTTP/1.1 " ++ put_du 20 (status h) ++ [32] ++ why str h) = Some (status h, why str h).
Proof.
  intros H. unfold status_line. rewrite strip_app. pose proof (integer_du (status h) ltac:(change (10 ^ 20) with 100000000000000000000; lia)) as I.
  rewrite three_digits in * by exact H. cbn [app firstn skipn]. rewrite I. reflexivity.
Qed.
Lemma receive_head str head h r : 100 <= status h <= 999 -> printable (why str h) -> Forall lined (s_fields h) ->
  receive_response head (encode_s str h ++ r) =
  if head || (status h <? 200) || (status h =? 204) || (status h =? 304) then Some (mkR (status h) (why str h) (filter nonempty (s_fields h)) [], r)
  else match body true (filter nonempty (s_fields h)) r with
       | Some (b, r) => Some (mkR (status h) (why str h) (filter nonempty (s_fields h)) b, r)
       | None => None
       end.
Proof.
  intros S P L. unfold receive_response.
  assert (E : encode_s str h ++ r = (txt "HTTP/1.1 " ++ put_du 20 (status h) ++ [32] ++ why str h) ++ crlf ++ lines (filter nonempty (s_fields h)) ++ crlf ++ r).
  { unfold encode_s. fold (why str h). rewrite <- !app_assoc. rewrite (encode_lines (s_fields h) (crlf ++ r)). reflexivity. }
  rewrite E. rewrite line_app.
  2:{ unfold printable. apply Forall_app. split; [chars|]. apply Forall_app. split; [rewrite three_digits by exact S; repeat (apply Forall_cons; [lia|]); apply Forall_nil|].
      apply Forall_cons; [lia|exact P]. }
  rewrite status_line_back by exact S. rewrite field_lines_back; [reflexivity| | |].
  - apply Forall_forall. intros f I. apply filter_In in I as [I _]. rewrite Forall_forall in L. auto.
  - apply Forall_forall. intros f I. apply filter_In in I. tauto.
  - pose proof (lines_length (filter nonempty (s_fields h))). rewrite app_length. lia.
Qed.

Lemma filter_good fs : Forall good_field fs -> Forall good_field (filter nonempty fs).
Proof. intros G. apply Forall_forall. intros f I. apply filter_In in I as [I _]. rewrite Forall_forall in G. auto. Qed.
Lemma filter_snoc f fs : nonempty f = true -> filter nonempty (fs ++ [f]) = filter nonempty fs ++ [f].
Proof. intros H. rewrite filter_app. cbn. now rewrite H. Qed.

Lemma body_length fs data r close : Forall good_field fs -> fits data -> body close (filter nonempty fs ++ [length_field data]) (data ++ r) = Some (data, r).
Proof.
  intros G F. apply filter_good in G. unfold body. rewrite !lookup_app, (good_te _ G), (good_cl _ G).
  change (lookup (txt "Transfer-Encoding") [length_field data]) with (@nil (list Z)). change (lookup (txt "Content-Length") [length_field data]) with [put_du 20 (Z.of_nat (length data))].
  cbn [app]. unfold fits in F. rewrite integer_du by (change (10 ^ 20) with 100000000000000000000; lia).
  replace (Z.of_nat (length (data ++ r)) <? Z.of_nat (length data)) with false by (symmetry; apply Z.ltb_ge; rewrite app_length; lia).
  now rewrite Nat2Z.id, firstn_len, skipn_len.
Qed.
Lemma pieces_length ds : (length (filter (fun d => match d with [] => false | _ => true end) ds) <= length (pieces ds))%nat.
Proof.
  unfold pieces. induction ds as [|d ds IH]; cbn [filter map List.concat length]; [lia|]. destruct d as [|c d]; [exact IH|]. cbn [length]. rewrite app_length. assert (1 <= length (chunk (c :: d)))%nat by (unfold chunk; rewrite !app_length; change (length crlf) with 2%nat; lia). lia.
Qed.
Lemma pieces_filter ds : pieces (filter (fun d => match d with [] => false | _ => true end) ds) = pieces ds.
Proof. unfold pieces. induction ds as [|d ds IH]; [reflexivity|]. destruct d as [|c d]; cbn [filter map List.concat app]; [exact IH|]. now rewrite IH. Qed.
Lemma concat_filter (ds : list (list Z)) : List.concat (filter (fun d => match d with [] => false | _ => true end) ds) = List.concat ds.
Proof. induction ds as [|d ds IH]; [reflexivity|]. destruct d as [|c d]; cbn [filter List.concat app]; [exact IH|]. now rewrite IH. Qed.
Lemma body_chunked fs ds r close : Forall good_field fs -> Forall fits ds -> body close (filter nonempty fs ++ [chunked_field]) (pieces ds ++ last_chunk ++ r) = Some (List.concat ds, r).
Proof.
  intros G F. apply filter_good in G. unfold body. rewrite !lookup_app, (good_te _ G), (good_cl _ G).
  change (lookup (txt "Transfer-Encoding") [chunked_field]) with [txt "chunked"]. change (lookup (txt "Content-Length") [chunked_field]) with (@nil (list Z)).
  cbn [app]. change (same (txt "chunked") (txt "chunked")) with true. cbv iota. rewrite <- pieces_filter, <- concat_filter. apply dechunk_pieces.
  - apply Forall_forall. intros d I. apply filter_In in I as [I _]. rewrite Forall_forall in F. auto.
  - rewrite pieces_filter, !app_length. pose proof (pieces_length ds). change (length last_chunk) with 5%nat. lia.
Qed.
