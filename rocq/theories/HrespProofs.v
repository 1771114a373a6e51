(** Lemmas about the reception of HTTP responses. *)
From Coq Require Import ZArith List Bool Lia String.
From Verif Require Import Base Text HrespModel HrespSpec.
From Verif Require Import HreqProofs.
From Verif Require Import HrespModel HrespSpec.
Import ListNotations.
Open Scope list_scope.
Open Scope Z_scope.
Notation length := List.length.

(** * Pieces *)
Arguments estimate_size : simpl never.
(** What a piece of a head or a body does if no limit is exceeded *)
Definition feed (h : headers) (c : call) : headers :=
  match c with
  | Status n s => mkH n (reason h ++ s) (fields h)
  | Field s =>
      let f := match last_of (fields h) with Some (_, None) => fields h | _ => fields h ++ [([], None)] end in
      match last_of f with Some (n, v) => set_fields h (set_last f (n ++ s, v)) | None => h end
  | Value s =>
      match last_of (fields h) with Some (n, v) => set_fields h (set_last (fields h) (n, Some (value_text v ++ s))) | None => h end
  | _ => h
  end.
Definition pfeed (p : parser) (c : call) : parser :=
  match c with
  | Body s => set_payload p (payload p ++ s)
  | c => set_hd p (feed (hd p) c)
  end.
Definition pfeeds (p : parser) (cs : list call) : parser := fold_left pfeed cs p.

Definition quiet (c : call) : Prop := match c with Status _ _ | Field _ | Value _ | Body _ => True | _ => False end.
(** A piece is accepted. *)
Definition fits (L : limits) (p : parser) (c : call) : Prop :=
  match c with
  | Status _ _ => True
  | Field _ => estimate_size (hd (pfeed p c)) <= max_header_length L
  | Value _ => estimate_size (hd (pfeed p c)) <= max_header_length L /\ fields (hd p) <> []
  | Body _ => Z.of_nat (length (payload (pfeed p c))) <= max_content_length L
  | _ => False
  end.
Fixpoint okseq (L : limits) (p : parser) (cs : list call) : Prop :=
  match cs with [] => True | c :: r => fits L p c /\ okseq L (pfeed p c) r end.

Lemma pfeed_keeps p c : err (pfeed p c) = err p /\ hresp (pfeed p c) = hresp p /\ close (pfeed p c) = close p.
Proof. destruct c; cbn [pfeed]; (split; [|split]; reflexivity). Qed.
Lemma pfeeds_keeps p cs : err (pfeeds p cs) = err p /\ hresp (pfeeds p cs) = hresp p /\ close (pfeeds p cs) = close p.
Proof.
  revert p. induction cs as [|c cs IH]; intros p; [cbn; auto|]. cbn [pfeeds fold_left]. destruct (IH (pfeed p c)) as (I1 & I2 & I3).
  destruct (pfeed_keeps p c) as (K1 & K2 & K3). unfold pfeeds in *. rewrite I1, I2, I3. auto.
Qed.
Lemma pfeeds_app p a b : pfeeds p (a ++ b) = pfeeds (pfeeds p a) b.
Proof. apply fold_left_app. Qed.

Lemma size_set_fields h f : estimate_size (set_fields h f) = estimate_size h - fields_size (fields h) + fields_size f.
Proof. unfold estimate_size, set_fields. cbn. lia. Qed.

Lemma callback_quiet L p c : quiet c -> (match c with Value _ => fields (hd p) <> [] | _ => True end) ->
  (fits L p c /\ callback L p c = Next (pfeed p c)) \/ (~ fits L p c /\ callback L p c = Throws).
Proof.
  destruct c as [n s|s|s| |s| |]; intros Q H; try contradiction; cbn [callback fits].
  - left. split; [exact I|reflexivity].
  - unfold on_header_field. cbn [pfeed feed hd set_hd].
    set (f := match last_of (fields (hd p)) with Some (_, None) => fields (hd p) | _ => fields (hd p) ++ [([], None)] end) in *.
    destruct (last_of f) as [[n v]|] eqn:Lf.
    + apply last_some in Lf as [a Ef]. rewrite Ef in *. rewrite set_last_app in *. rewrite !size_set_fields in *.
      rewrite !fields_size_app, !fields_size_one in *. unfold size_field in *. cbn [fst snd] in *. rewrite app_length in *.
      destruct (_ <? _) eqn:E; [right|left]; (split; [cbn [set_fields fields] in *; lia|reflexivity]).
    + exfalso. apply last_none in Lf. unfold f in Lf. destruct (last_of (fields (hd p))) as [[n [v|]]|] eqn:Z0.
      * now destruct (fields (hd p)).
      * rewrite Lf in Z0. discriminate.
      * now destruct (fields (hd p)).
  - unfold on_header_value. cbn [pfeed feed hd set_hd] in *. destruct (last_of (fields (hd p))) as [[n v]|] eqn:Lf; [|apply last_none in Lf; congruence].
    apply last_some in Lf as [a Ef]. rewrite Ef in *. rewrite set_last_app in *. rewrite size_set_fields. rewrite Ef.
    rewrite !fields_size_app, !fields_size_one. unfold size_field. cbn [fst snd value_text]. rewrite app_length.
    destruct (_ <? _) eqn:E; [right|left]; (split; [intuition lia|reflexivity]).
  - unfold on_body. cbn [pfeed payload set_payload]. rewrite app_length.
    destruct (_ <? _) eqn:E; [right|left]; (split; [lia|reflexivity]).
Qed.
Lemma fits_quiet L p c : fits L p c -> quiet c /\ match c with Value _ => fields (hd p) <> [] | _ => True end.
Proof. destruct c; cbn; intuition. Qed.
Lemma callback_fits L p c : fits L p c -> callback L p c = Next (pfeed p c).
Proof. intros F. destruct (fits_quiet _ _ _ F) as [Q V]. destruct (callback_quiet L p c Q V) as [[_ H]|[H _]]; [exact H|contradiction]. Qed.

Lemma execute_ok L p cs more : err p = Ok -> okseq L p cs -> execute L p (cs ++ more) = execute L (pfeeds p cs) more.
Proof.
  revert p. induction cs as [|c cs IH]; intros p E H; [reflexivity|]. destruct H as (F & H).
  cbn [app execute]. rewrite E, callback_fits by assumption. cbn [pfeeds fold_left]. apply IH; [|exact H].
  destruct (pfeed_keeps p c) as (-> & _). exact E.
Qed.

Lemma okseq_app L p a b : okseq L p (a ++ b) <-> okseq L p a /\ okseq L (pfeeds p a) b.
Proof.
  revert p. induction a as [|c a IH]; intros p; cbn [app okseq pfeeds fold_left]; [tauto|].
  rewrite IH. unfold pfeeds. tauto.
Qed.

(** Taking from the buffer does not matter. *)
Lemma pfeed_payload p c d : pfeed (set_payload p d) c = set_payload (pfeed p c) (match c with Body s => d ++ s | _ => d end).
Proof. destruct c; reflexivity. Qed.
Lemma pfeeds_payload p cs d : pfeeds (set_payload p d) cs = set_payload (pfeeds p cs) (payload (pfeeds (set_payload p d) cs)).
Proof.
  revert p d. induction cs as [|c cs IH]; intros p d; [reflexivity|]. unfold pfeeds in *. cbn [fold_left]. rewrite pfeed_payload. apply IH.
Qed.
Lemma payload_cut p cs a d : payload p = a ++ d -> payload (pfeeds p cs) = a ++ payload (pfeeds (set_payload p d) cs).
Proof.
  revert p d. induction cs as [|c cs IH]; intros p d H; [exact H|]. unfold pfeeds in *. cbn [fold_left]. rewrite pfeed_payload. apply IH.
  destruct c; cbn; try exact H. rewrite H. now rewrite app_assoc.
Qed.
Lemma okseq_payload L p cs d : okseq L p cs -> (length d <= length (payload p))%nat -> okseq L (set_payload p d) cs.
Proof.
  revert p d. induction cs as [|c cs IH]; intros p d H Hd; [exact I|]. destruct H as (F & H). cbn [okseq].
  rewrite pfeed_payload. set (d' := match c with Body s => _ | _ => d end).
  assert (Hd' : (length d' <= length (payload (pfeed p c)))%nat).
  { unfold d'. destruct c; cbn; try exact Hd. rewrite !app_length. lia. }
  split; [|now apply IH]. destruct c; cbn [fits] in *; try exact F. rewrite pfeed_payload. cbn [set_payload payload] in *.
  unfold d' in Hd'. lia.
Qed.

(** * Pieces that are a message *)
Lemma grows p c : quiet c -> estimate_size (hd p) <= estimate_size (hd (pfeed p c)).
Proof.
  destruct c as [n0 s|s|s| |s| |]; intros Q; try contradiction; cbn [pfeed feed hd set_hd].
  - unfold estimate_size. cbn [reason fields]. rewrite app_length. lia.
  - set (f := match last_of (fields (hd p)) with Some (_, None) => fields (hd p) | _ => fields (hd p) ++ [([], None)] end).
    assert (F : fields_size (fields (hd p)) <= fields_size f).
    { unfold f. destruct (last_of (fields (hd p))) as [[n [v|]]|]; rewrite ?fields_size_app, ?fields_size_one; unfold size_field; cbn; lia. }
    destruct (last_of f) as [[n v]|] eqn:Lf; [|lia]. apply last_some in Lf as [a Ef]. rewrite Ef in *. rewrite set_last_app, size_set_fields.
    rewrite !fields_size_app, !fields_size_one in *. unfold size_field in *. cbn [fst snd] in *. rewrite app_length. lia.
  - destruct (last_of (fields (hd p))) as [[n v]|] eqn:Lf; [|lia]. apply last_some in Lf as [a Ef]. rewrite Ef. rewrite set_last_app, size_set_fields, Ef.
    rewrite !fields_size_app, !fields_size_one. unfold size_field. cbn [fst snd value_text]. rewrite app_length. lia.
  - cbn. lia.
Qed.
Lemma payload_grows p c : (length (payload p) <= length (payload (pfeed p c)))%nat.
Proof. destruct c; cbn; try lia. rewrite ?app_length; lia. Qed.
Lemma payload_grows_all p cs : (length (payload p) <= length (payload (pfeeds p cs)))%nat.
Proof.
  revert p. induction cs as [|c cs IH]; intros p; [cbn; lia|]. unfold pfeeds in *. cbn [fold_left].
  pose proof (payload_grows p c). specialize (IH (pfeed p c)). lia.
Qed.
(** Shape: all pieces, and no value without a name *)
Fixpoint shape (named : bool) (cs : list call) : Prop :=
  match cs with
  | [] => True
  | c :: r => match c with
              | Status _ _ | Body _ => shape named r
              | Field _ => shape true r
              | Value _ => named = true /\ shape named r
              | _ => False
              end
  end.
Lemma grows_all p cs b : shape b cs -> estimate_size (hd p) <= estimate_size (hd (pfeeds p cs)) /\ (length (payload p) <= length (payload (pfeeds p cs)))%nat.
Proof.
  revert p b. induction cs as [|c cs IH]; intros p b H; [cbn; lia|]. unfold pfeeds in *. cbn [fold_left].
  assert (Q : quiet c /\ exists b', shape b' cs) by (destruct c; cbn in *; try contradiction; split; try exact I; try (exists b; tauto); now exists true).
  destruct Q as (Q & b' & Sh). destruct (IH (pfeed p c) b' Sh). pose proof (grows p c Q). pose proof (payload_grows p c). lia.
Qed.
Lemma shape_next p c b cs : shape b (c :: cs) -> (b = true -> fields (hd p) <> []) ->
  quiet c /\ (match c with Value _ => fields (hd p) <> [] | _ => True end)
  /\ exists b', shape b' cs /\ (b' = true -> fields (hd (pfeed p c)) <> []).
Proof.
  intros H B. destruct c as [n0 s|s|s| |s| |]; cbn in H; try contradiction; (split; [exact I|]).
  - split; [exact I|]. exists b. split; [exact H|]. exact B.
  - split; [exact I|]. exists true. split; [exact H|]. intros _. cbn [pfeed feed hd set_hd].
    set (f := match last_of (fields (hd p)) with Some (_, None) => fields (hd p) | _ => fields (hd p) ++ [([], None)] end).
    destruct (last_of f) as [[n v]|] eqn:Lf.
    + apply last_some in Lf as [a ->]. rewrite set_last_app. cbn. now destruct a.
    + apply last_none in Lf. exfalso. unfold f in Lf. destruct (last_of (fields (hd p))) as [[n [v|]]|] eqn:Z0.
      * now destruct (fields (hd p)).
      * rewrite Lf in Z0. discriminate.
      * now destruct (fields (hd p)).
  - split; [tauto|]. exists b. split; [tauto|]. intros E. cbn [pfeed feed hd set_hd]. apply B in E.
    destruct (last_of (fields (hd p))) as [[n v]|] eqn:Lf; [|exact E]. apply last_some in Lf as [a ->]. rewrite set_last_app. cbn. now destruct a.
  - split; [exact I|]. exists b. split; [exact H|]. exact B.
Qed.
Lemma okseq_shape L p cs b : shape b cs -> (b = true -> fields (hd p) <> []) ->
  (Forall (fun c => match c with Body _ | Status _ _ => True | _ => False end) cs \/ estimate_size (hd (pfeeds p cs)) <= max_header_length L) ->
  Z.of_nat (length (payload (pfeeds p cs))) <= max_content_length L -> okseq L p cs.
Proof.
  revert p b. induction cs as [|c cs IH]; intros p b H B H1 H2; [exact I|]. cbn [okseq].
  destruct (shape_next p c b cs H B) as (Q & V & b' & Sh & B'). unfold pfeeds in H1, H2. cbn [fold_left] in H1, H2.
  destruct (grows_all (pfeed p c) cs b' Sh) as [G1 G2]. unfold pfeeds in G1, G2. split.
  - destruct c; try contradiction; cbn [fits]; try exact I; try lia.
    all: destruct H1 as [H1|H1]; [inversion H1; contradiction|]. all: try lia. split; [lia|exact V].
  - apply (IH _ b'); auto. destruct H1 as [H1|H1]; [left; now inversion H1|now right].
Qed.
(** Either all pieces are accepted, or an exception is thrown. *)
Lemma okseq_or L p cs b : err p = Ok -> shape b cs -> (b = true -> fields (hd p) <> []) ->
  okseq L p cs \/ (~ okseq L p cs /\ forall more, execute L p (cs ++ more) = Thrown).
Proof.
  revert p b. induction cs as [|c cs IH]; intros p b E H B; [left; exact I|].
  destruct (shape_next p c b cs H B) as (Q & V & b' & Sh & B'). cbn [okseq app execute].
  destruct (callback_quiet L p c Q V) as [[F C]|[F C]].
  - assert (E' : err (pfeed p c) = Ok) by (destruct (pfeed_keeps p c) as (-> & _); exact E). destruct (IH (pfeed p c) b' E' Sh B') as [O|[O T]].
    + left. auto.
    + right. split; [tauto|]. intros more. rewrite E, C. apply T.
  - right. split; [tauto|]. intros more. rewrite E, C. reflexivity.
Qed.
Lemma okseq_size L p cs : okseq L p cs -> Forall (fun c => match c with Body _ | Status _ _ => True | _ => False end) cs
  \/ Exists (fun c => match c with Status _ _ => True | _ => False end) cs \/ estimate_size (hd (pfeeds p cs)) <= max_header_length L.
Proof.
  revert p. induction cs as [|c cs IH]; intros p H; [left; constructor|]. destruct H as [F H]. unfold pfeeds in *. cbn [fold_left].
  destruct c as [n s|s|s| |s| |]; cbn [fits] in F; try contradiction.
  1: { right. left. constructor. exact I. }
  all: destruct (IH _ H) as [J|[J|J]]; [|right; left; now constructor 2|now right; right].
  3: { left. constructor; [exact I|exact J]. }
  all: destruct (Exists_dec (fun c => match c with Status _ _ => True | _ => False end) cs ltac:(intros []; auto)) as [X|X]; [right; left; now constructor 2|].
  all: right; right; assert (Y : forall q, hd (fold_left pfeed cs q) = hd q).
  1,3: clear - J X; induction J as [|c cs Hc J IH]; intros q; [reflexivity|]; cbn [fold_left]; rewrite IH; [destruct c; try contradiction; [elim X; constructor; exact I|reflexivity]|intros Z0; apply X; now constructor 2].
  all: rewrite Y; tauto.
Qed.
Lemma okseq_payload_size L p cs : okseq L p cs -> payload (pfeeds p cs) = payload p \/ Z.of_nat (length (payload (pfeeds p cs))) <= max_content_length L.
Proof.
  revert p. induction cs as [|c cs IH]; intros p H; [left; reflexivity|]. destruct H as [F H]. unfold pfeeds in *. cbn [fold_left].
  destruct (IH _ H) as [J|J]; [|now right]. rewrite J. destruct c as [n s|s|s| |s| |]; try (left; reflexivity). right. exact F.
Qed.

Lemma feeds_status p n ps : ps <> [] -> pfeeds p (map (Status n) ps) = set_hd p (mkH n (reason (hd p) ++ List.concat ps) (fields (hd p))).
Proof.
  revert p. induction ps as [|s ps IH]; intros p N; [congruence|]. cbn [map List.concat]. unfold pfeeds in *. cbn [fold_left].
  destruct ps as [|s2 ps]; [cbn; now rewrite app_nil_r|]. rewrite IH by discriminate. cbn. now rewrite <- !app_assoc.
Qed.
Lemma feeds_bodies p ps : pfeeds p (map Body ps) = set_payload p (payload p ++ List.concat ps).
Proof.
  revert p. induction ps as [|s ps IH]; intros p; cbn [map List.concat].
  - rewrite app_nil_r; destruct p; reflexivity.
  - unfold pfeeds in *. cbn [fold_left pfeed]. rewrite IH. cbn. now rewrite <- app_assoc.
Qed.
Lemma feeds_names p f n ps : fields (hd p) = f ++ [(n, None)] ->
  pfeeds p (map Field ps) = set_hd p (set_fields (hd p) (f ++ [(n ++ List.concat ps, None)])).
Proof.
  revert p n. induction ps as [|s ps IH]; intros p n H; cbn [map List.concat].
  - rewrite app_nil_r, <- H. destruct p as [? []]; reflexivity.
  - unfold pfeeds in *. cbn [fold_left pfeed feed]. rewrite H, last_app. cbv beta iota. rewrite last_app, set_last_app.
    rewrite (IH _ (n ++ s)) by reflexivity. cbn. now rewrite <- app_assoc.
Qed.
Lemma feeds_values p f n v ps : fields (hd p) = f ++ [(n, Some v)] ->
  pfeeds p (map Value ps) = set_hd p (set_fields (hd p) (f ++ [(n, Some (v ++ List.concat ps))])).
Proof.
  revert p v. induction ps as [|s ps IH]; intros p v H; cbn [map List.concat].
  - rewrite app_nil_r, <- H. destruct p as [? []]; reflexivity.
  - unfold pfeeds in *. cbn [fold_left pfeed feed]. rewrite H, last_app. cbv beta iota. rewrite set_last_app.
    rewrite (IH _ (v ++ s)) by reflexivity. cbn. now rewrite <- app_assoc.
Qed.
Lemma feeds_field p f cs : settled (fields (hd p)) -> field_calls f cs ->
  pfeeds p cs = set_hd p (set_fields (hd p) (fields (hd p) ++ [(fst f, Some (snd f))])).
Proof.
  intros St (a & b & (pa & Na & Ca & ->) & (pb & Nb & Cb & ->) & ->). rewrite pfeeds_app.
  destruct pa as [|s pa]; [congruence|]. destruct pb as [|t pb]; [congruence|]. cbn [map List.concat] in *.
  assert (E : pfeeds p (map Field (s :: pa)) = set_hd p (set_fields (hd p) (fields (hd p) ++ [(fst f, None)]))).
  { unfold pfeeds. cbn [map fold_left]. fold (pfeeds (pfeed p (Field s)) (map Field pa)).
    assert (E : pfeed p (Field s) = set_hd p (set_fields (hd p) (fields (hd p) ++ [(s, None)]))).
    { cbn [pfeed feed]. unfold settled in St. destruct (last_of (fields (hd p))) as [[n [v|]]|]; try contradiction; rewrite last_app, set_last_app; reflexivity. }
    rewrite E, (feeds_names _ (fields (hd p)) s) by reflexivity. cbn. rewrite Ca. reflexivity. }
  cbn [map] in E. rewrite E. unfold pfeeds. cbn [map fold_left]. fold (pfeeds (pfeed (set_hd p (set_fields (hd p) (fields (hd p) ++ [(fst f, None)]))) (Value t)) (map Value pb)).
  assert (E2 : pfeed (set_hd p (set_fields (hd p) (fields (hd p) ++ [(fst f, None)]))) (Value t) = set_hd p (set_fields (hd p) (fields (hd p) ++ [(fst f, Some t)]))).
  { cbn [pfeed feed hd set_hd set_fields fields]. rewrite last_app, set_last_app. reflexivity. }
  rewrite E2, (feeds_values _ (fields (hd p)) (fst f) t) by reflexivity. cbn. rewrite Cb. reflexivity.
Qed.
Lemma feeds_fields p fs cs : settled (fields (hd p)) -> fields_calls fs cs ->
  pfeeds p cs = set_hd p (set_fields (hd p) (fields (hd p) ++ some_fields fs)).
Proof.
  intros St (css & F & ->). revert p St. induction F as [|f c fs css Hf F IH]; intros p St.
  - cbn. rewrite app_nil_r. destruct p as [? []]; reflexivity.
  - cbn [List.concat]. rewrite pfeeds_app, (feeds_field p f c St Hf), IH.
    + cbn. now rewrite <- app_assoc.
    + cbn. unfold settled. now rewrite last_app.
Qed.
Lemma settled_some fs : settled (some_fields fs).
Proof.
  unfold settled. destruct (last_of (some_fields fs)) as [[n v]|] eqn:E; [|exact I]. apply last_some in E as [a E].
  assert (I : In (n, v) (some_fields fs)) by (rewrite E; apply in_app_iff; right; now left). unfold some_fields in I. apply in_map_iff in I as (x & H & _). now injection H as _ <-.
Qed.
Lemma shape_app b a c : shape b a -> (forall b', (b = true -> b' = true) -> shape b' c) -> shape b (a ++ c).
Proof.
  revert b. induction a as [|x a IH]; intros b H H2; [apply H2; auto|]. destruct x; cbn in *; try contradiction; try (apply IH; auto; fail).
  destruct H. split; [assumption|]. now apply IH.
Qed.
Lemma shape_map k b ps : ((exists n, k = Status n) \/ k = Body \/ k = Field \/ (k = Value /\ b = true)) -> shape b (map k ps).
Proof.
  intros H. revert b H. induction ps as [|s ps IH]; intros b H; [exact I|]. destruct H as [[n ->]|[->|[->|[-> ->]]]]; cbn; try (apply IH; eauto; fail).
  split; [reflexivity|]. apply IH. auto.
Qed.
Lemma shape_fields b fs cs : fields_calls fs cs -> shape b cs.
Proof.
  intros (css & F & ->). revert b. induction F as [|f c fs css (x & y & (px & Nx & _ & ->) & (py & _ & _ & ->) & ->) F IH]; intros b; [exact I|].
  cbn [List.concat]. apply shape_app; [|intros; apply IH]. destruct px as [|s px]; [congruence|]. cbn [map app shape].
  apply shape_app; [apply shape_map; auto|]. intros b' Hb. apply shape_map. right. right. right. split; [reflexivity|]. apply Hb. reflexivity.
Qed.


(** Heads and tails *)
Lemma feeds_head m cs p : head_calls m cs -> hd p = no_headers -> payload p = [] ->
  shape false cs /\ pfeeds p cs = set_hd p (headers_of m (m_fields m)).
Proof.
  intros (u & f & (ps & Np & Cu & ->) & F & ->) Hp Hd. split.
  - apply shape_app; [apply shape_map; eauto|]. intros. now apply (shape_fields _ (m_fields m)).
  - rewrite pfeeds_app, feeds_status, (feeds_fields _ (m_fields m)); auto.
    + rewrite Hp, Cu. reflexivity.
    + rewrite Hp. exact I.
Qed.
Lemma feeds_tail m cs p : tail_calls m cs -> hd p = headers_of m (m_fields m) -> payload p = [] ->
  shape false cs /\ pfeeds p cs = set_payload (set_hd p (headers_of m (m_fields m ++ m_trailers m))) (m_body m).
Proof.
  intros (b & f & (ps & Cb & ->) & F & ->) Hp Hd. split.
  - apply shape_app; [apply shape_map; eauto|]. intros. now apply (shape_fields _ (m_trailers m)).
  - rewrite pfeeds_app, feeds_bodies, (feeds_fields _ (m_trailers m)); auto.
    + cbn. rewrite Hp, Hd, Cb. unfold set_payload, set_hd, set_fields, headers_of. cbn. unfold some_fields. now rewrite map_app.
    + cbn. rewrite Hp. apply settled_some.
Qed.
Lemma some_size fs : fields_size (some_fields fs) = field_size fs.
Proof. induction fs as [|[n v] fs IH]; [reflexivity|]. unfold fields_size, field_size in *. cbn [some_fields map fold_right fst snd value_text]. cbn [some_fields map] in IH. unfold some_fields in IH. rewrite IH. lia. Qed.
Lemma field_size_app a b : field_size (a ++ b) = field_size a + field_size b.
Proof. rewrite <- !some_size. unfold some_fields. now rewrite map_app, fields_size_app. Qed.

(** * Sessions *)
Lemma parse_all L p cs : err p = Ok -> okseq L p cs -> parse L p cs = Left (pfeeds p cs) [].
Proof.
  intros E H. unfold parse. rewrite <- (app_nil_r cs) at 1. rewrite execute_ok by assumption.
  destruct (pfeeds_keeps p cs) as (K & _). cbn [execute]. rewrite K, E. unfold unpause. now rewrite K, E.
Qed.
Lemma parse_head L p r k cs : err p = Ok -> okseq L p r ->
  parse L p (r ++ Headers_complete k :: cs) = Left (mkP Ok (hd (pfeeds p r)) (payload (pfeeds p r)) Hresp_headers_done (negb k)) cs.
Proof.
  intros E H. unfold parse. rewrite execute_ok by assumption. destruct (pfeeds_keeps p r) as (K & _).
  cbn [execute callback]. rewrite K, E. unfold on_headers_complete. destruct cs; reflexivity.
Qed.
Lemma parse_tail L p r cs : err p = Ok -> okseq L p r ->
  parse L p (r ++ Message_complete :: cs) = Left (mkP Ok (hd (pfeeds p r)) (payload (pfeeds p r)) Hresp_payload_done (close p)) cs.
Proof.
  intros E H. unfold parse. rewrite execute_ok by assumption. destruct (pfeeds_keeps p r) as (K1 & _ & K3).
  cbn [execute callback]. rewrite K1, E. unfold on_message_complete. rewrite K3. cbn [execute err]. destruct cs; reflexivity.
Qed.
Lemma parse_big L p r b cs : err p = Ok -> shape b r -> (b = true -> fields (hd p) <> []) -> ~ okseq L p r -> parse L p (r ++ cs) = Thrown.
Proof. intros E Sh B N. destruct (okseq_or L p r b E Sh B) as [O|[_ T]]; [contradiction|]. unfold parse. now rewrite T. Qed.
Lemma parse_fail L p r cs : err p = Ok -> okseq L p r -> parse L p (r ++ Fail :: cs) = Left (set_err (pfeeds p r) Error) cs.
Proof.
  intros E O. unfold parse. rewrite execute_ok by assumption. destruct (pfeeds_keeps p r) as (K & _). cbn [execute]. rewrite K, E. cbn [callback execute set_err err].
  destruct cs; reflexivity.
Qed.
(** Names in a list of pieces: what has been read of a head is enough to continue. *)
Lemma shape_rest p a c b : shape b (a ++ c) -> (b = true -> fields (hd p) <> []) ->
  exists b', shape b' c /\ (b' = true -> fields (hd (pfeeds p a)) <> []).
Proof.
  revert p b. induction a as [|x a IH]; intros p b H B; [exists b; auto|]. cbn [app] in H.
  destruct (shape_next p x b _ H B) as (_ & _ & b' & Sh & B'). exact (IH (pfeed p x) b' Sh B').
Qed.


(** Histories *)
Fixpoint carry (taken : list Z) (tr : list event) : list Z :=
  match tr with
  | [] => taken
  | On_stream t :: tr => carry (taken ++ t) tr
  | On_finish _ _ :: tr => carry [] tr
  | _ :: tr => carry taken tr
  end.
Definition plain_event (e : event) : Prop := match e with On_upgraded _ => False | _ => True end.
Lemma whole_app t a b : Forall plain_event a -> whole_payloads t (a ++ b) = whole_payloads t a ++ whole_payloads (carry t a) b.
Proof. intros F. revert t. induction F as [|e a He F IH]; intros t; [reflexivity|]. destruct e; cbn [app whole_payloads carry]; try contradiction; rewrite IH; reflexivity. Qed.
Lemma carry_app t a b : carry t (a ++ b) = carry (carry t a) b.
Proof. revert t. induction a as [|e a IH]; intros t; [reflexivity|]. destruct e; cbn [app carry]; apply IH. Qed.
Lemma upgrades_app a b : upgrades (a ++ b) = upgrades a ++ upgrades b.
Proof. induction a as [|e a IH]; [reflexivity|]. destruct e; cbn [app upgrades]; rewrite IH; try reflexivity. apply app_assoc. Qed.
(** What follows a switch is joined. *)
Lemma whole_join t tr pre a c : whole_payloads t tr = pre ++ [On_upgraded a] -> whole_payloads t (tr ++ [On_upgraded c]) = pre ++ [On_upgraded (a ++ c)].
Proof.
  assert (X : forall e, plain_event e -> forall r pre a, e :: r = pre ++ [On_upgraded a] -> exists pre', pre = e :: pre' /\ r = pre' ++ [On_upgraded a]).
  { intros e He r pre0 a0 H. destruct pre0 as [|x pre0]; cbn [app] in H; injection H as H0 H; [subst e; contradiction|]. subst x. now exists pre0. }
  revert t pre. induction tr as [|e tr IH]; intros t pre H; [destruct pre; discriminate|].
  destruct e; cbn [app whole_payloads] in *; try (apply IH; exact H).
  all: try (apply X in H as (pre' & -> & H); [cbn [app]; f_equal; apply IH; exact H|exact I]).
  destruct pre as [|x [|y pre]]; try discriminate. injection H as H. rewrite upgrades_app. cbn [upgrades]. rewrite app_nil_r. subst a. cbn [app]. now rewrite <- app_assoc.
Qed.
Lemma cut_at {X} (cs todo r rest : list X) c : cs ++ todo = r ++ c :: rest ->
  (exists r2, r = cs ++ r2 /\ todo = r2 ++ c :: rest) \/ (exists cs2, cs = r ++ c :: cs2 /\ rest = cs2 ++ todo).
Proof.
  revert r. induction cs as [|x cs IH]; intros r H; [left; now exists r|]. destruct r as [|y r]; injection H as -> H.
  - right. exists cs. auto.
  - destruct (IH r H) as [(r2 & -> & ->)|(cs2 & -> & ->)]; [left; now exists r2|right; now exists cs2].
Qed.
Lemma cut_in {X} (cs todo r rest : list X) : cs ++ todo = r ++ rest ->
  (exists r2, r = cs ++ r2 /\ todo = r2 ++ rest) \/ (exists cs2, cs = r ++ cs2 /\ rest = cs2 ++ todo).
Proof.
  revert r. induction cs as [|x cs IH]; intros r H; [left; now exists r|]. destruct r as [|y r].
  - right. exists (x :: cs). auto.
  - injection H as -> H. destruct (IH r H) as [(r2 & -> & ->)|(cs2 & -> & ->)]; [left; now exists r2|right; now exists cs2].
Qed.
Lemma shape_prefix b a c : shape b (a ++ c) -> shape b a.
Proof.
  revert b. induction a as [|x a IH]; intros b Sh; [exact I|]. destruct x; cbn in *; try contradiction; try (now apply IH in Sh). split; [tauto|]. now apply IH.
Qed.

Section Delivery.
  Variables (L : limits) (A : application).
  Hypothesis (PA : plain A) (L1 : 0 <= max_content_length L).

  Definition fresh_parser (p : parser) : Prop := err p = Ok /\ hresp p = Hresp_new /\ close p = false.
  Definition after_parser (m : message) (p : parser) : Prop := err p = Ok /\ hresp p = Hresp_headers_done /\ close p = negb (m_keep m).
  (** Where a session is in a stream: the calls to come, and what is still to be told *)
  Inductive position (s : session) : list call -> list event -> Prop :=
  | In_part r : fresh_parser (par s) -> okseq L (par s) r -> position s r []
  | In_head m r tl evs :
      fresh_parser (par s) -> carry [] (trace s) = [] ->
      okseq L (par s) r -> hd (pfeeds (par s) r) = headers_of m (m_fields m) -> payload (pfeeds (par s) r) = [] ->
      (no_tunnel A m /\ tail_stream L A m tl evs) \/ (tunnels A m /\ evs = [On_upgraded tl]) ->
      position s (r ++ Headers_complete (m_keep m) :: tl) (told_head m :: evs)
  | In_bad_head r junk : fresh_parser (par s) -> okseq L (par s) r -> position s (r ++ Fail :: junk) [Quick_shut_down]
  | In_long_head b r junk :
      fresh_parser (par s) -> shape b r -> (b = true -> fields (hd (par s)) <> []) -> ~ okseq L (par s) r ->
      position s (r ++ junk) [Exception]
  | In_part_tail m r : after_parser m (par s) -> okseq L (par s) r -> position s r []
  | In_tail m r rest evs :
      after_parser m (par s) ->
      okseq L (par s) r -> hd (pfeeds (par s) r) = headers_of m (m_fields m ++ m_trailers m) ->
      carry [] (trace s) ++ payload (pfeeds (par s) r) = m_body m ->
      (m_status m <> 101 /\ stream L A rest evs) \/ (m_status m = 101 /\ evs = [On_upgraded rest]) ->
      position s (r ++ Message_complete :: rest) (told_end m ++ evs)
  | In_bad_tail m r junk :
      after_parser m (par s) -> okseq L (par s) r -> position s (r ++ Fail :: junk) [Quick_shut_down]
  | In_long_tail m b r junk :
      after_parser m (par s) -> shape b r -> (b = true -> fields (hd (par s)) <> []) -> ~ okseq L (par s) r -> (forall tr, a_take A tr = O) ->
      position s (r ++ junk) [Exception]
  | Failed todo : is_error (par s) = true -> position s todo []
  | Gone todo : gone s = true -> position s todo [].

  Lemma okseq_head m h p : head_calls m h -> hd p = no_headers -> payload p = [] -> head_fits L m -> okseq L p h.
  Proof.
    intros Hh Hp Hd Hf. destruct (feeds_head m h p Hh Hp Hd) as [Sh Fe]. apply (okseq_shape _ _ _ false Sh); [discriminate| |].
    - destruct Hf as [Hf|Hf].
      + left. destruct Hh as (u & f & (ps & _ & _ & ->) & (css & Fs & ->) & ->). rewrite Hf in Fs. inversion Fs; subst. cbn. rewrite app_nil_r.
        apply Forall_forall. intros x Hx. apply in_map_iff in Hx as (y & <- & _). exact I.
      + right. rewrite Fe. cbn [set_hd hd]. unfold estimate_size, headers_of. cbn [reason fields]. rewrite some_size. lia.
    - rewrite Fe. cbn. rewrite Hd. cbn. lia.
  Qed.
  Lemma stream_position s cs evs : fresh_parser (par s) -> payload (par s) = [] -> hd (par s) = no_headers -> carry [] (trace s) = [] ->
    stream L A cs evs -> position s cs evs.
  Proof.
    intros F F2 Hh C [m h h2 Hm Hf|m h tl evs' Hm Hf Nt Ht|m h rest Hm Hf Tu|m h h2 junk Hm Hf|m h junk Hm Hf].
    - apply In_part; auto. assert (O := okseq_head m _ _ Hm Hh F2 Hf). now apply okseq_app in O as [O _].
    - destruct (feeds_head m h (par s) Hm Hh F2) as [Sh Fe]. apply In_head; auto.
      + now apply (okseq_head m).
      + now rewrite Fe.
      + rewrite Fe. exact F2.
    - destruct (feeds_head m h (par s) Hm Hh F2) as [Sh Fe]. apply In_head; auto.
      + now apply (okseq_head m).
      + now rewrite Fe.
      + rewrite Fe. exact F2.
    - apply In_bad_head; auto. assert (O := okseq_head m _ _ Hm Hh F2 Hf). now apply okseq_app in O as [O _].
    - destruct (feeds_head m h (par s) Hm Hh F2) as [Sh Fe].
      apply (In_long_head _ false); auto; [discriminate|]. intros O. apply Hf. unfold head_fits. destruct (m_fields m) as [|f0 fs] eqn:Ef; [now left|right].
      destruct Hm as (u & f & (ps & Np & Cu & ->) & Ff & ->). rewrite okseq_app in O. destruct O as [_ O].
      pose proof (okseq_size _ _ _ O) as [Q|[Q|Q]].
      + exfalso. rewrite Ef in Ff. destruct Ff as (css & Fs & ->). inversion Fs as [|? c0 ? css' Hf0 ? E1 E2]; subst. cbn [List.concat] in Q. apply Forall_app in Q as [Q _].
        destruct Hf0 as (x & y & (px & Nx & _ & ->) & _ & ->). destruct px; [congruence|]. inversion Q. contradiction.
      + exfalso. destruct Ff as (css & Fs & ->). clear - Fs Q. induction Fs as [|x c xs cs Hx Fs IH]; [inversion Q|]. cbn [List.concat] in Q. apply Exists_app in Q as [Q|Q]; [|now apply IH].
        destruct Hx as (a & b & (pa & _ & _ & ->) & (pb & _ & _ & ->) & ->). apply Exists_app in Q as [Q|Q]; apply Exists_exists in Q as (z & Hz & Z0); apply in_map_iff in Hz as (w & <- & _); exact Z0.
      + unfold pfeeds in Q. rewrite <- fold_left_app in Q. change (estimate_size (hd (pfeeds (par s) (map (Status (m_status m)) ps ++ f))) <= max_header_length L) in Q.
        rewrite Fe in Q. cbn [set_hd hd] in Q. unfold estimate_size, headers_of in Q. cbn [reason fields] in Q. rewrite some_size in Q. try rewrite Ef in Q. lia.
  Qed.

  Lemma tail_position s m cs evs : after_parser m (par s) -> hd (par s) = headers_of m (m_fields m) -> payload (par s) = [] -> carry [] (trace s) = [] ->
    tail_stream L A m cs evs -> position s cs evs.
  Proof.
    intros F Hh Hd C H.
    assert (Ok : forall t, tail_calls m t -> tail_fits L m -> okseq L (par s) t).
    { intros t Ht [T1 T2]. destruct (feeds_tail m t (par s) Ht Hh Hd) as [Sh Fe]. apply (okseq_shape _ _ _ false Sh); [discriminate| |].
      - destruct T1 as [T1|T1].
        + left. destruct Ht as (b & f & (ps & _ & ->) & (css & Fs & ->) & ->). rewrite T1 in Fs. inversion Fs; subst. cbn. rewrite app_nil_r. apply Forall_forall. intros x Hx. apply in_map_iff in Hx as (y & <- & _). exact I.
        + right. rewrite Fe. cbn [set_payload set_hd hd]. unfold estimate_size, headers_of. cbn [reason fields]. rewrite some_size, field_size_app. lia.
      - rewrite Fe. exact T2. }
    destruct H as [m t t2 Ht Tf|m t rest evs Ht Tf Ns St|m t rest Ht Tf Sw|m t t2 junk Ht Tf|m t junk Ht Tf Tk].
    - assert (O := Ok _ Ht Tf). apply okseq_app in O as [O _]. now apply (In_part_tail _ m).
    - destruct (feeds_tail m t (par s) Ht Hh Hd) as [Sh Fe]. apply In_tail; auto.
      + now rewrite Fe.
      + rewrite C, Fe. reflexivity.
    - destruct (feeds_tail m t (par s) Ht Hh Hd) as [Sh Fe]. apply In_tail; auto.
      + now rewrite Fe.
      + rewrite C, Fe. reflexivity.
    - assert (O := Ok _ Ht Tf). apply okseq_app in O as [O _]. now apply (In_bad_tail s m).
    - destruct (feeds_tail m t (par s) Ht Hh Hd) as [Sh Fe]. apply (In_long_tail s m false); auto; [discriminate|]. intros O. apply Tf. split.
      + destruct (m_trailers m) as [|f0 fs] eqn:Tr; [now left|right]. rewrite <- Tr in *. apply okseq_size in O as [O|[O|O]].
        * exfalso. destruct Ht as (b & f & _ & (css & Fs & ->) & ->). rewrite Tr in Fs. inversion Fs as [|? c0 ? css' Hf0 ? E1 E2]; subst. apply Forall_app in O as [_ O]. cbn [List.concat] in O. apply Forall_app in O as [O _].
          destruct Hf0 as (x & y & (px & Nx & _ & ->) & _ & ->). destruct px; [congruence|]. inversion O. contradiction.
        * exfalso. destruct Ht as (b & f & (ps & _ & ->) & (css & Fs & ->) & ->). apply Exists_app in O as [O|O].
          { apply Exists_exists in O as (z & Hz & Z0). apply in_map_iff in Hz as (w & <- & _). exact Z0. }
          clear - Fs O. induction Fs as [|x c xs cs Hx Fs IH]; [inversion O|]. cbn [List.concat] in O. apply Exists_app in O as [O|O]; [|now apply IH].
          destruct Hx as (a & b & (pa & _ & _ & ->) & (pb & _ & _ & ->) & ->). apply Exists_app in O as [O|O]; apply Exists_exists in O as (z & Hz & Z0); apply in_map_iff in Hz as (w & <- & _); exact Z0.
        * rewrite Fe in O. cbn [set_payload set_hd hd] in O. unfold estimate_size, headers_of in O. cbn [reason fields] in O. rewrite some_size, field_size_app in O. lia.
      + apply okseq_payload_size in O as [O|O]; rewrite Fe in O; cbn [set_payload payload] in O; [|exact O]. rewrite O, Hd. cbn. lia.
  Qed.

  Definition Before (s : session) (todo : list call) (total : list event) : Prop :=
    exists rem, (gone s = false \/ rem = []) /\ ack s = false /\ Forall plain_event (trace s) /\ position s todo rem /\ whole_payloads [] (trace s) ++ rem = total.
  Definition Switching (s : session) (todo : list call) (total : list event) : Prop :=
    gone s = false /\ ack s = true /\ Forall plain_event (trace s) /\ whole_payloads [] (trace s) ++ [On_upgraded todo] = total.
  Definition Switched (s : session) (todo : list call) (total : list event) : Prop :=
    gone s = false /\ ack s = true /\ exists pre a, whole_payloads [] (trace s) = pre ++ [On_upgraded a] /\ total = pre ++ [On_upgraded (a ++ todo)].
  Definition Inv (s : session) (todo : list call) (total : list event) : Prop := Before s todo total \/ Switched s todo total.

  Lemma thrown s todo total : ack s = false -> Forall plain_event (trace s) -> whole_payloads [] (trace s) ++ [Exception] = total -> Inv (fail s Exception) todo total.
  Proof.
    intros Ha Pl T. left. exists []. split; [now right|]. split; [exact Ha|]. split; [cbn [fail trace]; apply Forall_app; split; [exact Pl|now constructor]|].
    split; [now apply Gone|]. cbn [fail trace]. rewrite whole_app, app_nil_r by exact Pl. exact T.
  Qed.
  Lemma erred s todo total : gone s = false -> ack s = false -> Forall plain_event (trace s) -> is_error (par s) = true -> whole_payloads [] (trace s) ++ [Quick_shut_down] = total ->
    Inv (add s Quick_shut_down) todo total.
  Proof.
    intros Hg Ha Pl E T. left. exists []. split; [now left|]. split; [exact Ha|]. split; [cbn [add trace]; apply Forall_app; split; [exact Pl|now constructor]|].
    split; [now apply Failed|]. cbn [add trace]. rewrite whole_app, app_nil_r by exact Pl. exact T.
  Qed.
  Lemma switched s cs todo total : Switching s (cs ++ todo) total -> Inv (add s (On_upgraded cs)) todo total.
  Proof.
    intros (Hg & Ha & Pl & T). right. split; [exact Hg|]. split; [exact Ha|]. exists (whole_payloads [] (trace s)), cs. cbn [add trace].
    rewrite whole_app by exact Pl. cbn [whole_payloads upgrades]. rewrite app_nil_r. auto.
  Qed.
  Lemma switched_more s cs todo total : Switched s (cs ++ todo) total -> Inv (add s (On_upgraded cs)) todo total.
  Proof.
    intros (Hg & Ha & pre & a & W & T). right. split; [exact Hg|]. split; [exact Ha|]. exists pre, (a ++ cs). cbn [add trace]. split; [now apply whole_join|].
    now rewrite <- app_assoc.
  Qed.

  (** The second half of the loop *)
  Lemma tail_step s cs todo rem total :
    ack s = false -> (exists m, after_parser m (par s)) -> gone s = false -> Forall plain_event (trace s) -> position s (cs ++ todo) rem ->
    whole_payloads [] (trace s) ++ rem = total ->
    match after_headers L A s cs with
    | (s1, None) => Inv s1 todo total
    | (s1, Some cs') => gone s1 = false /\ (length cs' < length cs)%nat /\ (Before s1 (cs' ++ todo) total \/ Switching s1 (cs' ++ todo) total)
    end.
  Proof.
    intros Ha (m0 & Q1 & Q2 & Q3) Hg Pl P Tot.
    assert (Plain_stream : forall t, Forall plain_event (trace s ++ [On_stream t])) by (intros; apply Forall_app; split; [exact Pl|now constructor]).
    inversion P as [r F O E0 Er|m r tl evs F C O H1 H2 Ht E0 Er|r junk F O E0 Er|b r junk F Sh B N E0 Er
                   |m r F O E0 Er|m r rest evs F O H1 H2 St E0 Er|m r junk F O E0 Er|m b r junk F Sh B N Tk E0 Er|todo0 E E0 Er|todo0 G E0 Er]; subst rem.
    1-4: exfalso; destruct F as (_ & F & _); congruence.
    - pose proof F as (E1 & E2 & E3). unfold after_headers. rewrite E2. apply okseq_app in O as [O1 O2]. rewrite (parse_all _ _ _ E1 O1).
      set (p := pfeeds (par s) cs) in *. destruct (pfeeds_keeps (par s) cs) as (K1 & K2 & K3). fold p in K1, K2, K3.
      unfold is_error. rewrite K1, E1. cbn zeta. rewrite K2, E2. set (k := a_take A (trace (set_par s p))).
      left. exists []. split; [left; exact Hg|]. split; [exact Ha|]. split; [apply Plain_stream|]. split.
      + apply (In_part_tail _ m); cbn [par add set_par trace]; auto.
        * unfold after_parser. cbn. repeat split; congruence.
        * apply okseq_payload; [exact O2|]. rewrite skipn_length. lia.
      + cbn [add trace set_par]. rewrite whole_app by exact Pl. cbn [whole_payloads]. rewrite app_nil_r. exact Tot.
    - pose proof F as (E1 & E2 & E3). unfold after_headers. rewrite E2. destruct (cut_at _ _ _ _ _ (eq_sym E0)) as [(r2 & -> & ->)|(cs2 & -> & ->)].
      + apply okseq_app in O as [O1 O2]. rewrite (parse_all _ _ _ E1 O1). rewrite pfeeds_app in H1, H2.
        set (p := pfeeds (par s) cs) in *. destruct (pfeeds_keeps (par s) cs) as (K1 & K2 & K3). fold p in K1, K2, K3.
        unfold is_error. rewrite K1, E1. cbn zeta. rewrite K2, E2. set (k := a_take A (trace (set_par s p))).
        left. exists (told_end m ++ evs). split; [left; exact Hg|]. split; [exact Ha|]. split; [apply Plain_stream|]. split.
        * apply (In_tail _ m r2 rest evs); cbn [par add set_par trace]; auto.
          -- unfold after_parser. cbn. repeat split; congruence.
          -- apply okseq_payload; [exact O2|]. rewrite skipn_length. lia.
          -- rewrite pfeeds_payload. exact H1.
          -- rewrite carry_app. cbn [carry]. rewrite <- H2, <- app_assoc. f_equal. symmetry. apply payload_cut. now rewrite firstn_skipn.
        * cbn [add trace set_par]. rewrite whole_app by exact Pl. cbn [whole_payloads]. rewrite app_nil_r. exact Tot.
      + rewrite (parse_tail _ _ _ _ E1 O). cbn [is_error err hresp payload hd close set_payload].
        set (k := a_take A _). set (d := payload (pfeeds (par s) r)) in *. cbn [set_par par add]. cbn [set_payload hd payload close].
        rewrite H1. set (h2 := headers_of m (m_fields m ++ m_trailers m)) in *. change (status h2) with (m_status m). rewrite E3.
        assert (Lc : (length cs2 < length (r ++ Message_complete :: cs2))%nat) by (rewrite app_length; cbn; lia).
        match goal with |- context [if negb (m_keep m) then add ?x Shut_down else ?x] => set (s2 := x); change (add x Shut_down) with (add s2 Shut_down) end.
        set (s3 := if negb (m_keep m) then add s2 Shut_down else s2).
        assert (T3 : trace s3 = trace s ++ On_stream (firstn k d) :: On_finish h2 (skipn k d) :: if m_keep m then [] else [Shut_down]).
        { unfold s3. destruct (m_keep m); cbn [negb add trace s2]; rewrite <- !app_assoc; reflexivity. }
        assert (P3 : Forall plain_event (trace s3)).
        { rewrite T3. apply Forall_app. split; [exact Pl|]. constructor; [exact I|]. constructor; [exact I|]. destruct (m_keep m); [constructor|now constructor]. }
        assert (W3 : whole_payloads [] (trace s3) ++ evs = total).
        { rewrite T3, whole_app by exact Pl. cbn [whole_payloads]. rewrite <- Tot, <- app_assoc. f_equal. unfold told_end. cbn [app].
          rewrite <- app_assoc, firstn_skipn, H2. f_equal. destruct (m_keep m); reflexivity. }
        assert (C3 : carry [] (trace s3) = []).
        { rewrite T3, carry_app. cbn [carry]. destruct (m_keep m); reflexivity. }
        assert (G3 : gone s3 = false /\ ack s3 = false) by (unfold s3; destruct (m_keep m); cbn; auto). destruct G3 as [G3 A3].
        destruct St as [[Ns St]|[Sw ->]].
        * replace (m_status m =? 101) with false by lia. split; [exact G3|]. split; [exact Lc|]. left. exists evs.
          split; [left; exact G3|]. split; [exact A3|]. split; [exact P3|]. split; [|exact W3]. apply stream_position; auto. repeat split.
        * replace (m_status m =? 101) with true by lia. split; [exact G3|]. split; [exact Lc|]. right. split; [exact G3|]. split; [reflexivity|]. split; [exact P3|exact W3].
    - pose proof F as (E1 & E2 & E3). unfold after_headers. rewrite E2. destruct (cut_at _ _ _ _ _ (eq_sym E0)) as [(r2 & -> & ->)|(cs2 & -> & ->)].
      + apply okseq_app in O as [O1 O2]. rewrite (parse_all _ _ _ E1 O1).
        set (p := pfeeds (par s) cs) in *. destruct (pfeeds_keeps (par s) cs) as (K1 & K2 & K3). fold p in K1, K2, K3.
        unfold is_error. rewrite K1, E1. cbn zeta. rewrite K2, E2. set (k := a_take A (trace (set_par s p))).
        left. exists [Quick_shut_down]. split; [left; exact Hg|]. split; [exact Ha|]. split; [apply Plain_stream|]. split.
        * apply (In_bad_tail _ m r2 junk); cbn [par add set_par trace]; auto.
          -- unfold after_parser. cbn. repeat split; congruence.
          -- apply okseq_payload; [exact O2|]. rewrite skipn_length. lia.
        * cbn [add trace set_par]. rewrite whole_app by exact Pl. cbn [whole_payloads]. rewrite app_nil_r. exact Tot.
      + rewrite (parse_fail _ _ _ _ E1 O). cbn [is_error err set_err]. apply erred; [exact Hg|exact Ha|exact Pl|reflexivity|exact Tot].
    - pose proof F as (E1 & E2 & E3). unfold after_headers. rewrite E2. destruct (cut_in _ _ _ _ (eq_sym E0)) as [(r2 & -> & ->)|(cs2 & -> & ->)].
      + destruct (okseq_or L (par s) cs b E1 (shape_prefix _ _ _ Sh) B) as [O|[_ T]].
        * rewrite (parse_all _ _ _ E1 O). destruct (shape_rest (par s) cs r2 b Sh B) as (b' & Sh' & B'). rewrite okseq_app in N.
          set (p := pfeeds (par s) cs) in *. destruct (pfeeds_keeps (par s) cs) as (K1 & K2 & K3). fold p in K1, K2, K3.
          unfold is_error. rewrite K1, E1. cbn zeta. rewrite K2, E2. rewrite Tk. cbn [skipn firstn].
          replace (set_payload p (payload p)) with p by (destruct p; reflexivity).
          left. exists [Exception]. split; [left; exact Hg|]. split; [exact Ha|]. split; [apply Plain_stream|]. split.
          -- apply (In_long_tail _ m b' r2 junk); cbn [par add set_par trace]; auto. unfold after_parser. repeat split; congruence.
          -- cbn [add trace set_par]. rewrite whole_app by exact Pl. cbn [whole_payloads]. rewrite app_nil_r. exact Tot.
        * specialize (T []). rewrite app_nil_r in T. unfold parse. rewrite T. apply thrown; [exact Ha|exact Pl|exact Tot].
      + rewrite (parse_big _ _ _ b _ E1 Sh B N). apply thrown; [exact Ha|exact Pl|exact Tot].
    - exfalso. unfold is_error in E. rewrite Q1 in E. discriminate.
    - congruence.
  Qed.

  Lemma loop_step fuel : forall s cs todo total, (length cs < fuel)%nat -> gone s = false -> Before s (cs ++ todo) total \/ Switching s (cs ++ todo) total \/ Switched s (cs ++ todo) total ->
    Inv (loop L A fuel s cs) todo total.
  Proof.
    induction fuel as [|fuel IH]; intros s cs todo total Lf Hg [(rem & _ & Ha & Pl & P & Tot)|[H|H]]; [lia|lia|lia| | |].
    2: { pose proof H as (_ & Ha & _). cbn [loop]. rewrite Ha. now apply switched. }
    2: { pose proof H as (_ & Ha & _). cbn [loop]. rewrite Ha. now apply switched_more. }
    assert (G : forall r (cs2 : list call), (length cs2 <= length cs)%nat -> match r with (s1, None) => Inv s1 todo total | (s1, Some cs') => gone s1 = false /\ (length cs' < length cs2)%nat /\ (Before s1 (cs' ++ todo) total \/ Switching s1 (cs' ++ todo) total) end ->
      Inv (match r with (s, Some cs) => loop L A fuel s cs | (s, None) => s end) todo total).
    { intros [s2 [cs'|]] cs2 Lc H; [|exact H]. destruct H as (Hg2 & Lc2 & H). apply IH; [lia|exact Hg2|tauto]. }
    cbn [loop]. rewrite Ha.
    inversion P as [r F O E0 Er|m r tl evs F C O H1 H2 Ht E0 Er|r junk F O E0 Er|b r junk F Sh B N E0 Er
                   |m r F O E0 Er|m r rest evs F O H1 H2 St E0 Er|m r junk F O E0 Er|m b r junk F Sh B N Tk E0 Er|todo0 E E0 Er|todo0 G0 E0 Er]; subst rem.
    - pose proof F as (F1 & F3 & F4). unfold is_error at 1. rewrite F1, F3. apply okseq_app in O as [O1 O2]. rewrite (parse_all _ _ _ F1 O1).
      set (p := pfeeds (par s) cs) in *. destruct (pfeeds_keeps (par s) cs) as (K1 & K2 & K3). fold p in K1, K2, K3.
      unfold is_error. rewrite K1, F1. cbn zeta. rewrite K2, F3. left. exists []. split; [left; exact Hg|]. split; [exact Ha|]. split; [exact Pl|]. split; [|exact Tot].
      apply In_part; cbn [par set_par]; auto. split; [congruence|]. split; congruence.
    - pose proof F as (F1 & F3 & F4). unfold is_error at 1. rewrite F1, F3. destruct (cut_at _ _ _ _ _ (eq_sym E0)) as [(r2 & -> & ->)|(cs2 & -> & R)].
      + apply okseq_app in O as [O1 O2]. rewrite (parse_all _ _ _ F1 O1). rewrite pfeeds_app in H1, H2.
        set (p := pfeeds (par s) cs) in *. destruct (pfeeds_keeps (par s) cs) as (K1 & K2 & K3). fold p in K1, K2, K3.
        unfold is_error. rewrite K1, F1. cbn zeta. rewrite K2, F3.
        left. exists (told_head m :: evs). split; [left; exact Hg|]. split; [exact Ha|]. split; [exact Pl|]. split; [|exact Tot].
        apply (In_head _ m r2 tl evs); cbn [par set_par trace]; auto. split; [congruence|]. split; congruence.
      + rewrite (parse_head _ _ _ _ _ F1 O). rewrite H1, H2. cbn [is_error err hresp hd].
        set (h := headers_of m (m_fields m)) in *. 
        cbn [set_hd set_par par trace add close hd payload]. match goal with |- context [a_headers A ?tr h] => pose proof (PA tr h) as X1; pose proof (fun N : no_tunnel A m => N tr) as X2; pose proof (fun N : tunnels A m => N tr) as X3; fold h in X2, X3; destruct (a_headers A tr h) as [h' ty] eqn:Eqh end.
        cbn [fst snd] in X1, X2, X3. subst h'.
        assert (Pl1 : Forall plain_event (trace s ++ [On_headers h])) by (apply Forall_app; split; [exact Pl|now constructor]).
        assert (W1 : whole_payloads [] (trace s ++ [On_headers h]) ++ evs = total).
        { rewrite whole_app by exact Pl. cbn [whole_payloads]. rewrite <- Tot, <- app_assoc. reflexivity. }
        destruct Ht as [[Nt Ht]|[Tu ->]].
        * match goal with |- context [after_headers L A ?s0 cs2] => set (s1 := s0) end.
          assert (E1 : match after_headers L A s1 cs2 with (s1, None) => Inv s1 todo total | (s1, Some cs') => gone s1 = false /\ (length cs' < length cs2)%nat /\ (Before s1 (cs' ++ todo) total \/ Switching s1 (cs' ++ todo) total) end).
          { apply (tail_step s1 cs2 todo evs); auto.
            - exists m. unfold s1, after_parser. cbn. auto.
            - rewrite <- R. apply (tail_position s1 m); auto.
              + unfold s1, after_parser. cbn. auto.
              + unfold s1. cbn [trace add set_par]. rewrite carry_app. cbn [carry]. exact C. }
          assert (Lc : (length cs2 <= length (r ++ Headers_complete (m_keep m) :: cs2))%nat) by (rewrite app_length; cbn; lia).
          specialize (X2 Nt). destruct ty; [exact (G _ cs2 Lc E1)|exact (G _ cs2 Lc E1)|congruence].
        * rewrite (X3 Tu). apply switched. split; [exact Hg|]. split; [reflexivity|]. split; [exact Pl1|]. cbn [set_ack trace]. rewrite <- R. exact W1.
    - pose proof F as (F1 & F3 & F4). unfold is_error at 1. rewrite F1, F3. destruct (cut_at _ _ _ _ _ (eq_sym E0)) as [(r2 & -> & ->)|(cs2 & -> & ->)].
      + apply okseq_app in O as [O1 O2]. rewrite (parse_all _ _ _ F1 O1).
        set (p := pfeeds (par s) cs) in *. destruct (pfeeds_keeps (par s) cs) as (K1 & K2 & K3). fold p in K1, K2, K3.
        unfold is_error. rewrite K1, F1. cbn zeta. rewrite K2, F3.
        left. exists [Quick_shut_down]. split; [left; exact Hg|]. split; [exact Ha|]. split; [exact Pl|]. split; [|exact Tot].
        apply (In_bad_head _ r2 junk); cbn [par set_par trace]; auto. split; [congruence|]. split; congruence.
      + rewrite (parse_fail _ _ _ _ F1 O). cbn [is_error err set_err]. apply erred; [exact Hg|exact Ha|exact Pl|reflexivity|exact Tot].
    - pose proof F as (F1 & F3 & F4). unfold is_error at 1. rewrite F1, F3. destruct (cut_in _ _ _ _ (eq_sym E0)) as [(r2 & -> & ->)|(cs2 & -> & ->)].
      + destruct (okseq_or L (par s) cs b F1 (shape_prefix _ _ _ Sh) B) as [O|[_ T]].
        * rewrite (parse_all _ _ _ F1 O). destruct (shape_rest (par s) cs r2 b Sh B) as (b' & Sh' & B'). rewrite okseq_app in N.
          set (p := pfeeds (par s) cs) in *. destruct (pfeeds_keeps (par s) cs) as (K1 & K2 & K3). fold p in K1, K2, K3.
          unfold is_error. rewrite K1, F1. cbn zeta. rewrite K2, F3.
          left. exists [Exception]. split; [left; exact Hg|]. split; [exact Ha|]. split; [exact Pl|]. split; [|exact Tot].
          apply (In_long_head _ b' r2 junk); cbn [par set_par trace]; auto. split; [congruence|]. split; congruence.
        * specialize (T []). rewrite app_nil_r in T. unfold parse. rewrite T. apply thrown; [exact Ha|exact Pl|exact Tot].
      + rewrite (parse_big _ _ _ b _ F1 Sh B N). apply thrown; [exact Ha|exact Pl|exact Tot].
    - pose proof F as (E1 & E2 & E3). unfold is_error. rewrite E1, E2. apply (G _ cs); [lia|]. refine (tail_step s cs todo _ total Ha _ Hg Pl P Tot). exists m; exact F.
    - pose proof F as (E1 & E2 & E3). unfold is_error. rewrite E1, E2. apply (G _ cs); [lia|]. refine (tail_step s cs todo _ total Ha _ Hg Pl P Tot). exists m; exact F.
    - pose proof F as (E1 & E2 & E3). unfold is_error. rewrite E1, E2. apply (G _ cs); [lia|]. refine (tail_step s cs todo _ total Ha _ Hg Pl P Tot). exists m; exact F.
    - pose proof F as (E1 & E2 & E3). unfold is_error. rewrite E1, E2. apply (G _ cs); [lia|]. refine (tail_step s cs todo _ total Ha _ Hg Pl P Tot). exists m; exact F.
    - rewrite E. left. exists []. split; [left; exact Hg|]. split; [exact Ha|]. split; [exact Pl|]. split; [now apply Failed|exact Tot].
    - congruence.
  Qed.

  Lemma run_step css : forall s todo total, Inv s (List.concat css ++ todo) total -> Inv (run L A s css) todo total.
  Proof.
    induction css as [|cs css IH]; intros s todo total H; [exact H|]. cbn [List.concat] in H. rewrite <- app_assoc in H.
    cbn [run fold_left]. apply IH. unfold receive. destruct (gone s) eqn:G.
    - destruct H as [(rem & [G'| ->] & Ha & Pl & P & Tot)|(G' & _)]; [congruence| |congruence]. left. exists []. split; [now right|]. split; [exact Ha|]. split; [exact Pl|]. split; [now apply Gone|exact Tot].
    - apply loop_step; [lia|exact G|]. destruct H; auto.
  Qed.
  Lemma position_end s rem : position s [] rem -> rem = [].
  Proof.
    intros P. inversion P as [r F O E0 Er|m r tl evs F C O H1 H2 Ht E0 Er|r junk F O E0 Er|b r junk F Sh B N E0 Er
                   |m r F O E0 Er|m r rest evs F O H1 H2 St E0 Er|m r junk F O E0 Er|m b r junk F Sh B N Tk E0 Er|todo0 E E0 Er|todo0 G0 E0 Er]; auto.
    all: try (destruct r; discriminate).
    all: exfalso; apply app_eq_nil in E0 as [-> ->]; apply N; exact I.
  Qed.
  Lemma delivery css evs : stream L A (List.concat css) evs -> whole_payloads [] (trace (run L A start css)) = evs.
  Proof.
    intros H. assert (I0 : Inv start (List.concat css ++ []) evs).
    { rewrite app_nil_r. left. exists evs. split; [now left|]. split; [reflexivity|]. split; [constructor|]. split; [|reflexivity]. apply stream_position; auto. repeat split. }
    destruct (run_step css _ _ _ I0) as [(rem & _ & _ & _ & P & Tot)|(_ & _ & pre & a & W & T)].
    - rewrite (position_end _ _ P), app_nil_r in Tot. exact Tot.
    - rewrite app_nil_r in T. congruence.
  Qed.
End Delivery.
