(** Theorems about reading files. *)
From Coq Require Import List ZArith Bool Lia ZifyBool ZifyNat.
From Verif Require Import Base BaseLemmas FileModel FileSpec.
Import ListNotations.
Open Scope list_scope.
Open Scope Z_scope.
Notation length := List.length.
Local Ltac Zify.zify_post_hook ::= Z.div_mod_to_equations.

Lemma to_i64_small x : 0 <= x < 2 ^ 63 -> to_i64 x = x.
Proof. intros H. unfold to_i64. rewrite Z.mod_small by lia. replace (x <? 2 ^ 63) with true by lia. reflexivity. Qed.

Lemma skipn_skipn' {A} (a b : nat) (l : list A) : skipn a (skipn b l) = skipn (b + a) l.
Proof. revert l. induction b as [|b IH]; intros l; [reflexivity|]. destruct l as [|x l]; [rewrite !skipn_nil; reflexivity|]. cbn [skipn Nat.add]. apply IH. Qed.

Lemma loop_reads max_size read f limit offset : reads f read -> 2147483647 + Z.of_nat (length f) <= max_size ->
  0 <= limit < 2 ^ 63 -> Z.of_nat (length f) < 2 ^ 63 -> 0 <= offset <= Z.of_nat (length f) ->
  forall fuel k n, (length f - n < fuel)%nat -> Z.of_nat n <= limit -> offset + Z.of_nat n <= Z.of_nat (length f) ->
  loop max_size read fuel k limit (Z.of_nat (length f)) offset (firstn n (skipn (Z.to_nat offset) f))
  = Data (firstn (Z.to_nat limit) (skipn (Z.to_nat offset) f)).
Proof.
  intros R X L F Ho. induction fuel as [|fuel IH]; intros k n Fu Ln On; [lia|].
  set (g := skipn (Z.to_nat offset) f). assert (Lg : Z.of_nat (length g) = Z.of_nat (length f) - offset) by (unfold g; rewrite skipn_length; lia).
  cbn [loop]. rewrite firstn_length, Nat.min_l by lia.
  set (m := Z.min (Z.min (to_i64 (limit - Z.of_nat n)) (Z.of_nat (length f) - offset - Z.of_nat n)) 2147483647).
  assert (M : m = Z.min (Z.min (limit - Z.of_nat n) (Z.of_nat (length f) - offset - Z.of_nat n)) 2147483647) by (unfold m; rewrite to_i64_small by lia; reflexivity).
  unfold to_size. rewrite Z.mod_small by lia.
  destruct (m =? 0) eqn:E.
  - destruct (Z.eq_dec limit (Z.of_nat n)) as [->|N].
    + rewrite Nat2Z.id. reflexivity.
    + rewrite !firstn_all2 by lia. reflexivity.
  - replace (max_size <? Z.of_nat n + m) with false by lia.
    destruct (R k (offset + Z.of_nat n) m ltac:(lia) ltac:(lia)) as (c & -> & C1 & C2).
    assert (Sk : skipn (Z.to_nat (offset + Z.of_nat n)) f = skipn n g).
    { unfold g. rewrite skipn_skipn'. f_equal. lia. }
    rewrite Sk. assert (Ls : (length (skipn n g) = length g - n)%nat) by apply skipn_length.
    assert (G : firstn n g ++ firstn c (skipn n g) = firstn (n + c) g).
    { rewrite <- (firstn_skipn n (firstn (n + c) g)), firstn_firstn, Nat.min_l by lia. f_equal.
      rewrite firstn_skipn_comm. reflexivity. }
    destruct (firstn c (skipn n g)) as [|x r] eqn:Ec.
    { exfalso. assert (Lc : length (firstn c (skipn n g)) = O) by (rewrite Ec; reflexivity). rewrite firstn_length in Lc. lia. }
    rewrite G. apply IH; lia.
Qed.

(** C34: however many bytes each call of [read()] yields, the data is that of
    the requested range. The file must not be changed meanwhile. *)
Theorem file_read_partial max_size read f offset limit fuel : reads f read ->
  2147483647 + Z.of_nat (length f) <= max_size -> Z.of_nat (length f) < 2 ^ 63 ->
  - Z.of_nat (length f) <= offset <= Z.of_nat (length f) -> 0 <= limit < 2 ^ 63 ->
  (length f < fuel)%nat ->
  read_file max_size read fuel (Z.of_nat (length f)) offset limit = Data (range f offset limit).
Proof.
  intros R X F Ho L Fu. unfold read_file, range. destruct (offset =? 0) eqn:Z0.
  - replace (0 <=? offset) with true by lia. replace offset with 0 by lia.
    apply (loop_reads max_size read f limit 0 R X L F ltac:(lia) fuel O O); lia.
  - unfold seek. destruct (0 <=? offset) eqn:P.
    + replace (offset <? 0) with false by lia.
      apply (loop_reads max_size read f limit offset R X L F ltac:(lia) fuel O O); lia.
    + replace (Z.of_nat (length f) + offset <? 0) with false by lia.
      apply (loop_reads max_size read f limit (Z.of_nat (length f) + offset) R X L F ltac:(lia) fuel O O); lia.
Qed.
Print Assumptions file_read_partial.

(** A negative offset before the beginning of the file is an error. *)
Theorem file_before max_size read fuel file_size offset limit : 0 <= file_size -> offset < - file_size ->
  read_file max_size read fuel file_size offset limit = System_error.
Proof.
  intros F Ho. unfold read_file, seek. replace (offset =? 0) with false by lia. replace (0 <=? offset) with false by lia.
  replace (file_size + offset <? 0) with true by lia. reflexivity.
Qed.
Print Assumptions file_before.

(** The range should be empty if it is behind the end of the file, and a limit
    that is greater than any file should be no limit; but both fail. *)
Theorem file_behind_refuted max_size read fuel file_size offset limit : max_size < 2 ^ 63 ->
  0 <= file_size -> file_size < offset < 2 ^ 63 -> 0 <= limit < 2 ^ 63 ->
  read_file max_size read (S fuel) file_size offset limit = Length_error.
Proof.
  intros M F Ho L. unfold read_file, seek. replace (offset =? 0) with false by lia. replace (0 <=? offset) with true by lia.
  replace (offset <? 0) with false by lia. cbn [loop List.length]. change (Z.of_nat 0) with 0.
  rewrite to_i64_small by lia. unfold to_size.
  set (m := Z.min _ _). assert (m = file_size - offset) as -> by lia.
  replace ((file_size - offset) mod 2 ^ 64) with (file_size - offset + 2 ^ 64) by lia.
  replace (file_size - offset + 2 ^ 64 =? 0) with false by lia.
  replace (max_size <? 0 + (file_size - offset + 2 ^ 64)) with true by lia. reflexivity.
Qed.
Print Assumptions file_behind_refuted.

Theorem file_limit_refuted max_size read fuel file_size limit : max_size < 2 ^ 63 ->
  0 <= file_size -> 2 ^ 63 <= limit < 2 ^ 64 ->
  read_file max_size read (S fuel) file_size 0 limit = Length_error.
Proof.
  intros M F L. unfold read_file. change (0 =? 0) with true. cbv iota. cbn [loop List.length]. change (Z.of_nat 0) with 0.
  assert (to_i64 (limit - 0) = limit - 2 ^ 64) as ->.
  { unfold to_i64. rewrite Z.mod_small by lia. replace (limit - 0 <? 2 ^ 63) with false by lia. lia. }
  unfold to_size. set (m := Z.min _ _). assert (m = limit - 2 ^ 64) as -> by lia.
  replace ((limit - 2 ^ 64) mod 2 ^ 64) with limit by lia.
  replace (limit =? 0) with false by lia. replace (max_size <? 0 + limit) with true by lia. reflexivity.
Qed.
Print Assumptions file_limit_refuted.

(** Even if the file is being changed, the data is what was read at consecutive
    positions, and no more than requested and than the size of the file when it was opened. *)
Lemma loop_collected max_size read limit file_size offset :
  (forall k pos n c, read k pos n = Some c -> Z.of_nat (length c) <= n) ->
  0 <= limit < 2 ^ 63 -> file_size < 2 ^ 63 -> 0 <= offset <= file_size ->
  forall fuel k data d, Z.of_nat (length data) <= limit -> offset + Z.of_nat (length data) <= file_size ->
  loop max_size read fuel k limit file_size offset data = Data d ->
  exists d', d = data ++ d' /\ Z.of_nat (length d) <= limit /\ offset + Z.of_nat (length d) <= file_size
  /\ collected read (limit - Z.of_nat (length data)) k (offset + Z.of_nat (length data)) d'.
Proof.
  intros B L F Ho. induction fuel as [|fuel IH]; intros k data d Ll Lf H; cbn [loop] in H; [discriminate|].
  rewrite to_i64_small in H by lia. unfold to_size in H.
  rewrite Z.mod_small in H by lia.
  set (m := Z.min _ _) in H.
  destruct (m =? 0) eqn:E.
  - injection H as <-. exists []. rewrite app_nil_r. repeat split; try lia. constructor.
  - destruct (max_size <? _); [discriminate|]. destruct (read k (offset + Z.of_nat (length data)) m) as [c|] eqn:R; [|discriminate].
    pose proof (B _ _ _ _ R) as Bc.
    destruct c as [|x c].
    + injection H as <-. exists []. rewrite app_nil_r. repeat split; try lia. constructor.
    + apply IH in H; [|rewrite app_length; lia..].
      destruct H as (d' & -> & H1 & H2 & H3). exists ((x :: c) ++ d'). rewrite app_assoc. split; [reflexivity|]. split; [exact H1|]. split; [exact H2|].
      apply collected_part with (n := m); [lia|exact R|discriminate|].
      rewrite app_length in H3.
      replace (limit - Z.of_nat (length data + length (x :: c))) with (limit - Z.of_nat (length data) - Z.of_nat (length (x :: c))) in H3 by lia.
      replace (offset + Z.of_nat (length data + length (x :: c))) with (offset + Z.of_nat (length data) + Z.of_nat (length (x :: c))) in H3 by lia.
      exact H3.
Qed.

Theorem file_collected max_size read fuel file_size offset limit d :
  (forall k pos n c, read k pos n = Some c -> Z.of_nat (length c) <= n) ->
  0 <= file_size < 2 ^ 63 -> - file_size <= offset <= file_size -> 0 <= limit < 2 ^ 63 ->
  read_file max_size read fuel file_size offset limit = Data d ->
  let from := if 0 <=? offset then offset else file_size + offset in
  Z.of_nat (length d) <= limit /\ from + Z.of_nat (length d) <= file_size /\ collected read limit 0 from d.
Proof.
  intros B F Ho L H. cbv zeta. unfold read_file, seek in H.
  assert (G : forall off, 0 <= off <= file_size -> loop max_size read fuel 0 limit file_size off [] = Data d ->
     Z.of_nat (length d) <= limit /\ off + Z.of_nat (length d) <= file_size /\ collected read limit 0 off d).
  { intros off Hf Hl. apply loop_collected in Hl; cbn [List.length]; try assumption; try lia.
    destruct Hl as (d' & -> & H1 & H2 & H3). cbn [List.length app] in *. change (Z.of_nat 0) with 0 in H3. rewrite Z.sub_0_r, Z.add_0_r in H3. auto. }
  destruct (offset =? 0) eqn:Z0.
  - replace (0 <=? offset) with true by lia. replace offset with 0 by lia. apply G; [lia|exact H].
  - destruct (0 <=? offset) eqn:P.
    + replace (offset <? 0) with false in H by lia. apply G; [lia|exact H].
    + replace (file_size + offset <? 0) with false in H by lia. apply G; [lia|exact H].
Qed.
Print Assumptions file_collected.

(** A failure of [read()] is reported, not hidden behind partial data. *)
Theorem file_error max_size read fuel file_size offset limit d : 
  read_file max_size read fuel file_size offset limit = Data d ->
  forall read', (forall k pos n, read' k pos n = read k pos n \/ read' k pos n = None) ->
  read_file max_size read' fuel file_size offset limit = Data d \/ read_file max_size read' fuel file_size offset limit = System_error.
Proof.
  intros H read' R.
  assert (G : forall fuel k off data, loop max_size read fuel k limit file_size off data = Data d ->
     loop max_size read' fuel k limit file_size off data = Data d \/ loop max_size read' fuel k limit file_size off data = System_error).
  { clear fuel H. induction fuel as [|fuel IH]; intros k off data H; cbn [loop] in *; [discriminate|].
    destruct (to_size _ =? 0); [auto|]. destruct (max_size <? _); [auto|].
    match goal with |- context [read' ?a ?b ?c] => destruct (R a b c) as [-> | ->] end; [|auto].
    destruct (read _ _ _) as [[|x c]|]; auto. }
  unfold read_file in *. destruct (offset =? 0); [apply G, H|]. destruct (seek file_size offset); [apply G, H|discriminate].
Qed.
Print Assumptions file_error.

(** A file of ten bytes, of which each call yields up to three. *)
Definition ten : list Z := [0; 1; 2; 3; 4; 5; 6; 7; 8; 9].
Definition threes (k : nat) (pos n : Z) : option (list Z) := Some (firstn (Z.to_nat (Z.min n 3)) (skipn (Z.to_nat pos) ten)).
Example file_sample : reads ten threes
  /\ read_file (2 ^ 62) threes 11 10 (-8) 7 = Data [2; 3; 4; 5; 6; 7; 8]
  /\ read_file (2 ^ 62) threes 11 10 11 7 = Length_error.
Proof.
  split; [|vm_compute; auto]. intros k pos n P N. exists (Z.to_nat (Z.min n 3)). split; [reflexivity|]. lia.
Qed.
