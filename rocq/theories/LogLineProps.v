(** C97: the line of a log message, and that colours do not change it. *)
From Coq Require Import ZArith List Bool Lia ZifyBool String.
From Verif Require Import Base BaseLemmas Text HvnSpec LogModel LogSpec LogProofs ThrowModel ThrowSpec ThrowProps.
Import ListNotations.
Open Scope list_scope.
Open Scope Z_scope.
Notation length := List.length.

(** A number of [w] digits, with leading zeroes *)
Definition padded (w : nat) (n : Z) (s : list Z) : Prop := length s = w /\ Forall (fun c => 48 <= c <= 57) s /\ decimal_value s = n.
Local Lemma digits_padded w : forall v, 0 <= v < 10 ^ Z.of_nat w -> padded w v (LogModel.digits w v).
Proof.
  induction w as [|w IH]; intros v H; cbn [LogModel.digits].
  - replace v with 0 by (change (10 ^ Z.of_nat 0) with 1 in H; lia). repeat split. constructor.
  - rewrite Nat2Z.inj_succ, Z.pow_succ_r in H by lia. assert (R : 0 <= v / 10 < 10 ^ Z.of_nat w) by (split; [apply Z.div_pos; lia|apply Z.div_lt_upper_bound; lia]).
    destruct (IH _ R) as (L & F & V). pose proof (Z.mod_pos_bound v 10 ltac:(lia)). split; [rewrite app_length, L; cbn; lia|]. split; [apply Forall_app; split; [exact F|repeat constructor; lia]|].
    unfold decimal_value in *. rewrite fold_left_app, V. cbn [fold_left]. pose proof (Z.div_mod v 10 ltac:(lia)). lia.
Qed.

(** A reader that leaves out the sequences ESC '[' ... 'm', which set colours *)
Fixpoint uncoloured (inside : bool) (l : list Z) : list Z :=
  match l with
  | [] => []
  | c :: r =>
      if inside then uncoloured (negb (c =? 109)) r
      else if (c =? 27) && (hd 0 r =? 91) then uncoloured true r
      else c :: uncoloured false r
  end.

(** A clock shows these times. *)
Definition time_ok (m : meta) : Prop :=
  0 <= year m < 10000 /\ 0 <= mon m < 100 /\ 0 <= day m < 100 /\ 0 <= hour m < 100 /\ 0 <= minute m < 100 /\ 0 <= sec m < 100 /\ 0 <= nsec m < 1000000000.
(** The tag has characters, the last of which is not blank. *)
Definition tag_ok (m : meta) : Prop := exists t c, tag m = t ++ [c] /\ ~ blank c.

Local Lemma space_blank c : is_space c = true <-> blank c.
Proof. unfold is_space, blank. cbn [In]. split; [intros; lia|intros [?|[?|[?|[?|[]]]]]; lia]. Qed.
Local Lemma rtrim_keeps l c : ~ blank c -> rtrim (l ++ [c]) = l ++ [c].
Proof.
  intros N. unfold rtrim. rewrite rev_app_distr. cbn [rev app ltrim_rev]. destruct (is_space c) eqn:E; [apply space_blank in E; contradiction|].
  cbn [rev]. now rewrite rev_involutive.
Qed.
Local Lemma rtrim_one l : rtrim (l ++ [32]) = rtrim l.
Proof. unfold rtrim. rewrite rev_app_distr. reflexivity. Qed.
Local Lemma escape_end c : byte c -> ~ blank c -> exists l d, s_escapes c = l ++ [d] /\ ~ blank d.
Proof.
  intros B N. destruct (escape_cases c B) as [(E & _)|[(-> & _)|(q & E & _)]].
  - exists [], c. auto.
  - destruct N. cbn. auto.
  - clear q E. unfold byte in B. unfold s_escapes.
    assert (H : forall a b, (exists l d, [a; b] = l ++ [d] /\ ~ blank d) <-> ~ blank b).
    { intros a b. split; [intros (l & d & E & D)|intros D; exists [a], b; auto]. destruct l as [|? [|? [|]]]; try discriminate. now injection E as -> ->. }
    assert (X : exists l d, bs_x c = l ++ [d] /\ ~ blank d).
    { exists [92; 120; hexd (c / 16)], (hexd (c mod 16)). split; [reflexivity|]. pose proof (Z.mod_pos_bound c 16 ltac:(lia)). unfold blank, hexd. cbn [In].
      destruct (c mod 16 <? 10); lia. }
    repeat match goal with |- context [if ?b then _ else _] => destruct b eqn:? end; try exact X;
      try (apply H; unfold blank; cbn [In]; lia);
      try (replace c with 9 in N by lia; destruct N; cbn; auto);
      try (replace c with 10 in N by lia; destruct N; cbn; auto).
    exists [], c. auto.
Qed.
Local Lemma put_byte_end color c : byte c -> ~ blank c -> exists l d, put_byte color c = l ++ [d] /\ ~ blank d.
Proof.
  intros B N. destruct (escape_end c B N) as (l & d & E & D). unfold put_byte. rewrite E. destruct (negb _); [eauto|].
  destruct (l ++ [d]) as [|x [|y r]] eqn:Q; [destruct l; discriminate| |].
  - exists [], x. split; [reflexivity|]. destruct l as [|? [|]]; try discriminate. injection Q as <-. exact D.
  - destruct color as [|k color]; cbn [do_color app]; [rewrite app_nil_r; rewrite <- Q; eauto|].
    exists (([27; 91; 55; 109] ++ (x :: y :: r)) ++ [27; 91; 50; 55]), 109. split; [cbn [app]; rewrite <- !app_assoc; reflexivity|]. unfold blank. cbn [In]. lia.
Qed.
Local Lemma text_end color t c : byte c -> ~ blank c -> exists l d, put_text color (t ++ [c]) = l ++ [d] /\ ~ blank d.
Proof.
  intros B N. destruct (put_byte_end color c B N) as (l & d & E & D). exists (put_text color t ++ l), d. split; [|exact D].
  unfold put_text. rewrite flat_map_app. cbn [flat_map]. now rewrite app_nil_r, E, app_assoc.
Qed.

(** The line of a message, without colours: the time, the tag, the message as C23 says, and where it is from.  [text] is the message
    that the program composed, without blanks at its end. *)
Theorem log_line : forall m composed text, time_ok m -> tag_ok m -> bytes composed -> trimmed composed text ->
  exists y mo d h mi s n,
    padded 4 (year m) y /\ padded 2 (mon m) mo /\ padded 2 (day m) d /\ padded 2 (hour m) h /\ padded 2 (minute m) mi /\ padded 2 (sec m) s /\ padded 9 (nsec m) n
    /\ record_text [] m text =
       y ++ txt "-" ++ mo ++ txt "-" ++ d ++ txt " " ++ h ++ txt ":" ++ mi ++ txt ":" ++ s ++ txt "." ++ n ++ txt " " ++ tag m
       ++ match text with [] => [] | _ => txt " " ++ put_text [] text end ++ [27; 69; 9]
       ++ txt "@@ thread " ++ lwpid m ++ txt " [" ++ thrd m ++ txt "] inside function `" ++ func m ++ txt "` at '" ++ file m ++ txt ":" ++ line m ++ txt "'" ++ [27; 69; 10].
Proof.
  intros m composed text (T1 & T2 & T3 & T4 & T5 & T6 & T7) (tg & tc & TG & TN) B (bs & E & _ & L).
  eexists _, _, _, _, _, _, _.
  split; [apply digits_padded; exact T1|]. split; [apply digits_padded; exact T2|]. split; [apply digits_padded; exact T3|]. split; [apply digits_padded; exact T4|].
  split; [apply digits_padded; exact T5|]. split; [apply digits_padded; exact T6|]. split; [apply digits_padded; exact T7|].
  assert (Q : rtrim (put_head [] m ++ put_text [] text) =
    LogModel.digits 4 (year m) ++ txt "-" ++ LogModel.digits 2 (mon m) ++ txt "-" ++ LogModel.digits 2 (day m) ++ txt " " ++ LogModel.digits 2 (hour m) ++ txt ":" ++ LogModel.digits 2 (minute m)
    ++ txt ":" ++ LogModel.digits 2 (sec m) ++ txt "." ++ LogModel.digits 9 (nsec m) ++ txt " " ++ tag m ++ match text with [] => [] | _ => txt " " ++ put_text [] text end).
  { unfold put_head. cbn [do_color]. rewrite ?app_nil_r. cbn [app].
    destruct L as [->|(t & c & -> & N)].
    - unfold put_text. cbn [flat_map]. rewrite !app_nil_r. rewrite TG.
      match goal with |- rtrim (?a ++ 45 :: ?b ++ 45 :: ?c ++ 32 :: ?d ++ 58 :: ?e ++ 58 :: ?f ++ 46 :: ?g ++ 32 :: (?h ++ [?x]) ++ [32]) = _ =>
        replace (a ++ 45 :: b ++ 45 :: c ++ 32 :: d ++ 58 :: e ++ 58 :: f ++ 46 :: g ++ 32 :: (h ++ [x]) ++ [32])
          with (((a ++ 45 :: b ++ 45 :: c ++ 32 :: d ++ 58 :: e ++ 58 :: f ++ 46 :: g ++ 32 :: h) ++ [x]) ++ [32]) by (repeat (rewrite <- ?app_assoc; cbn [app]); reflexivity) end.
      rewrite rtrim_one, rtrim_keeps by exact TN. repeat (rewrite <- ?app_assoc; cbn [app]). reflexivity.
    - assert (B' : byte c) by (rewrite E in B; unfold bytes in B; rewrite Forall_app in B; destruct B as [B _]; apply Forall_app in B as [_ B]; now inversion B).
      destruct (text_end [] t c B' N) as (l & e & PE & PN). rewrite PE.
      match goal with |- rtrim (?p ++ l ++ [e]) = _ => rewrite (app_assoc p l [e]) end. rewrite rtrim_keeps by exact PN. rewrite <- app_assoc.
      destruct (t ++ [c]) eqn:Z0; [destruct t; discriminate|]. repeat (rewrite <- ?app_assoc; cbn [app]). reflexivity. }
  unfold record_text. rewrite Q. unfold put_tail. cbn [do_color firstn nel_ht]. repeat (rewrite <- ?app_assoc; cbn [app]). reflexivity.
Qed.

(** ** Colours *)
Local Lemma uncol_code color code r : ~ In 109 code -> uncoloured false (do_color color code ++ r) = uncoloured false r.
Proof.
  intros N. destruct color as [|k color]; [reflexivity|]. cbn [do_color app uncoloured hd]. change ((27 =? 27) && (91 =? 91)) with true. cbv iota. change (negb (91 =? 109)) with true.
  rewrite <- app_assoc. induction code as [|c code IH]; [reflexivity|]. cbn [app uncoloured]. replace (c =? 109) with false by (cbn [In] in N; lia). apply IH. cbn [In] in N. tauto.
Qed.
Local Lemma uncol_plain l r : ~ In 27 l -> uncoloured false (l ++ r) = l ++ uncoloured false r.
Proof.
  induction l as [|c l IH]; intros N; [reflexivity|]. cbn [app uncoloured]. cbn [In] in N. replace (c =? 27) with false by lia. cbn [andb]. now rewrite IH by tauto.
Qed.
Local Lemma uncol_nel r : uncoloured false (nel_ht ++ r) = nel_ht ++ uncoloured false r.
Proof. reflexivity. Qed.
Local Lemma uncol_byte color c r : byte c -> uncoloured false (put_byte color c ++ r) = s_escapes c ++ uncoloured false r.
Proof.
  intros B. unfold put_byte. destruct (escape_cases c B) as [(E & NC & _)|[(-> & E)|(q & E & _ & F & _)]].
  - rewrite E. assert (~ In 27 [c]) by (cbn [In]; lia). destruct (negb _); now apply uncol_plain.
  - reflexivity.
  - rewrite E. cbn [hd]. change (negb (92 =? 92)) with false. cbv iota. assert (N : ~ In 27 (92 :: q)).
    { intros [H|H]; [discriminate|]. rewrite Forall_forall in F. specialize (F _ H). lia. }
    destruct q as [|x q]; [now apply uncol_plain|].
    rewrite <- !app_assoc, uncol_code, uncol_plain, uncol_code; [reflexivity|cbn [In]; lia|exact N|cbn [In]; lia].
Qed.
Local Lemma uncol_text color t r : bytes t -> uncoloured false (put_text color t ++ r) = put_text [] t ++ uncoloured false r.
Proof.
  intros B. rewrite (put_text_plain t B). induction B as [|c t Bc B IH]; [reflexivity|]. unfold put_text. cbn [flat_map]. rewrite <- !app_assoc, uncol_byte by exact Bc. f_equal. exact IH.
Qed.
Local Lemma digits_no_esc w v : 0 <= v < 10 ^ Z.of_nat w -> ~ In 27 (LogModel.digits w v).
Proof. intros H I. destruct (digits_padded w v H) as (_ & F & _). rewrite Forall_forall in F. specialize (F _ I). lia. Qed.

(** A reader who leaves out the sequences that set colours sees the same line as if there were no colours. *)
Theorem log_colours : forall color m composed text, time_ok m -> tag_ok m -> bytes composed -> trimmed composed text -> text <> [] ->
  ~ In 109 color -> (forall x, In x [tag m; lwpid m; thrd m; func m; file m; line m] -> ~ In 27 x) ->
  uncoloured false (record_text color m text) = record_text [] m text.
Proof.
  intros color m composed text T TG B TR NE NC NM.
  destruct TR as (bs & E & _ & [L|(t & c & L & N)]); [congruence|].
  assert (Bt : bytes text) by (rewrite E in B; unfold bytes in *; now apply Forall_app in B as [B _]).
  assert (Bc : byte c) by (rewrite L in Bt; unfold bytes in Bt; apply Forall_app in Bt as [_ Bt]; now inversion Bt).
  assert (R : forall k, rtrim (put_head k m ++ put_text k text) = put_head k m ++ put_text k text).
  { intros k. rewrite L. destruct (text_end k t c Bc N) as (l & e & PE & PN). rewrite PE. rewrite app_assoc. now apply rtrim_keeps. }
  unfold record_text. rewrite !R. unfold put_head, put_tail.
  destruct T as (T1 & T2 & T3 & T4 & T5 & T6 & T7).
  assert (Ns : forall l, forallb (fun x => negb (x =? 109)) l = true -> ~ In 109 l).
  { intros l H I. rewrite forallb_forall in H. specialize (H _ I). discriminate. }
  assert (Ms : forall l, forallb (fun x => negb (x =? 27)) l = true -> ~ In 27 l).
  { intros l H I. rewrite forallb_forall in H. specialize (H _ I). discriminate. }
  change (firstn 2 nel_ht) with [27; 69]. cbn [do_color]. rewrite <- !app_assoc.
  repeat first
    [ rewrite uncol_code by (first [exact NC | apply Ns; reflexivity])
    | rewrite uncol_nel
    | rewrite uncol_text by exact Bt
    | rewrite uncol_plain by (first [apply Ms; reflexivity | apply digits_no_esc; assumption | apply NM; cbn [In]; tauto]) ].
  cbn [app]. repeat f_equal.
  destruct color; cbn [do_color app uncoloured hd]; reflexivity.
Qed.
Print Assumptions log_line.
Print Assumptions log_colours.
Example log_line_case :
  let m := mkM 2024 3 9 1 2 3 45 (txt "[INFO]") (txt "12") (txt "main") (txt "f") (txt "a.cpp") (txt "7") in
  time_ok m /\ tag_ok m /\ trimmed (txt "a" ++ [0; 32; 10]) (txt "a" ++ [0])
  /\ record_text [] m (txt "a" ++ [0]) = txt "2024-03-09 01:02:03.000000045 [INFO] a\0" ++ [27; 69; 9] ++ txt "@@ thread 12 [main] inside function `f` at 'a.cpp:7'" ++ [27; 69; 10]
  /\ uncoloured false (record_text (txt "32;1") m (txt "a" ++ [0])) = record_text [] m (txt "a" ++ [0]).
Proof.
  cbv zeta. split; [unfold time_ok; cbn; lia|]. split; [exists (txt "[INFO"), 93; split; [reflexivity|unfold blank; cbn [In]; lia]|]. split.
  - exists [32; 10]. split; [reflexivity|]. split; [repeat (apply Forall_cons; [unfold blank; cbn [In]; tauto|]); apply Forall_nil|]. right. exists (txt "a"), 0. split; [reflexivity|unfold blank; cbn [In]; lia].
  - split; vm_compute; reflexivity.
Qed.
