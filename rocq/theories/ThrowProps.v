(** C97: the texts of exceptions and of log messages. *)
From Coq Require Import ZArith List Bool Lia ZifyBool String.
From Verif Require Import Base Text AddrTextModel AddrTextProofs NetrefSpec HvnSpec HvnProofs ThrowModel ThrowSpec.
From Verif Require LogModel LogSpec LogProofs.
Import ListNotations.
Open Scope list_scope.
Open Scope Z_scope.
Notation length := List.length.

Local Lemma is_blank_spec c : is_blank c = true <-> blank c.
Proof. unfold is_blank, blank. cbn [In]. split; [intros; lia|intros [?|[?|[?|[?|[]]]]]; lia]. Qed.
Local Lemma erase_end_trimmed s : trimmed s (erase_end s).
Proof.
  unfold erase_end, trimmed. induction s as [|c r (bs & E & B & L)]; [exists []; cbn; auto|].
  cbn [kept_size]. destruct (kept_size r) as [|n] eqn:K.
  - cbn [firstn app] in E, L. subst bs. destruct (is_blank c) eqn:C.
    + exists (c :: r). split; [reflexivity|]. split; [constructor; [now apply is_blank_spec|exact B]|now left].
    + exists r. split; [reflexivity|]. split; [exact B|]. right. exists [], c. split; [reflexivity|]. intros H. apply is_blank_spec in H. congruence.
  - exists bs. change (firstn (S (S n)) (c :: r)) with (c :: firstn (S n) r). split; [cbn [app]; now rewrite <- E|]. split; [exact B|].
    right. destruct L as [L|(t' & d & L & N)]; [destruct r; [discriminate|discriminate]|]. exists (c :: t'), d. rewrite L. auto.
Qed.

(** Log messages lose the blanks at their end, and nothing else. *)
Theorem log_message_trimmed : forall composed, trimmed composed (log_message composed).
Proof. exact erase_end_trimmed. Qed.

Local Lemma du n : 0 <= n < 2 ^ 63 -> decimal_of n (put_du 20 n).
Proof. intros H. apply put_du_digits. lia. Qed.
Local Lemma du_mono n : forall v w, 0 <= v <= w -> (length (put_du n v) <= length (put_du n w))%nat.
Proof.
  induction n as [|n IH]; intros v w H; cbn [put_du]; [lia|]. destruct (v <? 10) eqn:V; destruct (w <? 10) eqn:W; cbn [List.length]; rewrite ?app_length; cbn [List.length]; try lia.
  specialize (IH (v / 10) (w / 10)). assert (0 <= v / 10 <= w / 10) by (split; [apply Z.div_pos; lia|apply Z.div_le_mono; lia]). specialize (IH H0). lia.
Qed.

Section Any.
  Variable put_xu : Z -> list Z.

  Local Lemma frame_says f : says put_xu f (frame_text put_xu f).
  Proof.
    unfold says, frame_text. destruct (symbol f) as [[name offset]|]; [|reflexivity].
    destruct (0 <? offset) eqn:E; [right|left]; (split; [lia|]); [|rewrite app_nil_r; reflexivity]. repeat f_equal.
  Qed.
  Local Lemma frames_lines fs : forall n total width pad old, 0 <= n -> n + Z.of_nat (length fs) = total -> total < 2 ^ 63 -> width = length (put_du 20 total) ->
    (pad + length old = width)%nat -> (length old <= length (put_du 20 (n + 1)))%nat ->
    exists ls, frames_text put_xu n (repeat 32 pad ++ old) fs = Some (List.concat (map (fun l => 10 :: l) ls)) /\ lines put_xu width (n + 1) fs ls.
  Proof.
    induction fs as [|f fs IH]; intros n total width pad old N T B W P O; cbn [frames_text]; [exists []; split; [reflexivity|constructor]|].
    cbn [List.length] in T. set (num := put_du 20 (n + 1)) in *.
    assert (M : (length num <= width)%nat) by (subst width; apply du_mono; lia).
    unfold put_end. rewrite app_length, repeat_length, P. replace (width <? length num)%nat with false by lia.
    assert (F : firstn (width - length num) (repeat 32 pad ++ old) ++ num = repeat 32 (width - length num) ++ num).
    { f_equal. rewrite firstn_app, repeat_length. replace (width - length num - pad)%nat with 0%nat by lia. cbn [firstn]. rewrite app_nil_r.
      replace pad with ((width - length num) + (pad - (width - length num)))%nat by lia. rewrite repeat_app, firstn_app, repeat_length, Nat.sub_diag. cbn [firstn]. rewrite app_nil_r.
      rewrite <- (repeat_length 32 (width - length num)) at 1. apply firstn_all. }
    rewrite F. destruct (IH (n + 1) total width (width - length num)%nat num) as (ls & E & L); try lia; [unfold num; apply du_mono; lia|].
    rewrite E. exists ((txt "  " ++ repeat 32 (width - length num) ++ num ++ txt ") " ++ frame_text put_xu f) :: ls). split.
    - cbn [map List.concat]. f_equal. cbn [app]. f_equal. rewrite <- ?app_assoc. reflexivity.
    - constructor; [apply du; lia|lia|apply frame_says|exact L].
  Qed.

  (** The text of an exception: the message, where it was thrown, and the frames of the stack in their order; [Made] is certain if the
      stack has less than 10^8 frames. *)
  Theorem throw_text : forall func file line composed stack, 0 <= line < 2 ^ 32 -> match stack with Some fs => Z.of_nat (length fs) < 10 ^ 8 | None => True end ->
    exists message number rest,
      create_error put_xu func file line composed stack = Made (message ++ [10] ++ txt "[thrown from function `" ++ func ++ txt "` at '" ++ file ++ txt ":" ++ number ++ txt "']" ++ rest)
      /\ trimmed composed message /\ decimal_of line number
      /\ match stack with
         | None => rest = []
         | Some fs => exists ls total, rest = [10] ++ txt "[stack backtrace:" ++ List.concat (map (fun l => 10 :: l) ls) ++ [10] ++ txt "  -- end of stack backtrace]"
                        /\ decimal_of (Z.of_nat (length fs)) total /\ lines put_xu (length total) 1 fs ls
         end.
  Proof.
    intros func file line composed stack Hl Hs. exists (erase_end composed), (put_du 20 line). unfold create_error.
    destruct stack as [fs|].
    - set (total := put_du 20 (Z.of_nat (length fs))).
      assert (W : (length total <= 8)%nat) by (transitivity (length (put_du 20 99999999)); [apply du_mono; lia|vm_compute; lia]).
      replace (8 <? length total)%nat with false by lia.
      destruct (frames_lines fs 0 (Z.of_nat (length fs)) (length total) (length total) []) as (ls & E & L); try reflexivity; try (cbn [List.length]; lia).
      rewrite app_nil_r in E. rewrite E.
      exists ([10] ++ txt "[stack backtrace:" ++ List.concat (map (fun l => 10 :: l) ls) ++ [10] ++ txt "  -- end of stack backtrace]").
      split; [f_equal; rewrite <- !app_assoc; reflexivity|]. split; [apply erase_end_trimmed|]. split; [apply du; lia|].
      exists ls, total. split; [reflexivity|]. split; [apply du; lia|exact L].
    - exists []. split; [now rewrite app_nil_r|]. split; [apply erase_end_trimmed|]. split; [apply du; lia|reflexivity].
  Qed.
  (** Undefined behavior is impossible, whatever the stack is. *)
  Theorem throw_defined : forall func file line composed stack, match stack with Some fs => Z.of_nat (length fs) < 2 ^ 63 | None => True end ->
    create_error put_xu func file line composed stack <> Undefined.
  Proof.
    intros func file line composed stack Hs. unfold create_error. destruct stack as [fs|]; [|discriminate].
    set (total := put_du 20 (Z.of_nat (length fs))). destruct (8 <? length total)%nat eqn:W; [discriminate|].
    destruct (frames_lines fs 0 (Z.of_nat (length fs)) (length total) (length total) []) as (ls & E & L); try reflexivity; try (cbn [List.length]; lia).
    rewrite app_nil_r in E. rewrite E. discriminate.
  Qed.
End Any.
Print Assumptions log_message_trimmed.
Print Assumptions throw_text.
Print Assumptions throw_defined.

Definition ex_xu (v : Z) : list Z := txt "0x" ++ put_du 20 v.
Example throw_case :
  let f k := mkFrame k (if k =? 2 then Some (txt "main", 4) else if k =? 3 then Some (txt "g", 0) else None) in
  create_error ex_xu (txt "f") (txt "a.cpp") 7 (txt "bad  ") (Some (map f [1; 2; 3; 4; 5; 6; 7; 8; 9; 10])) = Made (
    txt "bad" ++ [10] ++ txt "[thrown from function `f` at 'a.cpp:7']" ++ [10] ++ txt "[stack backtrace:" ++ [10]
    ++ txt "   1) 0x1 (unknown)" ++ [10] ++ txt "   2) 0x2 `main`+0x4" ++ [10] ++ txt "   3) 0x3 `g`" ++ [10] ++ txt "   4) 0x4 (unknown)" ++ [10]
    ++ txt "   5) 0x5 (unknown)" ++ [10] ++ txt "   6) 0x6 (unknown)" ++ [10] ++ txt "   7) 0x7 (unknown)" ++ [10] ++ txt "   8) 0x8 (unknown)" ++ [10]
    ++ txt "   9) 0x9 (unknown)" ++ [10] ++ txt "  10) 0x10 (unknown)" ++ [10] ++ txt "  -- end of stack backtrace]")
  /\ log_message (txt "a b " ++ [10]) = txt "a b".
Proof. split; vm_compute; reflexivity. Qed.
