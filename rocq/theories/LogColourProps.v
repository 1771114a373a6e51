(** C97: what colours look like on a terminal. *)
From Coq Require Import ZArith List Lia Bool String.
From Verif Require Import Base Text LogModel.
Import ListNotations.
Open Scope string_scope.
Open Scope list_scope.
Open Scope Z_scope.

(** How a terminal shows a text: each octet with the settings that are in effect there.  A setting is what is between
    ESC and 'm', beginning with '['.  "[0" undoes all settings and "[27" undoes "[7"; others add up. *)
Definition text_eqb (a b : list Z) : bool := if list_eq_dec Z.eq_dec a b then true else false.
Definition select (st : list (list Z)) (k : list Z) : list (list Z) :=
  if text_eqb k (txt "[0") then []
  else if text_eqb k (txt "[27") then filter (fun x => negb (text_eqb x (txt "[7"))) st
  else st ++ [k].
Fixpoint shown (st : list (list Z)) (code : option (list Z)) (s : list Z) : list (Z * list (list Z)) :=
  match s with
  | [] => []
  | c :: r =>
      match code with
      | Some k => if c =? 109 then shown (select st k) None r else shown st (Some (k ++ [c])) r
      | None => if (c =? 27) && (hd 0 r =? 91) then shown st (Some []) r else (c, st) :: shown st None r
      end
  end.
Definition paint (st : list (list Z)) (s : list Z) : list (Z * list (list Z)) := map (fun c => (c, st)) s.

(** Octets that are written as escape sequences. *)
Definition escaped (c : Z) : bool :=
  (c <? 32) && negb (c =? 9) && negb (c =? 10) || (c =? 127) || (c =? 192) || (c =? 193) || (245 <=? c).

(** Nothing that comes from the configuration or the program has ESC in it; the colour is not empty,
    has no 'm' and is not one of the settings that the logger itself uses. *)
Definition tame (color : list Z) (m : meta) : Prop :=
  color <> [] /\ ~ In 109 color /\ ~ In color [txt "0"; txt "7"; txt "27"] /\
  Forall (fun l => ~ In 27 l) [tag m; lwpid m; thrd m; func m; file m; line m] /\
  Forall (fun x => 0 <= x) [year m; mon m; day m; hour m; minute m; sec m; nsec m].

Local Lemma shown_text st s t : ~ In 27 s -> shown st None (s ++ t) = paint st s ++ shown st None t.
Proof.
  induction s as [|c s IH]; intros N; [reflexivity|]. cbn [app shown paint map].
  destruct (Z.eqb_spec c 27) as [->|_]; [exfalso; apply N; left; reflexivity|]. cbn [andb].
  rewrite IH; [reflexivity|]. intros H. apply N. right. exact H.
Qed.
Local Lemma shown_code st s t : ~ In 109 s -> forall k, shown st (Some k) (s ++ 109 :: t) = shown (select st (k ++ s)) None t.
Proof.
  induction s as [|c s IH]; intros N k; [rewrite app_nil_r; reflexivity|]. cbn [app shown].
  destruct (Z.eqb_spec c 109) as [->|_]; [exfalso; apply N; left; reflexivity|].
  rewrite IH; [rewrite <- app_assoc; reflexivity|]. intros H. apply N. right. exact H.
Qed.
Local Lemma shown_colour color st code t : color <> [] -> ~ In 109 code ->
  shown st None (do_color color code ++ t) = shown (select st (91 :: code)) None t.
Proof.
  intros Hc N. destruct color as [|x color]; [contradiction|]. unfold do_color. cbn [app]. rewrite <- app_assoc. cbn [app].
  change (shown st None (27 :: 91 :: code ++ 109 :: t)) with (shown st (Some [91]) (code ++ 109 :: t)).
  rewrite shown_code by exact N. reflexivity.
Qed.
Local Lemma no27 (l : list Z) : forallb (fun c => negb (c =? 27)) l = true -> ~ In 27 l.
Proof. intros E H. rewrite forallb_forall in E. specialize (E _ H). discriminate. Qed.
Local Lemma hexd_no c : 0 <= c < 16 -> hexd c <> 27 /\ is_space (hexd c) = false.
Proof. intros H. unfold hexd, is_space. destruct (Z.ltb_spec c 10); split; lia. Qed.
Local Lemma shown_nel st t : shown st None (nel_ht ++ t) = paint st nel_ht ++ shown st None t.
Proof. reflexivity. Qed.
Local Lemma digits_no27 w : forall x, 0 <= x -> ~ In 27 (digits w x).
Proof.
  induction w as [|w IH]; intros x H; cbn [digits]; [tauto|]. rewrite in_app_iff. intros [K|[K|[]]].
  - revert K. apply IH. apply Z.div_pos; lia.
  - pose proof (Z.mod_pos_bound x 10). lia.
Qed.

(** What an octet expands to: not an escape, or a line break, or an escape, of which no octet is ESC. *)
Local Lemma expand c : byte c ->
  (escaped c = false /\ s_escapes c = [c] /\ c <> 27) \/ (c = 10 /\ s_escapes c = nel_ht)
  \/ (exists q b, escaped c = true /\ s_escapes c = 92 :: q ++ [b] /\ ~ In 27 (s_escapes c) /\ is_space b = false).
Proof.
  intros B. unfold byte in B. unfold s_escapes.
  assert (X : forall c, 0 <= c < 256 -> ~ In 27 (bs_x c) /\ is_space (hexd (c mod 16)) = false).
  { clear. intros c B. pose proof (Z.mod_pos_bound c 16 ltac:(lia)) as M.
    assert (D : 0 <= c / 16 < 16) by (split; [apply Z.div_pos; lia|apply Z.div_lt_upper_bound; lia]).
    pose proof (hexd_no _ M). pose proof (hexd_no _ D). split; [|tauto]. unfold bs_x. cbn [In]. intuition lia. }
  destruct (Z.eqb_spec c 0) as [->|]; [do 2 right; exists [], 48; repeat split; apply no27; reflexivity|].
  destruct (Z.eqb_spec c 7) as [->|]; [do 2 right; exists [], 97; repeat split; apply no27; reflexivity|].
  destruct (Z.eqb_spec c 8) as [->|]; [do 2 right; exists [], 98; repeat split; apply no27; reflexivity|].
  destruct (Z.eqb_spec c 9) as [->|]; [left; repeat split; lia|].
  destruct (Z.eqb_spec c 10) as [->|]; [right; left; split; reflexivity|].
  destruct (Z.eqb_spec c 11) as [->|]; [do 2 right; exists [], 118; repeat split; apply no27; reflexivity|].
  destruct (Z.eqb_spec c 12) as [->|]; [do 2 right; exists [], 102; repeat split; apply no27; reflexivity|].
  destruct (Z.eqb_spec c 13) as [->|]; [do 2 right; exists [], 114; repeat split; apply no27; reflexivity|].
  assert (Y : escaped c = true -> exists q b, escaped c = true /\ bs_x c = 92 :: q ++ [b] /\ ~ In 27 (bs_x c) /\ is_space b = false).
  { intros E. exists [120; hexd (c / 16)], (hexd (c mod 16)). split; [exact E|]. split; [reflexivity|]. apply X. lia. }
  destruct (Z.ltb_spec c 32); [do 2 right; apply Y; unfold escaped; lia|].
  destruct (Z.eqb_spec c 127); [do 2 right; apply Y; unfold escaped; lia|].
  destruct (_ || _ || _) eqn:E; [do 2 right; apply Y; unfold escaped; lia|].
  left. split; [unfold escaped; lia|]. split; [reflexivity|lia].
Qed.

Section Colour.
  Context (color : list Z) (m : meta) (T : tame color m).
  Let col := [91 :: color].
  Local Lemma sel7 : select col (txt "[7") = col ++ [txt "[7"].
  Proof. reflexivity. Qed.
  Local Lemma sel27 : select (col ++ [txt "[7"]) (txt "[27") = col.
  Proof.
    destruct T as (_ & _ & N & _). unfold select, col. change (text_eqb (txt "[27") (txt "[0")) with false.
    change (text_eqb (txt "[27") (txt "[27")) with true. cbn [app filter].
    change (text_eqb (txt "[7") (txt "[7")) with true. unfold text_eqb at 1.
    destruct (list_eq_dec Z.eq_dec (91 :: color) (txt "[7")) as [E|_]; [|reflexivity].
    exfalso. apply N. right. left. injection E as E. symmetry. exact E.
  Qed.
  Local Lemma selc : select [] (91 :: color) = col.
  Proof.
    destruct T as (_ & _ & N & _). unfold select, text_eqb.
    destruct (list_eq_dec Z.eq_dec (91 :: color) (txt "[0")) as [E|_].
    { exfalso. apply N. left. injection E as E. symmetry. exact E. }
    destruct (list_eq_dec Z.eq_dec (91 :: color) (txt "[27")) as [E|_]; [|reflexivity].
    exfalso. apply N. right. right. left. injection E as E. symmetry. exact E.
  Qed.

  Local Lemma shown_byte c t : byte c ->
    shown col None (put_byte color c ++ t)
    = paint (if escaped c then col ++ [txt "[7"] else col) (s_escapes c) ++ shown col None t.
  Proof.
    intros B. pose proof T as (Hc & _). unfold put_byte.
    destruct (expand c B) as [(X & E & N)|[[-> E]|(q & b & X & E & N & _)]].
    - rewrite X, E. cbn [hd]. destruct (negb (c =? 92)); apply shown_text; cbn; intuition lia.
    - reflexivity.
    - rewrite X.
      assert (W : shown col None ((do_color color [55] ++ s_escapes c ++ do_color color [50; 55]) ++ t)
                  = paint (col ++ [txt "[7"]) (s_escapes c) ++ shown col None t).
      { rewrite <- !app_assoc, shown_colour by (try assumption; cbn; intuition lia).
        change (91 :: [55]) with (txt "[7"). rewrite sel7, shown_text by exact N.
        rewrite shown_colour by (try assumption; cbn; intuition lia).
        change (91 :: [50; 55]) with (txt "[27"). rewrite sel27. reflexivity. }
      rewrite E in *. cbn [hd]. change (negb (92 =? 92)) with false. cbv iota.
      destruct (q ++ [b]) eqn:Q; [destruct q; discriminate|]. exact W.
  Qed.
  Local Lemma shown_put text t : bytes text ->
    shown col None (put_text color text ++ t)
    = flat_map (fun c => paint (if escaped c then col ++ [txt "[7"] else col) (s_escapes c)) text ++ shown col None t.
  Proof.
    unfold put_text. induction text as [|c text IH]; intros B; [reflexivity|]. inversion B as [|? ? B1 B2]; subst.
    cbn [flat_map]. rewrite <- !app_assoc, shown_byte by exact B1. rewrite IH by exact B2. reflexivity.
  Qed.
End Colour.

Local Lemma rtrim_end l c : is_space c = false -> rtrim (l ++ [c]) = l ++ [c].
Proof. intros H. unfold rtrim. rewrite rev_unit. cbn [ltrim_rev]. rewrite H. cbn [rev]. rewrite rev_involutive. reflexivity. Qed.
Local Lemma byte_end color c : byte c -> is_space c = false -> exists l x, put_byte color c = l ++ [x] /\ is_space x = false.
Proof.
  intros B S. unfold put_byte.
  assert (W : forall l b, is_space b = false ->
    exists l' x, do_color color [55] ++ (l ++ [b]) ++ do_color color [50; 55] = l' ++ [x] /\ is_space x = false).
  { intros l b Hb. destruct color as [|y color].
    - exists l, b. cbn [do_color app]. rewrite app_nil_r. auto.
    - unfold do_color. exists ([27; 91; 55; 109] ++ (l ++ [b]) ++ [27; 91; 50; 55]), 109.
      split; [|reflexivity]. rewrite <- !app_assoc. reflexivity. }
  destruct (expand c B) as [(_ & E & N)|[[-> E]|(q & b & _ & E & N & Hb)]].
  - rewrite E. cbn [hd]. exists [], c. destruct (negb _); auto.
  - discriminate.
  - destruct (W (92 :: q) b Hb) as (l' & x & H). exists l', x. rewrite E. cbn [app] in H. cbn [hd].
    change (negb (92 =? 92)) with false. cbv iota. destruct (q ++ [b]) eqn:Q; [destruct q; discriminate|]. exact H.
Qed.
Local Lemma rtrim_text color h text c : byte c -> is_space c = false ->
  rtrim (h ++ put_text color (text ++ [c])) = h ++ put_text color (text ++ [c]).
Proof.
  intros B S. destruct (byte_end color c B S) as (l & x & E & Hx). unfold put_text.
  rewrite flat_map_app. cbn [flat_map]. rewrite app_nil_r, E, !app_assoc. apply rtrim_end. exact Hx.
Qed.

(** The time and the tag. *)
Definition time_text (m : meta) : list Z :=
  digits 4 (year m) ++ txt "-" ++ digits 2 (mon m) ++ txt "-" ++ digits 2 (day m) ++ txt " " ++ digits 2 (hour m) ++ txt ":"
  ++ digits 2 (minute m) ++ txt ":" ++ digits 2 (sec m) ++ txt "." ++ digits 9 (nsec m) ++ txt " ".

(** The time is in the colour of the level, and so is the message, whose escapes are inverted; the tag is inverted;
    the thread is grey and the place is blue; what separates them, and whatever follows the line, has no settings. *)
Theorem logger_appearance : forall color m text c, tame color m -> bytes (text ++ [c]) -> is_space c = false ->
  shown [] None (record_text color m (text ++ [c])) =
  let col := 91 :: color in
  paint [col] (time_text m) ++ paint [col; txt "[22;7"] (tag m) ++ paint [] (txt " ")
  ++ flat_map (fun c => paint (if escaped c then [col; txt "[7"] else [col]) (s_escapes c)) (text ++ [c])
  ++ paint [] nel_ht
  ++ paint [txt "[90"] (txt "@@ thread " ++ lwpid m ++ txt " [" ++ thrd m ++ txt "] ")
  ++ paint [txt "[90"; txt "[34"] (txt "inside function `" ++ func m ++ txt "` at '" ++ file m ++ txt ":" ++ line m ++ txt "'" ++ [27; 69])
  ++ paint [] [10].
Proof.
  intros color m text c T B S. pose proof T as (Hc & Hn & Hk & Hm & Hd).
  assert (Bc : byte c) by (unfold bytes in B; rewrite Forall_forall in B; apply B; apply in_or_app; right; left; reflexivity).
  unfold record_text. rewrite !rtrim_text by assumption.
  inversion Hm as [|? ? M1 Hm1]; subst. inversion Hm1 as [|? ? M2 Hm2]; subst. inversion Hm2 as [|? ? M3 Hm3]; subst.
  inversion Hm3 as [|? ? M4 Hm4]; subst. inversion Hm4 as [|? ? M5 Hm5]; subst. inversion Hm5 as [|? ? M6 _]; subst.
  rewrite Forall_forall in Hd.
  assert (D : forall w x, In x [year m; mon m; day m; hour m; minute m; sec m; nsec m] -> ~ In 27 (digits w x))
    by (intros w x H; apply digits_no27; apply Hd; exact H).
  assert (P : forall st a b, paint st (a ++ b) = paint st a ++ paint st b) by (intros; apply map_app).
  unfold put_head, put_tail, time_text. cbv zeta. rewrite !P, <- !app_assoc.
  rewrite shown_colour by assumption. rewrite (selc color m T).
  repeat (rewrite shown_text by first [assumption | apply D; cbn; tauto | apply no27; reflexivity]).
  rewrite shown_colour by (try assumption; cbn; intuition lia).
  change (select [91 :: color] (91 :: [50; 50; 59; 55])) with [91 :: color; txt "[22;7"].
  rewrite shown_text by assumption. rewrite shown_colour by (try assumption; cbn; intuition lia).
  change (select [91 :: color; txt "[22;7"] (91 :: [48])) with (@nil (list Z)).
  rewrite shown_text by (apply no27; reflexivity). rewrite shown_colour by (try assumption; cbn; intuition lia).
  change (select [] (91 :: [48])) with (@nil (list Z)). rewrite shown_colour by assumption. rewrite (selc color m T).
  rewrite (shown_put color m T) by exact B.
  rewrite shown_colour by (try assumption; cbn; intuition lia). change (select [91 :: color] (91 :: [48])) with (@nil (list Z)).
  rewrite shown_nel. rewrite shown_colour by (try assumption; cbn; intuition lia). change (select [] (91 :: [57; 48])) with [txt "[90"].
  repeat (rewrite shown_text by first [assumption | apply no27; reflexivity]).
  rewrite shown_colour by (try assumption; cbn; intuition lia). change (select [txt "[90"] (91 :: [51; 52])) with [txt "[90"; txt "[34"].
  repeat (rewrite shown_text by first [assumption | apply no27; reflexivity]).
  change (firstn 2 nel_ht) with [27; 69]. cbn [app].
  assert (Q : forall st s, hd 0 s <> 91 -> shown st None (27 :: 69 :: s) = paint st [27; 69] ++ shown st None s) by reflexivity.
  destruct color as [|y color]; [contradiction|].
  rewrite Q by (cbn; lia). rewrite shown_colour by (try assumption; cbn; intuition lia).
  change (select [txt "[90"; txt "[34"] (91 :: [48])) with (@nil (list Z)). reflexivity.
Qed.
Print Assumptions logger_appearance.

Local Definition m0 : meta := mkM 2026 1 2 3 4 5 6 [73] [49] [116] [102] [120] [55].
Example appearance_sample : tame (txt "31") m0 /\ bytes [104; 1; 10; 105] /\ is_space 105 = false
  /\ firstn 11 (skipn 31 (shown [] None (record_text (txt "31") m0 [104; 1; 105])))
     = paint [] [32] ++ paint [txt "[31"] [104] ++ paint [txt "[31"; txt "[7"] (txt "\x01") ++ paint [txt "[31"] [105]
       ++ paint [] [27; 69; 9] ++ paint [txt "[90"] (txt "@").
Proof.
  split; [split; [discriminate|]; split; [cbn; intuition lia|]; split; [cbn; intuition discriminate|];
          split; repeat constructor; cbn; try lia; intuition lia|].
  split; [repeat constructor; unfold byte; lia|]. split; [reflexivity|]. vm_compute. reflexivity.
Qed.
