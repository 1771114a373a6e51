(** C101: values are destroyed completely and without recursion. *)
From Coq Require Import ZArith List Lia Bool Permutation.
From Verif Require Import DtorModel.
Import ListNotations.

(** Everything that belongs to a value: its scalars, the containers that it is the only owner of, and one reference to
    each container that has another owner, whose contents are not touched. *)
Fixpoint belongings (v : value) : list event :=
  match v with
  | Scalar None => []
  | Scalar (Some x) => [Gone x]
  | Container id true _ => [Release id]
  | Container id false es => Free id :: flat_map belongings es
  end.

(** What is destroyed, and how deeply calls of destructors are nested, beginning at depth [d]. *)
Definition is_call (e : event) : bool := match e with Enter | Leave => true | _ => false end.
Definition destroyed (t : list event) : list event := filter (fun e => negb (is_call e)) t.
Fixpoint deepest (d : nat) (t : list event) : nat :=
  match t with
  | [] => d
  | Enter :: r => deepest (S d) r
  | Leave :: r => Nat.max d (deepest (pred d) r)
  | _ :: r => Nat.max d (deepest d r)
  end.

Local Lemma member_null d es id t : deepest d (flat_map (fun e => Enter :: member e ++ [Leave]) (map (fun _ : value => Scalar None) es) ++ Free id :: t)
  = Nat.max (if es then d else S d) (deepest d t).
Proof.
  induction es as [|e es IH]; [reflexivity|].
  cbn [map flat_map member app deepest pred]. rewrite IH. destruct es; lia.
Qed.
Local Lemma member_null_destroyed es : destroyed (flat_map (fun e => Enter :: member e ++ [Leave]) (map (fun _ : value => Scalar None) es)) = [].
Proof. induction es as [|e es IH]; [reflexivity|]. exact IH. Qed.

Local Definition total (l : list value) : nat := fold_right (fun e n => size e + n) 0 l.
Local Lemma total_app a b : total (a ++ b) = total a + total b.
Proof. induction a as [|x a IH]; cbn [app total fold_right]; [reflexivity|]. fold (total (a ++ b)). fold (total a). lia. Qed.
Local Lemma total_rev a : total (rev a) = total a.
Proof. induction a as [|x a IH]; [reflexivity|]. cbn [rev]. rewrite total_app, IH. cbn [total fold_right]. fold (total a). lia. Qed.
Local Lemma size_pos v : 1 <= size v.
Proof. destruct v; cbn [size]; lia. Qed.

Local Lemma destroyed_app a b : destroyed (a ++ b) = destroyed a ++ destroyed b.
Proof. apply filter_app. Qed.

(** One iteration: what becomes of the value, what it destroys, how deep it goes. *)
Local Lemma step v stack : exists u new, unpack v stack = (u, rev new ++ stack) /\ S (total new) <= size v
  /\ Permutation (destroyed (member u) ++ flat_map belongings new) (belongings v)
  /\ forall t, deepest 0 t <= 1 -> deepest 0 (member u ++ t) <= 1.
Proof.
  destruct v as [[x|]|id [|] es]; cbn [unpack].
  - exists (Scalar (Some x)), []. split; [reflexivity|]. split; [reflexivity|]. split; [reflexivity|]. intros t H. cbn [member app deepest Nat.max]. lia.
  - exists (Scalar None), []. split; [reflexivity|]. split; [reflexivity|]. split; [reflexivity|]. intros t H. exact H.
  - exists (Container id true es), []. split; [reflexivity|]. split; [cbn [total fold_right size]; lia|].
    split; [reflexivity|]. intros t H. cbn [member app deepest Nat.max]. lia.
  - exists (Container id false (map (fun _ => Scalar None) es)), es. split; [reflexivity|]. split; [reflexivity|]. split.
    + cbn [member belongings]. rewrite destroyed_app, member_null_destroyed. reflexivity.
    + intros t H. cbn [member]. rewrite <- app_assoc. cbn [app]. rewrite member_null. destruct es; lia.
Qed.

Local Lemma loop fuel : forall v stack, size v + total stack <= fuel ->
  exists t, unpack_loop fuel v stack = Some t
    /\ Permutation (destroyed t) (belongings v ++ flat_map belongings stack) /\ deepest 0 t <= 1.
Proof.
  induction fuel as [|fuel IH]; intros v stack F; [pose proof (size_pos v); lia|].
  cbn [unpack_loop]. destruct (step v stack) as (u & new & E & L & P & D). rewrite E.
  destruct (rev new ++ stack) as [|top rest] eqn:R.
  - exists (member u). split; [reflexivity|]. apply app_eq_nil in R as [R ->].
    assert (new = []) by (rewrite <- (rev_involutive new), R; reflexivity). subst new.
    cbn [flat_map] in *. rewrite app_nil_r in *. split; [exact P|].
    specialize (D [] ltac:(cbn; lia)). rewrite app_nil_r in D. exact D.
  - assert (T : total (rev new ++ stack) = total (top :: rest)) by (rewrite R; reflexivity).
    rewrite total_app, total_rev in T. cbn [total fold_right] in T. fold (total rest) in T.
    destruct (IH top rest ltac:(lia)) as (t & Et & Pt & Dt). rewrite Et. cbn [option_map].
    exists (member u ++ t). split; [reflexivity|]. split; [|apply D; exact Dt].
    rewrite destroyed_app, Pt.
    change (belongings top ++ flat_map belongings rest) with (flat_map belongings (top :: rest)). rewrite <- R, flat_map_app.
    rewrite app_assoc. apply Permutation_app_tail. rewrite <- P. apply Permutation_app_head.
    apply Permutation_flat_map. symmetry. apply Permutation_rev.
Qed.

(** The destructor ends, destroys all that belongs to the value and nothing else, each once, and however deeply
    containers are nested, calls of destructors are not nested more deeply than that of an element in that of a container. *)
Theorem value_destroyed : forall v, exists t, destroy v = Some t
  /\ Permutation (destroyed t) (belongings v) /\ deepest 0 t <= 1.
Proof.
  intros v. destruct (loop (size v) v [] ltac:(cbn; lia)) as (t & E & P & D).
  exists t. split; [exact E|]. cbn [flat_map] in P. rewrite app_nil_r in P. split; assumption.
Qed.
Print Assumptions value_destroyed.

(** Without the loop, calls would be nested as deeply as the value is. *)
Fixpoint nested (n : nat) : value := match n with O => Scalar (Some 5%Z) | S n => Container (Z.of_nat n) false [Scalar (Some 7%Z); nested n] end.
Local Lemma nested_deep n : forall d t, d + n <= deepest d (member (nested n) ++ t).
Proof.
  induction n as [|n IH]; intros d t; [cbn; lia|].
  cbn [nested member flat_map app]. rewrite app_nil_r, <- !app_assoc. cbn [app deepest pred].
  specialize (IH (S d) ([Leave] ++ [Free (Z.of_nat n)] ++ t)). rewrite <- ?app_assoc. cbn [app] in *. lia.
Qed.
Theorem value_destroyed_naive : forall n, n <= deepest 0 (member (nested n)).
Proof. intros n. pose proof (nested_deep n 0 []) as H. rewrite app_nil_r in H. exact H. Qed.
Print Assumptions value_destroyed_naive.

Example destroy_case :
  destroy (Container 1 false [Scalar (Some 10%Z); Container 2 false [Scalar None; Container 3 true [Scalar (Some 11%Z)]]; Container 4 false []])
  = Some [Enter; Leave; Enter; Leave; Enter; Leave; Free 1; Free 4; Enter; Leave; Enter; Leave; Free 2; Release 3; Gone 10].
Proof. reflexivity. Qed.
