(** C100: the name of the host. *)
From Coq Require Import ZArith List Lia Bool.
From Verif Require Import Base HostModel.
Import ListNotations.
Open Scope Z_scope.

(** A name that Linux accepts: up to 64 octets that are not null. *)
Definition host_name (s : list Z) : Prop := (length s <= 64)%nat /\ Forall (fun c => 0 < c < 256) s.

Local Lemma strlen_app s t : Forall (fun c => 0 < c < 256) s -> strlen (s ++ 0 :: t) = length s.
Proof. induction 1 as [|c s H _ IH]; [reflexivity|]. cbn [app strlen length]. destruct (Z.eqb_spec c 0); [lia|]. rewrite IH. reflexivity. Qed.

(** A name of up to 63 octets is reported as it is, whatever the buffer held before. *)
Theorem hostname_partial : forall name junk, host_name name -> (length name <= 63)%nat ->
  get_hostname name junk = Some name.
Proof.
  intros name junk [_ N] L. unfold get_hostname, gethostname, HOST_NAME_MAX.
  destruct (Nat.ltb_spec (length name) 64); [|lia]. cbn [app]. rewrite strlen_app by exact N.
  rewrite firstn_app, firstn_all, Nat.sub_diag. cbn [firstn]. rewrite app_nil_r. reflexivity.
Qed.
Print Assumptions hostname_partial.

(** If the name has 64 octets, which Linux allows, no program that uses the library starts. *)
Theorem hostname_refuted : forall name junk, host_name name -> length name = 64%nat -> get_hostname name junk = None.
Proof. intros name junk _ L. unfold get_hostname, gethostname. rewrite L. reflexivity. Qed.
Print Assumptions hostname_refuted.

Example hostname_case : host_name [112; 99; 49] /\ get_hostname [112; 99; 49] (repeat 7 64) = Some [112; 99; 49]
  /\ host_name (repeat 97 64).
Proof.
  split; [split; [cbn; lia|repeat constructor; lia]|]. split; [reflexivity|].
  split; [rewrite repeat_length; lia|]. apply Forall_forall. intros x H. apply repeat_spec in H. lia.
Qed.
