(** Specification vocabulary for the network thread. *)
From Coq Require Import ZArith List Bool.
From Verif Require Import TcpModel NetModel.
Import ListNotations.

(** The bytes that the user has been given *)
Definition delivered (cs : list call) : list Z :=
  concat (map (fun c => match c with Stream d _ => d | _ => [] end) cs).

(** The bytes that have arrived from the peer in a history *)
Definition arrived (ss : list nstep) : list Z :=
  concat (map (fun a => match a with Arrive d => d | _ => [] end) ss).

Definition streams (cs : list call) : list call :=
  filter (fun c => match c with Stream _ _ => true | _ => false end) cs.

(** The first event that the system reports says that the socket can be written to,
    unless it is an error. *)
Fixpoint connect_first (ss : list nstep) : Prop :=
  match ss with
  | [] => True
  | Poll e :: _ => ev_out e = true \/ ev_err e = true
  | _ :: ss => connect_first ss
  end.
