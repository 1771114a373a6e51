(** Specification vocabulary for the life of easy servers. *)
From Coq Require Import ZArith List.
From Verif Require Import AddrModel LifeModel.
Import ListNotations.

(** Somebody else keeps a reference to a connection, or to an acceptor *)
Definition kept_session (st : state) (i : nat) : Prop := exists s h r, nth_error (sessions st) i = Some s /\ s_refs s = h :: r.
Definition kept_acceptor (st : state) (g : nat) : Prop := exists m h r, nth_error (gens st) g = Some m /\ m_refs m = h :: r.
(** The callback has not yet returned for some connection that was made for the table [g]. *)
Definition in_callback (st : state) (g : nat) : Prop := exists i s, nth_error (sessions st) i = Some s /\ s_table s = g /\ s_busy s = true.
(** Connection [i] was made for the table [g]. *)
Definition belongs (st : state) (i g : nat) : Prop := exists s, nth_error (sessions st) i = Some s /\ s_table s = g.

(** Nobody has taken a reference, and no callback is in progress. *)
Definition unattended (st : state) : Prop := (forall i, ~ kept_session st i) /\ (forall g, ~ kept_acceptor st g) /\ forall g, ~ in_callback st g.

(** The server is not stopped or started again, and nothing ends connection [i]. *)
Definition lasting (i : nat) (es : list event) : Prop :=
  Forall (fun e => match e with Start _ _ _ | Stop => False | Begin j c => j = i -> c = false | Push_fails j => j <> i | _ => True end) es.

(** All that has been seen was for other tables than [g]. *)
Definition silent (st : state) (g : nat) (items : list item) : Prop :=
  Forall (fun it => match it with Called i => exists h, h <> g /\ belongs st i h | Accepted h _ => h <> g | Started h => h <> g | _ => True end) items.
