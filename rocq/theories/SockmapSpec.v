(** Specification vocabulary for the socket table: which objects have been
    inserted successfully in a history. *)
From Coq Require Import ZArith List.
From Verif Require Import SockmapModel.
Import ListNotations.
Open Scope Z_scope.

Definition was_inserted (es : list event) (w : sock) : Prop := exists dying, In (Insert w true dying) es.

(** No element of the table points at the address [a]. *)
Definition unmapped (s : st) (a : Z) : Prop := forall w, In (Some w) (stor s) -> addr w <> a.
