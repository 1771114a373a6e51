(** Specification vocabulary for connection pools. *)
From Coq Require Import ZArith List.
From Verif Require Import PoolModel.
Import ListNotations.
Open Scope Z_scope.

(** All connections which exist: held by users, on their way into the pool, or in it. *)
Definition owned (s : st) : list nat :=
  map c_id (held s) ++ map (fun r => c_id (r_conn r)) (rets s) ++ map (fun p => c_id (p_conn p)) (pool s).

(** The elements of the pool for a service. *)
Definition suits (uri : list Z) (p : pooled) : Prop := c_uri (p_conn p) = uri.
