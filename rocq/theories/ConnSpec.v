(** Specification of the addresses that clients connect to. *)
From Coq Require Import ZArith List Bool.
From Verif Require Import Base NetrefSpec ConnModel.
Import ListNotations.
Open Scope Z_scope.

(** What the documentation of [connect] allows, poseidon/easy/easy_*_client.hpp: a host and a port for TCP and
    SSL; a host and an optional port for HTTP and HTTPS; for WebSockets also a path and a query.  Fragments are not
    allowed. *)
Definition documented (k : kind) (r : reference) : Prop :=
  valid r /\ fragment r = None
  /\ match k with
     | Tcp | Ssl => port r <> None /\ path r = None /\ query r = None
     | Http | Https => path r = None /\ query r = None
     | Ws | Wss => True
     end.

(** The port to connect to. *)
Definition port_of (k : kind) (r : reference) : Z :=
  match port r with
  | Some ds => number ds
  | None => match k with Https | Wss => 443 | _ => 80 end
  end.

(** The same host and the same port, as a reference. *)
Definition names_peer (k : kind) (r r' : reference) : Prop :=
  valid r' /\ host r' = host r /\ bracketed r' = bracketed r
  /\ option_map number (port r') = Some (port_of k r)
  /\ path r' = None /\ query r' = None /\ fragment r' = None.

(** The target of a request: the path, which is at least a slash, and the query. *)
Definition target_of (r : reference) : list Z :=
  match path r with Some p => p | None => [47] end
  ++ match query r with Some (c :: q) => 63 :: c :: q | _ => [] end.
