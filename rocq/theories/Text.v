(** Text literals for examples: the octets of an ASCII string. *)
From Coq Require Import ZArith List String Ascii.
Open Scope Z_scope.

Definition txt (s : string) : list Z := map (fun a => Z.of_nat (nat_of_ascii a)) (list_ascii_of_string s).
Arguments txt _%string.
