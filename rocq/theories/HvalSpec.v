(** Specification vocabulary for HTTP values. *)
From Coq Require Import ZArith List.
Import ListNotations.
Open Scope Z_scope.

(** The contents of a quoted string (RFC 9110, 5.6.4), and the text it stands for: a
    backslash stands for the character that follows. *)
Inductive stands_for : list Z -> list Z -> Prop :=
| sf_nil : stands_for [] []
| sf_plain c b t : c <> 34 -> c <> 92 -> stands_for b t -> stands_for (c :: b) (c :: t)
| sf_pair c b t : stands_for b t -> stands_for (92 :: c :: b) (c :: t).

(** Blank characters: controls and the space. *)
Definition is_blank (c : Z) : Prop := 0 <= c <= 32 \/ c = 127.

(** A text in which every sequence of blanks is replaced with a single space. *)
Inductive squeezed : list Z -> list Z -> Prop :=
| sq_nil : squeezed [] []
| sq_plain c s t : ~ is_blank c -> squeezed s t -> squeezed (c :: s) (c :: t)
| sq_blank c b s t : is_blank c -> Forall is_blank b -> (match s with x :: _ => ~ is_blank x | [] => True end) ->
    squeezed s t -> squeezed (c :: b ++ s) (32 :: t).

(** The characters of a token (RFC 9110, 5.6.2, and octets above 127). *)
Definition separators : list Z := [34; 40; 41; 44; 47; 58; 59; 60; 61; 62; 63; 64; 91; 92; 93; 123; 125].
Definition is_token (s : list Z) : Prop := Forall (fun c => ~ is_blank c /\ ~ In c separators) s.
