(** Specification vocabulary for lists of attributes in headers. *)
From Coq Require Import ZArith List.
From Verif Require Import DateModel HvalModel HvalSpec HdrModel.
Import ListNotations.
Open Scope Z_scope.

Definition is_ws (c : Z) : Prop := c = 32 \/ c = 9.

(** An attribute as it is written: blanks, name, blanks, and possibly an equals sign, blanks,
    the notation of the value, and blanks. *)
Record attr := mkA { before : list Z; label : list Z; after : list Z; assigned : option (list Z * list Z * list Z) }.
Definition written (a : attr) : list Z :=
  before a ++ label a ++ after a ++ match assigned a with None => [] | Some (w, v, w') => 61 :: w ++ v ++ w' end.

(** The part of a text before a null character *)
Definition c_text (s u : list Z) : Prop := Forall (fun c => c <> 0) u /\ (u = s \/ exists r, s = u ++ 0 :: r).

(** What the notation [v], followed by [rest], means: a quoted string, a date (the date parser is
    [DateModel.parse], property C42), or otherwise what precedes a blank or a separator. *)
Definition quoted_at (u b t : list Z) : Prop := stands_for b t /\ exists r, u = 34 :: b ++ 34 :: r.
Inductive means (mktime : tm -> Z) (v rest : list Z) : value -> Prop :=
| m_quoted u b t : c_text (v ++ rest) u -> quoted_at u b t -> v = 34 :: b ++ [34] -> means mktime v rest (Str t)
| m_date u ns n : c_text (v ++ rest) u -> (forall b t, ~ quoted_at u b t) -> n <> 0%nat ->
    DateModel.parse mktime u (length u) = Ok ns n -> v = firstn n (v ++ rest) -> means mktime v rest (Time ns)
| m_plain u n ns : c_text (v ++ rest) u -> (forall b t, ~ quoted_at u b t) ->
    (DateModel.parse mktime u (length u) = No \/ DateModel.parse mktime u (length u) = Ok ns n /\ n = 0%nat) ->
    Forall (fun c => ~ is_blank c /\ c <> 44 /\ c <> 59) v ->
    match rest with [] => True | c :: _ => is_blank c \/ c = 44 \/ c = 59 end -> means mktime v rest (Str v).

(** An attribute followed by [rest] has this name and this value.  The rest is empty
    or begins with a separator. *)
Definition ends (rest : list Z) : Prop := match rest with [] => True | c :: _ => c = 59 \/ c = 44 end.
Definition attribute (mktime : tm -> Z) (a : attr) (rest : list Z) (v : value) : Prop :=
  Forall is_ws (before a) /\ is_token (label a) /\ label a <> [] /\ Forall is_ws (after a) /\ ends rest /\
  match assigned a with
  | None => v = Null
  | Some (w, u, w') => Forall is_ws w /\ Forall is_ws w' /\ match u ++ w' ++ rest with c :: _ => ~ is_ws c | [] => True end /\
                       means mktime u (w' ++ rest) v
  end.

(** A header: elements are separated with commas, and attributes in an element with
    semicolons.  [true] marks the first attribute of an element. *)
Fixpoint tail_text (l : list (bool * attr)) : list Z :=
  match l with [] => [] | (e, a) :: l => (if e : bool then 44 else 59) :: written a ++ tail_text l end.
Fixpoint attributes (mktime : tm -> Z) (l : list (bool * attr)) (m : list (bool * list Z * value)) : Prop :=
  match l, m with
  | [], [] => True
  | (e, a) :: l, (e', n, v) :: m => e = e' /\ n = label a /\ attribute mktime a (tail_text l) v /\ attributes mktime l m
  | _, _ => False
  end.
