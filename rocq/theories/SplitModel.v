(** Model of [explode] and [implode] (poseidon/src/utils.cpp:108-172). *)
From Coq Require Import ZArith List Bool.
From Verif Require Import Base.
Import ListNotations.
Open Scope Z_scope.

(** utils.cpp:112: the blank characters, [" \t"]. *)
Definition is_blank (c : Z) : bool := (c =? 32) || (c =? 9).

(** [cow_string::npos]. utils.cpp:116, 122 *)
Definition npos : Z := 18446744073709551615.

(** The index of the first character with [p], counting from [base]. utils.cpp:112, 118, 126 *)
Fixpoint find_if (p : Z -> bool) (s : list Z) (base : Z) : Z :=
  match s with
  | [] => npos
  | c :: r => if p c then base else find_if p r (base + 1)
  end.

(** [text.find(from, ch)], [text.find_not_of(from, " \t")]: the first match at or
    after [from], or [npos]; also [npos] if [from] is not below the size. utils.cpp:112, 118, 126 *)
Definition find_at (p : Z -> bool) (text : list Z) (from : Z) : Z :=
  if from <? Z.of_nat (length text) then find_if p (skipn (Z.to_nat from) text) from else npos.

(** The index of the last character with [p], or [npos]. utils.cpp:121 *)
Fixpoint rfind_if (p : Z -> bool) (s : list Z) (base : Z) : Z :=
  match s with
  | [] => npos
  | c :: r => let k := rfind_if p r (base + 1) in
              if k =? npos then (if p c then base else npos) else k
  end.

(** [text.rfind_not_of(to, " \t")]: the last match at or before [to], which is
    clamped to the size of the text, or [npos]. utils.cpp:121 *)
Definition rfind_at (p : Z -> bool) (text : list Z) (to : Z) : Z :=
  rfind_if p (firstn (Z.to_nat (Z.min (to + 1) (Z.of_nat (length text)))) text) 0.

(** utils.cpp:123 *)
Definition sub (text : list Z) (pos len : Z) : list Z := firstn (Z.to_nat len) (skipn (Z.to_nat pos) text).

(** utils.cpp:113-127, one round per unit of fuel.  [None] stands for the failing
    assertion on [mpos] and for a segment whose length [mpos + 1 - bpos] has
    wrapped around, which makes the copy run outside the text. *)
Fixpoint explode_loop (fuel : nat) (text : list Z) (delim limit : Z) (segs : list (list Z)) (bpos : Z)
  : option (list (list Z)) :=
  match fuel with
  | O => None
  | S fuel =>
      let size := Z.of_nat (length text) in
      if bpos <? size then
        let epos := if Z.of_nat (length segs) + 1 <? limit
                    then (find_at (Z.eqb delim) text bpos * 2) mod two64 / 2
                    else npos / 2 in
        let mpos := rfind_at (fun c => negb (is_blank c)) text ((epos - 1) mod two64) in
        let len := (mpos + 1 - bpos) mod two64 in
        if (mpos =? npos) || (size - bpos <? len) then None
        else explode_loop fuel text delim limit (segs ++ [sub text bpos len])
               (find_at (fun c => negb (is_blank c)) text (epos + 1))
      else Some segs
  end.

(** utils.cpp:108-128.  Each round but the last consumes a character. *)
Definition explode (text : list Z) (delim limit : Z) : option (list (list Z)) :=
  explode_loop (length text + 2) text delim limit [] (find_at (fun c => negb (is_blank c)) text 0).

(** utils.cpp:138-150. *)
Definition implode (segs : list (list Z)) (delim : Z) : list Z :=
  match segs with
  | [] => []
  | s :: rest => fold_left (fun text seg => (text ++ [delim]) ++ seg) rest s
  end.
