(** Specification of URI query strings and paths. *)
From Coq Require Import ZArith List Bool.
From Verif Require Import Base.
Import ListNotations.
Open Scope Z_scope.

(** RFC 3986, appendix A. *)
Definition unreserved (c : Z) : bool :=
  ((48 <=? c) && (c <=? 57)) || ((65 <=? c) && (c <=? 90)) || ((97 <=? c) && (c <=? 122))
  || existsb (Z.eqb c) [45; 46; 95; 126].                                   (* - . _ ~ *)
Definition sub_delim (c : Z) : bool :=
  existsb (Z.eqb c) [33; 36; 38; 39; 40; 41; 42; 43; 44; 59; 61].           (* ! $ & ' ( ) * + , ; = *)
(** pchar, with '%' for the escapes. *)
Definition pchar (c : Z) : bool := unreserved c || sub_delim c || existsb (Z.eqb c) [37; 58; 64].
Definition query_char (c : Z) : bool := pchar c || (c =? 47) || (c =? 63).  (* / ? *)
Definition path_char (c : Z) : bool := pchar c || (c =? 47).

(** Splitting at a separator: [n] separators make [n + 1] pieces. *)
Fixpoint split_on (d : Z) (s : list Z) : list (list Z) :=
  match s with
  | [] => [[]]
  | c :: r =>
      if c =? d then [] :: split_on d r
      else match split_on d r with
           | p :: ps => (c :: p) :: ps
           | [] => [[c]]
           end
  end.

(** The value of a hexadecimal digit of either case. *)
Definition digit_value (c : Z) : option Z :=
  if (48 <=? c) && (c <=? 57) then Some (c - 48)
  else if (65 <=? c) && (c <=? 70) then Some (c - 55)
  else if (97 <=? c) && (c <=? 102) then Some (c - 87)
  else None.

(** Percent decoding; [None] if an escape is malformed. *)
Fixpoint pct_decode (s : list Z) : option (list Z) :=
  match s with
  | [] => Some []
  | c :: r =>
      if c =? 37 then
        match r with
        | a :: b :: r' =>
            match digit_value a, digit_value b, pct_decode r' with
            | Some x, Some y, Some t => Some (16 * x + y :: t)
            | _, _, _ => None
            end
        | _ => None
        end
      else match pct_decode r with Some t => Some (c :: t) | None => None end
  end.

(** A component of application/x-www-form-urlencoded text: '+' is a space. *)
Definition form_decode (s : list Z) : option (list Z) :=
  pct_decode (map (fun c => if c =? 43 then 32 else c) s).

(** Splitting at the first '='. *)
Fixpoint split_first (d : Z) (s : list Z) : list Z * option (list Z) :=
  match s with
  | [] => ([], None)
  | c :: r => if c =? d then ([], Some r)
              else let '(a, b) := split_first d r in (c :: a, b)
  end.

(** One name/value pair; [None] if it holds an illegal character or escape. *)
Definition pair_of (s : list Z) : option (list Z * option (list Z)) :=
  if forallb (fun c => (128 <=? c) || query_char c) s then
    let '(n, v) := split_first 61 s in
    match form_decode n, v with
    | Some n, None => Some (n, None)
    | Some n, Some v => match form_decode v with Some v => Some (n, Some v) | None => None end
    | None, _ => None
    end
  else None.

(** The pairs up to the first bad one, and whether there is a bad one. *)
Fixpoint pairs_of (ps : list (list Z)) : list (list Z * option (list Z)) * bool :=
  match ps with
  | [] => ([], false)
  | p :: ps' =>
      match pair_of p with
      | None => ([], true)
      | Some kv => let '(es, e) := pairs_of ps' in (kv :: es, e)
      end
  end.
Definition query_of (s : list Z) : list (list Z * option (list Z)) * bool := pairs_of (split_on 38 s).

(** ** Paths as stacks of segments *)
Definition dot : list Z := [46].
Definition dot_dot : list Z := [46; 46].

Definition is_seg (a b : list Z) : bool := if list_eq_dec Z.eq_dec a b then true else false.

(** The stack after a complete segment (most recent first). *)
Definition enter (stack : list (list Z)) (seg : list Z) : list (list Z) :=
  if is_seg seg [] || is_seg seg dot then stack
  else if is_seg seg dot_dot then tl stack
  else seg :: stack.

(** Directory part: every segment of the stack, followed by a slash. *)
Definition dir_text (stack : list (list Z)) : list Z :=
  [47] ++ flat_map (fun seg => seg ++ [47]) (rev stack).

(** The text of a path: all segments but the last are entered as directories;
    the last one is a file name unless it is empty, "." or "..". *)
Fixpoint path_text (stack : list (list Z)) (segs : list (list Z)) : list Z :=
  match segs with
  | [] => dir_text stack
  | seg :: rest =>
      match rest with
      | [] => if is_seg seg [] || is_seg seg dot then dir_text stack
              else if is_seg seg dot_dot then dir_text (tl stack)
              else dir_text stack ++ seg
      | _ => path_text (enter stack seg) rest
      end
  end.
Definition canonical_text (s : list Z) : list Z := path_text [] (split_on 47 s).

(** A proper segment: not empty, "." or "..", without slashes. *)
Definition proper (seg : list Z) : Prop := seg <> [] /\ seg <> dot /\ seg <> dot_dot /\ ~ In 47 seg.
(** A canonical path: '/', then proper segments, with or without a final slash. *)
Definition canonical (p : list Z) : Prop :=
  exists segs last, p = dir_text (rev segs) ++ last /\ Forall proper segs /\ (last = [] \/ proper last).

(** RFC 3986, section 2.1: an octet as a percent sign and two digits, upper-case. *)
Definition upper_hex : list Z := [48; 49; 50; 51; 52; 53; 54; 55; 56; 57; 65; 66; 67; 68; 69; 70].
Definition percent (c : Z) : list Z := [37; nth (Z.to_nat (c / 16)) upper_hex 0; nth (Z.to_nat (c mod 16)) upper_hex 0].
(** Octets that need no escape are left as they are; '/' is one of them. *)
Definition path_written (p : list Z) : list Z := flat_map (fun c => if unreserved c || (c =? 47) then [c] else percent c) p.
(** In a query, spaces become '+', and the values keep '='. *)
Definition query_written (in_value : bool) (s : list Z) : list Z :=
  flat_map (fun c => if unreserved c || (c =? 47) || (in_value && (c =? 61)) then [c] else if c =? 32 then [43] else percent c) s.
Definition pair_written (kv : list Z * list Z) : list Z := query_written false (fst kv) ++ [61] ++ query_written true (snd kv).
