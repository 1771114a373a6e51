(** An HTTP/1.1 recipient, after RFC 9112.  It is written from the standard, and has nothing in common with
    the code that writes messages. *)
From Coq Require Import ZArith List Bool String.
From Verif Require Import Text.
Import ListNotations.
Open Scope list_scope.
Open Scope Z_scope.
Notation length := List.length.

(** A line ends with CR LF, and may have neither character within it. *)
Fixpoint line (s : list Z) : option (list Z * list Z) :=
  match s with
  | [] => None
  | c :: r =>
      if c =? 13 then match r with d :: r => if d =? 10 then Some ([], r) else None | [] => None end
      else if c =? 10 then None
      else match line r with Some (l, r) => Some (c :: l, r) | None => None end
  end.

(** [s] without the prefix [p] *)
Fixpoint strip (p s : list Z) : option (list Z) :=
  match p, s with
  | [], _ => Some s
  | x :: p, y :: s => if x =? y then strip p s else None
  | _, [] => None
  end.
(** What precedes the first [c], and what follows it *)
Fixpoint cut (c : Z) (s : list Z) : option (list Z * list Z) :=
  match s with
  | [] => None
  | x :: s => if x =? c then Some ([], s) else match cut c s with Some (a, b) => Some (x :: a, b) | None => None end
  end.
Definition white (c : Z) : bool := (c =? 32) || (c =? 9).
Fixpoint ltrim (s : list Z) : list Z := match s with c :: r => if white c then ltrim r else s | [] => [] end.
Definition trim (s : list Z) : list Z := rev (ltrim (rev (ltrim s))).

(** Numbers: one or more digits *)
Definition digit_value (c : Z) : option Z :=
  if (48 <=? c) && (c <=? 57) then Some (c - 48)
  else if (65 <=? c) && (c <=? 70) then Some (c - 55)
  else if (97 <=? c) && (c <=? 102) then Some (c - 87)
  else None.
Fixpoint digits (base acc : Z) (s : list Z) : option Z :=
  match s with
  | [] => Some acc
  | c :: s => match digit_value c with
              | Some d => if d <? base then digits base (acc * base + d) s else None
              | None => None
              end
  end.
Definition integer (base : Z) (s : list Z) : option Z := match s with [] => None | _ => digits base 0 s end.

(** A field line (RFC 9112, 5): the name has no blanks; blanks around the value do not belong to it. *)
Definition field (l : list Z) : option (list Z * list Z) :=
  match cut 58 l with
  | Some ([], _) => None
  | Some (n, v) => if existsb white n then None else Some (n, trim v)
  | None => None
  end.
Fixpoint field_lines (fuel : nat) (s : list Z) : option (list (list Z * list Z) * list Z) :=
  match fuel with
  | O => None
  | S fuel =>
      match line s with
      | None => None
      | Some ([], r) => Some ([], r)
      | Some (l, r) =>
          match field l, field_lines fuel r with
          | Some f, Some (fs, r) => Some (f :: fs, r)
          | _, _ => None
          end
      end
  end.

(** Names are compared without regard to case. *)
Definition small (c : Z) : Z := if (65 <=? c) && (c <=? 90) then c + 32 else c.
Fixpoint same (a b : list Z) : bool :=
  match a, b with [], [] => true | x :: a, y :: b => (small x =? small y) && same a b | _, _ => false end.
Definition lookup (n : list Z) (fs : list (list Z * list Z)) : list (list Z) := map snd (filter (fun f => same n (fst f)) fs).

(** Chunked coding (RFC 9112, 7.1), without extensions *)
Fixpoint dechunk (fuel : nat) (s : list Z) : option (list Z * list Z) :=
  match fuel with
  | O => None
  | S fuel =>
      match line s with
      | None => None
      | Some (l, r) =>
          match integer 16 l with
          | None => None
          | Some n =>
              if n =? 0 then match field_lines fuel r with Some (_, r) => Some ([], r) | None => None end
              else if Z.of_nat (length r) <? n then None
              else match strip [13; 10] (skipn (Z.to_nat n) r) with
                   | None => None
                   | Some q => match dechunk fuel q with
                               | Some (d, q) => Some (firstn (Z.to_nat n) r ++ d, q)
                               | None => None
                               end
                   end
          end
      end
  end.

(** The length of a message body (RFC 9112, 6.3).  [None] where an error must be reported.
    [close] says that without a length the body extends to the end of the connection. *)
Definition body (close : bool) (fs : list (list Z * list Z)) (s : list Z) : option (list Z * list Z) :=
  match lookup (txt "Transfer-Encoding") fs, lookup (txt "Content-Length") fs with
  | [e], [] => if same e (txt "chunked") then dechunk (S (length s)) s else None
  | [], [l] => match integer 10 l with
               | Some n => if Z.of_nat (length s) <? n then None else Some (firstn (Z.to_nat n) s, skipn (Z.to_nat n) s)
               | None => None
               end
  | [], [] => if close then Some (s, []) else Some ([], s)
  | _, _ => None
  end.

(** A response (RFC 9112, 4): status, reason, fields and body.  [head] says that it answers
    a HEAD request. *)
Record response := mkR { r_status : Z; r_reason : list Z; r_fields : list (list Z * list Z); r_body : list Z }.
Definition status_line (l : list Z) : option (Z * list Z) :=
  match strip (txt "HTTP/1.1 ") l with
  | None => None
  | Some l => match integer 10 (firstn 3 l), skipn 3 l with
              | Some n, c :: r => if (c =? 32) && (length (firstn 3 l) =? 3)%nat then Some (n, r) else None
              | _, _ => None
              end
  end.
Definition receive_response (head : bool) (s : list Z) : option (response * list Z) :=
  match line s with
  | None => None
  | Some (l, r) =>
      match status_line l, field_lines (S (length r)) r with
      | Some (st, why), Some (fs, r) =>
          if head || (st <? 200) || (st =? 204) || (st =? 304) then Some (mkR st why fs [], r)
          else match body true fs r with
               | Some (b, r) => Some (mkR st why fs b, r)
               | None => None
               end
      | _, _ => None
      end
  end.
Fixpoint receive_responses (heads : list bool) (s : list Z) : option (list response * list Z) :=
  match heads with
  | [] => Some ([], s)
  | h :: heads => match receive_response h s with
                  | None => None
                  | Some (m, s) => match receive_responses heads s with Some (ms, s) => Some (m :: ms, s) | None => None end
                  end
  end.

(** A request (RFC 9112, 3): method, target, fields and body *)
Record request := mkQ { q_method : list Z; q_target : list Z; q_fields : list (list Z * list Z); q_body : list Z }.
Definition request_line (l : list Z) : option (list Z * list Z) :=
  match cut 32 l with
  | Some (m, l) => match cut 32 l with
                   | Some (t, v) => match strip (txt "HTTP/1.1") v, m, t with
                                    | Some [], _ :: _, _ :: _ => Some (m, t)
                                    | _, _, _ => None
                                    end
                   | None => None
                   end
  | None => None
  end.
Definition receive_request (s : list Z) : option (request * list Z) :=
  match line s with
  | None => None
  | Some (l, r) =>
      match request_line l, field_lines (S (length r)) r with
      | Some (m, t), Some (fs, r) => match body false fs r with
                                     | Some (b, r) => Some (mkQ m t fs b, r)
                                     | None => None
                                     end
      | _, _ => None
      end
  end.
Fixpoint receive_requests (n : nat) (s : list Z) : option (list request * list Z) :=
  match n with
  | O => Some ([], s)
  | S n => match receive_request s with
           | None => None
           | Some (m, s) => match receive_requests n s with Some (ms, s) => Some (m :: ms, s) | None => None end
           end
  end.

(** A header that an application may set: the name has no blanks, no colon and no line break; the value has no line break
    and no blanks at its ends.  The fields that delimit the body are left to the session. *)
Definition printable (s : list Z) : Prop := Forall (fun c => c <> 13 /\ c <> 10) s.
Definition neat (s : list Z) : Prop := match s with [] => True | c :: _ => white c = false end.
Definition good_field (f : list Z * list Z) : Prop :=
  Forall (fun c => c <> 13 /\ c <> 10 /\ c <> 58 /\ white c = false) (fst f) /\
  printable (snd f) /\ neat (snd f) /\ neat (rev (snd f)) /\
  same (txt "Transfer-Encoding") (fst f) = false /\ same (txt "Content-Length") (fst f) = false.
