(** Specification vocabulary for stream sockets. *)
From Coq Require Import ZArith List.
From Verif Require Import TcpModel.
Import ListNotations.

(** The bytes of all sends that returned [true], and of all sends that went past
    the first test, in the order in which they got hold of the socket. *)
Definition accepted (s : st) : list Z := concat (map fst (filter snd (log s))).
Definition offered (s : st) : list Z := concat (map fst (log s)).

Definition prefix (a b : list Z) : Prop := exists c, b = a ++ c.

(** What the documentation of [do_on_tcp_stream] promises: "The argument contains
    all data that have been accumulated so far.  Callees should remove processed
    bytes."  What the callback should be given, for a sequence of chunks. *)
Section Accumulate.
  Context {U : Type}.
  Variable cb : U -> list Z -> bool -> option (U * list Z).
  Fixpoint accumulate (chunks : list (list Z)) (left : list Z) (u : U) : list (list Z * bool) :=
    match chunks with
    | [] => []
    | c :: chunks =>
        (left ++ c, false) ::
        match cb u (left ++ c) false with
        | Some (u', left') => accumulate chunks left' u'
        | None => []
        end
    end.
End Accumulate.

(** The bytes received in some reads. *)
Definition chunks (rds : list rd) : list (list Z) := flat_map (fun r => match r with Got c => [c] | _ => [] end) rds.

(** The data of the calls of [tcp_send] in a history which pass the first test. *)
Fixpoint begun (s : st) (es : list event) : list (list Z) :=
  match es with
  | [] => []
  | e :: es =>
      match step s e with
      | None => []
      | Some s' =>
          match e with
          | SendBegin d => if (rank (state s) <? 2)%nat then d :: begun s' es else begun s' es
          | _ => begun s' es
          end
      end
  end.
