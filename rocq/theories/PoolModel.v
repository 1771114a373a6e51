(** Model of the connection pools: /repo/poseidon/src/static/redis_connector.cpp;
    mysql_connector.cpp and mongo_connector.cpp in the same directory have the same
    functions.  The settings are read under one mutex and the pool is used under
    another, so each call is two events, and settings may change in between. *)
From Coq Require Import ZArith List Lia Bool.
Import ListNotations.
Open Scope Z_scope.

(** A connection: [c_id] is a ghost that identifies it.  [c_uri] and [c_pass] are what
    it was created with, and [c_clear] is [m_reset_clear]. redis_connection.hpp:17-23 *)
Record conn := mkC { c_id : nat; c_uri : list Z; c_pass : list Z; c_clear : bool }.

(** redis_connector.cpp:12-16 [Pooled_Connection] *)
Record pooled := mkP { p_time : Z; p_conn : conn }.

(** redis_connector.cpp:46-57: the pool size and the idle timeout, in the unit of the clock *)
Record config := mkF { f_size : nat; f_idle : Z }.

(** Calls that have read the settings: for an allocation, the service, the
    password and the settings; for a return, the connection and the settings. redis_connector.cpp:88-92, 102-108 *)
Record alloc := mkA { a_uri : list Z; a_pass : list Z; a_conf : config }.
(** redis_connector.cpp:128-131, 153 *)
Record ret := mkR { r_conn : conn; r_conf : config }.

(** As ghosts: the connections that users hold, the number of connections made,
    and the last reading of the clock. redis_connector.cpp:53-57, 65-82, 139-155 *)
Record st := mkS {
  pool : list pooled; conf : config;
  allocs : list alloc; rets : list ret; held : list conn; made : nat; clock : Z }.

(** redis_connector.cpp:23-27 *)
Definition init (f : config) : st := mkS [] f [] [] [] 0 0.

(** redis_connector.cpp:73 *)
Fixpoint remove_at {A} (k : nat) (l : list A) : list A :=
  match l, k with
  | [], _ => []
  | _ :: l, O => l
  | x :: l, S k => x :: remove_at k l
  end.

(** redis_connector.cpp:71 *)
Fixpoint list_eqb (a b : list Z) : bool :=
  match a, b with
  | [], [] => true
  | x :: a, y :: b => (x =? y) && list_eqb a b
  | _, _ => false
  end.

(** redis_connector.cpp:70-75: the first match, and the pool without it *)
Fixpoint take (uri : list Z) (l : list pooled) : option conn * list pooled :=
  match l with
  | [] => (None, [])
  | p :: l =>
      if list_eqb (c_uri (p_conn p)) uri then (Some (p_conn p), l)
      else let '(c, l') := take uri l in (c, p :: l')
  end.

(** redis_connector.cpp:78-79 and 143-144: remove from the end while the last
    element has been idle for too long.  The list is given in reverse. *)
Fixpoint purge_rev (now idle : Z) (l : list pooled) : list pooled :=
  match l with
  | [] => []
  | p :: l' => if idle <? now - p_time p then purge_rev now idle l' else l
  end.
(** redis_connector.cpp:78-79, 143-144 *)
Definition purge (now idle : Z) (l : list pooled) : list pooled := rev (purge_rev now idle (rev l)).

(** redis_connector.cpp:147-148: the size is not zero here *)
Fixpoint trim_rev (size : nat) (l : list pooled) : list pooled :=
  match l with
  | [] => []
  | p :: l' => if (size <? length l + 1)%nat then trim_rev size l' else l
  end.
(** redis_connector.cpp:147-148 *)
Definition trim (size : nat) (l : list pooled) : list pooled := rev (trim_rev size (rev l)).

(** redis_connector.cpp:34-156; redis_connection.cpp:24-36, 126 *)
Inductive event :=
| AllocBegin (uri pass : list Z)
| AllocBody (k : nat) (now : Z)
| PutBegin (k : nat)
| PutBody (k : nat) (now : Z)
| Use (k : nat)
| Reset (k : nat) (ok : bool)
| Drop (k : nat)
| Reload (f : config).

(** redis_connector.cpp:88-90 and 102-106 *)
Definition alloc_begin (s : st) (u p : list Z) : st :=
  mkS (pool s) (conf s) (allocs s ++ [mkA u p (conf s)]) (rets s) (held s) (made s) (clock s).

(** redis_connector.cpp:60-82 [do_get_pooled_connection_opt], and 92-95, 108-111 *)
Definition alloc_body (s : st) (k : nat) (now : Z) : option st :=
  match nth_error (allocs s) k with
  | None => None
  | Some a =>
      if clock s <=? now then
        let '(c, l) := take (a_uri a) (pool s) in
        let l := purge now (f_idle (a_conf a)) l in
        let al := remove_at k (allocs s) in
        match c with
        | Some c => Some (mkS l (conf s) al (rets s) (held s ++ [c]) (made s) now)
        | None => Some (mkS l (conf s) al (rets s) (held s ++ [mkC (made s) (a_uri a) (a_pass a) true]) (S (made s)) now)
        end
      else None
  end.

(** redis_connector.cpp:118-137: the call is given up if the connection has not
    been reset or the pool is disabled; the connection stays with the user. *)
Definition put_begin (s : st) (k : nat) : option st :=
  match nth_error (held s) k with
  | None => None
  | Some c =>
      if negb (c_clear c) then Some s
      else if (f_size (conf s) =? 0)%nat then Some s
      else Some (mkS (pool s) (conf s) (allocs s) (rets s ++ [mkR c (conf s)]) (remove_at k (held s)) (made s) (clock s))
  end.

(** redis_connector.cpp:139-155 *)
Definition put_body (s : st) (k : nat) (now : Z) : option st :=
  match nth_error (rets s) k with
  | None => None
  | Some r =>
      if clock s <=? now then
        let l := purge now (f_idle (r_conf r)) (pool s) in
        let l := trim (f_size (r_conf r)) l in
        Some (mkS (mkP now (r_conn r) :: l) (conf s) (allocs s) (remove_at k (rets s)) (held s) (made s) now)
      else None
  end.

(** redis_connection.cpp:126, mysql_connection.cpp:178, mongo_connection.cpp:74:
    a command clears the flag.  redis_connection.cpp:24-36 and the like: [reset]
    sets it to its result. *)
Definition set_clear (b : bool) (c : conn) : conn := mkC (c_id c) (c_uri c) (c_pass c) b.
(** redis_connection.cpp:24-36, 126 *)
Fixpoint update_at (k : nat) (f : conn -> conn) (l : list conn) : list conn :=
  match l, k with
  | [], _ => []
  | c :: l, O => f c :: l
  | c :: l, S k => c :: update_at k f l
  end.
(** redis_connection.cpp:24-36, 126 *)
Definition mark (s : st) (k : nat) (b : bool) : st :=
  mkS (pool s) (conf s) (allocs s) (rets s) (update_at k (set_clear b) (held s)) (made s) (clock s).

(** A user destroys a connection. redis_connector.hpp:43-60, users own connections *)
Definition drop (s : st) (k : nat) : st :=
  mkS (pool s) (conf s) (allocs s) (rets s) (remove_at k (held s)) (made s) (clock s).

(** redis_connector.cpp:34-58 [reload] *)
Definition reload (s : st) (f : config) : st :=
  mkS (pool s) f (allocs s) (rets s) (held s) (made s) (clock s).

(** redis_connector.cpp:34-156 *)
Definition step (s : st) (e : event) : option st :=
  match e with
  | AllocBegin u p => Some (alloc_begin s u p)
  | AllocBody k now => alloc_body s k now
  | PutBegin k => put_begin s k
  | PutBody k now => put_body s k now
  | Use k => Some (mark s k false)
  | Reset k ok => Some (mark s k ok)
  | Drop k => Some (drop s k)
  | Reload f => Some (reload s f)
  end.

(** Any number of events; redis_connector.cpp:34-156. *)
Fixpoint run (s : st) (es : list event) : option st :=
  match es with
  | [] => Some s
  | e :: es => match step s e with Some s' => run s' es | None => None end
  end.
