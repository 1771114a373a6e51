(** Model of the socket table of the network scheduler:
    /repo/poseidon/src/static/network_scheduler.cpp, [do_find_socket_nolock],
    [insert_weak], and the part of [thread_loop] that takes an event and finds its
    socket.  Everything but the collection of events happens under
    [m_epoll_mutex], so each event of the model is one critical section. *)
From Coq Require Import ZArith List Lia Bool.
Import ListNotations.
Open Scope Z_scope.

(** A socket object: its address, and, as a ghost, a number which tells apart
    objects that have had the same address. network_scheduler.cpp:259, 367 *)
Record sock := mkK { addr : Z; ident : nat }.

(** An element of [m_epoll_map_stor], a weak pointer: empty, or one to an object
    which may have been destroyed. network_scheduler.hpp:21-27 *)
Notation slot := (option sock).

(** network_scheduler.cpp:40: [uint32_t] arithmetic.  [uintptr_t] values are
    non-negative, and the size of a pointer is 8. *)
Definition ratio (a : Z) : Z := ((a / 8) mod 2 ^ 32 * 0x9E3779B9) mod 2 ^ 32.
(** network_scheduler.cpp:42: the index of [origin] *)
Definition origin (dist : nat) (a : Z) : nat := Z.to_nat (Z.of_nat dist * ratio a / 2 ^ 32).

(** network_scheduler.cpp:52-58: an element that ends the search *)
Definition hit (stor : list slot) (a : Z) (k : nat) : bool :=
  match nth_error stor k with
  | Some None => true
  | Some (Some w) => addr w =? a
  | None => false
  end.

(** network_scheduler.cpp:25-61 [do_find_socket_nolock].  [None] stands for
    undefined behavior: an empty table, or reaching the end. *)
Definition do_find (stor : list slot) (a : Z) : option nat :=
  let dist := length stor in
  find (hit stor a) (seq (origin dist a) (dist - origin dist a) ++ seq 0 (origin dist a)).

(** An assignment through the reference that [do_find_socket_nolock] returned. network_scheduler.cpp:359, 374 *)
Fixpoint assign (stor : list slot) (k : nat) (w : slot) : list slot :=
  match stor, k with
  | [], _ => []
  | _ :: stor, O => w :: stor
  | x :: stor, S k => x :: assign stor k w
  end.

(** The result of an operation; [Ub] is undefined behavior, or a failed
    assertion. network_scheduler.cpp:35-36, 60 *)
Inductive res (A : Type) := Ok (a : A) | Ub.
Arguments Ok {A} a.
Arguments Ub {A}.

(** network_scheduler.cpp:33-36, then an assignment to the element found *)
Definition put (stor : list slot) (used : nat) (w : sock) : res (list slot) :=
  if (length stor =? 0)%nat || (length stor / 2 <? used)%nat then Ub
  else match do_find stor (addr w) with
       | Some k => Ok (assign stor k (Some w))
       | None => Ub
       end.

(** network_scheduler.cpp:354-361: the elements of the old table which are not
    expired when they are visited are moved.  The swap exchanges the element with
    an empty one; what it leaves in the old table is destroyed. *)
Fixpoint move_all (live : sock -> bool) (old : list slot) (stor : list slot) (used : nat) : res (list slot * nat) :=
  match old with
  | [] => Ok (stor, used)
  | Some w :: old =>
      if live w then
        match put stor used w with
        | Ok stor' => move_all live old stor' (S used)
        | Ub => Ub
        end
      else move_all live old stor used
  | None :: old => move_all live old stor used
  end.

(** network_scheduler.cpp:345-348.  The capacity is a [uint32_t]; the model has no
    wrap-around, which would need more than a thousand million sockets. *)
Definition count_live (live : sock -> bool) (stor : list slot) : nat :=
  length (filter (fun x => match x with Some w => live w | None => false end) stor).
(** network_scheduler.cpp:345-348 *)
Definition new_capacity (live : sock -> bool) (stor : list slot) : nat := (17 + 3 * count_live live stor)%nat.

(** network_scheduler.cpp:342-362.  Objects may be destroyed by other threads
    meanwhile: [live1] tells which ones are alive when they are counted, [live2]
    when they are moved. *)
Definition grow (live1 live2 : sock -> bool) (stor : list slot) (used : nat) : res (list slot * nat) :=
  if (length stor / 2 <=? used)%nat then move_all live2 stor (repeat None (new_capacity live1 stor)) 0
  else Ok (stor, used).

(** [m_epoll_map_stor], [m_epoll_map_used], [m_event_buf] (for each event the
    address it carries and, as a ghost, the object it was meant for); as ghosts,
    the objects that are alive, the ones which have been inserted, the number of
    objects made so far and the deliveries (meant for, given to). network_scheduler.hpp:21-27 *)
Record st := mkS {
  stor : list slot; used : nat; evbuf : list sock;
  alive : list sock; inserted : list sock; made : nat; delivered : list (sock * sock) }.

(** network_scheduler.cpp:14-18 *)
Definition init : st := mkS [] 0 [] [] [] 0 [].

(** Whether an object is alive. Not in the code; for [expired] in network_scheduler.cpp:347, 355. *)
Definition sock_eqb (x y : sock) : bool := (addr x =? addr y) && (ident x =? ident y)%nat.
(** network_scheduler.cpp:259, 347, 355 *)
Definition live_in (l : list sock) (x : sock) : bool := existsb (sock_eqb x) l.

(** [New a]: an object is created at the address [a], where there is no other.
    [Kill w]: the last shared pointer to [w] goes away.  [Insert w ok dying]: a
    call to [insert_weak]; [ok] is the result of [epoll_ctl], and the objects in
    [dying] go away between the two loops.  [Collect l]: [epoll_wait] reports
    events for some sockets which are alive and registered; this needs an empty
    buffer.  [Deliver]: network_scheduler.cpp:250-261. *)
Inductive event :=
| New (a : Z)
| Kill (w : sock)
| Insert (w : sock) (ok : bool) (dying : list sock)
| Collect (l : list sock)
| Deliver.

(** network_scheduler.cpp:255-261, and what a call to [lock] gives *)
Definition lookup (s : st) (a : Z) : res (option sock) :=
  if (length (stor s) =? 0)%nat then Ok None
  else if (length (stor s) / 2 <? used s)%nat then Ub
  else match do_find (stor s) a with
       | Some k => match nth_error (stor s) k with
                   | Some (Some w) => Ok (if live_in (alive s) w then Some w else None)
                   | _ => Ok None
                   end
       | None => Ub
       end.

(** network_scheduler.cpp:327-376 [insert_weak] *)
Definition insert_weak (s : st) (w : sock) (ok : bool) (dying : list sock) : res st :=
  let alive' := filter (fun x => negb (live_in dying x)) (alive s) in
  match grow (live_in (alive s)) (live_in alive') (stor s) (used s) with
  | Ub => Ub
  | Ok (stor', used') =>
      if ok then
        match put stor' used' w with
        | Ok stor'' => Ok (mkS stor'' (S used') (evbuf s) alive' (w :: inserted s) (made s) (delivered s))
        | Ub => Ub
        end
      else Ok (mkS stor' used' (evbuf s) alive' (inserted s) (made s) (delivered s))
  end.

(** [None]: the event is impossible. network_scheduler.cpp:233-261, 327-376 *)
Definition step (s : st) (e : event) : option (res st) :=
  match e with
  | New a =>
      if (0 <? a) && negb (existsb (fun x => addr x =? a) (alive s)) then
        Some (Ok (mkS (stor s) (used s) (evbuf s) (mkK a (made s) :: alive s) (inserted s) (S (made s)) (delivered s)))
      else None
  | Kill w =>
      Some (Ok (mkS (stor s) (used s) (evbuf s) (filter (fun x => negb (sock_eqb w x)) (alive s)) (inserted s) (made s) (delivered s)))
  | Insert w ok dying =>
      (* the caller holds a pointer to [w] *)
      if live_in (alive s) w && negb (live_in dying w) then Some (insert_weak s w ok dying) else None
  | Collect l =>
      match evbuf s with
      | [] => if forallb (live_in (alive s)) l && forallb (live_in (inserted s)) l then
                Some (Ok (mkS (stor s) (used s) l (alive s) (inserted s) (made s) (delivered s)))
              else None
      | _ => None
      end
  | Deliver =>
      match evbuf s with
      | [] => None
      | w :: rest =>
          Some match lookup s (addr w) with
               | Ub => Ub
               | Ok None => Ok (mkS (stor s) (used s) rest (alive s) (inserted s) (made s) (delivered s))
               | Ok (Some x) => Ok (mkS (stor s) (used s) rest (alive s) (inserted s) (made s) (delivered s ++ [(w, x)]))
               end
      end
  end.

(** Any number of events; network_scheduler.cpp:216-376. *)
Fixpoint run (s : st) (es : list event) : option (res st) :=
  match es with
  | [] => Some (Ok s)
  | e :: es => match step s e with
               | Some (Ok s') => run s' es
               | Some Ub => Some Ub
               | None => None
               end
  end.
