(** Model of the cache of fiber stacks: /repo/poseidon/src/static/fiber_scheduler.cpp:20-101.
    Any number of threads allocate and free stacks at the same time; each atomic
    operation is one event.  A block of memory is named by a number, which the
    system may use again after the block was unmapped.  The guard pages are left
    out: a mapping is as large as its [vm_size].  Memory is sequentially
    consistent. *)
From Coq Require Import ZArith List Lia Bool.
Import ListNotations.
Open Scope Z_scope.

(** Where a thread is.  In [do_allocate_stack(vm)]: after the first exchange
    (line 34) with its result; after line 35 has read [cst->next]; after the
    second exchange (line 36) with its result; at the loop (line 40).  In
    [do_free_stack]: before line 99; in the loop (line 100). *)
Inductive pc :=
| Idle
| A1 (vm : Z) (c : option nat)
| A2 (vm : Z) (c n : nat)
| A3 (vm : Z) (c : nat) (old : option nat)
| A4 (vm : Z) (c : option nat)
| F1 (b : nat)
| F2 (b : nat).

(** [s_stack_cache]; the memory words [next] and [vm_size] at the start of each
    block; the size of each mapped block; the threads; the stacks which are in
    use, with the size that was reported; what each allocation has returned
    (thread, requested size, block, reported size); and whether unmapped memory
    was touched, or [munmap] was called with a size that is not the block's. fiber_scheduler.cpp:22-29 *)
Record st := mkS {
  head : option nat; nxt : nat -> option nat; siz : nat -> Z; real : nat -> option Z;
  pcs : nat -> pc; users : list (nat * Z); given : list (nat * Z * nat * Z); bad : bool }.

(** fiber_scheduler.cpp:29 *)
Definition init : st := mkS None (fun _ => None) (fun _ => 0) (fun _ => None) (fun _ => Idle) [] [] false.

(** Not in the code: an update of a function, for fiber_scheduler.cpp:36, 66, 95-96. *)
Definition set {A} (f : nat -> A) (k : nat) (v : A) (x : nat) : A := if Nat.eqb x k then v else f x.

(** Not in the code: whether memory that fiber_scheduler.cpp:31-101 uses is not mapped. *)
Definition touch (s : st) (b : nat) : bool := match real s b with Some _ => false | None => true end.
(** Not in the code: an update of the state, for fiber_scheduler.cpp:31-101. *)
Definition goes (s : st) (t : nat) (p : pc) : st :=
  mkS (head s) (nxt s) (siz s) (real s) (set (pcs s) t p) (users s) (given s) (bad s).
(** Not in the code: an update of the state, for fiber_scheduler.cpp:31-101. *)
Definition flag (s : st) (b : bool) : st :=
  mkS (head s) (nxt s) (siz s) (real s) (pcs s) (users s) (given s) (bad s || b).

(** [Alloc] calls [do_allocate_stack] and does line 34; [Go] does the next atomic
    step of a thread; [Mmap] is lines 54-67, with the block that the system gives
    or a failure; [Free] calls [do_free_stack] up to line 96; [Cas] is one
    turn of line 100, which may fail for no reason; [Write] is a fiber which
    writes something into its stack. *)
Inductive event :=
| Alloc (t : nat) (vm : Z)
| Go (t : nat)
| Mmap (t : nat) (b : option nat)
| Free (t : nat) (b : nat)
| Cas (t : nat) (spurious : bool)
| Write (b : nat) (n : option nat) (z : Z).

(** fiber_scheduler.cpp:34 *)
Definition alloc (s : st) (t : nat) (vm : Z) : option st :=
  match pcs s t with
  | Idle => Some (mkS None (nxt s) (siz s) (real s) (set (pcs s) t (A1 vm (head s))) (users s) (given s) (bad s))
  | _ => None
  end.

(** fiber_scheduler.cpp:35-50, 69-78 and 99 *)
Definition go (s : st) (t : nat) : option st :=
  match pcs s t with
  | A1 vm c =>
      Some match c with
           | None => goes s t (A4 vm None)
           | Some c =>
               flag (match nxt s c with
                     | None => goes s t (A4 vm (Some c))
                     | Some n => goes s t (A2 vm c n)
                     end) (touch s c)
           end
  | A2 vm c n => Some (mkS (Some n) (nxt s) (siz s) (real s) (set (pcs s) t (A3 vm c (head s))) (users s) (given s) (bad s))
  | A3 vm c old =>
      Some (mkS (head s) (set (nxt s) c old) (siz s) (real s) (set (pcs s) t (A4 vm (Some c))) (users s) (given s)
                (bad s || touch s c))
  | A4 vm (Some c) =>
      let again := match nxt s c with Some _ => true | None => negb (siz s c =? vm) end in
      Some (if again
            then
              (* unmap the block and go to the next one *)
              mkS (head s) (nxt s) (siz s) (set (real s) c None) (set (pcs s) t (A4 vm (nxt s c))) (users s) (given s)
                  (bad s || match real s c with Some z => negb (z =? siz s c) | None => true end)
            else
              mkS (head s) (nxt s) (siz s) (real s) (set (pcs s) t Idle) ((c, siz s c) :: users s)
                  (given s ++ [(t, vm, c, siz s c)]) (bad s || touch s c))
  | F1 b =>
      Some (mkS (head s) (set (nxt s) b (head s)) (siz s) (real s) (set (pcs s) t (F2 b)) (users s) (given s)
                (bad s || touch s b))
  | _ => None
  end.

(** fiber_scheduler.cpp:54-67, 69-78.  The system never gives a block which is
    mapped.  A failure is reported by an exception. *)
Definition mmap (s : st) (t : nat) (r : option nat) : option st :=
  match pcs s t with
  | A4 vm None =>
      match r with
      | None => Some (goes s t Idle)
      | Some b =>
          match real s b with
          | Some _ => None
          | None =>
              Some (mkS (head s) (set (nxt s) b None) (set (siz s) b vm) (set (real s) b (Some vm)) (set (pcs s) t Idle)
                        ((b, vm) :: users s) (given s ++ [(t, vm, b, vm)]) (bad s))
          end
      end
  | _ => None
  end.

(** fiber_scheduler.cpp:85-96.  A stack is freed by whoever uses it, once, with
    the size that was reported. *)
Fixpoint take_user (b : nat) (l : list (nat * Z)) : option (Z * list (nat * Z)) :=
  match l with
  | [] => None
  | (c, z) :: l =>
      if Nat.eqb c b then Some (z, l)
      else match take_user b l with Some (y, l') => Some (y, (c, z) :: l') | None => None end
  end.
(** fiber_scheduler.cpp:81-96 *)
Definition free (s : st) (t b : nat) : option st :=
  match pcs s t with
  | Idle =>
      match take_user b (users s) with
      | None => None
      | Some (z, l) =>
          Some (mkS (head s) (set (nxt s) b None) (set (siz s) b z) (real s) (set (pcs s) t (F1 b)) l (given s)
                    (bad s || touch s b))
      end
  | _ => None
  end.

(** fiber_scheduler.cpp:100: on success the block becomes the head; on failure
    the present head is stored into [cst->next]. *)
Definition optnat_eqb (a b : option nat) : bool :=
  match a, b with Some x, Some y => Nat.eqb x y | None, None => true | _, _ => false end.
(** fiber_scheduler.cpp:100 *)
Definition cas (s : st) (t : nat) (spurious : bool) : option st :=
  match pcs s t with
  | F2 b =>
      Some (if optnat_eqb (head s) (nxt s b) && negb spurious
            then mkS (Some b) (nxt s) (siz s) (real s) (set (pcs s) t Idle) (users s) (given s) (bad s || touch s b)
            else mkS (head s) (set (nxt s) b (head s)) (siz s) (real s) (pcs s) (users s) (given s) (bad s || touch s b))
  | _ => None
  end.

(** Not in fiber_scheduler.cpp:31-101: the users of a stack between both functions. *)
Definition write (s : st) (b : nat) (n : option nat) (z : Z) : option st :=
  if existsb (fun u => Nat.eqb (fst u) b) (users s)
  then Some (mkS (head s) (set (nxt s) b n) (set (siz s) b z) (real s) (pcs s) (users s) (given s) (bad s || touch s b))
  else None.

(** One event; [None] if it cannot happen in this state. fiber_scheduler.cpp:31-101 *)
Definition step (s : st) (e : event) : option st :=
  match e with
  | Alloc t vm => alloc s t vm
  | Go t => go s t
  | Mmap t r => mmap s t r
  | Free t b => free s t b
  | Cas t x => cas s t x
  | Write b n z => write s b n z
  end.

(** Any number of events; fiber_scheduler.cpp:31-101. *)
Fixpoint run (s : st) (es : list event) : option st :=
  match es with
  | [] => Some s
  | e :: es => match step s e with Some s' => run s' es | None => None end
  end.
