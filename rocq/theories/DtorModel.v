(** Destruction of values that contain others: the destructors in src/mongo/mongo_value.cpp and src/redis/redis_value.cpp.

    A value is a scalar or a container.  Containers are counted references: [shared] says whether there is another
    reference, which is not from within the value that is destroyed, so that [unique] is false.
    Keys of documents are left out; an array and a
    document are alike.  There is one thread, and memory is not exhausted ([emplace_back] does not throw). *)
From Coq Require Import ZArith List Bool.
Import ListNotations.

(** mongo_value.hpp:18-24, redis_value.hpp:16-21: what a value holds; [None] is null, and other scalars and containers are
    told apart by their numbers. *)
Inductive value := Scalar (x : option Z) | Container (id : Z) (shared : bool) (elems : list value).

(** What is seen of a destruction: the destructor of an element is entered and left, a scalar is destroyed, the storage of a
    container is freed, or one reference to a shared one is dropped. mongo_value.cpp:12-51 *)
Inductive event := Enter | Leave | Gone (x : Z) | Free (id : Z) | Release (id : Z).

(** The destructor of the member [m_stor], called at mongo_value.cpp:46 and at the end of the destructor, 51: it enters the
    destructor of each element of a container that is freed. *)
Fixpoint member (v : value) : list event :=
  match v with
  | Scalar None => []
  | Scalar (Some x) => [Gone x]
  | Container id true _ => [Release id]
  | Container id false es => flat_map (fun e => Enter :: member e ++ [Leave]) es ++ [Free id]
  end.

(** mongo_value.cpp:19-42, redis_value.cpp:17-29: the elements are swapped with new values, which are null.  The
    last element is on the top of the stack. *)
Definition unpack (v : value) (stack : list value) : value * list value :=
  match v with
  | Container id false es => (Container id false (map (fun _ => Scalar None) es), rev es ++ stack)
  | _ => (v, stack)
  end.

(** mongo_value.cpp:18-51, redis_value.cpp:16-38: the loop; [None] is that [fuel] does not suffice. *)
Fixpoint unpack_loop (fuel : nat) (v : value) (stack : list value) : option (list event) :=
  match fuel with
  | O => None
  | S fuel =>
      let '(v, stack) := unpack v stack in
      match stack with
      | [] => Some (member v)
      | top :: stack => option_map (app (member v)) (unpack_loop fuel top stack)
      end
  end.

(** Not in the code: the number of scalars and containers, which bounds the number of iterations of mongo_value.cpp:18-51. *)
Fixpoint size (v : value) : nat :=
  match v with
  | Scalar _ => 1
  | Container _ _ es => S (fold_right (fun e n => size e + n) 0 es)
  end.

(** mongo_value.cpp:12-51 [~Mongo_Value], redis_value.cpp:10-38 [~Redis_Value]. *)
Definition destroy (v : value) : option (list event) := unpack_loop (size v) v [].
