(** The name of the host that the library knows: src/fwd.cpp.
    [gethostname] is that of the GNU C library: it copies the name and a null character if the buffer has room for both, and
    fails otherwise. *)
From Coq Require Import ZArith List Bool.
From Verif Require Import Base.
Import ListNotations.
Open Scope Z_scope.

(** linux/limits.h: [HOST_NAME_MAX], the greatest length of a name, without the null character. src/fwd.cpp:34 *)
Definition HOST_NAME_MAX : nat := 64.
(** [gethostname] (external); [junk] is what the buffer holds before. src/fwd.cpp:35 *)
Definition gethostname (name junk : list Z) (size : nat) : option (list Z) :=
  if (length name <? size)%nat then Some (name ++ [0] ++ skipn (S (length name)) junk) else None.
(** [strlen] (external). src/fwd.cpp:37 *)
Fixpoint strlen (s : list Z) : nat := match s with c :: r => if c =? 0 then 0 else S (strlen r) | [] => 0 end.
(** src/fwd.cpp:31-38 [do_get_hostname]; [None]: the process is terminated. *)
Definition get_hostname (name junk : list Z) : option (list Z) :=
  match gethostname name junk HOST_NAME_MAX with Some str => Some (firstn (strlen str) str) | None => None end.
