(** What is expected of the program (C81, C82, C83). *)
From Coq Require Import ZArith List Bool.
From Verif Require Import MainModel.
Import ListNotations.
Open Scope list_scope.
Open Scope Z_scope.
Notation length := List.length.

(** ** The command line *)

(** A group of option letters, or something else *)
Inductive item := Letters (s : list Z) | Word (w : list Z).
Definition proper (i : item) : Prop :=
  match i with
  | Letters s => s <> [] /\ Forall (fun c => c = 100 \/ c = 104 \/ c = 86 \/ c = 118) s
  | Word w => forall c s, w <> 45 :: c :: s
  end.
Definition written (i : item) : list Z := match i with Letters s => 45 :: s | Word w => w end.
Definition has (c : Z) (is : list item) : bool := existsb (fun i => match i with Letters s => existsb (Z.eqb c) s | Word _ => false end) is.
Definition words (is : list item) : list (list Z) := flat_map (fun i => match i with Letters _ => [] | Word w => [w] end) is.
(** What is to be done; each path is replaced by its real path, and the first is the directory. *)
Definition meant (real : list Z -> option (list Z)) (is : list item) (more : list (list Z)) (r : command) : Prop :=
  if has 104 is then r = Help
  else if has 86 is then r = Version
  else (r = Bad_path /\ exists w, In w (words is ++ more) /\ real w = None)
       \/ exists ps, Forall2 (fun w p => real w = Some p) (words is ++ more) ps
            /\ r = Proceed (mkOptions (has 100 is) (has 118 is) (hd [] ps) (tl ps)).

(** What follows a dash that is neither letters of options, nor another dash alone, nor nothing *)
Definition bad_letters (s : list Z) : Prop := s <> [] /\ s <> [45] /\ ~ Forall (fun c => c = 100 \/ c = 104 \/ c = 86 \/ c = 118) s.

(** ** Start-up *)

(** The modules: those of the command line if there are any, or those of main.conf *)
Definition chosen (s : system) (o : options) : option (list (list Z)) := match cmd_modules o with [] => conf_modules s | ms => Some ms end.
(** What is done before the launcher is told, in this order *)
Definition plan (s : system) (o : options) (ms : list (list Z)) : list action :=
  (match cd_here o with [] => [] | d => [Directory d] end)
  ++ [Configured Logger]
  ++ (if daemonize o then [Detached] else [])
  ++ [Handling]
  ++ (match cmd_modules o with [] => [Locked] | _ => [] end)
  ++ [Configured Mysql; Configured Mongo; Configured Redis; Configured Network; Configured Fibers]
  ++ [Thread 0; Thread 1; Thread 2; Thread 3; Thread 4; Thread 5; Thread 6; Thread 7]
  ++ flat_map (fun m => Loaded m :: match entry s m with Some _ => [Entered m] | None => [] end) ms.
(** Nothing fails before the launcher is told. *)
Definition smooth (s : system) (o : options) (ms : list (list Z)) : Prop :=
  (cd_here o <> [] -> on_chdir s = true) /\ on_config s = Fine /\ (forall c, on_reload s c = Fine)
  /\ (cmd_modules o = [] -> on_pid_file s = Fine) /\ (forall n, 0 <= n < 8 -> on_thread s n = true) /\ chosen s o = Some ms
  /\ Forall (fun m => on_open s m = true /\ (entry s m = None \/ entry s m = Some Fine)) ms.
(** When the signal has arrived: before the scheduler, or after so many turns *)
Definition arrivals (s : system) : list bool := early s :: map snd (turns s).
Definition first_at (n : nat) (l : list bool) : Prop := nth_error l n = Some true /\ forall k, (k < n)%nat -> nth_error l k = Some false.

(** ** Detaching *)

(** Nobody kills the processes that wait. *)
Definition undisturbed (es : list launch_event) : Prop := Forall (fun e => match e with Kill_parent _ | Kill_child _ => False | _ => True end) es.
(** What the processes that wait do by themselves *)
Definition own (e : launch_event) : Prop := match e with Close | Read | Child_waits | Parent_waits => True | _ => False end.

(** ** The PID file *)

(** A process has the right to run. *)
Definition owns (x : place) : Prop := x = Exclusive \/ x = Written \/ x = Running \/ x = Quitting.
(** No process has a mishap after it has got the right: it is gone after it has quit. *)
Fixpoint orderly (all : list Z) (atomic : bool) (s : pids) (es : list pid_event) : Prop :=
  match es with
  | [] => True
  | e :: es =>
      (forall p, e = Gone p -> at_ s p = Opening \/ at_ s p = Opened \/ at_ s p = Quitting)
      /\ match pid_step all atomic s e with Some s => orderly all atomic s es | None => True end
  end.
(** No process is started or ends, except for those that only read. *)
Definition quiet (p : Z) (es : list pid_event) : Prop :=
  Forall (fun e => match e with Creat _ => False | Quit q | Gone q => q <> p | _ => True end) es.
(** What a line of digits says *)
Fixpoint value_of (ds : list Z) (acc : Z) : Z := match ds with [] => acc | d :: ds => value_of ds (acc * 10 + (d - 48)) end.
(** The status by which a process that has ended is shown, as shells do: its own, or 128 and the number of the signal *)
Definition shows_as (s : status) (c : Z) : Prop := match s with Exited e => c = e mod 256 | Killed n => c = (128 + n) mod 256 end.
(** Neither is zero, nor looks like zero. *)
Definition failed (s : status) : Prop := match s with Exited e => 0 < e < 256 | Killed n => 0 < n < 128 end.
