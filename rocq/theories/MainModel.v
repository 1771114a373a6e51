(** Model of the program: its command line, its start-up and its end, how it detaches from the terminal, and the PID file.
    poseidon/src/main.cpp *)
From Coq Require Import ZArith List Bool String.
From Verif Require Import Text.
Import ListNotations.
Open Scope list_scope.
Open Scope Z_scope.
Notation length := List.length.

(** ** The command line *)

(** main.cpp:93-104 *)
Record options := mkOptions { daemonize : bool; verbose : bool; cd_here : list Z; cmd_modules : list (list Z) }.
(** What is said on the command line, and what remains. main.cpp:142-206 *)
Inductive command := Help | Version | Invalid | Bad_path | Proceed (o : options).

(** [strcmp], main.cpp:152, 155 *)
Fixpoint text_eqb (a b : list Z) : bool :=
  match a, b with [], [] => true | x :: a, y :: b => (x =? y) && text_eqb a b | _, _ => false end.

(** main.cpp:146-147, 164-178 *)
Record flags := mkFlags { f_d : bool; f_h : bool; f_V : bool; f_v : bool }.
(** The letters of an argument.  [None] if one of them is not an option.
    main.cpp:160-184 *)
Fixpoint letters (f : flags) (s : list Z) : option flags :=
  match s with
  | [] => Some f
  | c :: s =>
      if c =? 100 then letters (mkFlags true (f_h f) (f_V f) (f_v f)) s
      else if c =? 104 then letters (mkFlags (f_d f) true (f_V f) (f_v f)) s
      else if c =? 86 then letters (mkFlags (f_d f) (f_h f) true (f_v f)) s
      else if c =? 118 then letters (mkFlags (f_d f) (f_h f) (f_V f) true) s
      else None
  end.
(** [getopt] of the GNU C library, which is external: arguments that are not options are moved to the end, unless POSIXLY_CORRECT is set in the
    environment; then the first of them ends the options.
    main.cpp:159-184 *)
Fixpoint getopt (posix : bool) (f : flags) (args words : list (list Z)) : option (flags * list (list Z)) :=
  match args with
  | [] => Some (f, words)
  | [45; 45] :: args => Some (f, words ++ args)
  | (45 :: c :: s) :: args => match letters f (c :: s) with Some f => getopt posix f args words | None => None end
  | w :: args => if posix then Some (f, words ++ w :: args) else getopt posix f args (words ++ [w])
  end.
(** main.cpp:193-205 *)
Fixpoint real_paths (real : list Z -> option (list Z)) (words : list (list Z)) : option (list (list Z)) :=
  match words with
  | [] => Some []
  | w :: words => match real w, real_paths real words with Some p, Some ps => Some (p :: ps) | _, _ => None end
  end.
(** [args] are those after the name of the program; [real] is [realpath()].
    main.cpp:142-206 *)
Definition command_line (posix : bool) (real : list Z -> option (list Z)) (args : list (list Z)) : command :=
  if match args with a :: _ => text_eqb a (txt "--help") | [] => false end then Help
  else if match args with a :: _ => text_eqb a (txt "--version") | [] => false end then Version
  else
    match getopt posix (mkFlags false false false false) args [] with
    | None => Invalid
    | Some (f, words) =>
        if f_h f then Help
        else if f_V f then Version
        else
          match real_paths real words with
          | None => Bad_path
          | Some [] => Proceed (mkOptions (f_d f) (f_v f) [] [])
          | Some (p :: ps) => Proceed (mkOptions (f_d f) (f_v f) p ps)
          end
    end.

(** ** Start-up and end *)

(** How something ends that may throw: [Dies] is an exception that is not derived from [std::exception], or another reason for the process to abort. main.cpp:512, 555-559 *)
Inductive outcome := Fine | Throws | Dies.
(** Components in the order of their configuration and threads in the order of their creation. main.cpp:524, 533-538 *)
Inductive component := Logger | Mysql | Mongo | Redis | Network | Fibers.
(** What the program does, as far as others can see. main.cpp:521-550 *)
Inductive action :=
| Directory (d : list Z)
| Configured (c : component)
| Detached
| Handling                  (** signals are handled *)
| Locked                    (** the PID file has been written, if there is one *)
| Thread (n : Z)
| Loaded (m : list Z)       (** a module has been loaded; its constructors have run *)
| Entered (m : list Z)      (** its entry point has returned *)
| Ready                     (** the launcher is told *)
| Turn.                     (** fibers are scheduled. main.cpp:553, 558 *)
Inductive ending := Exit (code : Z) | Abort | Runs.

(** What happens to each call; [turns] is what happens in each turn of the scheduler: how it ends and whether a signal has arrived before the end of it. main.cpp:521-550 *)
Record system := mkSystem {
  real : list Z -> option (list Z);
  on_chdir : bool;
  on_config : outcome;                           (** main.conf is read *)
  on_reload : component -> outcome;
  on_pid_file : outcome;
  on_thread : Z -> bool;
  conf_modules : option (list (list Z));         (** [modules] in main.conf, if they are strings *)
  on_open : list Z -> bool;                      (** [dlopen()] *)
  entry : list Z -> option outcome;              (** [poseidon_module_main], if there is one *)
  early : bool;                                  (** a signal arrives during start-up, after they are handled *)
  turns : list (outcome * bool) }.

(** Not in the code: what main.cpp:521-550 have done so far. *)
Definition log := list action.
(** Not in the code: whether main.cpp:510-559 goes on. *)
Inductive progress := Goes (l : log) | Stops (l : log) (e : ending).
(** Not in the code: one line of main.cpp:521-550 after another. *)
Definition bind (p : progress) (f : log -> progress) : progress := match p with Goes l => f l | Stops l e => Stops l e end.
(** Something that may throw, which is visible if it goes well
    main.cpp:555-559 *)
Definition attempt (o : outcome) (a : action) (l : log) : progress :=
  match o with Fine => Goes (l ++ [a]) | Throws => Stops l (Exit 1) | Dies => Stops l Abort end.

(** main.cpp:208-219 *)
Definition set_directory (s : system) (o : options) (l : log) : progress :=
  match cd_here o with [] => Goes l | d => if on_chdir s then Goes (l ++ [Directory d]) else Stops l (Exit 1) end.
(** The loops and sequences of main.cpp:377-384, 490-502, 533-538. *)
Fixpoint each {X} (f : X -> log -> progress) (xs : list X) (l : log) : progress :=
  match xs with [] => Goes l | x :: xs => bind (f x l) (each f xs) end.
(** main.cpp:338-371,373-385 *)
Definition create_thread (s : system) (n : Z) (l : log) : progress :=
  if on_thread s n then Goes (l ++ [Thread n]) else Stops l (Exit 1).
(** main.cpp:490-502 *)
Definition load_module (s : system) (m : list Z) (l : log) : progress :=
  if on_open s m then
    let l := l ++ [Loaded m] in
    match entry s m with Some o => attempt o (Entered m) l | None => Goes l end
  else Stops l (Exit 1).
(** main.cpp:472-506 *)
Definition load_modules (s : system) (o : options) (l : log) : progress :=
  match cmd_modules o with
  | [] => match conf_modules s with Some ms => each (load_module s) ms l | None => Stops l (Exit 1) end
  | ms => each (load_module s) ms l
  end.
(** main.cpp:547-553.  A turn is only logged if it ends well. *)
Fixpoint schedule (arrived : bool) (ts : list (outcome * bool)) (l : log) : progress :=
  if arrived then Stops l (Exit 0)
  else
    match ts with
    | [] => Stops l Runs
    | (o, sig) :: ts => bind (attempt o Turn l) (schedule sig ts)
    end.

(** [main]; the part of a daemon that is executed by the process that remains.  [seed_random] and [check_ulimits] have no effect here.
    main.cpp:510-559 *)
Definition main (posix : bool) (s : system) (args : list (list Z)) : progress :=
  match command_line posix (real s) args with
  | Help | Version => Stops [] (Exit 0)
  | Invalid => Stops [] (Exit 2)
  | Bad_path => Stops [] (Exit 1)
  | Proceed o =>
      bind (set_directory s o []) (fun l =>
      bind (match on_config s with Fine => Goes l | Throws => Stops l (Exit 1) | Dies => Stops l Abort end) (fun l =>
      bind (attempt (on_reload s Logger) (Configured Logger) l) (fun l =>
      let l := if daemonize o then l ++ [Detached] else l in
      let l := l ++ [Handling] in
      bind (match cmd_modules o with [] => attempt (on_pid_file s) Locked l | _ => Goes l end) (fun l =>
      bind (each (fun c => attempt (on_reload s c) (Configured c)) [Mysql; Mongo; Redis; Network; Fibers] l) (fun l =>
      bind (each (create_thread s) [0; 1; 2; 3; 4; 5; 6; 7] l) (fun l =>
      bind (load_modules s o l) (fun l =>
      schedule (early s) (turns s) (l ++ [Ready]))))))))
  end.

(** ** Detaching *)

(** How a process ends. main.cpp:231-237 *)
Inductive status := Exited (code : Z) | Killed (sig : Z).
(** main.cpp:262-270 *)
Inductive parent := P_fork | P_wait | P_end (s : status).
(** main.cpp:272-295 *)
Inductive child := C_none | C_pipe | C_fork | C_close | C_read | C_wait | C_end (s : status).
(** main.cpp:297-325 *)
Inductive grandchild := G_none | G_init | G_write | G_run | G_end (s : status).

(** The three processes, the number of octets in the pipe, and who can write to it: the child, the grandchild, and others that the grandchild has created. main.cpp:241-325 *)
Record launch := mkLaunch {
  par : parent; chi : child; gra : grandchild;
  buffered : nat; w_child : bool; w_grand : bool; w_other : nat }.
(** main.cpp:262 *)
Definition launch_init : launch := mkLaunch P_fork C_none G_none 0 false false 0.

(** main.cpp:262-325 *)
Inductive launch_event :=
| Fork1 (ok : bool) | Pipe (ok : bool) | Fork2 (ok : bool)
| Close                       (** the child closes its end for writing *)
| Read | Child_waits | Parent_waits
| Finish                      (** start-up is complete *)
| Notify
| Grand_ends (s : status)
| Inherit | Release           (** another process gets the end for writing, because it is not closed on [exec], or gives it up *)
| Kill_parent (sig : Z) | Kill_child (sig : Z).

(** The status that a process passes on.
    main.cpp:231-237 *)
Definition passed_on (s : status) : Z := match s with Exited c => c | Killed n => 128 + n end.
(** Only eight bits of the status can be seen. main.cpp:232, 235 *)
Definition exits (c : Z) : status := Exited (c mod 256).
(** main.cpp:231-237 *)
Definition ends (s : status) : status := match s with Exited c => exits c | Killed n => Killed n end.

(** [waitpid].  If SIGCHLD is ignored, which is inherited, it waits for all children and then fails.
    main.cpp:221-239 *)
Definition wait_for (ignored : bool) (s : status) : status := if ignored then exits 1 else exits (passed_on s).

(** [ignored] says that SIGCHLD is ignored when the program is started.  It is assumed that reading from the pipe does not fail.
    main.cpp:241-325 *)
Definition launch_step (ignored : bool) (t : launch) (e : launch_event) : option launch :=
  let '(mkLaunch p c g b wc wg wo) := t in
  match e, p, c, g with
  | Fork1 true, P_fork, _, _ => Some (mkLaunch P_wait C_pipe g b wc wg wo)
  | Fork1 false, P_fork, _, _ => Some (mkLaunch (P_end (exits 1)) c g b wc wg wo)
  | Pipe true, _, C_pipe, _ => Some (mkLaunch p C_fork g b true wg wo)
  | Pipe false, _, C_pipe, _ => Some (mkLaunch p (C_end (exits 1)) g b wc wg wo)
  | Fork2 true, _, C_fork, _ => Some (mkLaunch p C_close G_init b wc true wo)
  | Fork2 false, _, C_fork, _ => Some (mkLaunch p (C_end (exits 1)) g b false wg wo)
  | Close, _, C_close, _ => Some (mkLaunch p C_read g b false wg wo)
  | Read, _, C_read, _ =>
      if (0 <? b)%nat then Some (mkLaunch p (C_end (exits 0)) g b wc wg wo)
      else if wc || wg || (0 <? wo)%nat then None
      else Some (mkLaunch p C_wait g b wc wg wo)
  | Child_waits, _, C_wait, G_end s => Some (mkLaunch p (C_end (wait_for ignored s)) g b wc wg wo)
  | Parent_waits, P_wait, C_end s, _ => Some (mkLaunch (P_end (wait_for ignored s)) c g b wc wg wo)
  | Finish, _, _, G_init => Some (mkLaunch p c G_write b wc wg wo)
  | Notify, _, _, G_write => Some (mkLaunch p c G_run (b + 2) wc false wo)
  | Grand_ends s, _, _, (G_init | G_write | G_run) => Some (mkLaunch p c (G_end (ends s)) b wc false wo)
  | Inherit, _, _, _ => if wg then Some (mkLaunch p c g b wc wg (S wo)) else None
  | Release, _, _, _ => match wo with O => None | S wo => Some (mkLaunch p c g b wc wg wo) end
  | Kill_parent n, (P_fork | P_wait), _, _ => Some (mkLaunch (P_end (Killed n)) c g b wc wg wo)
  | Kill_child n, _, (C_pipe | C_fork | C_close | C_read | C_wait), _ => Some (mkLaunch p (C_end (Killed n)) g b false wg wo)
  | _, _, _, _ => None
  end.
(** Any number of events; main.cpp:241-325. *)
Fixpoint launch_run (ignored : bool) (t : launch) (es : list launch_event) : option launch :=
  match es with
  | [] => Some t
  | e :: es => match launch_step ignored t e with Some t => launch_run ignored t es | None => None end
  end.

(** ** The PID file *)

(** Where a process is; [Unlocked] if it has given up its exclusive lock and waits for a shared one. main.cpp:407-439 *)
Inductive place := Absent | Opening | Opened | Exclusive | Written | Unlocked | Running | Quitting.
(** The file, where each process is, and how many others have it locked in order to read it. main.cpp:407-439 *)
Record pids := mkPids { content : list Z; at_ : Z -> place; readers : nat }.
(** Before main.cpp:420 in any process. *)
Definition pids_init : pids := mkPids [] (fun _ => Absent) 0.

(** main.cpp:420, 426, 434, 435, 438 *)
Inductive pid_event :=
| Launch (p : Z)
| Creat (p : Z)
| Lock (p : Z)
| Write (p : Z)
| Convert (p : Z)            (** the first half of the conversion of the lock, or all of it *)
| Share (p : Z)
| Quit (p : Z)
| Gone (p : Z)               (** the process has ended, for whatever reason *)
| Reader_locks | Reader_unlocks.

(** Digits of a number that is not negative; [fuel] is the maximum number of them. main.cpp:434 *)
Fixpoint digits (fuel : nat) (n : Z) : list Z :=
  match fuel with
  | O => []
  | S fuel => if n <? 10 then [48 + n] else digits fuel (n / 10) ++ [48 + n mod 10]
  end.
(** main.cpp:434.  A [pid_t] has at most ten digits. *)
Definition line (p : Z) : list Z := digits 10 p ++ [10].
(** Writing at the beginning of a file. main.cpp:434 *)
Definition overwrite (new old : list Z) : list Z := new ++ skipn (length new) old.

(** main.cpp:426 *)
Definition exclusive (x : place) : bool := match x with Exclusive | Written => true | _ => false end.
(** main.cpp:438 *)
Definition shared (x : place) : bool := match x with Running | Quitting => true | _ => false end.
(** Not in the code: one process goes on, main.cpp:407-439. *)
Definition move (f : Z -> place) (p : Z) (x : place) : Z -> place := fun q => if q =? p then x else f q.

Section Pids.
  (** Processes that exist, and whether the conversion of a lock is atomic.  It is not guaranteed to be. *)
  Variables (all : list Z) (atomic : bool).
  (** main.cpp:426, 438 *)
  Definition none (s : pids) (p : Z) (f : place -> bool) : bool := forallb (fun q => (q =? p) || negb (f (at_ s q))) all.

  (** It is assumed that nobody else writes to the file or removes it, and that writing to it works.
      main.cpp:407-439 *)
  Definition pid_step (s : pids) (e : pid_event) : option pids :=
    match e with
    | Launch p => match at_ s p with Absent => if existsb (Z.eqb p) all then Some (mkPids (content s) (move (at_ s) p Opening) (readers s)) else None | _ => None end
    | Creat p => match at_ s p with Opening => Some (mkPids [] (move (at_ s) p Opened) (readers s)) | _ => None end
    | Lock p =>
        match at_ s p with
        | Opened =>
            if none s p exclusive && none s p shared && (readers s =? 0)%nat then Some (mkPids (content s) (move (at_ s) p Exclusive) (readers s))
            else Some (mkPids (content s) (move (at_ s) p Absent) (readers s))
        | _ => None
        end
    | Write p => match at_ s p with Exclusive => Some (mkPids (overwrite (line p) (content s)) (move (at_ s) p Written) (readers s)) | _ => None end
    | Convert p => match at_ s p with Written => Some (mkPids (content s) (move (at_ s) p (if atomic then Running else Unlocked)) (readers s)) | _ => None end
    | Share p => match at_ s p with Unlocked => if none s p exclusive then Some (mkPids (content s) (move (at_ s) p Running) (readers s)) else None | _ => None end
    | Quit p => match at_ s p with Running => Some (mkPids [] (move (at_ s) p Quitting) (readers s)) | _ => None end
    | Gone p => match at_ s p with Absent => None | _ => Some (mkPids (content s) (move (at_ s) p Absent) (readers s)) end
    | Reader_locks => if forallb (fun q => negb (exclusive (at_ s q))) all then Some (mkPids (content s) (at_ s) (S (readers s))) else None
    | Reader_unlocks => match readers s with O => None | S n => Some (mkPids (content s) (at_ s) n) end
    end.
  (** Any number of events; main.cpp:407-439. *)
  Fixpoint pid_run (s : pids) (es : list pid_event) : option pids :=
    match es with
    | [] => Some s
    | e :: es => match pid_step s e with Some s => pid_run s es | None => None end
    end.
End Pids.
