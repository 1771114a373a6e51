(** What the theorems about loading the configuration say. *)
From Coq Require Import List ZArith Bool String.
From Verif Require Import Base Text ConfModel ConfSpec RelModel.
Import ListNotations.
Open Scope list_scope.
Open Scope Z_scope.

(** *** Settings of a file

    [leads] and [has], from ConfSpec.v, say what names lead to. *)
Definition says (r : list (list Z * value)) (p : list (list Z)) (o : outcome) : Prop := leads (Obj r) (map By_name p) o.

(** There is no such setting, or it is null. *)
Definition absent (r : list (list Z * value)) (p : list (list Z)) : Prop := says r p Missing \/ says r p (Found Null).

(** A setting is what the file says; if it is absent, it is [d]. Nothing else is accepted. *)
Inductive text_is (r : list (list Z * value)) (p : list (list Z)) (d : list Z) : list Z -> Prop :=
  | text_default : absent r p -> text_is r p d d
  | text_given s : says r p (Found (Str s)) -> text_is r p d s.

Inductive number_is (r : list (list Z * value)) (p : list (list Z)) (min max d : Z) : Z -> Prop :=
  | number_default : absent r p -> number_is r p min max d d
  | number_given n : says r p (Found (Int n)) -> min <= n <= max -> number_is r p min max d n.

Inductive flag_is (r : list (list Z * value)) (p : list (list Z)) (d : bool) : bool -> Prop :=
  | flag_default : absent r p -> flag_is r p d d
  | flag_given b : says r p (Found (Bool b)) -> flag_is r p d b.

(** Names of files. A subscript can be 9999989 at most, see C32. *)
Inductive files_are (r : list (list Z * value)) (p : list (list Z)) : list (list Z) -> Prop :=
  | files_default : absent r p -> files_are r p []
  | files_given l : says r p (Found (Arr (map Str l))) -> Z.of_nat (List.length l) <= 9999990 -> files_are r p l.

(** *** What the file says about each component *)

Definition mysql_says (r : list (list Z * value)) (c : mysql) : Prop :=
  let s k := [txt "mysql"; txt k] in
  text_is r (s "default_service_uri"%string) (txt "root@localhost:3306/admin") (my_uri1 c)
  /\ text_is r (s "default_password"%string) [] (my_pass1 c)
  /\ text_is r (s "secondary_service_uri"%string) (my_uri1 c) (my_uri2 c)
  /\ text_is r (s "secondary_password"%string) (my_pass1 c) (my_pass2 c)
  /\ text_is r (s "tertiary_service_uri"%string) (my_uri2 c) (my_uri3 c)
  /\ text_is r (s "tertiary_password"%string) (my_pass2 c) (my_pass3 c)
  /\ number_is r (s "connection_pool_size"%string) 0 100 0 (my_pool c)
  /\ number_is r (s "connection_idle_timeout"%string) 0 86400 60 (my_idle c).

Definition db_says (name : list Z) (uri : list Z) (r : list (list Z * value)) (c : db) : Prop :=
  text_is r [name; txt "default_service_uri"] uri (db_uri c)
  /\ text_is r [name; txt "default_password"] [] (db_pass c)
  /\ number_is r [name; txt "connection_pool_size"] 0 100 0 (db_pool c)
  /\ number_is r [name; txt "connection_idle_timeout"] 0 86400 60 (db_idle c).
Definition mongo_says := db_says (txt "mongo") (txt "root@localhost:27017/admin").
Definition redis_says := db_says (txt "redis") (txt "default@localhost:6379/0").

(** The size of stacks is the configured one.  If there is none, or it is zero,
    it is the limit of the system, and 16 MiB if there is none. *)
Definition stack_is (configured : Z) (limit : option Z) (n : Z) : Prop :=
  (configured <> 0 /\ n = configured)
  \/ (configured = 0 /\ exists l, limit = Some l /\ l <> 0 /\ n = l)
  \/ (configured = 0 /\ (limit = None \/ limit = Some 0) /\ n = 16777216).

Definition fiber_says (limit : option Z) (r : list (list Z * value)) (c : fiber) : Prop :=
  (exists n, number_is r [txt "fiber"; txt "stack_vm_size"] 0 16777216 0 n /\ stack_is n limit (f_stack c))
  /\ number_is r [txt "fiber"; txt "warn_timeout"] 0 86400 15 (f_warn c)
  /\ number_is r [txt "fiber"; txt "fail_timeout"] 0 86400 300 (f_fail c).

(** There is a server context if and only if a certificate and a private key
    are configured, and both could be loaded.  The client context verifies
    servers if and only if trusted certificates are configured, and could be
    loaded. *)
Definition net_says (o : ssl) (r : list (list Z * value)) (c : net) : Prop :=
  number_is r [txt "network"; txt "poll"; txt "event_buffer_size"] 10 1048576 1024 (n_events c)
  /\ number_is r [txt "network"; txt "poll"; txt "throttle_size"] 0 2147483647 1048576 (n_throttle c)
  /\ (exists cert k,
        text_is r [txt "network"; txt "ssl"; txt "default_certificate"] [] cert
        /\ text_is r [txt "network"; txt "ssl"; txt "default_private_key"] [] k
        /\ ((cert = [] /\ k = [] /\ n_server c = None)
            \/ (cert <> [] /\ k <> [] /\ n_server c = Some (cert, k) /\ new_server o = true
                /\ chain o cert = true /\ key o k = true /\ pair o cert k = true /\ sid o = true)))
  /\ (exists dir,
        text_is r [txt "network"; txt "ssl"; txt "trusted_ca_path"] [] dir /\ new_client o = true
        /\ ((dir = [] /\ n_client c = Some None) \/ (dir <> [] /\ n_client c = Some (Some dir) /\ ca o dir = true))).

Definition parser_says (content : list Z) (r : list (list Z * value)) (c : limits) : Prop :=
  number_is r [txt "network"; txt "http"; txt "default_compression_level"] 0 9 6 (l_level c)
  /\ number_is r [txt "network"; txt "http"; txt "max_header_length"] 256 16777216 262144 (l_header c)
  /\ number_is r [txt "network"; txt "http"; content] 256 16777216 1048576 (l_content c).

Definition frame_says (r : list (list Z * value)) (c : limits) : Prop :=
  number_is r [txt "network"; txt "http"; txt "default_compression_level"] 0 9 6 (l_level c)
  /\ l_header c = 0
  /\ number_is r [txt "network"; txt "http"; txt "max_websocket_message_length"] 256 16777216 1048576 (l_content c).

(** The files of a level are the configured ones; a verbose logger always has
    one that is visible. *)
Definition level_says (r : list (list Z * value)) (verbose : bool) (name : list Z) (v : level) : Prop :=
  v_tag v = txt "[" ++ name ++ txt "]"
  /\ text_is r [txt "logger"; name; txt "color"] [] (v_color v)
  /\ flag_is r [txt "logger"; name; txt "expendable"] false (v_expendable v)
  /\ exists fs, files_are r [txt "logger"; name; txt "files"] fs
     /\ let visible := In (txt "/dev/stdout") fs \/ In (txt "/dev/stderr") fs in
        ((verbose = false \/ visible) /\ v_files v = fs)
        \/ (verbose = true /\ ~ visible /\ v_files v = fs ++ [txt "/dev/stdout"]).

(** The levels are numbered in this order. *)
Definition level_names : list (list Z) :=
  [txt "fatal"; txt "error"; txt "warn"; txt "info"; txt "debug"; txt "trace"].
Definition logger_says (r : list (list Z * value)) (verbose : bool) (l : list level) : Prop :=
  Forall2 (level_says r verbose) level_names l.

(** *** Histories *)

(** [c] is what was accepted last: either nothing was accepted and it is the
    initial value, or it is what the last event [e] that was accepted, says.
    [accepts e c] tells that [e] should set [c]. *)
Definition last_accepted {A} (accepts : event -> A -> Prop) (initial : A) (es : list event) (c : A) : Prop :=
  ((forall e c', In e es -> ~ accepts e c') /\ c = initial)
  \/ (exists before e after, es = before ++ e :: after /\ accepts e c /\ forall e' c', In e' after -> ~ accepts e' c').

Definition main_accepts (e : event) (c : list (list Z * value)) : Prop := e = Main (Some c).
Definition mysql_accepts (e : event) (c : mysql) : Prop := exists r, e = Mysql r /\ mysql_says r c.
Definition mongo_accepts (e : event) (c : db) : Prop := exists r, e = Mongo r /\ mongo_says r c.
Definition redis_accepts (e : event) (c : db) : Prop := exists r, e = Redis r /\ redis_says r c.
Definition net_accepts (e : event) (c : net) : Prop := exists r o, e = Net r o /\ net_says o r c.
Definition logger_accepts (e : event) (c : list level) : Prop := exists r v, e = Log_end r v /\ logger_says r v c.
(** The limit of the system is known to be less than 4 GiB. *)
Definition fiber_accepts (e : event) (c : fiber) : Prop := exists r l, e = Fiber r l /\ fiber_says l r c.
Definition small_limits (es : list event) : Prop := forall r l, In (Fiber r (Some l)) es -> 0 <= l < 4294967296.

(** Arrays are not as large as the address space. *)
Definition fits (r : list (list Z * value)) : Prop :=
  forall name l, In name level_names -> says r [txt "logger"; name; txt "files"] (Found (Arr l)) -> Z.of_nat (List.length l) < 100000000000000000000.

(** *** Contexts *)

Definition occurrences (c : nat) (l : list nat) : nat := count_occ Nat.eq_dec l c.
