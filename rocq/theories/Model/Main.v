(** A program from its start to its end: shpool/src/main.rs 22-33 and libshpool/src/lib.rs
    298-303 and 370-489, with what it does in between as effects.  What each effect does is
    the business of other models: [Logging] (the log file), [Launch] (paths and launching),
    [Config], [Daemonize] and the commands.  Left out: the command line's syntax, test hooks
    and the texts of the errors, which are arguments. *)
From Coq Require Import String List NArith ZArith Bool Arith.
From Verif Require Import Model.Base Model.Launch Model.Spawn.
Import ListNotations.
Open Scope N_scope.

Inductive effect :=
| EmptyLog (path : rstr)                       (* lib.rs 398 *)
| MakeDir (path : rstr)                        (* lib.rs 423 *)
| ReadConfig (file : option rstr)              (* lib.rs 442; watches it, too *)
| FindDaemon (socket : rstr)                   (* lib.rs 447: launches one if there is none *)
| Command (runtime_dir socket : rstr).         (* lib.rs 462-480 *)

(** How things go: each is the error, if there is one; [o_config] also has what the
    configuration says of launching. *)
Record outside := mkOutside {
  o_vars : rstr -> option rstr;                (* the environment *)
  o_log : option rstr; o_dir : option rstr; o_config : rstr + option bool; o_arg0 : option rstr; o_launch : option rstr; o_command : option rstr }.
(** What is printed, what is said about an error on standard error (the form Rust gives the
    error a main function returns), what is logged as one, and the exit status. *)
Record end_ := mkEnd { effects : list effect; out : rstr; told : option rstr; logged : option rstr; status : Z }.

(** The [?] of lib.rs 370-449. *)
Definition failing (es : list effect) (e : rstr) : end_ := mkEnd es [] (Some (lit "Error: " ++ e ++ [10])) None 1.
(** The [?] of lib.rs 370-449. *)
Definition or_fail (es : list effect) (e : option rstr) (k : end_) : end_ := match e with Some e => failing es e | None => k end.

(** lib.rs 462-488: the error of a command goes to the log. *)
Definition command (w : outside) (es : list effect) (dir socket : rstr) : end_ :=
  let es := es ++ [Command dir socket] in
  match o_command w with
  | Some e => mkEnd es [] None (Some e) 1
  | None => mkEnd es [] None None 0
  end.
(** lib.rs 444-449. *)
Definition find_daemon (w : outside) (a : arguments) (nodaemonize : option bool) (es : list effect) (dir socket : rstr) : end_ :=
  if negb (match nodaemonize with Some b => b | None => false end) || a_daemonize a
  then or_fail es (o_arg0 w)
         (if negb (a_no_daemonize a) && negb (a_is_daemon a)
          then let es := es ++ [FindDaemon socket] in or_fail es (o_launch w) (command w es dir socket)
          else command w es dir socket)
  else command w es dir socket.
(** lib.rs 418, with its cause as anyhow prints it (no backtrace asked for; a value that is
    not text counts as unset). *)
Definition no_home : rstr := lit "no XDG_RUNTIME_DIR or HOME" ++ [10; 10] ++ lit "Caused by:" ++ [10] ++ lit "    environment variable not found".
(** lib.rs 416-442; the variables of the environment are those of [Launch]. *)
Definition prepare (hash : rstr -> N) (w : outside) (a : arguments) (es : list effect) : end_ :=
  let e := mkSurroundings (o_vars w (lit "XDG_RUNTIME_DIR")) (o_vars w (lit "HOME")) in
  match runtime_base e, locations hash e (a_socket a) with
  | Some base, Some (dir, socket) =>
      let es := es ++ [MakeDir base] in
      or_fail es (o_dir w)
        (let es := es ++ [ReadConfig (a_config_file a)] in
         match o_config w with
         | inl e => failing es e
         | inr nodaemonize => find_daemon w a nodaemonize es dir socket
         end)
  | _, _ => failing es no_home
  end.
(** lib.rs 370-414. *)
Definition run (hash : rstr -> N) (w : outside) (a : arguments) : end_ :=
  match print_sentinel (a_is_daemon a) (o_vars w) with
  | Some s => mkEnd [] s None None 0
  | None =>
      match a_log_file a with
      | Some path => let es := [EmptyLog path] in or_fail es (o_log w) (prepare hash w a es)
      | None => prepare hash w a []
      end
  end.
(** main.rs 22-33; lib.rs 298-303. *)
Definition main (hash : rstr -> N) (version : rstr) (w : outside) (is_version : bool) (a : arguments) : end_ :=
  if is_version then mkEnd [] (lit "shpool " ++ version ++ [10]) None None 0 else run hash w a.
