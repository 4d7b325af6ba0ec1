(** Where an instance of shpool keeps its files, and what changes when the daemon is
    launched by a client instead of by hand: libshpool/src/lib.rs 416-455, daemonize.rs
    40-93 and 149-203, daemon/mod.rs 47-66, daemon/events.rs 192-196.

    Paths are strings; [fs::create_dir_all] and the forks are left out.  The hash of
    std's DefaultHasher is an argument. *)
From Coq Require Import List NArith Bool.
From Verif Require Import Model.Base Model.Names.
Import ListNotations.
Open Scope N_scope.

(** The parts of a process that matter here: the directory relative paths start from
    and the bits its files must not have. daemonize.rs 150, 157. *)
Record process := mkProcess { cwd : rstr; umask : N }.

(** The environment variables consulted (lib.rs 416-421). *)
Record surroundings := mkSurroundings { xdg_runtime_dir : option rstr; home : option rstr }.

(** The global options (lib.rs 62-108); the log file and verbosity only matter to the log. *)
Record arguments := mkArguments {
  a_socket : option rstr;
  a_config_file : option rstr;
  a_log_file : option rstr;
  a_verbose : N;
  a_daemonize : bool;
  a_no_daemonize : bool;
  a_is_daemon : bool            (* the command is [daemon] *)
}.

(** lib.rs 416-422. *)
Definition runtime_base (e : surroundings) : option rstr :=
  match xdg_runtime_dir e with
  | Some d => Some (path_join d (lit "shpool"))
  | None => match home e with
            | Some h => Some (path_join (path_join (path_join h (lit ".local")) (lit "run")) (lit "shpool"))
            | None => None
            end
  end.

(** format!("{hash:x}") of a u64: lower case, no leading zeros. *)
Definition hex_char (d : N) : N := if d <? 10 then 48 + d else 87 + d.
(** Rust's LowerHex: its digits from the last to the first. *)
Fixpoint hex_go (fuel : nat) (n : N) (acc : rstr) : rstr :=
  match fuel with
  | O => acc
  | S f => let acc' := hex_char (n mod 16) :: acc in
           if n <? 16 then acc' else hex_go f (n / 16) acc'
  end.
(** Rust's LowerHex, for lib.rs 434. *)
Definition hex (n : N) : rstr := hex_go 16 n [].

(** lib.rs 416-440: the runtime directory and the control socket; [None]: neither
    XDG_RUNTIME_DIR nor HOME is set. *)
Definition locations (hash : rstr -> N) (e : surroundings) (socket : option rstr) : option (rstr * rstr) :=
  match runtime_base e with
  | None => None
  | Some base =>
      match socket with
      | Some s => Some (path_join base (hex (hash s)), s)
      | None => Some (base, path_join base (lit "shpool.socket"))
      end
  end.

(** Path::with_file_name and set_file_name: all up to the last '/' is kept.  Simplified:
    for paths whose last piece is an ordinary file name, which the path of a socket is.
    daemonize.rs 73, daemon/mod.rs 56, daemon/events.rs 194. *)
Fixpoint dir_part (s : rstr) : rstr :=
  match s with
  | [] => []
  | c :: s' => if existsb (N.eqb 47) s then c :: dir_part s' else []
  end.
(** Path::with_file_name, as above. *)
Definition with_file_name (s n : rstr) : rstr := dir_part s ++ n.

(** daemon/events.rs 192-196; daemon/mod.rs 56; daemonize.rs 73. *)
Definition events_socket (socket : rstr) : rstr := with_file_name socket (lit "events.socket").
(** daemon/mod.rs 56. *)
Definition pid_file (socket : rstr) : rstr := with_file_name socket (lit "daemonized-shpool.pid").
(** daemonize.rs 73. *)
Definition daemon_log (socket : rstr) : rstr := with_file_name socket (lit "daemonized-shpool.log").

(** lib.rs 444-449: whether a client looks for a daemon to launch. *)
Definition may_launch (nodaemonize : option bool) (a : arguments) : bool :=
  if negb (match nodaemonize with Some b => b | None => false end) || a_daemonize a
  then negb (a_no_daemonize a) && negb (a_is_daemon a)
  else false.

(** daemonize.rs 73-88: the command line of the launched daemon, as it is parsed again
    by the daemon. *)
Definition launched_arguments (a : arguments) (socket : rstr) : arguments :=
  mkArguments (Some socket) (a_config_file a) (Some (daemon_log socket)) 0 false false true.

(** daemonize.rs 149-157: a launched daemon clears its umask and changes to the root
    directory; the old mask is only logged. *)
Definition daemonize (p : process) : process := mkProcess (lit "/") 0.

(** daemon/mod.rs 47-66: the daemon's process; [auto]: SHPOOL__INTERNAL__AUTODAEMONIZE
    is "true". *)
Definition daemon_process (auto : bool) (p : process) : process := if auto then daemonize p else p.

(** What the kernel takes a path to mean in a process. Opening a path in daemonize.rs
    149-260. *)
Definition open_at (p : process) (path : rstr) : rstr := path_join (cwd p) path.

(** server.rs 906-1108: the shell's process: it inherits the daemon's umask (nothing sets
    it) and starts in the directory that was asked for, relative ones from the daemon's. *)
Definition shell_process (daemon : process) (start_dir : rstr) : process :=
  mkProcess (open_at daemon start_dir) (umask daemon).
