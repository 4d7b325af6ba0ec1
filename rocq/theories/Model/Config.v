(** libshpool/src/config.rs: layering of configuration files and reloading. *)
From Coq Require Import List NArith Bool.
From Verif Require Import Model.Base Model.Keybindings.
Import ListNotations.
Open Scope N_scope.

(** config.rs 350-420: the enumerations and records that occur in settings. *)
Inductive restore_mode := Simple | Screen | Lines (n : N).
(** config.rs 350-420. *)
Inductive restore_engine := Vt100 | Vterm.
(** config.rs 350-420. *)
Inductive motd_mode := MotdNever | MotdDump | MotdPager (bin : rstr) (show_every : option rstr).
(** config.rs 350-420. *)
Record var_setting := mkVarSetting { vs_var : rstr; vs_value : rstr }.
(** config.rs 350-420. *)
Record keybinding := mkKeybinding { kb_binding : rstr; kb_action : action }.

(** config.rs 171-296: [struct Config]. *)
Record config := mkConfig {
  norc : option bool;
  noecho : option bool;
  nosymlink_ssh_auth_sock : option bool;
  noread_etc_environment : option bool;
  nodaemonize : option bool;
  nodaemonize_timeout : option bool;
  shell : option rstr;
  env : option (list (rstr * rstr));
  default_dir : option rstr;
  forward_env : option (list rstr);
  initial_path : option rstr;
  session_restore_mode : option restore_mode;
  session_restore_engine : option restore_engine;
  output_spool_lines : option N;
  vt100_output_spool_width : option N;
  keybindings : option (list keybinding);
  prompt_prefix : option rstr;
  motd : option motd_mode;
  motd_args : option (list rstr);
  var_default : option (list var_setting)
}.

(** [Config::default()] (derived). config.rs 178-180. *)
Definition default_config : config :=
  mkConfig None None None None None None None None None None None None None None None None None None None None.

(** [Option::or]. Used in config.rs 311-338. *)
Definition or_else {A} (a b : option A) : option A := match a with Some _ => a | None => b end.

(** config.rs 311-338: [Config::merge]. *)
Definition merge (self another : config) : config :=
  mkConfig
    (or_else (norc self) (norc another))
    (or_else (noecho self) (noecho another))
    (or_else (nosymlink_ssh_auth_sock self) (nosymlink_ssh_auth_sock another))
    (or_else (noread_etc_environment self) (noread_etc_environment another))
    (or_else (nodaemonize self) (nodaemonize another))
    (or_else (nodaemonize_timeout self) (nodaemonize_timeout another))
    (or_else (shell self) (shell another))
    (or_else (env self) (env another))
    (or_else (default_dir self) (default_dir another))
    (or_else (forward_env self) (forward_env another))
    (or_else (initial_path self) (initial_path another))
    (or_else (session_restore_mode self) (session_restore_mode another))
    (or_else (session_restore_engine self) (session_restore_engine another))
    (or_else (output_spool_lines self) (output_spool_lines another))
    (or_else (vt100_output_spool_width self) (vt100_output_spool_width another))
    (or_else (keybindings self) (keybindings another))
    (or_else (prompt_prefix self) (prompt_prefix another))
    (or_else (motd self) (motd another))
    (or_else (motd_args self) (motd_args another))
    (or_else (var_default self) (var_default another)).

(** What reading and parsing one file gives: it cannot be read, the TOML parser
    rejects it, or it holds a configuration.  The TOML parser itself is not
    modelled. config.rs 111-138. *)
Inductive file_state := Unreadable | Malformed | Parsed (c : config).

(** config.rs 111-139: [Manager::load]; later files have priority. *)
Fixpoint load_from (files : list file_state) (acc : config) : option config :=
  match files with
  | [] => Some acc
  | Unreadable :: files' => load_from files' acc
  | Malformed :: _ => None
  | Parsed c :: files' => load_from files' (merge c acc)
  end.

(** config.rs 111-138. *)
Definition load (files : list file_state) : option config := load_from files default_config.

(** config.rs 141-167: [Manager::config_dir] (not on macOS): [$XDG_CONFIG_DIR/shpool]
    if that variable is set, otherwise [~/.config/shpool]. *)
Definition config_dir (environment : list (rstr * rstr)) (home : rstr) : rstr :=
  match lookup (lit "XDG_CONFIG_DIR") environment with
  | Some v => v ++ lit "/shpool"
  | None => home ++ lit "/.config" ++ lit "/shpool"
  end.

(** config.rs 57-71: which files are read: the two default ones, or the one given
    on the command line. *)
Definition config_files (dir : rstr) (config_file : option rstr) : list rstr :=
  match config_file with
  | None => [lit "/etc/shpool/config.toml"; dir ++ lit "/config.toml"]
  | Some f => [f]
  end.

(** config.rs 80-91: the reload handler. *)
Definition reload (running : config) (files : list file_state) : config :=
  match load files with Some c => c | None => running end.

(** config.rs 98-107 ([Manager::get]) after a history of reloads. *)
Fixpoint reloads (running : config) (history : list (list file_state)) : config :=
  match history with
  | [] => running
  | fs :: history' => reloads (reload running fs) history'
  end.
