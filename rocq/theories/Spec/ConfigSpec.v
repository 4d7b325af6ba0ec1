(** Which file decides a setting. *)
From Coq Require Import List NArith Bool.
From Verif Require Import Model.Base Model.Config.
Import ListNotations.

(** The settings, one by one. *)
Inductive setting : forall A, (config -> option A) -> Prop :=
| s_norc : setting _ norc
| s_noecho : setting _ noecho
| s_nosymlink : setting _ nosymlink_ssh_auth_sock
| s_noread : setting _ noread_etc_environment
| s_nodaemonize : setting _ nodaemonize
| s_nodaemonize_timeout : setting _ nodaemonize_timeout
| s_shell : setting _ shell
| s_env : setting _ env
| s_default_dir : setting _ default_dir
| s_forward_env : setting _ forward_env
| s_initial_path : setting _ initial_path
| s_restore_mode : setting _ session_restore_mode
| s_restore_engine : setting _ session_restore_engine
| s_spool_lines : setting _ output_spool_lines
| s_spool_width : setting _ vt100_output_spool_width
| s_keybindings : setting _ keybindings
| s_prompt_prefix : setting _ prompt_prefix
| s_motd : setting _ motd
| s_motd_args : setting _ motd_args
| s_var_default : setting _ var_default.

(** [decides files f v]: the last of the files that sets [f] sets it to [v]. *)
Definition decides {A} (files : list file_state) (f : config -> option A) (v : A) : Prop :=
  exists before c after, files = before ++ Parsed c :: after /\ f c = Some v /\
    forall c', In (Parsed c') after -> f c' = None.
