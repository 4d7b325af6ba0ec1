(** The environment of a new shell: libshpool/src/daemon/server.rs 1185-1286. *)
From Coq Require Import List NArith Bool.
From Verif Require Import Model.Base Model.Protocol Model.Config Model.EtcEnvironment Model.Names.
Import ListNotations.
Open Scope N_scope.

(** libshpool/src/user.rs: what the daemon knows about the user. user.rs 20-24. *)
Record user_info := mkUser { home_dir : rstr; default_shell : rstr; user_name : rstr }.

(** What the file system and the daemon's own environment contribute: the daemon's
    XDG_RUNTIME_DIR, and /etc/environment ([None]: it cannot be opened; [Some c]: its
    contents, as [parse_compat] takes them). server.rs 1185-1286. *)
Record env_world := { xdg_runtime_dir : option rstr; etc_environment : option (option rstr) }.

(** server.rs 57. *)
Definition DEFAULT_INITIAL_SHELL_PATH : rstr := lit "/usr/bin:/bin:/usr/sbin:/sbin".

(** server.rs 1228-1241: the TERM to inject. *)
Definition pick_term (cfg_env : option (list (rstr * rstr))) (h : attach_header) : option rstr :=
  let term := local_env_get h (lit "TERM") in
  match cfg_env with
  | None => term
  | Some extra => match lookup (lit "TERM") extra with
                  | None => term
                  | Some [] => None
                  | Some t => Some t
                  end
  end.

(** server.rs 1185-1286 (build_shell_env).  The [config.env] map is given in whatever
    order its iteration yields.  Not modelled: a runtime directory that is not UTF-8
    (the attach then fails). *)
Definition build_shell_env (cfg : config) (runtime_dir : rstr) (u : user_info) (w : env_world) (h : attach_header)
  : result (list (rstr * rstr)) unit :=
  let base :=
    [ (lit "HOME", home_dir u);
      (lit "PATH", match initial_path cfg with Some p => p | None => DEFAULT_INITIAL_SHELL_PATH end);
      (lit "SHPOOL_SESSION_NAME", h_name h);
      (lit "SHPOOL_SESSION_DIR", session_dir runtime_dir (h_name h));
      (lit "SHELL", default_shell u);
      (lit "USER", user_name u);
      (lit "SSH_AUTH_SOCK", ssh_auth_sock_symlink runtime_dir (h_name h)) ] in
  let xdg := match xdg_runtime_dir w with Some d => [(lit "XDG_RUNTIME_DIR", d)] | None => [] end in
  let term := pick_term (env cfg) h in
  let extra := match env cfg with
               | None => []
               | Some e => match term with None => remove (lit "TERM") e | Some _ => e end
               end in
  let term_entry := match term with Some t => [(lit "TERM", t)] | None => [] end in
  let forwarded := filter (fun p => negb (str_eqb (fst p) (lit "TERM") || str_eqb (fst p) (lit "SSH_AUTH_SOCK"))) (h_env h) in
  let upto := base ++ xdg ++ extra ++ term_entry ++ forwarded in
  match noread_etc_environment cfg with
  | Some true => Ok upto
  | _ => match etc_environment w with
         | None => Ok upto
         | Some contents => match parse_compat contents with
                            | Ok pairs => Ok (upto ++ pairs)
                            | Err _ => Err tt
                            end
         end
  end.

(** std::process::Command::env_clear().envs(list): later entries win. Used in server.rs
    906-1010. *)
Definition process_env (entries : list (rstr * rstr)) (var : rstr) : option rstr := lookup var (rev entries).

(** server.rs 962: the TERM used to pick the terminfo entry for session restore: the
    first one in the list. *)
Definition terminfo_term (entries : list (rstr * rstr)) : option rstr := lookup (lit "TERM") entries.
