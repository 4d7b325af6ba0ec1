(** Where each variable of a new shell comes from, highest priority first. *)
From Coq Require Import List NArith Bool.
From Verif Require Import Model.Base Model.Protocol Model.Config Model.ShellEnv.
Import ListNotations.
Open Scope N_scope.

(** The value the last entry for [k] gives. *)
Fixpoint last_value (k : rstr) (l : list (rstr * rstr)) : option rstr :=
  match l with
  | [] => None
  | (k', v) :: l' => match last_value k l' with
                     | Some x => Some x
                     | None => if str_eqb k k' then Some v else None
                     end
  end.

(** The first source that has a value. *)
Fixpoint first_of (sources : list (option rstr)) : option rstr :=
  match sources with
  | [] => None
  | Some v :: _ => Some v
  | None :: rest => first_of rest
  end.

Definition only_if (c : bool) (o : option rstr) : option rstr := if c then o else None.

(** The documented TERM rule: the configuration's value, the client's when the
    configuration does not mention it, and unset when it is configured blank. *)
Definition documented_term (configured client : option rstr) : option rstr :=
  match configured with
  | Some [] => None
  | Some t => Some t
  | None => client
  end.

(** What the daemon itself sets. *)
Definition own_variable (cfg : config) (dir agent_link : rstr) (u : user_info) (w : env_world) (h : attach_header)
  (k : rstr) : option rstr :=
  first_of
    [ only_if (str_eqb k (lit "XDG_RUNTIME_DIR")) (xdg_runtime_dir w);
      only_if (str_eqb k (lit "SSH_AUTH_SOCK")) (Some agent_link);
      only_if (str_eqb k (lit "USER")) (Some (user_name u));
      only_if (str_eqb k (lit "SHELL")) (Some (default_shell u));
      only_if (str_eqb k (lit "SHPOOL_SESSION_DIR")) (Some dir);
      only_if (str_eqb k (lit "SHPOOL_SESSION_NAME")) (Some (h_name h));
      only_if (str_eqb k (lit "PATH"))
        (first_of [initial_path cfg; Some (lit "/usr/bin:/bin:/usr/sbin:/sbin")]);
      only_if (str_eqb k (lit "HOME")) (Some (home_dir u)) ].

(** Priority: /etc/environment, then what the client forwards (never TERM or
    SSH_AUTH_SOCK), then the TERM rule, then the configured variables, then the
    daemon's own. *)
Definition expected (etc : list (rstr * rstr)) (cfg : config) (dir agent_link : rstr) (u : user_info) (w : env_world)
  (h : attach_header) (k : rstr) : option rstr :=
  let is_term := str_eqb k (lit "TERM") in
  let configured := match env cfg with Some e => e | None => [] end in
  first_of
    [ last_value k etc;
      only_if (negb is_term && negb (str_eqb k (lit "SSH_AUTH_SOCK"))) (last_value k (h_env h));
      only_if is_term (documented_term (lookup (lit "TERM") configured) (lookup (lit "TERM") (h_env h)));
      only_if (negb is_term) (lookup k configured);
      own_variable cfg dir agent_link u w h k ].
