(** shpool attach: libshpool/src/attach.rs 43-329.

    The client is a machine that issues requests and receives answers.  An answer
    that never comes, cannot be decoded, or is of the wrong kind is [AFail].  The
    file descriptors, the environment and the configuration may differ each time
    they are consulted, so they come with the answers. *)
From Coq Require Import List NArith ZArith Bool.
From Verif Require Import Model.Base Model.Protocol Model.Config Model.Duration Model.Template Model.Names Model.Pipe.
Import ListNotations.
Open Scope N_scope.

(** What the client looks at when it makes an attach request. attach.rs 101-136, 243-330. *)
Record client_world := {
  c_tty : option tty_size;               (* TtySize::from_fd(0) *)
  c_env : rstr -> option rstr;           (* env::var: None if unset or not Unicode *)
  c_cwd : option rstr;                   (* env::current_dir, lossily decoded *)
  c_config : config }.

(** attach.rs 399-404 (Templates). *)
Record templates := mkTemplates { tm_name : template; tm_cmd : option template; tm_dir : option template; tm_start : option template }.

(** attach.rs 406-411 (ResolvedTemplates). *)
Record resolved := mkResolved { r_name : rstr; r_cmd : option rstr; r_dir : option rstr; r_start : option rstr }.

(** [vars.iter().cloned().collect::<HashMap<_, _>>()]. attach.rs 110, 128. *)
Definition var_map (vars : var_list) : list (rstr * rstr) := fold_left (fun m p => insert (fst p) (snd p) m) vars [].

(** attach.rs 413-422 (Templates::apply). *)
Definition apply_templates (t : templates) (vars : var_list) : resolved :=
  let m := var_map vars in
  mkResolved (template_apply (tm_name t) m)
    (option_map (fun x => template_apply x m) (tm_cmd t))
    (option_map (fun x => template_apply x m) (tm_dir t))
    (option_map (fun x => template_apply x m) (tm_start t)).

(** The command line. attach.rs 43-53. *)
Record attach_args := mkArgs {
  a_name : rstr; a_force : bool; a_background : bool; a_ttl : option rstr;
  a_cmd : option rstr; a_dir : option rstr; a_start_cmd : option rstr }.

(** attach.rs 91-98 (Attach). *)
Record attach_client := mkClient { k_tmpls : templates; k_force : bool; k_background : bool; k_ttl : option N }.

(** attach.rs 57-82. [None]: rejected before anything is sent. *)
Definition opt_template (u : unicode) (o : option rstr) : option (option template) :=
  match o with
  | None => Some None
  | Some s => match template_new u s with Ok t => Some (Some t) | Err _ => None end
  end.

(** How attach.rs 43-89 goes before a daemon is dialled. *)
Inductive setup := Ready (k : attach_client) | Refused | SetupPanic.

(** attach.rs 57-89. *)
Definition attach_setup (u : unicode) (b : build) (a : attach_args) : setup :=
  match template_new u (a_name a), opt_template u (a_dir a), opt_template u (a_cmd a), opt_template u (a_start_cmd a) with
  | Ok n, Some d, Some c, Some s =>
      match a_ttl a with
      | None => Ready (mkClient (mkTemplates n c d s) (a_force a) (a_background a) None)
      | Some src =>
          match parse u b src with
          | Secs t => Ready (mkClient (mkTemplates n c d s) (a_force a) (a_background a) (Some t))
          | Rejected => Refused
          | Panicked => SetupPanic
          end
      end
  | _, _, _, _ => Refused
  end.

(** attach.rs 246-252. *)
Definition request_size (w : client_world) : tty_size :=
  match c_tty w with Some s => s | None => mkSize 24 80 0 0 end.

(** attach.rs 254-261: the variables considered, in order. *)
Definition forwarded_keys (w : client_world) : list rstr :=
  [lit "TERM"; lit "DISPLAY"; lit "LANG"; lit "SSH_AUTH_SOCK"] ++
  match forward_env (c_config w) with Some ks => ks | None => [] end.

(** attach.rs 278-284. *)
Definition request_env (w : client_world) : list (rstr * rstr) :=
  flat_map (fun k => match c_env w k with Some v => [(k, v)] | None => [] end) (forwarded_keys w).

(** attach.rs 264-272. *)
Definition start_dir (w : client_world) (cwd : rstr) (dir : option rstr) : option rstr :=
  let default_dir := match default_dir (c_config w) with Some d => d | None => lit "$HOME" end in
  match dir with
  | None => if str_eqb default_dir (lit ".") then Some cwd
            else if str_eqb default_dir (lit "$HOME") then None
            else Some default_dir
  | Some d => if str_eqb d (lit ".") then Some cwd else Some d
  end.

(** attach.rs 243-291; [None] if there is no current directory. *)
Definition attach_request (k : attach_client) (w : client_world) (r : resolved) : option attach_header :=
  match c_cwd w with
  | None => None
  | Some cwd =>
      Some (mkAttach (r_name r) (template_source (tm_name (k_tmpls k))) (request_size w) (request_env w)
              (k_ttl k) (r_cmd r) (start_dir w cwd (r_dir r)) (r_start r))
  end.

(** attach.rs 41. *)
Definition MAX_FORCE_RETRIES : nat := 20.

(** What attach.rs 101-330 asks the daemon. *)
Inductive request := GetVars | Attach (h : attach_header) | Detach (names : list rstr).

(** What the client does, in order: requests (each on its own connection), pauses,
    entering the streaming phase on the connection of the last attach request,
    redirecting window size changes, and exiting. attach.rs 101-330. *)
Inductive act := Request (r : request) | Sleep (ms : N) | Stream | ResizesGoTo (name : rstr) | Exits (code : Z).

(** How the streaming phase ended, from [pipe_bytes]. protocol.rs 250-519. *)
Inductive answer :=
| AVars (vars : var_list)
| AAttach (s : attach_status)
| ADetach (not_found not_attached : list rstr)
| APipe (r : pipe_result)
| AFail.

(** Where attach.rs 101-240 waits for the daemon. *)
Inductive client_state :=
| WantVars
| WantAttach (r : resolved) (tries : nat) (detached : bool)
| WantDetach (r : resolved) (tries : nat)
| WantBackgroundDetach
| Streaming (r : resolved)
| Ended.

Section Client.
  Variable k : attach_client.

  (** attach.rs 235; lib.rs 357-488. *)
  Definition exit_with (code : Z) : client_state * list act := (Ended, [Exits code]).

  (** attach.rs 162: one round of the loop. *)
  Definition try_attach (w : client_world) (r : resolved) (tries : nat) (detached : bool) : client_state * list act :=
    match attach_request k w r with
    | None => exit_with 1
    | Some h => (WantAttach r tries detached, [Request (Attach h)])
    end.

  (** attach.rs 140-160. *)
  Definition attach_resolved (w : client_world) (r : resolved) : client_state * list act :=
    match client_check (r_name r) with
    | Some _ => exit_with 0
    | None => try_attach w r 0 false
    end.

  (** attach.rs 191-199. *)
  Definition busy_again (w : client_world) (r : resolved) (tries : nat) : client_state * list act :=
    let '(s, es) := if Nat.ltb MAX_FORCE_RETRIES tries then exit_with 1
                    else try_attach w r (S tries) true in
    (s, Sleep 100 :: es).

  (** attach.rs 101-236 and 292-326, split at each answer. *)
  Definition client_step (w : client_world) (s : client_state) (a : answer) : client_state * list act :=
    match s, a with
    | WantVars, AVars vars =>
        let r := apply_templates (k_tmpls k) vars in
        let '(s', es) := attach_resolved w r in
        (s', (if k_background k then [] else [ResizesGoTo (r_name r)]) ++ es)
    | WantAttach r tries detached, AAttach st =>
        match st with
        | Busy => if negb (k_force k) then exit_with 0
                  else if negb detached then (WantDetach r tries, [Request (Detach [r_name r])])
                  else busy_again w r tries
        | Forbidden _ | UnexpectedError _ => exit_with 1
        | Attached _ | Created _ =>
            if k_background k then (WantBackgroundDetach, [Request (Detach [r_name r])])
            else (Streaming r, [Stream])
        end
    | WantDetach r tries, ADetach _ _ => busy_again w r tries
    | WantBackgroundDetach, ADetach _ _ => exit_with 0
    | Streaming _, APipe (Exit s) => exit_with s
    | Streaming _, APipe (Switch vars) =>
        let r := apply_templates (k_tmpls k) vars in
        let '(s', es) := attach_resolved w r in
        (s', ResizesGoTo (r_name r) :: es)
    | Ended, _ => (Ended, [])
    | _, _ => exit_with 1
    end.

  (** attach.rs 101-240, an answer at a time. *)
  Fixpoint client_run (s : client_state) (as_ : list (client_world * answer)) : client_state * list act :=
    match as_ with
    | [] => (s, [])
    | (w, a) :: rest =>
        let '(s', es) := client_step w s a in
        let '(s'', es') := client_run s' rest in (s'', es ++ es')
    end.

  (** attach.rs 101-107. *)
  Definition client_trace (as_ : list (client_world * answer)) : list act :=
    Request GetVars :: snd (client_run WantVars as_).

  (** attach.rs 225-228: the decision passed to [pipe_bytes] while attached as [r]. *)
  Definition follows (r : resolved) (vars : var_list) : bool :=
    negb (str_eqb (template_apply (tm_name (k_tmpls k)) (var_map vars)) (r_name r)).
End Client.

(** *** kill.rs, detach.rs and common.rs 76-89 *)

(** kill.rs 22, detach.rs 22. *)
Inductive cli_verb := KillVerb | DetachVerb.

(** common.rs 76-89. *)
Definition resolve_sessions (named : list rstr) (current : option rstr) : option (list rstr) :=
  match named with
  | [] => match current with Some c => Some [c] | None => None end
  | _ => Some named
  end.

(** A reply of the daemon: names it could not find, and (detach only) sessions
    without a client. kill.rs 22, detach.rs 22. *)
Definition reply := (list rstr * list rstr)%type.

(** kill.rs 22-56, detach.rs 22-60 with lib.rs's exit code: the request sent, if
    any, and the exit code.  [connected]: Client::new succeeded (a version mismatch
    only warns); [answer]: the reply, [None] if it could not be had. *)
Definition run_verb (v : cli_verb) (connected : bool) (current : option rstr) (answer : option reply) (named : list rstr)
  : option (list rstr) * Z :=
  if negb connected then (None, 1%Z)
  else match resolve_sessions named current with
       | None => (None, 1%Z)
       | Some sessions =>
           (Some sessions,
            match answer with
            | None => 1%Z
            | Some (not_found, not_attached) =>
                match not_found with
                | _ :: _ => 1%Z
                | [] => match v, not_attached with
                        | DetachVerb, _ :: _ => 1%Z
                        | _, _ => 0%Z
                        end
                end
            end)
       end.
