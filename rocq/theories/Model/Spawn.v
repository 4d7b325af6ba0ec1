(** Starting the shell: libshpool/src/daemon/server.rs 906-1108 and
    libshpool/src/daemon/shell_inject.rs 57-142. *)
From Coq Require Import List NArith Bool.
From Verif Require Import Model.Base Model.Sentinel Model.Protocol Model.Config Model.EtcEnvironment Model.Names Model.ShellEnv Spec.PathSpec.
Import ListNotations.
Open Scope N_scope.

(** [str::ends_with]. Used in server.rs 938-942 and 1307. *)
Definition ends_with (suffix s : rstr) : bool := match strip_suffix suffix s with Some _ => true | None => false end.

(** [Path::file_name]: the last component, if it is an ordinary one. Used in server.rs 1002. *)
Definition file_name (p : rstr) : option rstr :=
  match rev (components p) with Entry n :: _ => Some n | _ => None end.

(** server.rs 1306-1308. *)
Definition does_not_support_sentinels (shell : rstr) : bool := ends_with (lit "nu") shell.

(** The command server.rs 906-1010 builds. *)
Record spawned := mkSpawned {
  program : rstr; args : list rstr; arg0 : option rstr; cwd : rstr; echo_off : bool; supports_sentinels : bool }.

(** The errors of server.rs 906-1010. *)
Inductive spawn_error := BadQuoting | NoCommand | NoShellName.

Section Spawn.
  (** [shell_words::split]; [None] on unbalanced quotes. *)
  Variable split_words : rstr -> option (list rstr).

  (** server.rs 916-920: the configured shell, else the user's. *)
  Definition shell_path (cfg : config) (u : user_info) : rstr :=
    match shell cfg with Some s => s | None => default_shell u end.

  (** server.rs 916-948, 952-956, 992-1005, 1007, 1079-1084. *)
  Definition spawn_command (cfg : config) (u : user_info) (h : attach_header) : result spawned spawn_error :=
    let sh := shell_path cfg u in
    let dir := match h_dir h with None => home_dir u | Some p => p end in
    let noecho := match noecho cfg with Some b => b | None => false end in
    let prompt_prefix_is_blank := match prompt_prefix cfg with Some [] => true | _ => false end in
    let has_start_cmd := match h_start_cmd h with Some (_ :: _) => true | _ => false end in
    let sentinels := match h_cmd h with None => true | Some _ => false end
                     && (has_start_cmd || negb prompt_prefix_is_blank)
                     && negb (does_not_support_sentinels sh) in
    match h_cmd h with
    | Some c =>
        match split_words c with
        | None => Err BadQuoting
        | Some [] => Err NoCommand
        | Some (p :: rest) => Ok (mkSpawned p rest None dir noecho sentinels)
        end
    | None =>
        let norc_args :=
          match norc cfg with
          | Some true =>
              if ends_with (lit "bash") sh then [lit "--norc"; lit "--noprofile"]
              else if ends_with (lit "zsh") sh then [lit "--no-rcs"]
              else if ends_with (lit "fish") sh then [lit "--no-config"]
              else []
          | _ => []
          end in
        match file_name sh with
        | None => Err NoShellName
        | Some base => Ok (mkSpawned sh norc_args (Some (45 :: base)) dir noecho sentinels)
        end
    end.
End Spawn.

(** server.rs 1014-1016: the descriptors closed in the child before exec.  The upper
    bound is the numeric value of the enumerator SysconfVar::OPEN_MAX, libc's
    _SC_OPEN_MAX, which is 4 on Linux (not the limit it stands for). *)
Definition SC_OPEN_MAX : nat := 4.
(** server.rs 1014-1016. *)
Definition closed_fds : list nat := seq 3 (SC_OPEN_MAX - 3).

(** *** shell_inject.rs *)

(** shell_inject.rs 44-48. *)
Inductive known_shell := Bash | Zsh | Fish.

(** shell_inject.rs 204-218 (sniff_shell) applied to the process name. *)
Definition sniff_shell (proc_name : rstr) : option known_shell :=
  if ends_with (lit "bash") proc_name then Some Bash
  else if ends_with (lit "zsh") proc_name then Some Zsh
  else if ends_with (lit "fish") proc_name then Some Fish
  else None.

(** [str::replace]. Used in shell_inject.rs 72. *)
Fixpoint replace_from (pat by_ : rstr) (skip : nat) (s : rstr) : rstr :=
  match s with
  | [] => []
  | c :: s' =>
      match skip with
      | S k => replace_from pat by_ k s'
      | O => match strip_prefix pat s with
             | Some _ => by_ ++ replace_from pat by_ (length pat - 1) s'
             | None => c :: replace_from pat by_ 0 s'
             end
      end
  end.
(** shell_inject.rs 72. *)
Definition str_replace (pat by_ s : rstr) : rstr := replace_from pat by_ 0 s.

(** server.rs 59. *)
Definition DEFAULT_PROMPT_PREFIX : rstr := lit "shpool:$SHPOOL_SESSION_NAME ".

(** shell_inject.rs 75-92, around the prompt prefix. *)
Definition bash_1 : rstr := lit "
            if [[ -z ""${PROMPT_COMMAND+x}"" ]]; then
               PS1=""".
(** shell_inject.rs 75-92. *)
Definition bash_2 : rstr := lit "${PS1}""
            else
               SHPOOL__OLD_PROMPT_COMMAND=(""${PROMPT_COMMAND[@]}"")
               SHPOOL__OLD_PS1=""${PS1}""
               function __shpool__prompt_command() {
                  PS1=""${SHPOOL__OLD_PS1}""
                  for prompt_hook in ""${SHPOOL__OLD_PROMPT_COMMAND[@]}""
                  do
                    eval ""${prompt_hook}""
                  done
                  PS1=""".
(** shell_inject.rs 75-92. *)
Definition bash_3 : rstr := lit "${PS1}""
               }
               PROMPT_COMMAND=__shpool__prompt_command
            fi
        ".
(** shell_inject.rs 94-106, around the prompt prefix. *)
Definition zsh_1 : rstr := lit "
            typeset -a precmd_functions
            SHPOOL__OLD_PROMPT=""${PROMPT}""
            function __shpool__reset_rprompt() {
                PROMPT=""${SHPOOL__OLD_PROMPT}""
            }
            precmd_functions[1,0]=(__shpool__reset_rprompt)
            function __shpool__prompt_command() {
               PROMPT=""".
(** shell_inject.rs 94-106. *)
Definition zsh_2 : rstr := lit "${PROMPT}""
            }
            precmd_functions+=(__shpool__prompt_command)
        ".
(** shell_inject.rs 108-112, around the prompt prefix. *)
Definition fish_1 : rstr := lit "
            functions --copy fish_prompt shpool__old_prompt
            function fish_prompt; echo -n """.
(** shell_inject.rs 108-112. *)
Definition fish_2 : rstr := lit """; shpool__old_prompt; end
        ".

(** shell_inject.rs 71-120: the prompt part of the script. *)
Definition prompt_script (which : option known_shell) (prefix : rstr) : rstr :=
  match which with
  | Some Bash => bash_1 ++ prefix ++ bash_2 ++ prefix ++ bash_3
  | Some Zsh => zsh_1 ++ prefix ++ zsh_2
  | Some Fish => fish_1 ++ prefix ++ fish_2
  | None => []
  end.

(** consts.rs 40. *)
Definition SENTINEL_FLAG_VAR : rstr := lit "SHPOOL__INTERNAL__PRINT_SENTINEL".

(** shell_inject.rs 135, and 147-150 for the startup sentinel. *)
Definition sentinel_cmd (which exe : rstr) : rstr :=
  10 :: lit " " ++ SENTINEL_FLAG_VAR ++ lit "=" ++ which ++ lit " " ++ exe ++ lit " daemon" ++ [10].

(** lib.rs 374-385: what the program prints before doing anything else; [None] means
    that it carries on.  The command line matters only by its command being [daemon],
    the environment only by the one variable (a value that is not text counts as
    unset, as [env::var] then fails). *)
Definition print_sentinel (command_is_daemon : bool) (env : rstr -> option rstr) : option rstr :=
  match command_is_daemon, env SENTINEL_FLAG_VAR with
  | true, Some v =>
      if str_eqb v (lit "prompt") then Some (PROMPT_SENTINEL ++ [10])
      else if str_eqb v (lit "startup") then Some (STARTUP_SENTINEL ++ [10])
      else None
  | _, _ => None
  end.

(** What happens while the script is prepared and sent. shell_inject.rs 57-142. *)
Record inject_world := {
  startup_seen : bool;        (* wait_for_startup found its sentinel; a failure to type the
                                 startup command counts as not seeing it *)
  proc_name : option rstr;    (* libproc's answer for the shell's pid *)
  exe : option rstr;          (* exe::current *)
  write_ok : bool }.

(** shell_inject.rs 57-142 (maybe_setup): the bytes typed into the shell, in order,
    and whether it reported success. *)
Definition maybe_setup (w : inject_world) (prompt_prefix start_cmd session_name : rstr) : list rstr * bool :=
  match exe w with
  | None => ([], false)
  | Some exe =>
      let startup := sentinel_cmd (lit "startup") exe in
      if negb (startup_seen w) then ([startup], false)
      else
        let prefix := str_replace (lit "$SHPOOL_SESSION_NAME") session_name prompt_prefix in
        let which := match proc_name w with Some n => sniff_shell n | None => None end in
        let script := prompt_script which prefix in
        let script := match start_cmd with [] => script | _ => script ++ 10 :: start_cmd ++ [10] end in
        let script := script ++ sentinel_cmd (lit "prompt") exe in
        ([startup; script], write_ok w)
  end.

(** server.rs 1090-1107: what is typed into a new shell, and whether the prompt
    sentinel will be awaited (the failure of maybe_setup is only logged). *)
Definition inject (w : inject_world) (cfg : config) (h : attach_header) (sp : spawned) : list rstr * bool :=
  if supports_sentinels sp then
    let prefix := match prompt_prefix cfg with Some p => p | None => DEFAULT_PROMPT_PREFIX end in
    let start := match h_start_cmd h with Some c => c | None => [] end in
    (fst (maybe_setup w prefix start (h_name h)), true)
  else ([], false).
