(** C30: shell environment precedence. *)
From Coq Require Import List NArith Bool Lia.
From Verif Require Import Model.Base Model.Protocol Model.Config Model.EtcEnvironment Model.Names Model.ShellEnv
  Spec.ShellEnvSpec Proofs.BaseLemmas Proofs.ShellEnvProofs.
Import ListNotations.
Open Scope N_scope.

(** For every configuration, user, client header and /etc/environment, each variable
    of the new shell has the value of the highest priority source that sets it, and is
    unset if none does. *)
Theorem C30_highest_priority_source_wins : forall cfg runtime_dir u w h entries etc,
  (forall e, env cfg = Some e -> NoDup (map fst e)) ->
  match noread_etc_environment cfg, etc_environment w with
  | Some true, _ | _, None => etc = []
  | _, Some contents => parse_compat contents = Ok etc
  end ->
  build_shell_env cfg runtime_dir u w h = Ok entries ->
  forall k, process_env entries k =
    expected etc cfg (session_dir runtime_dir (h_name h)) (ssh_auth_sock_symlink runtime_dir (h_name h)) u w h k.
Proof. exact process_env_expected. Qed.
Print Assumptions C30_highest_priority_source_wins.

(** The environment can only fail to be built when /etc/environment is to be read,
    can be opened, and is not text. *)
Theorem C30_only_etc_environment_can_fail : forall cfg runtime_dir u w h,
  (exists e, build_shell_env cfg runtime_dir u w h = Err e) <->
  noread_etc_environment cfg <> Some true /\ etc_environment w = Some None.
Proof.
  intros cfg rt u w h. unfold build_shell_env. cbv zeta.
  destruct (noread_etc_environment cfg) as [[]|].
  - split; [intros (e & H); discriminate|intros (H & _); congruence].
  - destruct (etc_environment w) as [[c|]|]; cbn.
    + split; [intros (e & H); discriminate|intros (_ & H); discriminate].
    + split; [intros _; split; congruence|intros _; exists tt; reflexivity].
    + split; [intros (e & H); discriminate|intros (_ & H); discriminate].
  - destruct (etc_environment w) as [[c|]|]; cbn.
    + split; [intros (e & H); discriminate|intros (_ & H); discriminate].
    + split; [intros _; split; congruence|intros _; exists tt; reflexivity].
    + split; [intros (e & H); discriminate|intros (_ & H); discriminate].
Qed.
Print Assumptions C30_only_etc_environment_can_fail.

(** The documented TERM rules, whatever the client forwards, as long as
    /etc/environment does not set TERM: configured value, else the client's; a blank
    configured value leaves TERM unset. *)
Theorem C30_term_rules : forall cfg runtime_dir u w h entries,
  (forall e, env cfg = Some e -> NoDup (map fst e)) -> noread_etc_environment cfg = Some true ->
  build_shell_env cfg runtime_dir u w h = Ok entries ->
  process_env entries (lit "TERM") =
    documented_term (lookup (lit "TERM") (match env cfg with Some e => e | None => [] end)) (lookup (lit "TERM") (h_env h)).
Proof.
  intros cfg rt u w h entries Hd Hn Hb. rewrite (process_env_expected cfg rt u w h entries [] Hd) by (try rewrite Hn; auto).
  unfold expected, own_variable. cbn.
  destruct (documented_term _ _); [reflexivity|]. reflexivity.
Qed.
Print Assumptions C30_term_rules.

(** The agent variable is the per-session link: the client's own value is never passed
    on; only an explicit configuration or /etc/environment overrides it. *)
(** Missing for the full claim: that the link exists; refuted below. *)
Theorem C30_agent_is_the_link_partial : forall cfg runtime_dir u w h entries,
  (forall e, env cfg = Some e -> NoDup (map fst e) /\ lookup (lit "SSH_AUTH_SOCK") e = None) ->
  noread_etc_environment cfg = Some true ->
  build_shell_env cfg runtime_dir u w h = Ok entries ->
  process_env entries (lit "SSH_AUTH_SOCK") = Some (ssh_auth_sock_symlink runtime_dir (h_name h)).
Proof.
  intros cfg rt u w h entries Hd Hn Hb.
  rewrite (process_env_expected cfg rt u w h entries []); [|intros e He; apply (Hd e He)|rewrite Hn; reflexivity|assumption].
  assert (Hc : lookup (lit "SSH_AUTH_SOCK") match env cfg with Some e => e | None => [] end = None).
  { destruct (env cfg) as [e|] eqn:Ee; [|reflexivity]. apply (Hd e eq_refl). }
  unfold expected. cbv zeta. cbn [first_of last_value].
  match goal with |- context [lookup (lit "SSH_AUTH_SOCK") ?x] => replace (lookup (lit "SSH_AUTH_SOCK") x) with (@None rstr) by (symmetry; exact Hc) end.
  reflexivity.
Qed.
Print Assumptions C30_agent_is_the_link_partial.

Definition plain_header (env : list (rstr * rstr)) : attach_header :=
  mkAttach (lit "main") (lit "main") (mkSize 24 80 0 0) env None None None None.
Definition someone : user_info := mkUser (lit "/home/u") (lit "/bin/bash") (lit "u").

(** /etc/environment has the last word even over what identifies the session: a line
    there makes every shell believe it is in another session. *)
Theorem C30_session_name_can_be_overridden_refuted :
  exists cfg w h entries, build_shell_env cfg (lit "/run") someone w h = Ok entries /\
    process_env entries (lit "SHPOOL_SESSION_NAME") <> Some (h_name h).
Proof.
  exists default_config, {| xdg_runtime_dir := None; etc_environment := Some (Some (lit "SHPOOL_SESSION_NAME=other")) |}, (plain_header []).
  eexists. split; [vm_compute; reflexivity|]. vm_compute. discriminate.
Qed.
Print Assumptions C30_session_name_can_be_overridden_refuted.

(** Session restore may use the terminfo of another TERM than the one the shell has. *)
Theorem C30_terminfo_matches_shell_refuted :
  exists cfg w h entries, build_shell_env cfg (lit "/run") someone w h = Ok entries /\
    terminfo_term entries = Some (lit "xterm") /\ process_env entries (lit "TERM") = Some (lit "dumb").
Proof.
  exists default_config, {| xdg_runtime_dir := None; etc_environment := Some (Some (lit "TERM=dumb")) |}, (plain_header [(lit "TERM", lit "xterm")]).
  eexists. split; [vm_compute; reflexivity|]. split; vm_compute; reflexivity.
Qed.
Print Assumptions C30_terminfo_matches_shell_refuted.

(** With the agent link switched off, SSH_AUTH_SOCK still names the link that is not made. *)
Theorem C30_agent_link_missing_refuted :
  exists cfg w h entries, nosymlink_ssh_auth_sock cfg = Some true /\
    build_shell_env cfg (lit "/run") someone w h = Ok entries /\
    link_ssh_auth_sock (nosymlink_ssh_auth_sock cfg) (lit "/run") h = None /\
    lookup (lit "SSH_AUTH_SOCK") (h_env h) = Some (lit "/tmp/agent") /\
    process_env entries (lit "SSH_AUTH_SOCK") = Some (ssh_auth_sock_symlink (lit "/run") (h_name h)).
Proof.
  exists (mkConfig None None (Some true) None None None None None None None None None None None None None None None None None),
    {| xdg_runtime_dir := None; etc_environment := None |}, (plain_header [(lit "SSH_AUTH_SOCK", lit "/tmp/agent")]).
  eexists. split; [reflexivity|]. split; [vm_compute; reflexivity|]. split; [reflexivity|]. split; vm_compute; reflexivity.
Qed.
Print Assumptions C30_agent_link_missing_refuted.

(** All the sources at once. *)
Example C30_nonvacuous :
  let cfg := mkConfig None None None None None None None (Some [(lit "EDITOR", lit "vi"); (lit "LANG", lit "C")]) None None (Some (lit "/p")) None None None None None None None None None in
  let w := {| xdg_runtime_dir := Some (lit "/run/u"); etc_environment := Some (Some (lit "EDITOR=nano")) |} in
  exists entries,
  build_shell_env cfg (lit "/run/shpool") someone w
    (plain_header [(lit "TERM", lit "xterm"); (lit "LANG", lit "de"); (lit "SSH_AUTH_SOCK", lit "/tmp/agent")]) = Ok entries /\
  map (process_env entries) [lit "HOME"; lit "PATH"; lit "EDITOR"; lit "LANG"; lit "TERM"; lit "SSH_AUTH_SOCK"; lit "XDG_RUNTIME_DIR"; lit "DISPLAY"] =
  [Some (lit "/home/u"); Some (lit "/p"); Some (lit "nano"); Some (lit "de"); Some (lit "xterm");
   Some (lit "/run/shpool/sessions/main/ssh-auth-sock.socket"); Some (lit "/run/u"); None].
Proof. eexists. split; [vm_compute; reflexivity|]. vm_compute. reflexivity. Qed.
