(** C55: a daemon launched by a client is like one started by hand. *)
From Coq Require Import List NArith Bool Lia.
From Verif Require Import Model.Base Model.Names Model.Launch Spec.PathSpec Spec.LaunchSpec Proofs.BaseLemmas Proofs.NamesProofs Proofs.LaunchProofs.
Import ListNotations.
Open Scope N_scope.

(** When a client looks for a daemon to launch: -D wins over -d, -d over the configuration. *)
Theorem C55_when : forall nodaemonize a,
  may_launch nodaemonize a = true <->
  a_is_daemon a = false /\ a_no_daemonize a = false /\ (nodaemonize <> Some true \/ a_daemonize a = true).
Proof.
  intros nd a. unfold may_launch.
  destruct nd as [[]|], (a_daemonize a), (a_no_daemonize a), (a_is_daemon a); cbn; intuition congruence.
Qed.
Print Assumptions C55_when.

(** If the path of the socket is absolute, the launched daemon listens where the client
    will connect, its events socket is where the events command looks, it reads the same
    configuration file, and shells start in the same directory as with a daemon started
    by hand.  Missing: relative paths, the umask and the place of the session
    directories, for which it is false (below). *)
Theorem C55_same_partial : forall hash e a client dir socket,
  locations hash e (a_socket a) = Some (dir, socket) -> absolute socket ->
  let daemon := daemon_process true client in
  let a' := launched_arguments a socket in
  (exists dir', locations hash e (a_socket a') = Some (dir', socket)) /\
  a_config_file a' = a_config_file a /\ a_is_daemon a' = true /\
  open_at daemon socket = open_at client socket /\
  open_at daemon (events_socket socket) = open_at client (events_socket socket) /\
  (forall config, absolute config -> open_at daemon config = open_at client config) /\
  (forall start, absolute start -> cwd (shell_process daemon start) = cwd (shell_process (daemon_process false client) start)).
Proof.
  intros hash e a client dir socket L A. cbn zeta. split.
  - unfold locations in *. destruct (runtime_base e) as [b|]; [|discriminate]. cbn. eexists. reflexivity.
  - repeat split; intros; unfold shell_process; cbn [cwd]; rewrite ?open_absolute by (assumption || apply absolute_with_file_name; assumption); reflexivity.
Qed.
Print Assumptions C55_same_partial.

(** The default socket is absolute if the directory it is derived from is. *)
Theorem C55_default_is_absolute : forall hash e dir socket,
  locations hash e None = Some (dir, socket) ->
  (forall d, xdg_runtime_dir e = Some d -> absolute d) -> (forall d, home e = Some d -> absolute d) ->
  absolute dir /\ absolute socket.
Proof.
  intros hash e dir socket. unfold locations, runtime_base. intros H Hx Hh.
  destruct (xdg_runtime_dir e) as [x|].
  - specialize (Hx x eq_refl). assert (A := absolute_join x (lit "shpool") Hx). assert (B := absolute_join _ (lit "shpool.socket") A).
    remember (path_join x (lit "shpool")) as b. remember (path_join b (lit "shpool.socket")) as k. injection H as <- <-. auto.
  - destruct (home e) as [h|]; [|discriminate]. specialize (Hh h eq_refl).
    assert (A := absolute_join _ (lit "shpool") (absolute_join _ (lit "run") (absolute_join h (lit ".local") Hh))).
    assert (B := absolute_join _ (lit "shpool.socket") A). remember (path_join (path_join (path_join h _) _) _) as b.
    remember (path_join b (lit "shpool.socket")) as k. injection H as <- <-. auto.
Qed.
Print Assumptions C55_default_is_absolute.

(** A relative socket: the launched daemon has moved to the root directory and listens
    somewhere else, for every name of a socket and everywhere but in the root directory. *)
Theorem C55_relative_socket_refuted : forall client name,
  ~ In 47 name -> name <> [] -> name <> lit "." -> name <> lit ".." -> components (cwd client) <> [Root] ->
  ~ same_file (open_at (daemon_process true client) name) (open_at client name).
Proof.
  intros client name A B C D H E. unfold same_file, open_at in E. cbn [daemon_process daemonize cwd] in E.
  rewrite !components_join in E by assumption. apply app_inv_tail in E. apply H. symmetry. exact E.
Qed.
Print Assumptions C55_relative_socket_refuted.

(** The umask of the user is lost: every shell of a launched daemon runs with umask 0. *)
Theorem C55_umask_refuted : forall client start,
  umask (shell_process (daemon_process true client) start) = 0 /\
  umask (shell_process (daemon_process false client) start) = umask client.
Proof. split; reflexivity. Qed.
Print Assumptions C55_umask_refuted.

(** Where a shell starts: in the directory asked for if that is absolute, otherwise in the
    entry of that name of the daemon's own directory. *)
Theorem C55_start_directory : forall daemon start,
  (absolute start -> cwd (shell_process daemon start) = start) /\
  (~ In 47 start -> start <> [] -> start <> lit "." -> start <> lit ".." ->
   components (cwd (shell_process daemon start)) = components (cwd daemon) ++ [Entry start]) /\
  umask (shell_process daemon start) = umask daemon.
Proof.
  intros daemon start. split; [|split; [|reflexivity]].
  - intros H. unfold shell_process. cbn [cwd]. apply open_absolute. exact H.
  - intros A B C D. unfold shell_process, open_at. cbn [cwd]. apply components_join; assumption.
Qed.
Print Assumptions C55_start_directory.

(** So a relative start directory means another directory to a launched daemon. *)
Theorem C55_relative_start_refuted : forall client name,
  ~ In 47 name -> name <> [] -> name <> lit "." -> name <> lit ".." -> components (cwd client) <> [Root] ->
  ~ same_file (cwd (shell_process (daemon_process true client) name)) (cwd (shell_process (daemon_process false client) name)).
Proof. exact C55_relative_socket_refuted. Qed.
Print Assumptions C55_relative_start_refuted.

(** The session directories (with the agent links and env files) are elsewhere than with
    a daemon started by hand on the same default socket, for every session. *)
Theorem C55_session_directories_refuted : forall hash e a client_dir socket,
  a_socket a = None -> locations hash e None = Some (client_dir, socket) ->
  exists daemon_dir, locations hash e (a_socket (launched_arguments a socket)) = Some (daemon_dir, socket) /\
  forall n, good_name n -> ~ same_file (session_dir daemon_dir n) (session_dir client_dir n).
Proof.
  intros hash e a cd socket _ L. unfold locations in *. destruct (runtime_base e) as [b|]; [|discriminate].
  remember (path_join b (lit "shpool.socket")) as k.
  injection L as <- <-. cbn [launched_arguments a_socket]. eexists. split; [reflexivity|]. intros n Hn. unfold same_file, session_dir.
  destruct (good_name_entry n Hn) as (N1 & N2 & N3 & N4).
  destruct (hex_entry (hash k)) as (A1 & A2 & A3 & A4 & A5).
  assert (S : ~ In 47 (lit "sessions")) by (vm_compute; intros F; repeat destruct F as [F|F]; try discriminate; contradiction).
  rewrite (components_join _ n) by assumption. rewrite (components_join _ (lit "sessions")) by (assumption || discriminate).
  rewrite (components_join _ (hex _)) by assumption. rewrite (components_join _ n) by assumption.
  rewrite (components_join _ (lit "sessions")) by (assumption || discriminate).
  rewrite <- !app_assoc. intros E. apply app_inv_head in E. injection E as E _. contradiction.
Qed.
Print Assumptions C55_session_directories_refuted.

(** What a launched daemon logs: it is told of a file beside its socket, and not to be
    verbose or to launch anything, whatever the client was told. *)
Theorem C55_log : forall a dir name, ~ In 47 name ->
  launched_arguments a (dir ++ 47 :: name) =
  {| a_socket := Some (dir ++ 47 :: name); a_config_file := a_config_file a;
     a_log_file := Some (dir ++ lit "/daemonized-shpool.log"); a_verbose := 0;
     a_daemonize := false; a_no_daemonize := false; a_is_daemon := true |}.
Proof.
  intros a dir name H. unfold launched_arguments, daemon_log, with_file_name.
  replace (dir ++ 47 :: name) with ((dir ++ [47]) ++ name) at 2 by (rewrite <- app_assoc; reflexivity).
  rewrite dir_part_unique; [|right; exists dir; reflexivity|assumption]. rewrite <- app_assoc. reflexivity.
Qed.
Print Assumptions C55_log.

(** So the log file and the verbosity that were asked for do not reach it. *)
Theorem C55_log_options_refuted : forall a dir name, ~ In 47 name -> a_verbose a <> 0 ->
  a_verbose (launched_arguments a (dir ++ 47 :: name)) <> a_verbose a /\
  (a_log_file a <> Some (dir ++ lit "/daemonized-shpool.log") -> a_log_file (launched_arguments a (dir ++ 47 :: name)) <> a_log_file a).
Proof. intros a dir name H V. rewrite C55_log by assumption. cbn [a_verbose a_log_file]. split; intros; congruence. Qed.
Print Assumptions C55_log_options_refuted.

(** Two users: everything by default, and -d with a socket of one's own. *)
Example C55_nonvacuous :
  let e := mkSurroundings (Some (lit "/run/user/1000")) (Some (lit "/home/me")) in
  let hash := fun _ : rstr => 4096 in
  let client := mkProcess (lit "/home/me") 18 in
  let plain := mkArguments None None None 0 false false false in
  let own := mkArguments (Some (lit "s.sock")) None None 0 true false false in
  locations hash e (a_socket plain) = Some (lit "/run/user/1000/shpool", lit "/run/user/1000/shpool/shpool.socket") /\
  absolute (lit "/run/user/1000/shpool/shpool.socket") /\
  may_launch None plain = true /\ may_launch (Some true) plain = false /\ may_launch (Some true) own = true /\
  components (cwd client) <> [Root] /\
  open_at (daemon_process true client) (lit "s.sock") = lit "/s.sock" /\ open_at client (lit "s.sock") = lit "/home/me/s.sock" /\
  locations hash e (a_socket (launched_arguments plain (lit "/run/user/1000/shpool/shpool.socket"))) =
    Some (lit "/run/user/1000/shpool/1000", lit "/run/user/1000/shpool/shpool.socket") /\
  daemon_log (lit "/run/user/1000/shpool/shpool.socket") = lit "/run/user/1000/shpool/daemonized-shpool.log".
Proof.
  cbv zeta. repeat split; try reflexivity; [eexists; reflexivity|vm_compute; discriminate].
Qed.
