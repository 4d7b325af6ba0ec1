(** C48: spawned command line. *)
From Coq Require Import List NArith Bool Lia.
From Verif Require Import Model.Base Model.Protocol Model.Config Model.EtcEnvironment Model.Names Model.ShellEnv Model.Spawn
  Spec.PathSpec Spec.SpawnSpec Proofs.BaseLemmas Proofs.EtcEnvironmentProofs Proofs.NamesProofs Proofs.SpawnProofs.
Import ListNotations.
Open Scope N_scope.

Definition the_shell (cfg : config) (u : user_info) : rstr := match shell cfg with Some s => s | None => default_shell u end.

(** Without a command: the configured shell (else the user's) is run as a login
    shell, its name preceded by a dash; for every directory and every file name. *)
Theorem C48_login_shell : forall split cfg u h dir name,
  h_cmd h = None -> ~ In 47 name -> name <> [] -> name <> [46] -> name <> [46; 46] ->
  the_shell cfg u = path_join dir name ->
  exists sp, spawn_command split cfg u h = Ok sp /\
    program sp = the_shell cfg u /\ arg0 sp = Some (lit "-" ++ name) /\
    cwd sp = match h_dir h with None => home_dir u | Some d => d end.
Proof.
  intros split cfg u h dir name Hc H1 H2 H3 H4 Hs. unfold spawn_command. rewrite Hc. cbv zeta.
  assert (Hf : file_name (shell_path cfg u) = Some name).
  { unfold file_name. change (shell_path cfg u) with (the_shell cfg u). rewrite Hs, components_join by assumption.
    rewrite rev_app_distr. reflexivity. }
  rewrite Hf. eexists. split; [reflexivity|]. repeat split.
Qed.
Print Assumptions C48_login_shell.

(** With a command: exactly that command is run, split like a shell would, and no
    login shell; a command that does not split or is empty is refused. *)
Theorem C48_command : forall split cfg u h c, h_cmd h = Some c ->
  match split c with
  | Some (p :: rest) => exists sp, spawn_command split cfg u h = Ok sp /\
      program sp = p /\ args sp = rest /\ arg0 sp = None /\ supports_sentinels sp = false /\
      cwd sp = match h_dir h with None => home_dir u | Some d => d end
  | Some [] => spawn_command split cfg u h = Err NoCommand
  | None => spawn_command split cfg u h = Err BadQuoting
  end.
Proof.
  intros split cfg u h c Hc. unfold spawn_command. rewrite Hc. cbv zeta.
  destruct (split c) as [[|p rest]|]; [reflexivity| |reflexivity]. eexists. split; [reflexivity|]. repeat split.
Qed.
Print Assumptions C48_command.

(** Nothing else is refused: a shell whose path has no last component, and a command
    as above. *)
Theorem C48_refused_exactly_when : forall split cfg u h err,
  spawn_command split cfg u h = Err err <->
  match h_cmd h with
  | None => err = NoShellName /\ (forall dir name, components (the_shell cfg u) <> dir ++ [Entry name])
  | Some c => err = BadQuoting /\ split c = None \/ err = NoCommand /\ split c = Some []
  end.
Proof.
  intros split cfg u h err. unfold spawn_command. cbv zeta. change (the_shell cfg u) with (shell_path cfg u).
  destruct (h_cmd h) as [c|].
  - destruct (split c) as [[|p rest]|].
    + split; [intros [= <-]; right; split; reflexivity|intros [(_ & H)|(-> & _)]; [discriminate|reflexivity]].
    + split; [discriminate|intros [(_ & H)|(_ & H)]; discriminate].
    + split; [intros [= <-]; left; split; reflexivity|intros [(-> & _)|(_ & H)]; [reflexivity|discriminate]].
  - unfold file_name. destruct (rev (components (shell_path cfg u))) as [|x l] eqn:E.
    + split.
      * intros [= <-]. split; [reflexivity|]. intros dir name F. rewrite F, rev_app_distr in E. discriminate.
      * intros (-> & _). reflexivity.
    + assert (E' : components (shell_path cfg u) = rev l ++ [x]).
      { rewrite <- (rev_involutive (components (shell_path cfg u))), E. reflexivity. }
      destruct x; try (split;
        [intros [= <-]; split; [reflexivity|]; intros dir name F; rewrite F, rev_app_distr in E; discriminate
        |intros (-> & _); reflexivity]).
      split; [discriminate|]. intros (_ & H). exfalso. eapply H. exact E'.
Qed.
Print Assumptions C48_refused_exactly_when.

(** The shell's own arguments: none unless `norc` is set, and then those that make
    bash, zsh and fish skip their startup files. *)
(** Missing for the full claim: other shells, which read their startup files all the
    same; refuted below. *)
Theorem C48_norc_partial : forall split cfg u h sp, h_cmd h = None -> spawn_command split cfg u h = Ok sp ->
  (norc cfg <> Some true -> args sp = []) /\
  (norc cfg = Some true ->
     ((exists d, the_shell cfg u = d ++ lit "bash") -> args sp = [lit "--norc"; lit "--noprofile"]) /\
     ((exists d, the_shell cfg u = d ++ lit "zsh") -> args sp = [lit "--no-rcs"]) /\
     ((exists d, the_shell cfg u = d ++ lit "fish") -> args sp = [lit "--no-config"]) /\
     ((forall d, the_shell cfg u <> d ++ lit "bash" /\ the_shell cfg u <> d ++ lit "zsh" /\ the_shell cfg u <> d ++ lit "fish") ->
        args sp = [])).
Proof.
  intros split cfg u h sp Hc H. unfold spawn_command in H. rewrite Hc in H. cbv zeta in H.
  destruct (file_name (shell_path cfg u)); [|discriminate]. injection H as <-. cbn [args].
  change (the_shell cfg u) with (shell_path cfg u).
  assert (Hx : forall a b, length a = length b -> a <> b -> forall s, ends_with a s = true -> ends_with b s = true -> False).
  { intros a b Hl Hn s Ha Hb. apply ends_with_iff in Ha. apply ends_with_iff in Hb.
    destruct Ha as (x & ->). destruct Hb as (y & E). apply Hn.
    assert (El : length x = length y) by (apply (f_equal (@length N)) in E; rewrite !app_length in E; lia).
    apply (f_equal (skipn (length x))) in E. rewrite skipn_app, skipn_all, PeanoNat.Nat.sub_diag in E.
    rewrite El, skipn_app, skipn_all, PeanoNat.Nat.sub_diag in E. exact E. }
  assert (Hsh : forall s, ends_with (lit "bash") s = true -> ends_with (lit "zsh") s = true -> False).
  { intros s Ha Hb. apply ends_with_iff in Ha. apply ends_with_iff in Hb. destruct Ha as (x & ->). destruct Hb as (y & E).
    apply (f_equal (@rev N)) in E. rewrite !rev_app_distr in E. vm_compute in E. discriminate. }
  assert (Hzf : forall s, ends_with (lit "zsh") s = true -> ends_with (lit "fish") s = true -> False).
  { intros s Ha Hb. apply ends_with_iff in Ha. apply ends_with_iff in Hb. destruct Ha as (x & ->). destruct Hb as (y & E).
    apply (f_equal (@rev N)) in E. rewrite !rev_app_distr in E. vm_compute in E. discriminate. }
  assert (Hbf : forall s, ends_with (lit "bash") s = true -> ends_with (lit "fish") s = true -> False).
  { apply Hx; [reflexivity|discriminate]. }
  set (s := shell_path cfg u) in *.
  split.
  - intros Hn. destruct (norc cfg) as [[]|]; congruence.
  - intros Hn. rewrite Hn. split; [|split; [|split]].
    + intros E. apply ends_with_iff in E. rewrite E. reflexivity.
    + intros E. apply ends_with_iff in E. rewrite E. destruct (ends_with (lit "bash") s) eqn:Eb; [|reflexivity].
      exfalso. eapply Hsh; eassumption.
    + intros E. apply ends_with_iff in E. rewrite E. destruct (ends_with (lit "bash") s) eqn:Eb; [exfalso; eapply Hbf; eassumption|].
      destruct (ends_with (lit "zsh") s) eqn:Ez; [exfalso; eapply Hzf; eassumption|]. reflexivity.
    + intros E. destruct (ends_with (lit "bash") s) eqn:Eb.
      { apply ends_with_iff in Eb. destruct Eb as (d & Eb). destruct (E d) as (F & _). contradiction. }
      destruct (ends_with (lit "zsh") s) eqn:Ez.
      { apply ends_with_iff in Ez. destruct Ez as (d & Ez). destruct (E d) as (_ & F & _). contradiction. }
      destruct (ends_with (lit "fish") s) eqn:Ef; [|reflexivity].
      apply ends_with_iff in Ef. destruct Ef as (d & Ef). destruct (E d) as (_ & _ & F). contradiction.
Qed.
Print Assumptions C48_norc_partial.

(** When the prompt sentinel is awaited: no command given, something to inject (a
    prompt prefix that is not blank, or a start command), and a shell that is not nu. *)
(** Missing for the full claim: that what is injected will print the sentinel;
    refuted below. *)
Theorem C48_sentinel_awaited_exactly_when_partial : forall split cfg u h sp, spawn_command split cfg u h = Ok sp ->
  (supports_sentinels sp = true <->
   h_cmd h = None /\ (prompt_prefix cfg <> Some [] \/ exists c, h_start_cmd h = Some c /\ c <> []) /\
   forall d, the_shell cfg u <> d ++ lit "nu").
Proof.
  intros split cfg u h sp H.
  assert (Hs : supports_sentinels sp =
     match h_cmd h with None => true | Some _ => false end
     && (match h_start_cmd h with Some (_ :: _) => true | _ => false end
         || negb match prompt_prefix cfg with Some [] => true | _ => false end)
     && negb (ends_with (lit "nu") (the_shell cfg u))).
  { unfold spawn_command in H. cbv zeta in H. change (the_shell cfg u) with (shell_path cfg u).
    destruct (h_cmd h) as [c|]; [|destruct (file_name (shell_path cfg u)); [|discriminate]; injection H as <-; reflexivity].
    destruct (split c) as [[|p rest]|]; try discriminate. injection H as <-. reflexivity. }
  rewrite Hs, !andb_true_iff, orb_true_iff, !negb_true_iff. split.
  - intros ((Hc & Hp) & Hn). split; [destruct (h_cmd h); congruence|]. split.
    + destruct Hp as [Hp|Hp].
      * right. destruct (h_start_cmd h) as [[|x c]|]; try discriminate. exists (x :: c). split; [reflexivity|discriminate].
      * left. intros E. rewrite E in Hp. discriminate.
    + intros d E. assert (ends_with (lit "nu") (the_shell cfg u) = true) by (apply ends_with_iff; exists d; assumption). congruence.
  - intros (Hc & Hp & Hn). split; [split|].
    + rewrite Hc. reflexivity.
    + destruct Hp as [Hp|(c & Hp & Hne)].
      * right. destruct (prompt_prefix cfg) as [[|]|]; try reflexivity; exfalso; apply Hp; reflexivity.
      * left. rewrite Hp. destruct c; congruence.
    + destruct (ends_with (lit "nu") (the_shell cfg u)) eqn:E; [|reflexivity]. apply ends_with_iff in E. destruct E as (d & E).
      exfalso. eapply Hn. exact E.
Qed.
Print Assumptions C48_sentinel_awaited_exactly_when_partial.

(** When injection goes well, what is typed last is the command that prints the
    awaited sentinel, and the start command was typed, verbatim, before it. *)
Theorem C48_injected_text : forall w cfg h sp e, supports_sentinels sp = true ->
  exe w = Some e -> startup_seen w = true ->
  exists before, fst (inject w cfg h sp) =
     [sentinel_cmd (lit "startup") e; before ++ sentinel_cmd (lit "prompt") e] /\
    forall c, h_start_cmd h = Some c -> c <> [] -> exists prompt, before = prompt ++ [10] ++ c ++ [10].
Proof.
  intros w cfg h sp e Hs He Hst. unfold inject. rewrite Hs. cbn [fst]. unfold maybe_setup. rewrite He, Hst.
  cbn [negb fst].
  set (P := prompt_script _ _).
  destruct (h_start_cmd h) as [[|x c]|].
  - exists P. split; [reflexivity|]. intros c [= <-] H. congruence.
  - exists (P ++ 10 :: (x :: c) ++ [10]). split; [reflexivity|]. intros c' [= <-] _. exists P. reflexivity.
  - exists P. split; [reflexivity|]. discriminate.
Qed.
Print Assumptions C48_injected_text.

(** The set-up reports success exactly if the program knows its own path, the shell
    came up and the text could be typed; if it does not come up only the startup
    command is typed. *)
Theorem C48_setup_outcome : forall w prefix start session,
  (snd (maybe_setup w prefix start session) = true <->
   (exists e, exe w = Some e) /\ startup_seen w = true /\ write_ok w = true) /\
  (exe w = None -> fst (maybe_setup w prefix start session) = []) /\
  (forall e, exe w = Some e -> startup_seen w = false ->
     fst (maybe_setup w prefix start session) =
       [[10] ++ lit " SHPOOL__INTERNAL__PRINT_SENTINEL=startup " ++ e ++ lit " daemon" ++ [10]]).
Proof.
  intros w prefix start session. unfold maybe_setup. destruct (exe w) as [e|]; [|cbn [fst snd]].
  - destruct (startup_seen w); cbn [negb fst snd].
    + split; [|split; [discriminate|intros; discriminate]]. split; [intros H; eauto|intros (_ & _ & H); exact H].
    + split; [|split; [discriminate|intros e' [= <-] _; reflexivity]]. split; [discriminate|intros (_ & H & _); discriminate].
  - split; [|split; [reflexivity|discriminate]]. split; [discriminate|intros ((e & H) & _); discriminate].
Qed.
Print Assumptions C48_setup_outcome.

(** Nothing at all is typed into the shell when no sentinel is awaited. *)
Theorem C48_nothing_injected : forall w cfg h sp, supports_sentinels sp = false -> inject w cfg h sp = ([], false).
Proof. intros w cfg h sp H. unfold inject. rewrite H. reflexivity. Qed.
Print Assumptions C48_nothing_injected.

Definition header_with (cmd start : option rstr) : attach_header :=
  mkAttach (lit "main") (lit "main") (mkSize 24 80 0 0) [] None cmd None start.
Definition user_with (sh : rstr) : user_info := mkUser (lit "/home/u") sh (lit "u").

(** "Awaited exactly when something will print it" fails: if the shell takes too long
    to start (or the injection fails otherwise), the sentinel is awaited although the
    command that prints it was never typed: the session then shows no output at all. *)
Theorem C48_awaited_but_never_printed_refuted : forall split,
  exists w cfg u h sp, spawn_command split cfg u h = Ok sp /\ snd (inject w cfg h sp) = true /\
    forall typed, In typed (fst (inject w cfg h sp)) -> ~ contains (lit "PRINT_SENTINEL=prompt") typed.
Proof.
  intros split.
  exists {| startup_seen := false; proc_name := None; exe := Some (lit "/s"); write_ok := true |},
    default_config, (user_with (lit "/bin/sh")), (header_with None None).
  eexists. split; [reflexivity|]. split; [reflexivity|].
  intros typed [<-|[]] (a & b & E).
  assert (Hl : (length a <= 53)%nat) by (apply (f_equal (@length N)) in E; rewrite !app_length in E; cbn in E; lia).
  apply (f_equal (skipn (length a))) in E. rewrite skipn_app, skipn_all, PeanoNat.Nat.sub_diag in E. cbn [skipn app] in E.
  revert E Hl. generalize (length a). intros n E Hl.
  do 54 (destruct n as [|n]; [cbn in E; discriminate|]). lia.
Qed.
Print Assumptions C48_awaited_but_never_printed_refuted.

(** A start command is silently dropped for nu, and when a command is given. *)
Theorem C48_start_command_dropped_refuted : forall split,
  exists cfg u h sp, h_start_cmd h = Some (lit "tmux") /\ spawn_command split cfg u h = Ok sp /\
    forall w, inject w cfg h sp = ([], false).
Proof.
  intros split. exists default_config, (user_with (lit "/usr/bin/nu")), (header_with None (Some (lit "tmux"))).
  eexists. split; [reflexivity|]. split; [reflexivity|]. intros w. reflexivity.
Qed.
Print Assumptions C48_start_command_dropped_refuted.

(** `norc` has no effect on a shell other than bash, zsh and fish. *)
Theorem C48_norc_ignored_refuted : forall split,
  exists cfg u h sp, norc cfg = Some true /\ spawn_command split cfg u h = Ok sp /\ args sp = [].
Proof.
  intros split.
  exists (mkConfig (Some true) None None None None None None None None None None None None None None None None None None None),
    (user_with (lit "/bin/dash")), (header_with None None).
  eexists. split; [reflexivity|]. split; reflexivity.
Qed.
Print Assumptions C48_norc_ignored_refuted.

(** Terminal echo is switched off in the new shell's terminal exactly when configured. *)
Theorem C48_echo : forall split cfg u h sp, spawn_command split cfg u h = Ok sp ->
  (echo_off sp = true <-> noecho cfg = Some true).
Proof.
  intros split cfg u h sp H. unfold spawn_command in H. cbv zeta in H.
  assert (E : echo_off sp = match noecho cfg with Some b => b | None => false end).
  { destruct (h_cmd h) as [c|]; [|destruct (file_name (shell_path cfg u)); [|discriminate]; injection H as <-; reflexivity].
    destruct (split c) as [[|p rest]|]; try discriminate. injection H as <-. reflexivity. }
  rewrite E. destruct (noecho cfg) as [[]|]; split; congruence.
Qed.
Print Assumptions C48_echo.

(** Of the daemon's descriptors above standard error, only number 3 is closed before
    the shell starts; any other that is not close-on-exec leaks into the shell. *)
Theorem C48_descriptors_leak_refuted : forall fd, In fd closed_fds <-> fd = 3%nat.
Proof. intros fd. cbn. intuition lia. Qed.
Print Assumptions C48_descriptors_leak_refuted.

(** A login bash without startup files, and a command with arguments. *)
Example C48_nonvacuous :
  let cfg := mkConfig (Some true) None None None None None None None None None None None None None None None None None None None in
  let split := fun c => Some (split_on 32 c) in
  lit "/bin/bash" = path_join (lit "/bin") (lit "bash") /\
  spawn_command split cfg (user_with (lit "/bin/bash")) (header_with None None) =
    Ok (mkSpawned (lit "/bin/bash") [lit "--norc"; lit "--noprofile"] (Some (lit "-bash")) (lit "/home/u") false true) /\
  spawn_command split cfg (user_with (lit "/bin/bash")) (header_with (Some (lit "top -b")) None) =
    Ok (mkSpawned (lit "top") [lit "-b"] None (lit "/home/u") false false).
Proof. repeat split; vm_compute; reflexivity. Qed.
