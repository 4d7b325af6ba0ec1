(** C51: the prompt prefix shows the session name and nothing more. *)
From Coq Require Import List NArith Bool Lia.
From Verif Require Import Model.Base Model.Protocol Model.Config Model.EtcEnvironment Model.Names Model.ShellEnv Model.Spawn
  Spec.PathSpec Spec.SpawnSpec Proofs.BaseLemmas Proofs.EtcEnvironmentProofs Proofs.NamesProofs Proofs.SpawnProofs.
Import ListNotations.
Open Scope N_scope.

(** The prefix typed into a known shell is the configured one with every occurrence
    of $SHPOOL_SESSION_NAME replaced by the name, between double quotes. *)
(** Missing for the full claim: that names with shell metacharacters are inert;
    refuted below. *)
Theorem C51_prefix_is_substituted_partial : forall w e name which prefix start session,
  exe w = Some e -> startup_seen w = true -> proc_name w = Some name -> sniff_shell name = Some which ->
  exists r, replaced (lit "$SHPOOL_SESSION_NAME") session prefix r /\
    (forall r', replaced (lit "$SHPOOL_SESSION_NAME") session prefix r' -> r' = r) /\
    exists text, nth_error (fst (maybe_setup w prefix start session)) 1 = Some text /\
      contains (match which with
                | Bash => lit "PS1=""" ++ r ++ lit "${PS1}"""
                | Zsh => lit "PROMPT=""" ++ r ++ lit "${PROMPT}"""
                | Fish => lit "echo -n """ ++ r ++ lit """; shpool__old_prompt"
                end) text.
Proof.
  intros w e name which prefix start session He Hst Hn Hw.
  exists (str_replace (lit "$SHPOOL_SESSION_NAME") session prefix).
  split; [apply str_replace_replaced; discriminate|].
  split; [intros r' Hr; eapply replaced_unique; [|exact Hr|apply str_replace_replaced]; discriminate|].
  unfold maybe_setup. rewrite He, Hst, Hn, Hw. cbn [negb fst nth_error].
  set (r := str_replace _ session prefix). eexists. split; [reflexivity|].
  set (tail := sentinel_cmd (lit "prompt") e).
  assert (Hc : forall part script rest, contains part script -> contains part
     ((match start with [] => script | _ => script ++ rest end) ++ tail)).
  { intros part script rest (a & b & ->). destruct start.
    - exists a, (b ++ tail). rewrite <- !app_assoc. reflexivity.
    - exists a, (b ++ rest ++ tail). rewrite <- !app_assoc. reflexivity. }
  apply Hc. destruct which; cbn [prompt_script].
  - exists (firstn (length bash_1 - 5) bash_1), (skipn 7 bash_2 ++ r ++ bash_3).
    replace bash_1 with (firstn (length bash_1 - 5) bash_1 ++ lit "PS1=""") at 1 by (vm_compute; reflexivity).
    replace bash_2 with (lit "${PS1}""" ++ skipn 7 bash_2) at 1 by (vm_compute; reflexivity).
    rewrite <- !app_assoc. reflexivity.
  - exists (firstn (length zsh_1 - 8) zsh_1), (skipn 10 zsh_2).
    replace zsh_1 with (firstn (length zsh_1 - 8) zsh_1 ++ lit "PROMPT=""") at 1 by (vm_compute; reflexivity).
    replace zsh_2 with (lit "${PROMPT}""" ++ skipn 10 zsh_2) at 1 by (vm_compute; reflexivity).
    rewrite <- !app_assoc. reflexivity.
  - exists (firstn (length fish_1 - 9) fish_1), (skipn 21 fish_2).
    replace fish_1 with (firstn (length fish_1 - 9) fish_1 ++ lit "echo -n """) at 1 by (vm_compute; reflexivity).
    replace fish_2 with (lit """; shpool__old_prompt" ++ skipn 21 fish_2) at 1 by (vm_compute; reflexivity).
    rewrite <- !app_assoc. reflexivity.
Qed.
Print Assumptions C51_prefix_is_substituted_partial.

(** The whole text typed into a shell that has come up, for every kind of shell: the
    prompt script for its kind (none for a shell that is not recognised by the end of
    its process name), then the start command on lines of its own, then the command
    that prints the sentinel. *)
Theorem C51_typed_text : forall w e prefix start session,
  exe w = Some e -> startup_seen w = true ->
  exists r setup, replaced (lit "$SHPOOL_SESSION_NAME") session prefix r /\
    (forall d, proc_name w = Some (d ++ lit "bash") -> setup = bash_setup r) /\
    (forall d, proc_name w = Some (d ++ lit "zsh") -> setup = zsh_setup r) /\
    (forall d, proc_name w = Some (d ++ lit "fish") -> setup = fish_setup r) /\
    ((forall d, proc_name w <> Some (d ++ lit "bash") /\ proc_name w <> Some (d ++ lit "zsh") /\
                proc_name w <> Some (d ++ lit "fish")) -> setup = []) /\
    nth_error (fst (maybe_setup w prefix start session)) 1 =
      Some (setup ++ match start with [] => [] | _ => [10] ++ start ++ [10] end ++
            [10] ++ lit " SHPOOL__INTERNAL__PRINT_SENTINEL=prompt " ++ e ++ lit " daemon" ++ [10]) /\
    length (fst (maybe_setup w prefix start session)) = 2%nat.
Proof.
  intros w e prefix start session He Hst.
  exists (str_replace (lit "$SHPOOL_SESSION_NAME") session prefix).
  exists (prompt_script (match proc_name w with Some n => sniff_shell n | None => None end)
            (str_replace (lit "$SHPOOL_SESSION_NAME") session prefix)).
  split; [apply str_replace_replaced; discriminate|].
  remember (str_replace (lit "$SHPOOL_SESSION_NAME") session prefix) as r eqn:Hr.
  assert (Hb : forall d, sniff_shell (d ++ lit "bash") = Some Bash).
  { intros d. unfold sniff_shell. assert (E : ends_with (lit "bash") (d ++ lit "bash") = true) by (apply ends_with_iff; exists d; reflexivity).
    rewrite E. reflexivity. }
  assert (Hz : forall d, sniff_shell (d ++ lit "zsh") = Some Zsh).
  { intros d. unfold sniff_shell. assert (E : ends_with (lit "zsh") (d ++ lit "zsh") = true) by (apply ends_with_iff; exists d; reflexivity).
    destruct (ends_with (lit "bash") (d ++ lit "zsh")) eqn:E1; [|rewrite E; reflexivity].
    apply ends_with_iff in E1. destruct E1 as (x & E1). apply (f_equal (@rev N)) in E1. rewrite !rev_app_distr in E1.
    vm_compute in E1. discriminate. }
  assert (Hf : forall d, sniff_shell (d ++ lit "fish") = Some Fish).
  { intros d. unfold sniff_shell. assert (E : ends_with (lit "fish") (d ++ lit "fish") = true) by (apply ends_with_iff; exists d; reflexivity).
    destruct (ends_with (lit "bash") (d ++ lit "fish")) eqn:E1.
    { apply ends_with_iff in E1. destruct E1 as (x & E1). apply (f_equal (@rev N)) in E1. rewrite !rev_app_distr in E1.
      vm_compute in E1. discriminate. }
    destruct (ends_with (lit "zsh") (d ++ lit "fish")) eqn:E2; [|rewrite E; reflexivity].
    apply ends_with_iff in E2. destruct E2 as (x & E2). apply (f_equal (@rev N)) in E2. rewrite !rev_app_distr in E2.
    vm_compute in E2. discriminate. }
  split; [intros d E; rewrite E, Hb; apply bash_script_spec|].
  split; [intros d E; rewrite E, Hz; apply zsh_script_spec|].
  split; [intros d E; rewrite E, Hf; apply fish_script_spec|].
  split.
  { intros E. destruct (proc_name w) as [n|]; [|reflexivity]. unfold sniff_shell.
    assert (G : forall s, (forall d, Some n <> Some (d ++ s)) -> ends_with s n = false).
    { intros s Hs. destruct (ends_with s n) eqn:X; [|reflexivity]. apply ends_with_iff in X. destruct X as (d & X).
      exfalso. apply (Hs d). rewrite X. reflexivity. }
    rewrite (G (lit "bash")) by (intros d; apply (E d)). rewrite (G (lit "zsh")) by (intros d; apply (E d)).
    rewrite (G (lit "fish")) by (intros d; apply (E d)). reflexivity. }
  unfold maybe_setup. rewrite He, Hst. cbn [negb fst nth_error length]. split; [|reflexivity]. rewrite <- Hr.
  set (script := prompt_script _ r). clearbody script. f_equal. destruct start as [|x start]; [reflexivity|].
  rewrite <- !app_assoc. cbn [app]. rewrite <- !app_assoc. reflexivity.
Qed.
Print Assumptions C51_typed_text.

(** In bash the prefix is also put back after the user's own prompt hooks have run. *)
Theorem C51_prefix_survives_prompt_command : forall w e name prefix start session,
  exe w = Some e -> startup_seen w = true -> proc_name w = Some name -> sniff_shell name = Some Bash ->
  exists r text, replaced (lit "$SHPOOL_SESSION_NAME") session prefix r /\
    nth_error (fst (maybe_setup w prefix start session)) 1 = Some text /\
    contains (lit "done
                  PS1=""" ++ r ++ lit "${PS1}""
               }
               PROMPT_COMMAND=__shpool__prompt_command") text.
Proof.
  intros w e name prefix start session He Hst Hn Hw.
  exists (str_replace (lit "$SHPOOL_SESSION_NAME") session prefix).
  unfold maybe_setup. rewrite He, Hst, Hn, Hw. cbn [negb fst nth_error].
  set (r := str_replace _ session prefix). eexists.
  split; [apply str_replace_replaced; discriminate|]. split; [reflexivity|].
  set (tail := sentinel_cmd (lit "prompt") e).
  assert (Hc : forall part script rest, contains part script -> contains part
     ((match start with [] => script | _ => script ++ rest end) ++ tail)).
  { intros part script rest (a & b & ->). destruct start.
    - exists a, (b ++ tail). rewrite <- !app_assoc. reflexivity.
    - exists a, (b ++ rest ++ tail). rewrite <- !app_assoc. reflexivity. }
  apply Hc. cbn [prompt_script].
  set (d := lit "done
                  PS1="""). set (f := lit "${PS1}""
               }
               PROMPT_COMMAND=__shpool__prompt_command").
  assert (E2 : bash_2 = firstn (length bash_2 - 28) bash_2 ++ d) by (vm_compute; reflexivity).
  assert (E3 : bash_3 = f ++ skipn 79 bash_3) by (vm_compute; reflexivity).
  clearbody d f. exists (bash_1 ++ r ++ firstn (length bash_2 - 28) bash_2), (skipn 79 bash_3).
  set (x := firstn _ _) in *. set (y := skipn _ _) in *. clearbody x y. rewrite E2, E3.
  rewrite <- !app_assoc. reflexivity.
Qed.
Print Assumptions C51_prefix_survives_prompt_command.

(** With the default prefix, what stands between the quotes is "shpool:", the name
    and a space; it contains nothing a shell would interpret if the name does not. *)
Theorem C51_default_prefix : forall session,
  str_replace (lit "$SHPOOL_SESSION_NAME") session DEFAULT_PROMPT_PREFIX = lit "shpool:" ++ session ++ lit " " /\
  (Forall plain_in_quotes session ->
   Forall plain_in_quotes (str_replace (lit "$SHPOOL_SESSION_NAME") session DEFAULT_PROMPT_PREFIX)).
Proof.
  intros session.
  assert (E : str_replace (lit "$SHPOOL_SESSION_NAME") session DEFAULT_PROMPT_PREFIX = lit "shpool:" ++ session ++ lit " ").
  { unfold str_replace. cbn. reflexivity. }
  split; [exact E|]. intros H. rewrite E. apply Forall_app. split.
  - repeat (constructor; [repeat split; discriminate|]). constructor.
  - apply Forall_app. split; [assumption|]. repeat (constructor; [repeat split; discriminate|]). constructor.
Qed.
Print Assumptions C51_default_prefix.

(** But names are not restricted to such characters: an accepted session name can
    hold a command, which every new shell of that name runs. *)
Theorem C51_name_is_code_refuted : exists name w text,
  good_name name /\
  nth_error (fst (maybe_setup w DEFAULT_PROMPT_PREFIX [] name)) 1 = Some text /\
  contains (lit "PS1=""shpool:a"";reboot;"" ${PS1}""") text.
Proof.
  exists (lit "a"";reboot;"""), {| startup_seen := true; proc_name := Some (lit "bash"); exe := Some (lit "/usr/bin/shpool"); write_ok := true |}.
  eexists. split; [apply daemon_rejects_iff; reflexivity|]. split; [reflexivity|].
  exists (firstn (length bash_1 - 5) bash_1). eexists. vm_compute. reflexivity.
Qed.
Print Assumptions C51_name_is_code_refuted.

(** An ordinary name under zsh. *)
Example C51_nonvacuous :
  sniff_shell (lit "zsh") = Some Zsh /\ Forall plain_in_quotes (lit "main") /\
  str_replace (lit "$SHPOOL_SESSION_NAME") (lit "main") (lit "[$SHPOOL_SESSION_NAME|$SHPOOL_SESSION_NAME]") = lit "[main|main]".
Proof. split; [reflexivity|]. split; [|vm_compute; reflexivity]. repeat (constructor; [repeat split; discriminate|]). constructor. Qed.
