(** C32: configuration layering. *)
From Coq Require Import List NArith Bool Lia.
From Verif Require Import Model.Base Model.Keybindings Model.Config Spec.ConfigSpec Proofs.ConfigProofs.
Import ListNotations.
Open Scope N_scope.

(** Every setting has the value the highest priority (last) file gives it; it is
    unset exactly if no file sets it. *)
Theorem C32_last_file_wins : forall files c, load files = Some c ->
  forall A f, setting A f ->
    (forall v, f c = Some v <-> decides files f v) /\
    (f c = None <-> forall c', In (Parsed c') files -> f c' = None).
Proof.
  intros files c H A f Hs. assert (Hd : forall v, f c = Some v <-> decides files f v).
  { intros v. rewrite (load_from_setting A f files Hs default_config c H v). split; [|auto].
    intros [Hx|[Hx _]]; [assumption|]. rewrite setting_default in Hx by assumption. discriminate. }
  split; [exact Hd|]. split.
  - intros Hn c' Hc. destruct (f c') as [v|] eqn:Ec; [exfalso|reflexivity].
    destruct (someone_decides A f files c' v Hc Ec) as [w Hw]. apply Hd in Hw. congruence.
  - intros Hn. destruct (f c) as [v|] eqn:Ec; [exfalso|reflexivity].
    assert (Hv := proj1 (Hd v) eq_refl). destruct Hv as (b & c' & a & -> & Hv & _).
    assert (Hx : f c' = None) by (apply Hn; apply in_or_app; right; left; reflexivity). congruence.
Qed.
Print Assumptions C32_last_file_wins.

(** The load is rejected exactly if one of the files that can be read does not
    parse; files that cannot be read make no difference. *)
Theorem C32_malformed_rejects : forall files, load files = None <-> In Malformed files.
Proof. intros files. apply load_from_none. Qed.
Print Assumptions C32_malformed_rejects.

Theorem C32_unreadable_skipped : forall fs1 fs2, load (fs1 ++ Unreadable :: fs2) = load (fs1 ++ fs2).
Proof.
  intros fs1 fs2. unfold load. rewrite !load_from_app. destruct (load_from fs1 default_config); reflexivity.
Qed.
Print Assumptions C32_unreadable_skipped.

(** Over any history of reloads the running configuration is the one of the last
    reload whose files all parsed, or the initial one. *)
Theorem C32_rejected_reload_changes_nothing : forall initial history,
  (exists before fs after c, history = before ++ fs :: after /\ load fs = Some c /\
     Forall (fun fs' => In Malformed fs') after /\ reloads initial history = c) \/
  (Forall (fun fs' => In Malformed fs') history /\ reloads initial history = initial).
Proof.
  intros initial history.
  assert (Happ : forall h1 h2 i, reloads i (h1 ++ h2) = reloads (reloads i h1) h2).
  { induction h1 as [|x h1 IH]; intros h2 i; cbn [app reloads]; auto. }
  induction history as [|fs history IH] using rev_ind.
  - right. split; [constructor|reflexivity].
  - rewrite Happ. cbn [reloads]. unfold reload. destruct (load fs) as [c|] eqn:E.
    + left. exists history, fs, [], c. split; [reflexivity|]. split; [assumption|]. split; [constructor|reflexivity].
    + apply C32_malformed_rejects in E. destruct IH as [(b & fs' & a & c & -> & El & Hf & Hr)|[Hf Hr]].
      * left. exists b, fs', (a ++ [fs]), c. split; [rewrite <- app_assoc; reflexivity|]. split; [assumption|].
        split; [|assumption]. apply Forall_app. split; [assumption|constructor; [assumption|constructor]].
      * right. split; [|assumption]. apply Forall_app. split; [assumption|constructor; [assumption|constructor]].
Qed.
Print Assumptions C32_rejected_reload_changes_nothing.

(** Which files: an explicit file replaces both default ones; of those the user's
    comes last, so it has priority. *)
Theorem C32_files : forall environment home,
  (forall f, config_files (config_dir environment home) (Some f) = [f]) /\
  (lookup (lit "XDG_CONFIG_DIR") environment = None ->
     config_files (config_dir environment home) None =
       [lit "/etc/shpool/config.toml"; home ++ lit "/.config/shpool/config.toml"]) /\
  (forall d, lookup (lit "XDG_CONFIG_DIR") environment = Some d ->
     config_files (config_dir environment home) None =
       [lit "/etc/shpool/config.toml"; d ++ lit "/shpool/config.toml"]).
Proof.
  intros e home. split; [reflexivity|]. unfold config_dir. split.
  - intros ->. unfold config_files. rewrite <- !app_assoc. reflexivity.
  - intros d ->. unfold config_files. rewrite <- !app_assoc. reflexivity.
Qed.
Print Assumptions C32_files.

(** The documented variable, [XDG_CONFIG_HOME], is not looked at. *)
Theorem C32_documented_directory_refuted : exists environment home d,
  lookup (lit "XDG_CONFIG_HOME") environment = Some d /\
  config_files (config_dir environment home) None <>
    [lit "/etc/shpool/config.toml"; d ++ lit "/shpool/config.toml"].
Proof.
  exists [(lit "XDG_CONFIG_HOME", lit "/xdg")], (lit "/home/u"), (lit "/xdg"). split; [reflexivity|].
  vm_compute. discriminate.
Qed.
Print Assumptions C32_documented_directory_refuted.

(** Hypotheses met: a system file, an unreadable one, and a user file that sets
    some of the same settings. *)
Example C32_nonvacuous :
  let sys := mkConfig (Some true) None None None None None (Some (lit "/bin/zsh")) None None None None
               (Some Simple) None None None None (Some (lit "a")) None None None in
  let usr := mkConfig None (Some false) None None None None (Some (lit "/bin/fish")) None None None None
               None None (Some 7) None None None None None None in
  exists c, load [Parsed sys; Unreadable; Parsed usr] = Some c /\
    norc c = Some true /\ noecho c = Some false /\ shell c = Some (lit "/bin/fish") /\
    session_restore_mode c = Some Simple /\ output_spool_lines c = Some 7 /\ motd c = None /\
    decides [Parsed sys; Unreadable; Parsed usr] shell (lit "/bin/fish").
Proof.
  cbn zeta. eexists. split; [reflexivity|]. repeat (split; [reflexivity|]).
  eexists [_; _], _, []. split; [reflexivity|]. split; [reflexivity|intros c' []].
Qed.
