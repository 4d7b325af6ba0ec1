(** C27: template switching. *)
From Coq Require Import List NArith ZArith Bool Lia.
From Verif Require Import Model.Base Model.Protocol Model.Config Model.Duration Model.Template Model.Names Model.Chunk Model.Pipe Model.AttachClient
  Spec.TemplateSpec Spec.UnicodeSpec Spec.ShellEnvSpec Spec.PathSpec Spec.PipeSpec Spec.ClientSpec
  Proofs.BaseLemmas Proofs.DurationProofs Proofs.TemplateProofs Proofs.ShellEnvProofs Proofs.NamesProofs Proofs.PipeProofs Proofs.AttachClientProofs.
Import ListNotations.
Open Scope nat_scope.

(** While attached, the client follows a variable map exactly when the name denoted
    by its template under that map differs from the name it is attached to. *)
Theorem C27_follows_exactly_changes : forall u src ps k r vars,
  template_text (numeric u) (alphanumeric u) src ps -> agrees_with_ascii u -> template_new u src = Ok (tm_name (k_tmpls k)) ->
  (follows k r vars = true <-> denoted ps vars <> r_name r).
Proof.
  intros u src ps k r vars Hps Hu Hn. unfold follows.
  destruct (template_new_accepts u Hu src ps Hps) as (t & Et & Ha). rewrite Hn in Et. injection Et as Et.
  rewrite Et, Ha. rewrite (fill_same _ (fun v => last_value v vars)) by (intros v; apply var_map_lookup).
  change (fill (fun v => last_value v vars) ps) with (denoted ps vars). rewrite negb_true_iff. split.
  - intros H. apply str_eqb_neq in H. exact H.
  - intros H. apply str_eqb_neq. exact H.
Qed.
Print Assumptions C27_follows_exactly_changes.

(** The streaming phase ends with a switch only for the first map that changes the
    name: all maps received before it denoted the name the client was attached to. *)
Theorem C27_switch_is_first_change : forall k r frames schedule vars,
  main (pipe_run (follows k r) schedule (pipe_start frames)) = Returned (Switch vars) ->
  exists before unread, frames = before ++ FSwitch vars :: unread /\ follows k r vars = true /\
    forall v, In (FSwitch v) before -> follows k r v = false.
Proof.
  intros k r fs es vars H.
  destruct (inv_start (follows k r) fs) as (I0 & G).
  destruct (pipe_run_inv (follows k r) fs es _ I0 G) as (H1 & G1). unfold ended_ok in G1. rewrite H in G1. destruct G1 as (G1 & _).
  destruct (inv_concludes _ _ _ _ H1 G1) as (rec & un & E & C).
  inversion C as [before f r0 Er Hb Hd|]; subst. inversion Hd; subst.
  exists before, un. rewrite <- app_assoc. split; [reflexivity|]. split; [assumption|].
  intros v Hv. rewrite Forall_forall in Hb. specialize (Hb _ Hv). inversion Hb. assumption.
Qed.
Print Assumptions C27_switch_is_first_change.

(** After a switch the next thing the client does is to attach to the name denoted by
    the new map, with all other templates filled from it too, and to send window size
    changes there. *)
Theorem C27_switch_attaches_to_denoted : forall u src ps k w r vars cwd,
  template_text (numeric u) (alphanumeric u) src ps -> agrees_with_ascii u -> template_new u src = Ok (tm_name (k_tmpls k)) ->
  c_cwd w = Some cwd -> good_name (denoted ps vars) ->
  exists h, client_step k w (Streaming r) (APipe (Switch vars)) =
      (WantAttach (apply_templates (k_tmpls k) vars) 0 false, [ResizesGoTo (denoted ps vars); Request (Attach h)]) /\
    h_name h = denoted ps vars /\ h_cmd h = r_cmd (apply_templates (k_tmpls k) vars) /\
    h_start_cmd h = r_start (apply_templates (k_tmpls k) vars).
Proof.
  intros u src ps k w r vars cwd Hps Hu Hn Hw Hg.
  destruct (template_new_accepts u Hu src ps Hps) as (t & Et & Ha). rewrite Hn in Et. injection Et as Et.
  assert (En : r_name (apply_templates (k_tmpls k) vars) = denoted ps vars).
  { cbn. rewrite Et, Ha. apply fill_same. intros v. apply var_map_lookup. }
  cbn [client_step]. unfold attach_resolved. rewrite En.
  apply client_check_iff in Hg. rewrite Hg. unfold try_attach, attach_request. rewrite Hw.
  eexists. split; [reflexivity|]. cbn [h_name h_cmd h_start_cmd]. split; [exact En|]. split; reflexivity.
Qed.
Print Assumptions C27_switch_attaches_to_denoted.

(** At any time while attached or attaching, the session concerned is the one denoted
    by the last map the client received. *)
(** Missing for the full claim: a map that is on its way when the client switches;
    refuted below. *)
Theorem C27_always_at_denoted_partial : forall u src ps k answers,
  template_text (numeric u) (alphanumeric u) src ps -> agrees_with_ascii u -> template_new u src = Ok (tm_name (k_tmpls k)) ->
  forall r, (fst (client_run k WantVars answers) = Streaming r \/ exists t d, fst (client_run k WantVars answers) = WantAttach r t d) ->
  exists vars, last_map (map snd answers) = Some vars /\ r_name r = denoted ps vars.
Proof.
  intros u src ps k answers Hps Hu Hn r H.
  destruct (template_new_accepts u Hu src ps Hps) as (t & Et & Ha). rewrite Hn in Et. injection Et as Et.
  destruct (client_run_named k answers WantVars None (or_introl eq_refl)) as [E|E].
  - destruct H as [H|(? & ? & H)]; congruence.
  - destruct (last_map (map snd answers)) as [v|].
    + exists v. split; [reflexivity|]. destruct E as (E & _).
      assert (Er : r_name r = r_name (apply_templates (k_tmpls k) v)) by (destruct H as [H|(? & ? & H)]; rewrite H in E; exact E).
      rewrite Er. cbn. rewrite Et, Ha. apply fill_same. intros x. apply var_map_lookup.
    + destruct E as [E|E]; destruct H as [H|(? & ? & H)]; congruence.
Qed.
Print Assumptions C27_always_at_denoted_partial.

(** But it does not always end up at the name denoted by the newest map sent to it:
    of two maps in flight, the second is discarded with the old connection. *)
Theorem C27_second_change_lost_refuted : exists k r schedule v1 v2,
  follows k r v1 = true /\ follows k r v2 = true /\
  main (pipe_run (follows k r) schedule (pipe_start [FSwitch v1; FSwitch v2])) = Returned (Switch v1) /\
  r_name (apply_templates (k_tmpls k) v1) <> r_name (apply_templates (k_tmpls k) v2).
Proof.
  exists (mkClient (mkTemplates (mkTemplate (lit "{ws}") [Var (lit "ws")]) None None None) false false None),
    (mkResolved (lit "a") None None None),
    [SockGo true; SockGo true; SockGo true; StdinGo false; MainGo false; MainGo false; MainGo false],
    [(lit "ws", lit "b")], [(lit "ws", lit "c")].
  split; [reflexivity|]. split; [reflexivity|]. split; [reflexivity|]. vm_compute. discriminate.
Qed.
Print Assumptions C27_second_change_lost_refuted.

Example C27_nonvacuous : exists t, template_new ascii_only (lit "{ws}-x") = Ok t /\
  agrees_with_ascii ascii_only /\ good_name (lit "b-x") /\
  follows (mkClient (mkTemplates t None None None) false false None) (mkResolved (lit "a-x") None None None) [(lit "ws", lit "b")] = true /\
  follows (mkClient (mkTemplates t None None None) false false None) (mkResolved (lit "a-x") None None None) [(lit "ws", lit "a")] = false.
Proof.
  eexists. split; [vm_compute; reflexivity|]. split; [exact ascii_only_agrees|]. split; [apply daemon_rejects_iff; reflexivity|]. split; vm_compute; reflexivity.
Qed.
