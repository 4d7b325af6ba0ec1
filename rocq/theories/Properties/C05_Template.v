(** C05: session name templates. *)
From Coq Require Import List NArith Bool.
From Verif Require Import Model.Base Model.Duration Model.Template Spec.TemplateSpec Spec.UnicodeSpec
  Proofs.DurationProofs Proofs.TemplateProofs.
Import ListNotations.
Open Scope N_scope.


(** Every well formed template is accepted, and instantiating it is substitution. *)
Theorem C05_well_formed_templates_substitute : forall u, agrees_with_ascii u ->
  forall src ps, template_text (numeric u) (alphanumeric u) src ps ->
  exists t, template_new u src = Ok t /\
    forall vars, template_apply t vars = fill (fun v => lookup v vars) ps.
Proof. exact template_new_accepts. Qed.
Print Assumptions C05_well_formed_templates_substitute.

Example C05_example :
  template_text (numeric ascii_only) (alphanumeric ascii_only) (lit "{ws}-edit")
    (Hole (lit "ws") :: map Letter (lit "-edit")) /\
  (exists t, template_new ascii_only (lit "{ws}-edit") = Ok t /\
     template_apply t [(lit "ws", lit "{ws}x")] = lit "{ws}x-edit" /\
     template_apply t [] = lit "-edit").
Proof.
  split.
  - apply (tt_hole _ _ (lit "ws") (lit "-edit")).
    + split; [exists 119, (lit "s"); split; [reflexivity|discriminate]|].
      repeat constructor.
    + repeat (constructor; [discriminate|]). constructor.
  - eexists; repeat split; reflexivity.
Qed.

(** Every accepted template is well formed, keeps its source text, and
    instantiating it is substitution into its (unique) reading. *)
Theorem C05_only_well_formed_accepted : forall u src t, template_new u src = Ok t ->
  template_source t = src /\
  exists ps, template_text (numeric u) (alphanumeric u) src ps /\
    forall vars, template_apply t vars = fill (fun v => lookup v vars) ps.
Proof. exact template_new_iff. Qed.
Print Assumptions C05_only_well_formed_accepted.

(** The two error reports are truthful, and there is no third. *)
Theorem C05_errors_are_truthful : forall u src e, template_new u src = Err e ->
  match e with
  | Unclosed => exists pre post, src = pre ++ 123 :: post /\ ~ In 125 post
  | InvalidVar v => (exists pre post, src = pre ++ 123 :: v ++ 125 :: post) /\ ~ In 125 v /\
                    ~ var_name (numeric u) (alphanumeric u) v
  | OutOfFuel => False
  end.
Proof.
  intros u src [|v|] H.
  - eapply template_unclosed; eassumption.
  - eapply template_invalid_var; eassumption.
  - eapply template_new_total; eassumption.
Qed.
Print Assumptions C05_errors_are_truthful.

Example C05_errors_example :
  template_new ascii_only (lit "a{b") = Err Unclosed /\
  template_new ascii_only (lit "a{}") = Err (InvalidVar []) /\
  template_new ascii_only (lit "{1a}") = Err (InvalidVar (lit "1a")) /\
  template_new ascii_only (lit "{a-b}") = Err (InvalidVar (lit "a-b")).
Proof. repeat split. Qed.

(** The name depends only on the variables the template mentions. *)
Theorem C05_depends_only_on_mentioned_variables : forall u src t vars vars',
  template_new u src = Ok t ->
  (forall v, (exists pre post, src = pre ++ 123 :: v ++ 125 :: post) -> lookup v vars = lookup v vars') ->
  template_apply t vars = template_apply t vars'.
Proof.
  intros u src t vars vars' H Hv.
  apply template_new_iff in H as [_ (ps & Hps & Happ)]. rewrite !Happ. apply fill_ext.
  intros v Hin. apply Hv. clear -Hps Hin.
  induction Hps as [|c s ps Hc Hs IH|v' s ps Hv' Hs IH]; cbn [holes] in Hin.
  - destruct Hin.
  - destruct (IH Hin) as (p & q & ->). exists (c :: p), q. reflexivity.
  - destruct Hin as [<-|Hin]; [exists [], s; reflexivity|].
    destruct (IH Hin) as (p & q & ->). exists (123 :: v' ++ 125 :: p), q.
    cbn [app]. rewrite <- !app_assoc. reflexivity.
Qed.
Print Assumptions C05_depends_only_on_mentioned_variables.

(** A template without '{' is the name itself, whatever the variables. *)
Theorem C05_plain_names_are_themselves : forall u, agrees_with_ascii u -> forall src,
  ~ In 123 src -> exists t, template_new u src = Ok t /\ forall vars, template_apply t vars = src.
Proof.
  intros u Hu src Hs.
  destruct (template_new_accepts u Hu src (map Letter src ++ [])) as (t & E & H).
  { rewrite <- (app_nil_r src) at 1. apply raw_text; [assumption|constructor]. }
  exists t. split; [assumption|]. intros vars. rewrite H, app_nil_r. apply fill_letters.
Qed.
Print Assumptions C05_plain_names_are_themselves.
