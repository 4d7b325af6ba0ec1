(** C31: /etc/environment. *)
From Coq Require Import List NArith Bool Lia.
From Verif Require Import Model.Base Model.EtcEnvironment Spec.EtcEnvironmentSpec
  Proofs.BaseLemmas Proofs.EtcEnvironmentProofs.
Import ListNotations.
Open Scope N_scope.

(** For every file that is text: the result is what its lines contribute, in order. *)
Theorem C31_every_line_counts : forall text pairs,
  parse_compat (Some text) = Ok pairs <-> contributes (split_on 10 text) pairs.
Proof.
  intros text pairs. unfold parse_compat. rewrite <- parse_lines_iff. split; [intros [= <-]; reflexivity|].
  intros ->. reflexivity.
Qed.
Print Assumptions C31_every_line_counts.

(** One line: exactly the assignments of the specification are recognised. *)
Theorem C31_one_line : forall line k v, ~ In 10 line ->
  (parse_compat (Some line) = Ok [(k, v)] <-> assigns line k v).
Proof.
  intros line k v Hn. unfold parse_compat.
  assert (Es : split_on 10 line = [line]).
  { assert (H := split_join 10 [line]). cbn [join_with] in H. apply H; [discriminate|].
    intros p [<-|[]]. assumption. }
  rewrite Es. cbn [parse_lines]. rewrite <- parse_line_iff. destruct (parse_line line) as [[k' v']|]; split; intros H;
    try discriminate; congruence.
Qed.
Print Assumptions C31_one_line.

(** Comment lines and blank lines contribute nothing. *)
Theorem C31_comments_and_blanks : forall line, (blank line \/ exists ws t, blank ws /\ line = ws ++ 35 :: t) ->
  forall k v, ~ assigns line k v.
Proof.
  intros line H k v Ha. apply parse_line_iff in Ha. unfold parse_line in Ha.
  destruct H as [H|(ws & t & Hw & ->)].
  - assert (E : trim line = []).
    { rewrite <- (app_nil_r line). change (line ++ []) with (line ++ [] ++ []).
      apply trim_unique; [assumption|constructor|]. split; intros c t E; [discriminate|destruct t; discriminate]. }
    rewrite E in Ha. discriminate.
  - destruct (trim_spec (35 :: t)) as (w1 & w2 & E & B1 & B2 & Ht).
    assert (Hw1 : w1 = []).
    { destruct w1 as [|c w1]; [reflexivity|]. cbn in E. injection E as <- _. inversion B1; discriminate. }
    subst w1. cbn [app] in E. rewrite E in Ha. rewrite trim_unique in Ha by assumption.
    destruct (trim (35 :: t)) as [|c0 b0] eqn:Eb; [discriminate|]. cbn in E. injection E as <- _.
    cbn in Ha. discriminate.
Qed.
Print Assumptions C31_comments_and_blanks.

(** A file that is not UTF-8 is rejected as a whole, whatever else is in it: one
    stray byte and no shell can be started (the error is fatal to the attach). *)
Theorem C31_not_utf8_rejected_refuted : parse_compat None = Err tt.
Proof. reflexivity. Qed.
Print Assumptions C31_not_utf8_rejected_refuted.

(** The cases of the code's own test, and a few more, in one file. *)
Example C31_nonvacuous :
  let nl := [10] in
  parse_compat (Some (lit "BASIC=foo" ++ nl ++ lit "    LEADINGWS=foo" ++ nl ++ lit "# A=b" ++ nl
      ++ lit "Q='a # b'" ++ nl ++ lit "U='wut" ++ nl ++ lit "T=wut'" ++ nl ++ lit "export E=1" ++ nl
      ++ lit "export  F=2" ++ nl ++ lit "D=a=b" ++ nl ++ lit "A-B=c" ++ nl ++ lit "=x" ++ nl ++ lit "JAVA_HOME=/j")) =
  Ok [(lit "BASIC", lit "foo"); (lit "LEADINGWS", lit "foo"); (lit "Q", lit "a "); (lit "U", lit "wut");
      (lit "T", lit "wut'"); (lit "E", lit "1"); (lit "D", lit "a=b"); (lit "JAVA_HOME", lit "/j")].
Proof. vm_compute. reflexivity. Qed.
