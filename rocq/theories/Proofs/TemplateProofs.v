From Coq Require Import List NArith Bool Lia.
From Verif Require Import Model.Base Model.Duration Model.Template Spec.TemplateSpec Spec.UnicodeSpec
  Proofs.BaseLemmas.
Import ListNotations.
Open Scope N_scope.

Section WithTables.
Variable u : unicode.
Hypothesis Hu : agrees_with_ascii u.

Notation numericP := (fun c => u_numeric u c = true).
Notation alnumP := (fun c => u_alphanumeric u c = true).

Lemma find_char_some c s a b : find_char c s = Some (a, b) -> s = a ++ c :: b /\ ~ In c a.
Proof.
  revert a b; induction s as [|x s IH]; intros a b; cbn [find_char]; [discriminate|].
  destruct (N.eqb_spec x c) as [->|Hx].
  - intros [= <- <-]. split; [reflexivity|intros []].
  - destruct (find_char c s) as [[a' b']|]; [|discriminate]. intros [= <- <-].
    destruct (IH _ _ eq_refl) as [-> Hn]. split; [reflexivity|].
    intros [E|E]; [congruence|contradiction].
Qed.

Lemma find_char_none c s : find_char c s = None -> ~ In c s.
Proof.
  induction s as [|x s IH]; cbn [find_char]; [intros _ []|].
  destruct (N.eqb_spec x c) as [->|Hx]; [discriminate|].
  destruct (find_char c s) as [[a' b']|]; [discriminate|]. intros _ [E|E]; [congruence|].
  apply IH in E; [assumption|reflexivity].
Qed.

Lemma find_char_app c a b : ~ In c a -> find_char c (a ++ c :: b) = Some (a, b).
Proof.
  intros H. induction a as [|x a IH]; cbn [app find_char].
  - rewrite N.eqb_refl. reflexivity.
  - destruct (N.eqb_spec x c) as [->|Hx]; [exfalso; apply H; left; reflexivity|].
    rewrite IH; [reflexivity|]. intros E; apply H; right; assumption.
Qed.

Lemma valid_ident_iff v : valid_ident u v = true <-> var_name numericP alnumP v.
Proof.
  unfold valid_ident, var_name. destruct v as [|c v].
  - split; [discriminate|]. intros [(c & r & E & _) _]. discriminate.
  - rewrite andb_true_iff, negb_true_iff, forallb_forall, Forall_forall. split.
    + intros [H1 H2]. split.
      * exists c, v. split; [reflexivity|]. congruence.
      * intros x Hx. apply H2 in Hx. apply orb_true_iff in Hx as [Hx|Hx]; [left; assumption|].
        right. apply N.eqb_eq. assumption.
    + intros [(c' & r & [= <- <-] & H1) H2]. split.
      * apply not_true_iff_false. assumption.
      * intros x Hx. apply orb_true_iff. destruct (H2 x Hx) as [H|H]; [left; assumption|right; apply N.eqb_eq; assumption].
Qed.

Lemma var_name_no_brace v : var_name numericP alnumP v -> ~ In 123 v /\ ~ In 125 v.
Proof.
  intros [_ H]. rewrite Forall_forall in H.
  assert (Hx : forall c, c = 123 \/ c = 125 -> ~ In c v).
  { intros c Hc Hin. destruct (H c Hin) as [Ha|Ha]; [|destruct Hc; subst; discriminate].
    unfold u_alphanumeric in Ha. assert (Hl : c < 128) by (destruct Hc; subst; reflexivity).
    destruct (Hu c Hl) as [H1 H2]. apply orb_true_iff in Ha as [Ha|Ha].
    - apply H2 in Ha. destruct Hc; subst; lia.
    - apply H1 in Ha. destruct Hc; subst; lia. }
  split; apply Hx; auto.
Qed.

Definition pieces_of (cs : list tchunk) : list piece :=
  concat (map (fun c => match c with Raw s => map Letter s | Var v => [Hole v] end) cs).

Lemma raw_text s rest ps : ~ In 123 s -> template_text numericP alnumP rest ps ->
  template_text numericP alnumP (s ++ rest) (map Letter s ++ ps).
Proof.
  intros Hs Hr. induction s as [|c s IH]; [assumption|]. cbn [app map]. constructor.
  - intros ->. apply Hs; left; reflexivity.
  - apply IH. intros H; apply Hs; right; assumption.
Qed.

Lemma parse_chunks_ok f s cs : parse_chunks u f s = Ok cs -> template_text numericP alnumP s (pieces_of cs).
Proof.
  revert s cs; induction f as [|f IH]; intros s cs; cbn [parse_chunks]; [discriminate|].
  destruct (find_char 123 s) as [[before after]|] eqn:E1.
  - destruct (find_char 125 after) as [[var rest]|] eqn:E2; [|discriminate].
    destruct (valid_ident u var) eqn:Ev; [|discriminate].
    destruct (parse_chunks u f rest) as [cs'|e] eqn:E3; [|discriminate]. intros [= <-].
    apply find_char_some in E1 as [-> Hb]. apply find_char_some in E2 as [-> Ha].
    apply IH in E3. apply valid_ident_iff in Ev.
    assert (Hp : pieces_of ((match before with [] => [] | _ :: _ => [Raw before] end) ++ Var var :: cs')
                 = map Letter before ++ Hole var :: pieces_of cs').
    { unfold pieces_of. destruct before; reflexivity. }
    rewrite Hp. apply raw_text; [assumption|]. constructor; assumption.
  - intros [= <-]. apply find_char_none in E1.
    assert (Hp : pieces_of (match s with [] => [] | _ :: _ => [Raw s] end) = map Letter s ++ []).
    { unfold pieces_of. destruct s; reflexivity. }
    rewrite Hp, <- (app_nil_r s) at 1. apply raw_text; [assumption|constructor].
Qed.

(** The grammar, read one maximal raw run at a time. *)
Lemma template_text_run s ps : template_text numericP alnumP s ps ->
  (~ In 123 s /\ ps = map Letter s) \/
  (exists before v rest ps', s = before ++ 123 :: v ++ 125 :: rest /\ ~ In 123 before /\
     var_name numericP alnumP v /\ template_text numericP alnumP rest ps' /\
     ps = map Letter before ++ Hole v :: ps').
Proof.
  induction 1 as [|c s ps Hc Hs IH|v s ps Hv Hs IH].
  - left. split; [intros []|reflexivity].
  - destruct IH as [[H1 ->]|(b & v & r & ps' & -> & H1 & H2 & H3 & ->)].
    + left. split; [|reflexivity]. intros [E|E]; [congruence|contradiction].
    + right. exists (c :: b), v, r, ps'. split; [reflexivity|].
      split; [intros [E|E]; [congruence|contradiction]|]. auto.
  - right. exists [], v, s, ps. split; [reflexivity|]. split; [intros []|]. auto.
Qed.

Lemma parse_chunks_complete f s ps : template_text numericP alnumP s ps -> (length s < f)%nat ->
  exists cs, parse_chunks u f s = Ok cs /\ pieces_of cs = ps.
Proof.
  revert s ps; induction f as [|f IH]; intros s ps Ht Hf; [lia|]. cbn [parse_chunks].
  apply template_text_run in Ht as [[H1 ->]|(b & v & r & ps' & -> & H1 & H2 & H3 & ->)].
  - destruct (find_char 123 s) as [[x y]|] eqn:E.
    + apply find_char_some in E as [-> _]. exfalso; apply H1. apply in_or_app; right; left; reflexivity.
    + eexists; split; [reflexivity|]. unfold pieces_of. destruct s; [reflexivity|]. cbn [map concat].
      apply app_nil_r.
  - rewrite find_char_app by assumption. destruct (var_name_no_brace v H2) as [_ Hb].
    rewrite find_char_app by assumption.
    apply valid_ident_iff in H2. rewrite H2.
    rewrite app_length in Hf; cbn [length] in Hf. rewrite app_length in Hf; cbn [length] in Hf.
    destruct (IH r ps' H3) as (cs & -> & Hcs); [lia|].
    eexists; split; [reflexivity|]. unfold pieces_of in *. destruct b; cbn [map concat app]; rewrite Hcs; reflexivity.
Qed.

Lemma fuel_enough f s : (length s < f)%nat -> parse_chunks u f s <> Err OutOfFuel.
Proof.
  revert s; induction f as [|f IH]; intros s Hf; [lia|]. cbn [parse_chunks].
  destruct (find_char 123 s) as [[before after]|] eqn:E1; [|discriminate].
  destruct (find_char 125 after) as [[var rest]|] eqn:E2; [|discriminate].
  destruct (valid_ident u var); [|discriminate].
  apply find_char_some in E1 as [-> _]. apply find_char_some in E2 as [-> _].
  rewrite app_length in Hf; cbn [length] in Hf. rewrite app_length in Hf; cbn [length] in Hf.
  assert (H := IH rest ltac:(lia)). destruct (parse_chunks u f rest); [discriminate|congruence].
Qed.

Lemma fill_app value a b : fill value (a ++ b) = fill value a ++ fill value b.
Proof.
  induction a as [|[c|v] a IH]; cbn [app fill]; [reflexivity| |]; rewrite IH; [reflexivity|].
  rewrite app_assoc. reflexivity.
Qed.

Lemma fill_letters value s : fill value (map Letter s) = s.
Proof. induction s as [|c s IH]; cbn [map fill]; [reflexivity|]. rewrite IH; reflexivity. Qed.

Lemma apply_pieces src cs vars :
  template_apply (mkTemplate src cs) vars = fill (fun v => lookup v vars) (pieces_of cs).
Proof.
  unfold template_apply, pieces_of; cbn [t_chunks].
  induction cs as [|[s|v] cs IH]; cbn [map concat]; [reflexivity| |]; rewrite fill_app, <- IH.
  - rewrite fill_letters. reflexivity.
  - cbn [fill app]. rewrite app_nil_r. reflexivity.
Qed.

Lemma template_new_iff src t : template_new u src = Ok t ->
  t_src t = src /\ exists ps, template_text numericP alnumP src ps /\
    forall vars, template_apply t vars = fill (fun v => lookup v vars) ps.
Proof.
  unfold template_new. destruct (parse_chunks u (S (length src)) src) as [cs|e] eqn:E; [|discriminate].
  intros [= <-]. split; [reflexivity|]. exists (pieces_of cs).
  split; [eapply parse_chunks_ok; eassumption|]. intros vars. apply apply_pieces.
Qed.

Lemma template_new_accepts src ps : template_text numericP alnumP src ps ->
  exists t, template_new u src = Ok t /\
    forall vars, template_apply t vars = fill (fun v => lookup v vars) ps.
Proof.
  intros H. destruct (parse_chunks_complete (S (length src)) src ps H) as (cs & E & Hp); [lia|].
  unfold template_new. rewrite E. eexists; split; [reflexivity|].
  intros vars. rewrite apply_pieces, Hp. reflexivity.
Qed.

Lemma template_new_total src : template_new u src <> Err OutOfFuel.
Proof.
  unfold template_new. pose proof (fuel_enough (S (length src)) src ltac:(lia)).
  destruct (parse_chunks u (S (length src)) src); [discriminate|congruence].
Qed.

Lemma template_unclosed src : template_new u src = Err Unclosed ->
  exists pre post, src = pre ++ 123 :: post /\ ~ In 125 post.
Proof.
  unfold template_new. generalize (S (length src)) as f. intros f.
  destruct (parse_chunks u f src) as [cs|e] eqn:E; [discriminate|]. intros [= ->].
  revert src E; induction f as [|f IH]; intros src; cbn [parse_chunks]; [discriminate|].
  destruct (find_char 123 src) as [[before after]|] eqn:E1; [|discriminate].
  apply find_char_some in E1 as [-> _].
  destruct (find_char 125 after) as [[var rest]|] eqn:E2.
  - destruct (valid_ident u var); [|discriminate].
    destruct (parse_chunks u f rest) as [cs|e] eqn:E3; [discriminate|]. intros [= ->].
    destruct (IH rest E3) as (p & q & -> & Hq). apply find_char_some in E2 as [-> _].
    exists (before ++ 123 :: var ++ 125 :: p), q. split; [|assumption].
    rewrite <- !app_assoc. cbn [app]. rewrite <- !app_assoc. reflexivity.
  - intros _. exists before, after. split; [reflexivity|]. apply find_char_none; assumption.
Qed.

Lemma template_invalid_var src v : template_new u src = Err (InvalidVar v) ->
  (exists pre post, src = pre ++ 123 :: v ++ 125 :: post) /\ ~ In 125 v /\ ~ var_name numericP alnumP v.
Proof.
  unfold template_new. generalize (S (length src)) as f. intros f.
  destruct (parse_chunks u f src) as [cs|e] eqn:E; [discriminate|]. intros [= ->].
  revert src E; induction f as [|f IH]; intros src; cbn [parse_chunks]; [discriminate|].
  destruct (find_char 123 src) as [[before after]|] eqn:E1; [|discriminate].
  apply find_char_some in E1 as [-> _].
  destruct (find_char 125 after) as [[var rest]|] eqn:E2; [|discriminate].
  apply find_char_some in E2 as [-> Hn].
  destruct (valid_ident u var) eqn:Ev.
  - destruct (parse_chunks u f rest) as [cs|e] eqn:E3; [discriminate|]. intros [= ->].
    destruct (IH rest E3) as ((p & q & ->) & Hq). split; [|assumption].
    exists (before ++ 123 :: var ++ 125 :: p), q.
    rewrite <- !app_assoc. cbn [app]. rewrite <- !app_assoc. reflexivity.
  - intros [= ->]. split; [exists before, rest; reflexivity|]. split; [assumption|].
    rewrite <- valid_ident_iff. congruence.
Qed.

End WithTables.

Fixpoint holes (ps : list piece) : list (list N) :=
  match ps with [] => [] | Letter _ :: ps' => holes ps' | Hole v :: ps' => v :: holes ps' end.

Lemma fill_ext f g ps : (forall v, In v (holes ps) -> f v = g v) -> fill f ps = fill g ps.
Proof.
  induction ps as [|[c|v] ps IH]; intros H; cbn [fill holes] in *; [reflexivity| |].
  - rewrite IH; auto.
  - rewrite (H v (or_introl eq_refl)), IH; [reflexivity|]. intros w Hw; apply H; right; assumption.
Qed.
