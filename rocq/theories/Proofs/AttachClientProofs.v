From Coq Require Import List NArith ZArith Bool Lia.
From Verif Require Import Model.Base Model.Protocol Model.Config Model.Duration Model.Template Model.Names Model.Pipe Model.AttachClient
  Spec.TemplateSpec Spec.ShellEnvSpec Spec.PathSpec Spec.ClientSpec
  Proofs.BaseLemmas Proofs.TemplateProofs Proofs.ShellEnvProofs Proofs.NamesProofs.
Import ListNotations.
Open Scope nat_scope.

Lemma count_app f a b : count f (a ++ b) = count f a + count f b.
Proof. induction a as [|e a IH]; cbn; [reflexivity|]. destruct (f e); rewrite IH; lia. Qed.

Lemma var_map_lookup_gen vars v : forall m,
  lookup v (fold_left (fun m p => insert (fst p) (snd p) m) vars m) =
  match last_value v vars with Some x => Some x | None => lookup v m end.
Proof.
  induction vars as [|[k x] vars IH]; intros m; [reflexivity|]. cbn [fold_left last_value fst snd].
  rewrite IH. destruct (last_value v vars); [reflexivity|].
  destruct (str_eqb v k) eqn:E.
  - apply str_eqb_eq in E. subst v. apply lookup_insert_eq.
  - apply lookup_insert_neq. intros ->. rewrite str_eqb_refl in E. discriminate.
Qed.

Lemma var_map_lookup vars v : lookup v (var_map vars) = last_value v vars.
Proof. unfold var_map. rewrite var_map_lookup_gen. destruct (last_value v vars); reflexivity. Qed.

Lemma fill_same f g ps : (forall v, f v = g v) -> fill f ps = fill g ps.
Proof. intros H. induction ps as [|[c|v] ps IH]; cbn; rewrite ?IH, ?H; reflexivity. Qed.

(** *** Bounds *)
Definition attach_budget (s : client_state) : nat :=
  match s with
  | WantVars | Streaming _ => 22
  | WantAttach _ tries _ | WantDetach _ tries => 21 - tries
  | WantBackgroundDetach | Ended => 0
  end.

Lemma try_attach_count k w r tries d : forall s es, try_attach k w r tries d = (s, es) ->
  attaches es + attach_budget s <= S (21 - tries) /\ streams es = 0 /\ detaches es = 0 /\ sleeps es = 0.
Proof.
  intros s es H. unfold try_attach in H. destruct (attach_request k w r); injection H as <- <-; cbn; lia.
Qed.

Lemma attach_resolved_count k w r s es : attach_resolved k w r = (s, es) ->
  attaches es + attach_budget s <= 22 /\ streams es = 0 /\ detaches es = 0 /\ sleeps es = 0.
Proof.
  unfold attach_resolved. destruct (client_check (r_name r)); intros H.
  - injection H as <- <-. cbn. lia.
  - apply try_attach_count in H. cbn in H. lia.
Qed.

Lemma busy_again_count k w r tries s es : busy_again k w r tries = (s, es) ->
  attaches es + attach_budget s <= 21 - tries /\ streams es = 0 /\ detaches es = 0.
Proof.
  unfold busy_again, MAX_FORCE_RETRIES. destruct (Nat.ltb_spec 20 tries) as [L|L]; cbn [exit_with].
  - intros H. injection H as <- <-. cbn. lia.
  - destruct (try_attach k w r (S tries) true) as [s' es'] eqn:E. apply try_attach_count in E. intros H. injection H as <- <-.
    unfold attaches, streams, detaches in *. cbn [count is_attach is_stream is_detach]. lia.
Qed.

Lemma client_step_attaches k w s a s' es : client_step k w s a = (s', es) ->
  attaches es + attach_budget s' <= attach_budget s + 22 * streams es.
Proof.
  unfold client_step. intros H. unfold attaches, streams in *.
  destruct s as [|r tries d|r tries| |r|], a as [vars|st|nf na|[st|vars]|];
    try (injection H as <- <-; cbn; lia).
  - destruct (attach_resolved k w _) as [s1 es1] eqn:E. injection H as <- <-. apply attach_resolved_count in E.
    unfold attaches, streams in E. rewrite !count_app. cbn [attach_budget] in *.
    destruct (k_background k); cbn [count is_attach is_stream]; lia.
  - destruct st.
    + destruct (k_background k); injection H as <- <-; cbn; lia.
    + destruct (k_background k); injection H as <- <-; cbn; lia.
    + destruct (k_force k); cbn [negb] in H; [|injection H as <- <-; cbn; lia].
      destruct d; cbn [negb] in H; [|injection H as <- <-; cbn; lia].
      apply busy_again_count in H. unfold attaches, streams in H. cbn [attach_budget]. lia.
    + injection H as <- <-; cbn; lia.
    + injection H as <- <-; cbn; lia.
  - apply busy_again_count in H. unfold attaches, streams in H. cbn [attach_budget]. lia.
  - destruct (attach_resolved k w _) as [s1 es1] eqn:E. injection H as <- <-. apply attach_resolved_count in E.
    unfold attaches, streams in E. cbn [count is_attach is_stream attach_budget] in *. lia.
Qed.

Lemma client_run_attaches k as_ : forall s, attaches (snd (client_run k s as_)) <= attach_budget s + 22 * streams (snd (client_run k s as_)).
Proof.
  induction as_ as [|[w a] as_ IH]; intros s; [cbn; lia|]. cbn [client_run].
  destruct (client_step k w s a) as [s1 es1] eqn:E. specialize (IH s1).
  destruct (client_run k s1 as_) as [s2 es2]. cbn [snd] in *. apply client_step_attaches in E.
  unfold attaches, streams in *. rewrite !count_app. lia.
Qed.

(** Detach requests. *)
Definition detach_budget (k : attach_client) (s : client_state) : nat :=
  let bg := if k_background k then 1 else 0 in
  match s with
  | WantVars | Streaming _ => 1 + bg
  | WantAttach _ _ false => 1 + bg
  | WantAttach _ _ true | WantDetach _ _ => bg
  | WantBackgroundDetach | Ended => 0
  end.

Lemma try_attach_state k w r tries d s es : try_attach k w r tries d = (s, es) -> s = Ended \/ s = WantAttach r tries d.
Proof. unfold try_attach. destruct (attach_request k w r); intros H; injection H as <- <-; auto. Qed.

Lemma attach_resolved_state k w r s es : attach_resolved k w r = (s, es) -> s = Ended \/ s = WantAttach r 0 false.
Proof.
  unfold attach_resolved. destruct (client_check (r_name r)); intros H; [injection H as <- <-; auto|].
  apply try_attach_state in H. assumption.
Qed.

Lemma busy_again_state k w r tries s es : busy_again k w r tries = (s, es) -> s = Ended \/ s = WantAttach r (S tries) true.
Proof.
  unfold busy_again. destruct (Nat.ltb MAX_FORCE_RETRIES tries).
  - cbn. intros H. injection H as <- <-. auto.
  - destruct (try_attach k w r (S tries) true) as [s' es'] eqn:E. apply try_attach_state in E. intros H. injection H as <- <-. assumption.
Qed.

Lemma client_step_detaches k w s a s' es : client_step k w s a = (s', es) ->
  detaches es + detach_budget k s' <= detach_budget k s + (if k_background k then 2 else 1) * streams es.
Proof.
  unfold client_step. intros H. unfold detaches, streams in *.
  destruct s as [|r tries d|r tries| |r|], a as [vars|st|nf na|[st|vars]|];
    try (injection H as <- <-; destruct (k_background k); cbn; lia).
  - destruct (attach_resolved k w _) as [s1 es1] eqn:E. injection H as <- <-.
    pose proof (attach_resolved_state _ _ _ _ _ E) as Hs. apply attach_resolved_count in E.
    unfold detaches, streams in E. rewrite !count_app. destruct Hs as [-> | ->]; cbn [detach_budget];
    destruct (k_background k); cbn [count is_detach is_stream]; lia.
  - destruct st.
    + destruct (k_background k) eqn:B; injection H as <- <-; cbn; rewrite B; destruct d; lia.
    + destruct (k_background k) eqn:B; injection H as <- <-; cbn; rewrite B; destruct d; lia.
    + destruct (k_force k); cbn [negb] in H; [|injection H as <- <-; cbn; lia].
      destruct d; cbn [negb] in H; [|injection H as <- <-; cbn; lia].
      pose proof (busy_again_state _ _ _ _ _ _ H) as Hs. apply busy_again_count in H. unfold detaches, streams in H.
      destruct Hs as [-> | ->]; cbn [detach_budget]; destruct (k_background k); lia.
    + injection H as <- <-; cbn; lia.
    + injection H as <- <-; cbn; lia.
  - pose proof (busy_again_state _ _ _ _ _ _ H) as Hs. apply busy_again_count in H. unfold detaches, streams in H.
    destruct Hs as [-> | ->]; cbn [detach_budget]; destruct (k_background k); lia.
  - destruct (attach_resolved k w _) as [s1 es1] eqn:E. injection H as <- <-.
    pose proof (attach_resolved_state _ _ _ _ _ E) as Hs. apply attach_resolved_count in E.
    unfold detaches, streams in E. destruct Hs as [-> | ->]; cbn [detach_budget count is_detach is_stream];
    destruct (k_background k); lia.
Qed.

Lemma client_run_detaches k as_ : forall s, detaches (snd (client_run k s as_)) <=
  detach_budget k s + (if k_background k then 2 else 1) * streams (snd (client_run k s as_)).
Proof.
  induction as_ as [|[w a] as_ IH]; intros s; [cbn; lia|]. cbn [client_run].
  destruct (client_step k w s a) as [s1 es1] eqn:E. specialize (IH s1).
  destruct (client_run k s1 as_) as [s2 es2]. cbn [snd] in *. apply client_step_detaches in E.
  unfold detaches, streams in *. rewrite !count_app. destruct (k_background k); lia.
Qed.

(** Without --force. *)
Definition calm (s : client_state) : Prop := match s with WantDetach _ _ => False | WantAttach _ _ d => d = false | _ => True end.
Definition calm_budget (s : client_state) : nat := match s with WantVars | Streaming _ => 1 | _ => 0 end.

Lemma client_step_calm k w s a s' es : k_force k = false -> calm s -> client_step k w s a = (s', es) ->
  calm s' /\ attaches es + calm_budget s' <= calm_budget s + streams es /\
  (k_background k = false -> detaches es = 0) /\ sleeps es = 0.
Proof.
  intros Hf Hc H. unfold client_step in H. unfold attaches, streams, detaches, sleeps in *.
  assert (Hr : forall w r s es, attach_resolved k w r = (s, es) ->
     calm s /\ count is_attach es + calm_budget s <= 1 /\ count is_stream es = 0 /\ count is_detach es = 0 /\ count is_sleep es = 0).
  { intros w0 r0 s0 es0 E. unfold attach_resolved in E. destruct (client_check (r_name r0)).
    - injection E as <- <-. cbn. repeat split; lia.
    - unfold try_attach in E. destruct (attach_request k w0 r0); injection E as <- <-; cbn; repeat split; lia. }
  destruct s as [|r tries d|r tries| |r|], a as [vars|st|nf na|[st|vars]|]; try contradiction;
    try (injection H as <- <-; cbn; repeat split; lia).
  - destruct (attach_resolved k w _) as [s1 es1] eqn:E. injection H as <- <-. apply Hr in E.
    rewrite !count_app. destruct E as (E0 & E1 & E2 & E3 & E4). destruct (k_background k); cbn [count is_attach is_stream is_detach is_sleep calm_budget];
      repeat split; auto; lia.
  - rewrite Hf in H. destruct st; cbn [negb] in H; try (injection H as <- <-; cbn; repeat split; lia);
    destruct (k_background k) eqn:B; injection H as <- <-; cbn; repeat split; try lia; discriminate.
  - destruct (attach_resolved k w _) as [s1 es1] eqn:E. injection H as <- <-. apply Hr in E.
    destruct E as (E0 & E1 & E2 & E3 & E4). cbn [count is_attach is_stream is_detach is_sleep calm_budget]. repeat split; auto; lia.
Qed.

Lemma client_run_calm k as_ : k_force k = false -> forall s, calm s ->
  attaches (snd (client_run k s as_)) <= calm_budget s + streams (snd (client_run k s as_)) /\
  (k_background k = false -> detaches (snd (client_run k s as_)) = 0) /\ sleeps (snd (client_run k s as_)) = 0.
Proof.
  intros Hf. induction as_ as [|[w a] as_ IH]; intros s Hc; [cbn; repeat split; lia|]. cbn [client_run].
  destruct (client_step k w s a) as [s1 es1] eqn:E. destruct (client_step_calm _ _ _ _ _ _ Hf Hc E) as (C1 & E1 & E2 & E3). specialize (IH s1 C1).
  destruct (client_run k s1 as_) as [s2 es2]. cbn [snd] in *. destruct IH as (I1 & I2 & I3).
  unfold attaches, streams, detaches, sleeps in *. rewrite !count_app. repeat split; try lia.
  intros B. rewrite I2, E2 by assumption. reflexivity.
Qed.

(** Exits. *)
Lemma client_run_ended k as_ : client_run k Ended as_ = (Ended, []).
Proof. induction as_ as [|[w a] as_ IH]; [reflexivity|]. cbn. rewrite IH. reflexivity. Qed.

Lemma client_step_exit_last k w s a s' es : client_step k w s a = (s', es) ->
  (s' = Ended /\ s <> Ended /\ exists es0 c, es = es0 ++ [Exits c] /\ exits es0 = 0) \/ (exits es = 0 /\ (s' = Ended -> s = Ended)).
Proof.
  assert (Ht : forall w r t d s es, try_attach k w r t d = (s, es) ->
     (s = Ended /\ exists es0 c, es = es0 ++ [Exits c] /\ exits es0 = 0) \/ (exits es = 0 /\ s <> Ended)).
  { intros w0 r0 t0 d0 s0 es0 E. unfold try_attach in E. destruct (attach_request k w0 r0); injection E as <- <-.
    - right. split; [reflexivity|discriminate].
    - left. split; [reflexivity|]. exists [], 1%Z. split; reflexivity. }
  assert (Hr : forall w r s es, attach_resolved k w r = (s, es) ->
     (s = Ended /\ exists es0 c, es = es0 ++ [Exits c] /\ exits es0 = 0) \/ (exits es = 0 /\ s <> Ended)).
  { intros w0 r0 s0 es0 E. unfold attach_resolved in E. destruct (client_check (r_name r0)).
    - injection E as <- <-. left. split; [reflexivity|]. exists [], 0%Z. split; reflexivity.
    - apply Ht in E. assumption. }
  assert (Hb : forall w r t s es, busy_again k w r t = (s, es) ->
     (s = Ended /\ exists es0 c, es = es0 ++ [Exits c] /\ exits es0 = 0) \/ (exits es = 0 /\ s <> Ended)).
  { intros w0 r0 t0 s0 es0 E. unfold busy_again in E. destruct (Nat.ltb MAX_FORCE_RETRIES t0).
    - injection E as <- <-. left. split; [reflexivity|]. exists [Sleep 100], 1%Z. split; reflexivity.
    - destruct (try_attach k w0 r0 (S t0) true) as [s1 es1] eqn:E1. injection E as <- <-. apply Ht in E1.
      destruct E1 as [(-> & es0 & c & -> & X)|(X & Y)]; [left|right; split; assumption].
      split; [reflexivity|]. exists (Sleep 100 :: es0), c. split; [reflexivity|exact X]. }
  assert (He : forall c, exists es0 c', [Exits c] = es0 ++ [Exits c'] /\ exits es0 = 0) by (intros c; exists [], c; split; reflexivity).
  intros H. unfold client_step in H.
  destruct s as [|r tries d|r tries| |r|], a as [vars|st|nf na|[st|vars]|];
    try (injection H as <- <-; left; split; [reflexivity|]; split; [discriminate|apply He]);
    try (injection H as <- <-; right; split; [reflexivity|reflexivity]).
  - destruct (attach_resolved k w _) as [s1 es1] eqn:E. injection H as <- <-. apply Hr in E.
    destruct E as [(-> & es0 & c & -> & X)|(X & Y)].
    + left. split; [reflexivity|]. split; [discriminate|]. eexists (_ ++ es0), c. rewrite app_assoc. split; [reflexivity|].
      unfold exits in *. rewrite count_app, X. destruct (k_background k); reflexivity.
    + right. split; [|congruence]. unfold exits in *. rewrite count_app, X. destruct (k_background k); reflexivity.
  - destruct st.
    + destruct (k_background k); injection H as <- <-; right; split; try reflexivity; discriminate.
    + destruct (k_background k); injection H as <- <-; right; split; try reflexivity; discriminate.
    + destruct (k_force k); cbn [negb] in H; [|injection H as <- <-; left; split; [reflexivity|]; split; [discriminate|apply He]].
      destruct d; cbn [negb] in H; [|injection H as <- <-; right; split; [reflexivity|discriminate]].
      apply Hb in H. destruct H as [(-> & X)|(X & Y)]; [left|right]; split; auto; [split; [discriminate|assumption]|congruence].
    + injection H as <- <-. left. split; [reflexivity|]. split; [discriminate|apply He].
    + injection H as <- <-. left. split; [reflexivity|]. split; [discriminate|apply He].
  - apply Hb in H. destruct H as [(-> & X)|(X & Y)]; [left|right]; split; auto; [split; [discriminate|assumption]|congruence].
  - destruct (attach_resolved k w _) as [s1 es1] eqn:E. injection H as <- <-. apply Hr in E.
    destruct E as [(-> & es0 & c & -> & X)|(X & Y)].
    + left. split; [reflexivity|]. split; [discriminate|]. eexists (_ :: es0), c. split; [reflexivity|]. exact X.
    + right. split; [|congruence]. exact X.
Qed.

Lemma client_run_exit k as_ : forall s s' es, client_run k s as_ = (s', es) -> s <> Ended ->
  (s' <> Ended /\ exits es = 0) \/ (s' = Ended /\ exists es0 c, es = es0 ++ [Exits c] /\ exits es0 = 0).
Proof.
  induction as_ as [|[w a] as_ IH]; intros s s' es H Hn.
  - injection H as <- <-. left. split; [assumption|reflexivity].
  - cbn in H. destruct (client_step k w s a) as [s1 es1] eqn:E. destruct (client_run k s1 as_) as [s2 es2] eqn:R.
    injection H as <- <-. apply client_step_exit_last in E. destruct E as [(-> & _ & es0 & c & -> & X)|(X & Y)].
    + rewrite client_run_ended in R. injection R as <- <-. right. split; [reflexivity|]. exists es0, c. rewrite app_nil_r. split; [reflexivity|assumption].
    + specialize (IH _ _ _ R). destruct IH as [(A & B)|(A & es0 & c & -> & B)].
      * intros ->. apply Hn, Y. reflexivity.
      * left. split; [assumption|]. unfold exits in *. rewrite count_app. lia.
      * right. split; [assumption|]. exists (es1 ++ es0), c. rewrite app_assoc. split; [reflexivity|]. unfold exits in *. rewrite count_app. lia.
Qed.

(** *** The name in use is the one denoted by the last map. *)
Definition named (s : client_state) (n : rstr) : Prop :=
  match s with
  | WantAttach r _ _ | WantDetach r _ | Streaming r => r_name r = n
  | _ => True
  end.
Definition named_by (k : attach_client) (s : client_state) (o : option var_list) : Prop :=
  match o with
  | Some v => named s (r_name (apply_templates (k_tmpls k) v)) /\ s <> WantVars
  | None => s = WantVars \/ s = Ended
  end.

Definition newest (old : option var_list) (a : answer) : option var_list :=
  match last_map [a] with Some v => Some v | None => old end.

Lemma client_step_named k w s a s' es o : client_step k w s a = (s', es) -> named_by k s o -> s' = Ended \/ named_by k s' (newest o a).
Proof.
  assert (Hr : forall w v s es, attach_resolved k w (apply_templates (k_tmpls k) v) = (s, es) ->
      s = Ended \/ named_by k s (Some v)).
  { intros w0 v s0 es0 E. apply attach_resolved_state in E. destruct E as [-> | ->]; [left; reflexivity|]. right. cbn. split; [reflexivity|discriminate]. }
  intros H N. unfold client_step in H.
  destruct s as [|r tries d|r tries| |r|], a as [vars|st|nf na|[st|vars]|];
    try (injection H as <- <-; left; reflexivity).
  - destruct (attach_resolved k w _) as [s1 es1] eqn:E. injection H as <- <-. apply Hr in E. exact E.
  - assert (Hn : exists v, o = Some v /\ r_name r = r_name (apply_templates (k_tmpls k) v)).
    { destruct o as [v|]; [|cbn in N; destruct N; discriminate]. destruct N as (N & _). exists v. split; [reflexivity|exact N]. }
    destruct Hn as (v & -> & Hn). unfold newest; cbn [last_map].
    destruct st.
    + destruct (k_background k); injection H as <- <-; right; cbn; split; auto; discriminate.
    + destruct (k_background k); injection H as <- <-; right; cbn; split; auto; discriminate.
    + destruct (k_force k); cbn [negb] in H; [|injection H as <- <-; left; reflexivity].
      destruct d; cbn [negb] in H; [|injection H as <- <-; right; cbn; split; auto; discriminate].
      apply busy_again_state in H. destruct H as [-> | ->]; [left; reflexivity|right; cbn; split; auto; discriminate].
    + injection H as <- <-; left; reflexivity.
    + injection H as <- <-; left; reflexivity.
  - assert (Hn : exists v, o = Some v /\ r_name r = r_name (apply_templates (k_tmpls k) v)).
    { destruct o as [v|]; [|cbn in N; destruct N; discriminate]. destruct N as (N & _). exists v. split; [reflexivity|exact N]. }
    destruct Hn as (v & -> & Hn). unfold newest; cbn [last_map].
    apply busy_again_state in H. destruct H as [-> | ->]; [left; reflexivity|right; cbn; split; auto; discriminate].
  - destruct (attach_resolved k w _) as [s1 es1] eqn:E. injection H as <- <-. apply Hr in E. exact E.
Qed.

Lemma client_run_named k as_ : forall s o, named_by k s o ->
  fst (client_run k s as_) = Ended \/
  named_by k (fst (client_run k s as_)) (match last_map (map snd as_) with Some v => Some v | None => o end).
Proof.
  induction as_ as [|[w a] as_ IH]; intros s o N; [right; exact N|]. cbn [client_run map snd].
  destruct (client_step k w s a) as [s1 es1] eqn:E. pose proof (client_step_named _ _ _ _ _ _ _ E N) as N1.
  destruct N1 as [-> |N1].
  - rewrite client_run_ended. left. reflexivity.
  - specialize (IH s1 _ N1). destruct (client_run k s1 as_) as [s2 es2]. cbn [fst] in *.
    destruct IH as [IH|IH]; [left; assumption|right].
    unfold newest in IH. cbn [last_map]. destruct (last_map (map snd as_)); [exact IH|].
    cbn [last_map] in IH. exact IH.
Qed.
