(** C35: forced attach terminates. *)
From Coq Require Import List NArith ZArith Bool Lia.
From Verif Require Import Model.Base Model.Protocol Model.Config Model.Duration Model.Template Model.Names Model.Chunk Model.Pipe Model.AttachClient
  Spec.TemplateSpec Spec.UnicodeSpec Spec.ShellEnvSpec Spec.PathSpec Spec.PipeSpec Spec.ClientSpec
  Proofs.BaseLemmas Proofs.TemplateProofs Proofs.ShellEnvProofs Proofs.NamesProofs Proofs.PipeProofs Proofs.AttachClientProofs.
Import ListNotations.
Open Scope nat_scope.

(** Whatever the daemon answers, and however often: between two successful attaches
    the client sends at most 22 attach requests, and one detach request (one more in
    background mode, after attaching). *)
Theorem C35_bounded_attempts : forall k answers,
  let t := client_trace k answers in
  attaches t <= 22 * (1 + streams t) /\
  detaches t <= (if k_background k then 2 else 1) * (1 + streams t).
Proof.
  intros k answers. cbv zeta. unfold client_trace. unfold attaches, detaches, streams. cbn [count is_attach is_detach is_stream].
  pose proof (client_run_attaches k answers WantVars) as A. pose proof (client_run_detaches k answers WantVars) as D.
  unfold attaches, detaches, streams in A, D. cbn [attach_budget detach_budget] in A, D. split; [lia|]. destruct (k_background k); lia.
Qed.
Print Assumptions C35_bounded_attempts.

(** Without --force one attempt is made (per session attached to), the client never
    pauses, and nobody is detached. *)
Theorem C35_without_force : forall k answers, k_force k = false ->
  let t := client_trace k answers in
  attaches t <= 1 + streams t /\ sleeps t = 0 /\ (k_background k = false -> detaches t = 0).
Proof.
  intros k answers Hf. cbv zeta. unfold client_trace. unfold attaches, detaches, streams, sleeps. cbn [count is_attach is_detach is_stream is_sleep].
  destruct (client_run_calm k answers Hf WantVars I) as (A & B & C). auto.
Qed.
Print Assumptions C35_without_force.

(** With --force against a session that stays busy: one detach of that session,
    22 attempts, 22 pauses, then failure with exit code 1. *)
Fixpoint stubborn (k : attach_client) (w : client_world) (n : nat) : list (client_world * answer) :=
  match n with O => [] | S n' => (w, AAttach Busy) :: stubborn k w n' end.

Theorem C35_gives_up : forall k w vars nf na cwd,
  k_force k = true -> c_cwd w = Some cwd -> good_name (r_name (apply_templates (k_tmpls k) vars)) ->
  let t := client_trace k ((w, AVars vars) :: (w, AAttach Busy) :: (w, ADetach nf na) :: stubborn k w 21) in
  attaches t = 22 /\ detaches t = 1 /\ sleeps t = 22 /\ streams t = 0 /\ exists t', t = t' ++ [Exits 1].
Proof.
  intros k w vars nf na cwd Hf Hw Hn. cbv zeta.
  assert (Hc : client_check (r_name (apply_templates (k_tmpls k) vars)) = None).
  { apply client_check_iff. assumption. }
  set (r := apply_templates (k_tmpls k) vars) in *.
  assert (Ht : forall tries d, exists h, try_attach k w r tries d = (WantAttach r tries d, [Request (Attach h)])).
  { intros tries d. unfold try_attach, attach_request. rewrite Hw. eexists. reflexivity. }
  assert (Hb : forall tries, tries <= 20 -> exists h, busy_again k w r tries = (WantAttach r (S tries) true, [Sleep 100; Request (Attach h)])).
  { intros tries L. unfold busy_again, MAX_FORCE_RETRIES. destruct (Nat.ltb_spec 20 tries); [lia|]. destruct (Ht (S tries) true) as (h & ->).
    eexists. reflexivity. }
  assert (Hs : forall n tries, tries + n = 22 -> tries <= 21 -> exists t', client_run k (WantAttach r tries true) (stubborn k w n) = (Ended, t' ++ [Exits 1]) /\
     attaches t' = 21 - tries /\ detaches t' = 0 /\ sleeps t' = 22 - tries /\ streams t' = 0).
  { induction n as [|n IH]; intros tries Hn' Hl; [lia|]. cbn [stubborn client_run client_step]. rewrite Hf. cbn [negb].
    destruct n as [|n].
    - assert (tries = 21) by lia. subst tries. exists [Sleep 100]. repeat split; reflexivity.
    - destruct (Hb tries ltac:(lia)) as (h & ->). destruct (IH (S tries) ltac:(lia) ltac:(lia)) as (t' & R & A & B & C & D).
      rewrite R. exists (Sleep 100 :: Request (Attach h) :: t'). split; [reflexivity|].
      unfold attaches, detaches, sleeps, streams in *. cbn [count is_attach is_detach is_sleep is_stream]. repeat split; lia. }
  unfold client_trace. cbn [client_run client_step]. fold r. unfold attach_resolved. rewrite Hc.
  destruct (Ht 0 false) as (h & ->). cbn [client_run client_step]. rewrite Hf. cbn [negb client_run client_step].
  destruct (Hb 0 ltac:(lia)) as (h' & ->). destruct (Hs 21 1 eq_refl ltac:(lia)) as (t' & R & A & B & C & D). rewrite R.
  cbn [snd]. 
  assert (E : exists pre, (if k_background k then [] else [ResizesGoTo (r_name r)]) = pre /\
     count is_attach pre = 0 /\ count is_detach pre = 0 /\ count is_sleep pre = 0 /\ count is_stream pre = 0).
  { destruct (k_background k); eexists; repeat split; reflexivity. }
  destruct E as (pre & -> & P1 & P2 & P3 & P4).
  unfold attaches, detaches, sleeps, streams in *. cbn [count is_attach is_detach is_sleep is_stream]. rewrite !count_app. cbn [count is_attach is_detach is_sleep is_stream]. rewrite ?count_app. cbn [count is_attach is_detach is_sleep is_stream].
  repeat split; try lia.
  exists (Request GetVars :: (pre ++ [Request (Attach h)]) ++ [Request (Detach [r_name r])] ++ [Sleep 100; Request (Attach h')] ++ t').
  cbn [app]. rewrite <- !app_assoc. cbn [app]. reflexivity.
Qed.
Print Assumptions C35_gives_up.

(** Everything requested between learning the variables and being attached concerns
    the one session meant. *)
Theorem C35_only_that_session : forall k answers r tries d,
  (forall w p, ~ In (w, APipe p) answers) -> forall e, In e (snd (client_run k (WantAttach r tries d) answers)) ->
  match e with
  | Request (Attach h) => h_name h = r_name r
  | Request (Detach names) => names = [r_name r]
  | Request GetVars => False
  | _ => True
  end.
Proof.
  intros k answers r.
  assert (G : forall s, (match s with WantAttach r' _ _ | WantDetach r' _ | Streaming r' => r' = r | WantVars => False | _ => True end) ->
    (forall w p, ~ In (w, APipe p) answers) -> forall e, In e (snd (client_run k s answers)) ->
    match e with Request (Attach h) => h_name h = r_name r | Request (Detach names) => names = [r_name r] | Request GetVars => False | _ => True end).
  2:{ intros tries d Hp e. apply (G (WantAttach r tries d)); [reflexivity|assumption]. }
  assert (Ht : forall w t d s es, try_attach k w r t d = (s, es) -> forall e, In e es ->
     match e with Request (Attach h) => h_name h = r_name r | Request _ => False | _ => True end).
  { intros w t d s es E e He. unfold try_attach in E. destruct (attach_request k w r) as [h|] eqn:Eh; injection E as <- <-; destruct He as [<-|[]]; [|exact I].
    unfold attach_request in Eh. destruct (c_cwd w); [|discriminate]. injection Eh as <-. reflexivity. }
  assert (Hb : forall w t s es, busy_again k w r t = (s, es) -> forall e, In e es ->
     match e with Request (Attach h) => h_name h = r_name r | Request _ => False | _ => True end).
  { intros w t s es E e He. unfold busy_again in E. destruct (Nat.ltb MAX_FORCE_RETRIES t).
    - injection E as <- <-. destruct He as [<-|[<-|[]]]; exact I.
    - destruct (try_attach k w r (S t) true) as [s1 es1] eqn:E1. injection E as <- <-. destruct He as [<-|He]; [exact I|]. eapply Ht; eassumption. }
  induction answers as [|[w a] answers IH]; intros s Hs Hp e He; [contradiction|].
  cbn [client_run] in He. destruct (client_step k w s a) as [s1 es1] eqn:E.
  destruct (client_run k s1 answers) as [s2 es2] eqn:R. cbn [snd] in He. apply in_app_or in He.
  assert (Hp' : forall w p, ~ In (w, APipe p) answers) by (intros w0 p0 F; apply (Hp w0 p0); right; exact F).
  assert (Hq : forall r0, a <> APipe r0) by (intros r0 ->; apply (Hp w r0); left; reflexivity).
  assert (K : (match s1 with WantAttach r' _ _ | WantDetach r' _ | Streaming r' => r' = r | WantVars => False | _ => True end) /\
     forall e, In e es1 -> match e with Request (Attach h) => h_name h = r_name r | Request (Detach names) => names = [r_name r] | Request GetVars => False | _ => True end).
  { assert (W : forall (e : act), match e with Request (Attach h) => h_name h = r_name r | Request _ => False | _ => True end ->
       match e with Request (Attach h) => h_name h = r_name r | Request (Detach names) => names = [r_name r] | Request GetVars => False | _ => True end)
       by (intros [[|h|n]| | | |]; cbn; tauto).
    unfold client_step in E.
    destruct s as [|r' t' d'|r' t'| |r'|]; try contradiction; subst;
      destruct a as [vars|st|nf na|p|]; try (exfalso; apply (Hq p); reflexivity);
      try (injection E as <- <-; split; [exact I|]; intros e0 F; repeat destruct F as [<-|F]; try exact I; contradiction).
    - destruct st.
      + destruct (k_background k); injection E as <- <-; (split; [first [exact I|reflexivity]|]); intros e0 [<-|[]]; first [exact I|reflexivity].
      + destruct (k_background k); injection E as <- <-; (split; [first [exact I|reflexivity]|]); intros e0 [<-|[]]; first [exact I|reflexivity].
      + destruct (k_force k); cbn [negb] in E; [|injection E as <- <-; split; [exact I|]; intros e0 [<-|[]]; exact I].
        destruct d'; cbn [negb] in E; [|injection E as <- <-; split; [reflexivity|]; intros e0 [<-|[]]; reflexivity].
        split; [|intros e0 F; apply W; eapply Hb; eassumption].
        apply busy_again_state in E. destruct E as [-> | ->]; [exact I|reflexivity].
      + injection E as <- <-; split; [exact I|]; intros e0 [<-|[]]; exact I.
      + injection E as <- <-; split; [exact I|]; intros e0 [<-|[]]; exact I.
    - split; [|intros e0 F; apply W; eapply Hb; eassumption].
      apply busy_again_state in E. destruct E as [-> | ->]; [exact I|reflexivity]. }
  destruct K as (K1 & K2). destruct He as [He|He]; [apply K2; assumption|].
  apply (IH s1 K1 Hp' e). rewrite R. exact He.
Qed.
Print Assumptions C35_only_that_session.

Example C35_nonvacuous : good_name (lit "main") /\ exists t, template_new ascii_only (lit "main") = Ok t /\ template_apply t [] = lit "main".
Proof. split; [apply daemon_rejects_iff; reflexivity|]. eexists. split; vm_compute; reflexivity. Qed.
