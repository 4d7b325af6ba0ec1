(** Proofs that a request is done with once it is served, for C80. *)
From Coq Require Import List NArith ZArith Bool Arith Lia.
From Verif Require Import Model.Base Model.Server Spec.ServerSpec Proofs.BaseLemmas Proofs.ServerProofs Proofs.ServerGossip Proofs.ServerCounts Spec.WholeCommandSpec.
From Verif Require Model.WholeCommand Proofs.JsonProofs.
Import ListNotations.

Lemma sends_on n : forall st c, handlers st c = HDone -> handlers (run st (repeat (ASend c true) n)) c = HDone.
Proof. induction n as [|n IH]; intros st c H; [exact H|]. cbn [repeat]. change (handlers (run (step st (ASend c true)) (repeat (ASend c true) n)) c = HDone). apply IH. apply step_done. exact H. Qed.
Lemma sends_done c vs : forall rest st sent n, handlers st c = HSends vs sent rest -> (forall s, In s rest -> exists x, session_at st s = Some x) -> (length rest < n)%nat ->
  handlers (run st (repeat (ASend c true) n)) c = HDone.
Proof.
  induction rest as [|s rest IH]; intros st sent [|n] H S L; cbn [length] in L; try lia.
  - cbn [repeat]. change (handlers (run (step st (ASend c true)) (repeat (ASend c true) n)) c = HDone). apply sends_on. cbn [step]. unfold modify_send. rewrite H. apply goto_same.
  - cbn [repeat]. change (handlers (run (step st (ASend c true)) (repeat (ASend c true) n)) c = HDone). cbn [step]. unfold modify_send. rewrite H. destruct (S s (or_introl eq_refl)) as [x X]. rewrite X.
    destruct (is_live (s_thread x)); cbn [negb]; [|apply sends_on; apply goto_same]. destruct (length (s_switches x) <? 10)%nat; [|apply sends_on; apply goto_same].
    eapply IH; [apply goto_same| |lia]. intros s' Hs. destruct (S s' (or_intror Hs)) as [y Y].
    change (exists z, session_at (change st s (fun y => set_switches y (s_switches y ++ [vs]) (s_taken y))) s' = Some z). rewrite at_change, Y. destruct (s' =? s)%nat; eexists; reflexivity.
Qed.

Lemma run_cons st a l : run st (a :: l) = run (step st a) l.
Proof. reflexivity. Qed.
Lemma done_on c l : forall st, handlers st c = HDone -> handlers (run st l) c = HDone.
Proof. induction l as [|a l IH]; intros st H; [exact H|]. rewrite run_cons. apply IH. apply step_done. exact H. Qed.
Lemma detach_done c : forall times names st nf na, reachable st -> handlers st c = HDetach names nf na -> length times = length names ->
  handlers (run st (map (ADetachNext c) times ++ [ADetachFinish c])) c = HDone.
Proof.
  induction times as [|t times IH]; intros [|n names] st nf na R H L; try discriminate L.
  - cbn [map app]. rewrite run_cons. apply done_on. cbn [step]. unfold detach_finish. rewrite H. apply goto_same.
  - injection L as L. cbn [map app]. rewrite run_cons.
    assert (N : handlers (step st (ADetachNext c t)) c = HDone \/ exists nf' na', handlers (step st (ADetachNext c t)) c = HDetach names nf' na').
    { cbn [step]. unfold detach_next. rewrite H. destruct (lookup n (table st)) as [s|] eqn:Lk; [|right; eexists _, _; apply goto_same].
      destruct (i_tab _ (reachable_inv _ R) _ _ Lk) as (x & X & _). rewrite X.
      destruct (s_thread x); try (left; apply goto_same); [right; eexists _, _; apply goto_same|]. destruct (s_client x); right; eexists _, _; apply goto_same. }
    destruct N as [N|(nf' & na' & N)]; [apply done_on; exact N|]. eapply IH; [apply reachable_step; exact R|exact N|exact L].
Qed.

Lemma serves_done c pid q l st : reachable st -> serves c (length (table st)) q l -> handlers st c = HAccepted pid q -> locked st = None ->
  handlers (run st l) c = HDone.
Proof.
  intros R V H K. destruct V as [|names oks| |var val n L|names times L].
  - change (handlers (step st (AList c)) c = HDone). cbn [step]. unfold handle_list. rewrite H, K. destruct (map_opt _ _); apply goto_same.
  - change (handlers (step st (AKill c oks)) c = HDone). cbn [step]. unfold handle_kill. rewrite H, K. destruct (kill_loop _ _ _ _ _) as [st1 [[nf rm]|]]; apply goto_same.
  - change (handlers (step st (AGetVars c)) c = HDone). cbn [step]. unfold handle_get_vars. rewrite H. apply goto_same.
  - set (s1 := step st (AModify c)). set (s2 := step s1 (ACollect c)). change (handlers (run s2 (repeat (ASend c true) n)) c = HDone).
    assert (R2 : reachable s2) by (do 2 apply reachable_step; exact R).
    set (vs := match val with Some v => insert var v (vars st) | None => remove var (vars st) end).
    assert (E1 : s1 = goto (with_vars st vs) c (HCollect vs)) by (unfold s1; cbn [step]; unfold modify_begin; rewrite H; reflexivity).
    assert (E2 : s2 = goto s1 c (HSends vs [] (map snd (table st)))).
    { unfold s2. cbn [step]. unfold modify_collect. rewrite E1. rewrite goto_same. cbn [locked goto with_handlers with_vars]. rewrite K. reflexivity. }
    assert (T : table s2 = table st) by (rewrite E2, E1; reflexivity).
    apply sends_done with (vs := vs) (sent := []) (rest := map snd (table st)).
    + rewrite E2. apply goto_same.
    + intros s Hs. apply in_map_iff in Hs as ([k s'] & <- & Hin). rewrite <- T in Hin.
      destruct (i_tab _ (reachable_inv _ R2) k s') as (x & X & _); [|exists x; exact X]. apply JsonProofs.in_lookup; [apply nodup_run; exact R2|exact Hin].
    + rewrite map_length. exact L.
  - rewrite run_cons. eapply detach_done; [apply reachable_step; exact R| |exact L]. cbn [step]. unfold detach_begin. rewrite H, K. apply goto_same.
Qed.

(** What others do is done to the daemon only. *)
Lemma others_run unreadable self other own_version c current cmd l : Forall (fun a => WholeCommand.mine c a = false) l -> forall w,
  let w' := fold_left (WholeCommand.act unreadable self other own_version c current cmd) (map WholeCommand.Others l) w in
  WholeCommand.srv w' = run (WholeCommand.srv w) l.
Proof.
  induction l as [|a l IH]; intros F w; [reflexivity|]. inversion F as [|? ? M F']; subst. cbn [map fold_left WholeCommand.act]. rewrite M. cbv zeta. rewrite IH by exact F'. reflexivity.
Qed.
Lemma serves_mine c n q l : serves c n q l -> Forall (fun a => WholeCommand.mine c a = false) l.
Proof.
  intros V. destruct V; repeat constructor.
  - apply Forall_forall. intros a Ha. apply repeat_spec in Ha. subst. reflexivity.
  - apply Forall_app. split; [|repeat constructor]. apply Forall_forall. intros a Ha. apply in_map_iff in Ha as (t & <- & _). reflexivity.
Qed.
