(** C45: exit status latch. *)
From Coq Require Import List NArith ZArith Bool Lia Arith.
From Verif Require Import Model.Base Model.ExitLatch Model.Server Spec.ServerSpec Spec.ServerExamples
  Proofs.ExitLatchProofs Proofs.ServerProofs Proofs.ServerMoves.
Import ListNotations.
Open Scope nat_scope.

(** For every history of notifications, waits, timeouts and wake-ups: a wait that
    returns a status returns one that was recorded earlier in that history. *)
Theorem C45_no_status_before_it_is_recorded : forall es s w st,
  latch_run new_latch es = Some s -> In (w, Some st) (returned s) -> In (Notify st) es.
Proof.
  intros es. induction es as [|e es IH] using rev_ind; intros s w st H Hi.
  - injection H as <-. destruct Hi.
  - rewrite latch_run_app in H. destruct (latch_run new_latch es) as [s0|] eqn:E0; [|discriminate].
    cbn in H. destruct (latch_step s0 e) as [s1|] eqn:E1; [|discriminate]. injection H as <-.
    apply in_or_app.
    assert (Hslot : slot s0 = Some st -> In (Notify st) es).
    { intros Hs. rewrite (slot_recorded _ _ _ E0) in Hs. cbn in Hs.
      assert (Hr : recorded es = Some st) by (destruct (recorded es); congruence). clear - Hr.
      induction es as [|e es IH]; [discriminate|]. cbn in Hr. destruct (recorded es).
      - right. apply IH. assumption.
      - destruct e; try discriminate. injection Hr as ->. left. reflexivity. }
    destruct e as [st'|w' t|w'|w']; cbn in E1.
    + injection E1 as <-. left. eapply IH; [reflexivity|exact Hi].
    + destruct (find_waiter w' (inside s0)); [discriminate|]. destruct (slot s0) eqn:Es; injection E1 as <-.
      * cbn in Hi. apply in_app_or in Hi. destruct Hi as [Hi|[Hi|[]]]; [left; eapply IH; [reflexivity|exact Hi]|].
        injection Hi as _ ->. left. auto.
      * left. eapply IH; [reflexivity|exact Hi].
    + destruct (find_waiter w' (inside s0)) as [[[]| | ]|]; try discriminate. injection E1 as <-.
      left. eapply IH; [reflexivity|exact Hi].
    + destruct (find_waiter w' (inside s0)) as [[|  |]|]; try discriminate; injection E1 as <-;
        cbn in Hi; apply in_app_or in Hi; (destruct Hi as [Hi|[Hi|[]]]; [left; eapply IH; [reflexivity|exact Hi]|]).
      * injection Hi as _ Hs. left. auto.
      * discriminate.
Qed.
Print Assumptions C45_no_status_before_it_is_recorded.

(** Once the exit has been recorded (it is recorded once), a call made at any later
    time, by anyone, with or without a timeout, returns that status at once. *)
Theorem C45_later_calls_see_it : forall before after st s w timed s',
  (forall st', ~ In (Notify st') before) -> (forall st', ~ In (Notify st') after) ->
  latch_run new_latch (before ++ Notify st :: after) = Some s ->
  latch_step s (Call w timed) = Some s' ->
  returned s' = returned s ++ [(w, Some st)] /\ inside s' = inside s.
Proof.
  intros before after st s w timed s' Hb Ha H E.
  assert (Hn : forall l, (forall st', ~ In (Notify st') l) -> recorded l = None).
  { induction l as [|e l IH]; intros Hl; [reflexivity|]. cbn. rewrite IH.
    - destruct e; try reflexivity. exfalso. eapply Hl. left. reflexivity.
    - intros st' Hi. eapply Hl. right. exact Hi. }
  assert (Hs : slot s = Some st).
  { rewrite (slot_recorded _ _ _ H). rewrite recorded_app. cbn. rewrite (Hn after Ha). reflexivity. }
  cbn in E. destruct (find_waiter w (inside s)); [discriminate|]. rewrite Hs in E. injection E as <-.
  cbn. split; reflexivity.
Qed.
Print Assumptions C45_later_calls_see_it.

(** Every caller that is asleep when the exit is recorded returns that status when
    it resumes, and can resume: recording the exit leaves nobody asleep, whatever
    happens afterwards (no lost wake-up). *)
Theorem C45_sleepers_are_woken : forall before s0 st s1 after s w t,
  latch_run new_latch before = Some s0 -> find_waiter w (inside s0) = Some (Parked t) ->
  latch_step s0 (Notify st) = Some s1 ->
  latch_run s1 after = Some s -> (forall st', ~ In (Notify st') after) -> ~ In (Resume w) after ->
  exists s', latch_step s (Resume w) = Some s' /\ returned s' = returned s ++ [(w, Some st)].
Proof.
  intros before s0 st s1 after s w t H0 Hw H1 Ha Hn Hr.
  assert (Hs1 : slot s1 = Some st /\ find_waiter w (inside s1) = Some Notified).
  { cbn in H1. injection H1 as <-. split; [reflexivity|]. cbn. rewrite find_map_wake, Hw. reflexivity. }
  clear H0 Hw H1. revert s1 Ha Hs1. induction after as [|e after IH]; intros s1 Ha (Hsl & Hf).
  - injection Ha as <-. cbn. rewrite Hf, Hsl. eexists. split; [reflexivity|]. reflexivity.
  - cbn in Ha. destruct (latch_step s1 e) as [s2|] eqn:E; [|discriminate].
    apply (IH (fun st' Hi => Hn st' (or_intror Hi)) (fun Hi => Hr (or_intror Hi)) s2 Ha).
    destruct e as [st'|w' t'|w'|w']; cbn in E.
    + exfalso. apply (Hn st'). left. reflexivity.
    + destruct (find_waiter w' (inside s1)) eqn:Ef; [discriminate|]. rewrite Hsl in E. injection E as <-. cbn. auto.
    + destruct (find_waiter w' (inside s1)) as [[[]| | ]|] eqn:Ef; try discriminate. injection E as <-. cbn. split; [assumption|].
      destruct (Nat.eqb w w') eqn:Ew; [apply Nat.eqb_eq in Ew; subst; congruence|].
      rewrite find_drop_neq; [assumption|]. intros ->. rewrite Nat.eqb_refl in Ew. discriminate.
    + assert (w <> w') by (intros ->; apply Hr; left; reflexivity).
      destruct (find_waiter w' (inside s1)) as [[|  |]|] eqn:Ef; try discriminate; injection E as <-; cbn;
        (split; [assumption|]; rewrite find_drop_neq by assumption; assumption).
Qed.
Print Assumptions C45_sleepers_are_woken.

(** Nobody is asleep, and no timeout can fire, once the exit has been recorded. *)
Theorem C45_nobody_sleeps_after : forall es s st w timed, latch_run new_latch es = Some s -> In (Notify st) es ->
  find_waiter w (inside s) <> Some (Parked timed).
Proof.
  intros es s st w timed H Hi. apply (latch_ok_run es new_latch s latch_ok_new H).
  rewrite (slot_recorded _ _ _ H). cbn.
  assert (Hr : recorded es <> None).
  { clear H. induction es as [|e es IH]; [destruct Hi|]. cbn. destruct (recorded es); [discriminate|].
    destruct Hi as [->|Hi]; [discriminate|]. exfalso. apply IH; auto. }
  destruct (recorded es); [discriminate|congruence].
Qed.
Print Assumptions C45_nobody_sleeps_after.

(** "No status" is only ever answered to a caller that gave a timeout, and whose
    timeout fired before the exit was recorded. *)
(** Missing for the full claim: that a caller whose timeout fired is told an exit
    recorded before it returns; refuted below. *)
Theorem C45_none_only_after_timeout_partial : forall es s w, latch_run new_latch es = Some s ->
  In (w, None) (returned s) ->
  exists before s0 after s1, es = before ++ TimeOut w :: after /\ latch_run new_latch before = Some s0 /\
    latch_step s0 (TimeOut w) = Some s1 /\ slot s0 = None.
Proof.
  intros es. induction es as [|e es IH] using rev_ind; intros s w H Hi.
  - injection H as <-. destruct Hi.
  - rewrite latch_run_app in H. destruct (latch_run new_latch es) as [s0|] eqn:E0; [|discriminate].
    cbn in H. destruct (latch_step s0 e) as [s1|] eqn:E1; [|discriminate]. injection H as <-.
    assert (Hold : In (w, None) (returned s0) ->
       exists before s2 after s3, es ++ [e] = before ++ TimeOut w :: after /\ latch_run new_latch before = Some s2 /\
         latch_step s2 (TimeOut w) = Some s3 /\ slot s2 = None).
    { intros Ho. destruct (IH s0 w eq_refl Ho) as (b & s2 & a & s3 & -> & A & B & C).
      exists b, s2, (a ++ [e]), s3. rewrite <- app_assoc. cbn. auto. }
    (* a caller in the Expired state got there by such a timeout *)
    assert (Hexp : forall es' s', latch_run new_latch es' = Some s' -> find_waiter w (inside s') = Some Expired ->
       exists before s2 after s3, es' = before ++ TimeOut w :: after /\ latch_run new_latch before = Some s2 /\
         latch_step s2 (TimeOut w) = Some s3 /\ slot s2 = None).
    { clear. intros es'. induction es' as [|e es' IH] using rev_ind; intros s' H Hf.
      - injection H as <-. discriminate.
      - rewrite latch_run_app in H. destruct (latch_run new_latch es') as [s0|] eqn:E0; [|discriminate].
        cbn in H. destruct (latch_step s0 e) as [s1|] eqn:E1; [|discriminate]. injection H as <-.
        assert (Hold : find_waiter w (inside s0) = Some Expired ->
           exists before s2 after s3, es' ++ [e] = before ++ TimeOut w :: after /\ latch_run new_latch before = Some s2 /\
             latch_step s2 (TimeOut w) = Some s3 /\ slot s2 = None).
        { intros Ho. destruct (IH s0 eq_refl Ho) as (b & s2 & a & s3 & -> & A & B & C).
          exists b, s2, (a ++ [e]), s3. rewrite <- app_assoc. cbn. auto. }
        destruct e as [st|w' t|w'|w']; cbn in E1.
        + injection E1 as <-. cbn in Hf. rewrite find_map_wake in Hf. apply Hold.
          destruct (find_waiter w (inside s0)) as [[]|]; cbn in Hf; congruence.
        + destruct (find_waiter w' (inside s0)); [discriminate|]. destruct (slot s0); injection E1 as <-; [auto|].
          cbn in Hf. destruct (Nat.eqb w w'); [discriminate|auto].
        + destruct (find_waiter w' (inside s0)) as [[[]| | ]|] eqn:Ef; try discriminate.
          destruct (Nat.eq_dec w w') as [<-|n].
          * exists es', s0, [], s1. split; [reflexivity|]. split; [assumption|]. split.
            -- cbn. rewrite Ef. assumption.
            -- destruct (slot s0) eqn:Es; [|reflexivity]. exfalso.
               assert (Hk := latch_ok_run _ _ _ latch_ok_new E0). destruct Hk as (Hk & _).
               eapply Hk; [congruence|exact Ef].
          * injection E1 as <-. cbn in Hf. replace (Nat.eqb w w') with false in Hf by (symmetry; apply Nat.eqb_neq; assumption).
            rewrite find_drop_neq in Hf by assumption. auto.
        + destruct (find_waiter w' (inside s0)) as [[|  |]|] eqn:Ef; try discriminate; injection E1 as <-; cbn in Hf;
            (destruct (Nat.eq_dec w w') as [<-|n]; [rewrite find_drop_eq in Hf; discriminate|];
             rewrite find_drop_neq in Hf by assumption; auto). }
    destruct e as [st|w' t|w'|w']; cbn in E1.
    + injection E1 as <-. auto.
    + destruct (find_waiter w' (inside s0)); [discriminate|]. destruct (slot s0) eqn:Es; injection E1 as <-; [|auto].
      cbn in Hi. apply in_app_or in Hi. destruct Hi as [Hi|[Hi|[]]]; [auto|]. injection Hi as _ Hx. discriminate.
    + destruct (find_waiter w' (inside s0)) as [[[]| | ]|]; try discriminate. injection E1 as <-. auto.
    + destruct (find_waiter w' (inside s0)) as [[|  |]|] eqn:Ef; try discriminate; injection E1 as <-;
        cbn in Hi; apply in_app_or in Hi; (destruct Hi as [Hi|[Hi|[]]]; [auto|]).
      * injection Hi as _ Hx. exfalso. assert (Hk := latch_ok_run _ _ _ latch_ok_new E0). destruct Hk as (_ & Hk).
        apply (Hk _ Ef). assumption.
      * injection Hi as ->. destruct (Hexp es s0 E0 Ef) as (b & s2 & a & s3 & -> & A & B & C).
        exists b, s2, (a ++ [Resume w]), s3. rewrite <- app_assoc. cbn. auto.
Qed.
Print Assumptions C45_none_only_after_timeout_partial.

(** What is not guaranteed: a caller whose timeout has fired can be overtaken by the
    notification, and then answers "no status" although the status is recorded. *)
Theorem C45_timeout_can_miss_recorded_exit_refuted :
  exists es s w st, latch_run new_latch es = Some s /\ slot s = Some st /\ returned s = [(w, None)] /\
    exists before, es = before ++ [Notify st; Resume w].
Proof.
  exists [Call 1 true; TimeOut 1; Notify 7%Z; Resume 1]. eexists _, 1, 7%Z.
  split; [reflexivity|]. split; [reflexivity|]. split; [reflexivity|]. exists [Call 1 true; TimeOut 1]. reflexivity.
Qed.
Print Assumptions C45_timeout_can_miss_recorded_exit_refuted.

(** The recorded status is the shell's exit code (0..255) when it exited, 1 when
    it was killed by a signal or could not be waited for. *)
Theorem C45_recorded_status : 
  (forall code, (code < 256)%N -> watcher_status (WaitStatus (code * 256)) = Z.of_N code) /\
  (forall signal core, (0 < signal < 128)%N -> watcher_status (WaitStatus (signal + if core : bool then 128 else 0)%N) = 1%Z) /\
  watcher_status WaitFailed = 1%Z.
Proof.
  split; [|split; [|reflexivity]].
  - intros code Hc. unfold watcher_status.
    change 127%N with (N.ones 7). change 255%N with (N.ones 8). rewrite !N.land_ones, N.shiftr_div_pow2.
    change (2 ^ 8)%N with 256%N. rewrite N.div_mul by discriminate.
    replace (code * 256)%N with (code * 2 * 2 ^ 7)%N by (change (2 ^ 7)%N with 128%N; lia).
    rewrite N.mod_mul by discriminate. cbn [N.eqb]. rewrite N.mod_small by assumption. reflexivity.
  - intros signal core Hs. unfold watcher_status.
    change 127%N with (N.ones 7). rewrite N.land_ones.
    replace ((signal + (if core then 128 else 0)) mod 2 ^ 7)%N with signal.
    + destruct (N.eqb_spec signal 0); [lia|reflexivity].
    + change (2 ^ 7)%N with 128%N. destruct core.
      * change 128%N with (1 * 128)%N at 1. rewrite N.mod_add by discriminate. rewrite N.mod_small; lia.
      * rewrite N.add_0_r, N.mod_small; lia.
Qed.
Print Assumptions C45_recorded_status.

(** The status the daemon knows of a session is that of the first exit of its shell,
    whatever else happens before and after: nothing clears or replaces it. *)
Fixpoint first_exit (s : sid) (l : list action) : option Z :=
  match l with
  | [] => None
  | AExit s' status :: l' => if s' =? s then Some status else first_exit s l'
  | _ :: l' => first_exit s l'
  end.

Theorem C45_session_status_is_final : forall st s x l, session_at st s = Some x ->
  exists x', session_at (run st l) s = Some x' /\
    s_exit x' = match s_exit x with Some status => Some status | None => first_exit s l end.
Proof.
  intros st s x l. revert st x. induction l as [|a l IH]; intros st x Hs.
  - exists x. split; [exact Hs|]. destruct (s_exit x); reflexivity.
  - change (run st (a :: l)) with (run (step st a) l).
    assert (G : exists x1, session_at (step st a) s = Some x1 /\
      s_exit x1 = match s_exit x with Some v => Some v | None => match a with AExit s' v => if s' =? s then Some v else None | _ => None end end).
    { destruct a as [| | | | | | | | | | |s' v| | | | | | | | | | | | | | | | |].
      12:{ cbn [step]. unfold shell_exit. rewrite at_change. destruct (Nat.eqb_spec s s') as [<-|N].
           - rewrite Hs, Nat.eqb_refl. eexists. split; [reflexivity|]. destruct (s_exit x) eqn:E; [exact E|reflexivity].
           - exists x. split; [exact Hs|]. destruct (Nat.eqb_spec s' s); [congruence|]. destruct (s_exit x); reflexivity. }
      all: match goal with |- context [step ?st1 ?act] => match type of Hs with session_at _ ?k = Some ?y => destruct (step_alters st1 act k y Hs) as [H|(x1 & H & A)]; (eexists; split; [exact H|]) end end.
      all: try solve [destruct (s_exit x); reflexivity].
      all: inversion A; subst; cbn [s_exit set_inner set_thread set_client set_stream record_attached record_detached set_switches]; destruct (s_exit x) eqn:E; reflexivity || exact E || congruence. }
    destruct G as (x1 & H1 & E1). destruct (IH _ _ H1) as (x' & H' & E'). exists x'. split; [exact H'|].
    rewrite E', E1. destruct (s_exit x); [reflexivity|]. destruct a; try reflexivity. cbn [first_exit]. destruct (s0 =? s); reflexivity.
Qed.
Print Assumptions C45_session_status_is_final.

(** A session whose shell "exits" twice, as two notifications would make it. *)
Example C45_session_nonvacuous :
  let st := run fresh (creates 1 work None) in
  option_map s_exit (session_at st 0) = Some None /\ first_exit 0 [ADropClient 0; AExit 1 4; AExit 0 5; AExit 0 6; AEnd 1 true true true] = Some 5%Z /\
  option_map s_exit (session_at (run st [ADropClient 0; AExit 1 4; AExit 0 5; AExit 0 6; AEnd 1 true true true]) 0) = Some (Some 5%Z).
Proof. vm_compute. auto. Qed.

(** A history with two sleepers, a timeout, the exit and a late caller. *)
Example C45_nonvacuous :
  option_map returned (latch_run new_latch
    [Call 1 true; Call 2 false; TimeOut 1; Resume 1; Call 1 true; Notify 3%Z; Resume 2; Call 4 false; Resume 1]) =
  Some [(1, None); (2, Some 3%Z); (4, Some 3%Z); (1, Some 3%Z)].
Proof. reflexivity. Qed.
