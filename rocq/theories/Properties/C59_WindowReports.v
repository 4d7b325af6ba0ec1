(** C59: the session is kept informed of the client's window size. *)
From Coq Require Import List NArith Bool.
From Verif Require Import Model.Base Model.Protocol Model.Winch Spec.WinchSpec Proofs.WinchProofs.
Import ListNotations.
Open Scope N_scope.

(** Whatever the order of events: when the client has nothing left to report and every
    report it made was heard, the session it attached to last knows the size the
    window has now. *)
Theorem C59_up_to_date_partial : forall size name es,
  let s := winch_run (winch_start size name) es in
  attach_sent s = true -> signalled s = false -> at_ s = Idle -> all_heard (log s) ->
  knows (slot_name s) (size_now s) (log s).
Proof.
  intros size name es s Hs Hg Hi Hh. subst s.
  destruct (winch_run_inv es _ (winch_start_inv size name)) as (_ & H).
  destruct (H Hs Hh) as [[E|E]|K]; [rewrite E in Hg; discriminate|rewrite Hi in E; contradiction|exact K].
Qed.
Print Assumptions C59_up_to_date_partial.
(** Missing for the full claim: reports that are refused, lost or never answered; see the
    two refutations. *)

(** Such a quiet moment always comes: wherever the thread is, a handful of its own
    steps, each succeeding, leave it with nothing to report, having reported the present
    size to the present session if there was a signal to take up. *)
Theorem C59_a_signal_is_reported : forall s,
  signalled s = true -> at_ s = Idle ->
  winch_run s [Take; Dial true; Measure true; Send true; Reply (Some ReportOk)] =
  mkWinch (size_now s) (slot_name s) (attach_sent s) false Idle
    (log s ++ [MReport (slot_name s) (size_now s) ReportOk]).
Proof. intros [z n se sg a l] E1 E2. cbn in E1, E2. subst. reflexivity. Qed.
Print Assumptions C59_a_signal_is_reported.

Theorem C59_quiet_is_reachable : forall s, exists steps,
  (forall e, In e steps -> In e [Take; Dial true; Measure true; Send true; Reply (Some ReportOk)]) /\
  let s' := winch_run s steps in
  signalled s' = false /\ at_ s' = Idle /\ size_now s' = size_now s /\ slot_name s' = slot_name s /\
  (all_heard (log s) -> all_heard (log s')).
Proof.
  assert (Hap : forall l m, all_heard l -> match m with MAttach _ _ | MReport _ _ ReportOk => True | _ => False end ->
    all_heard (l ++ [m])).
  { intros l m Hl Hm x Hx. apply in_app_or in Hx. destruct Hx as [Hx|[<-|[]]]; [apply Hl; exact Hx|exact Hm]. }
  assert (Hidle : forall s, at_ s = Idle -> exists steps,
    (forall e, In e steps -> In e [Take; Dial true; Measure true; Send true; Reply (Some ReportOk)]) /\
    let s' := winch_run s steps in
    signalled s' = false /\ at_ s' = Idle /\ size_now s' = size_now s /\ slot_name s' = slot_name s /\
    (all_heard (log s) -> all_heard (log s'))).
  { intros s Ha. destruct (signalled s) eqn:Eg.
    - exists [Take; Dial true; Measure true; Send true; Reply (Some ReportOk)]. split; [auto|].
      rewrite (C59_a_signal_is_reported s Eg Ha). cbn. repeat split; auto.
    - exists []. split; [intros ? []|]. cbn. auto. }
  assert (Hgo : forall s pre, (forall e, In e pre -> In e [Take; Dial true; Measure true; Send true; Reply (Some ReportOk)]) ->
     at_ (winch_run s pre) = Idle -> size_now (winch_run s pre) = size_now s -> slot_name (winch_run s pre) = slot_name s ->
     (all_heard (log s) -> all_heard (log (winch_run s pre))) -> exists steps,
    (forall e, In e steps -> In e [Take; Dial true; Measure true; Send true; Reply (Some ReportOk)]) /\
    let s' := winch_run s steps in
    signalled s' = false /\ at_ s' = Idle /\ size_now s' = size_now s /\ slot_name s' = slot_name s /\
    (all_heard (log s) -> all_heard (log s'))).
  { intros s pre Hp Ha Hz Hn Hl. destruct (Hidle _ Ha) as (st & Hst & Hs). cbv zeta in Hs. exists (pre ++ st). split.
    - intros e He. apply in_app_or in He. destruct He; auto.
    - cbv zeta. rewrite winch_run_app. destruct Hs as (A & B & C & D & E).
      rewrite C, D. repeat split; auto. }
  intros s. destruct (at_ s) as [| | |z|n z] eqn:Ea.
  - exact (Hidle s Ea).
  - apply (Hgo s [Dial true; Measure true; Send true; Reply (Some ReportOk)]); destruct s as [sz sn se sg a l]; cbn in Ea; subst a; cbn; auto 10.
  - apply (Hgo s [Measure true; Send true; Reply (Some ReportOk)]); destruct s as [sz sn se sg a l]; cbn in Ea; subst a; cbn; auto 10.
  - apply (Hgo s [Send true; Reply (Some ReportOk)]); destruct s as [sz sn se sg a l]; cbn in Ea; subst a; cbn; auto 10.
  - apply (Hgo s [Reply (Some ReportOk)]); destruct s as [sz sn se sg a l]; cbn in Ea; subst a; cbn; auto 10.
Qed.
Print Assumptions C59_quiet_is_reachable.

(** Nothing is made up: a reported size is one the window had, and the report went to
    the session the client was with, then or since; the size in an attach request is the
    one of that moment. *)
Theorem C59_reports_are_true : forall size name es m,
  let s0 := winch_start size name in
  In m (log (winch_run s0 es)) ->
  match m with
  | MReport n z _ => exists a b c, es = a ++ b ++ c /\ size_now (winch_run s0 a) = z /\ slot_name (winch_run s0 (a ++ b)) = n
  | MAttach n z => exists a b, es = a ++ b /\ size_now (winch_run s0 a) = z /\ slot_name (winch_run s0 a) = n
  | MFailed => True
  end.
Proof.
  intros size name es m s0 Hm.
  assert (H0 : sources s0 [] s0) by (split; [exact I|intros ? []]).
  destruct (winch_sources s0 es H0) as (_ & HL). specialize (HL m Hm). destruct m; auto.
Qed.
Print Assumptions C59_reports_are_true.

(** Without a change of size nothing is reported. *)
Theorem C59_no_change_no_report : forall size name es,
  (forall z, ~ In (SizeChange z) es) ->
  forall m, In m (log (winch_run (winch_start size name) es)) -> exists n, m = MAttach n size.
Proof.
  intros size name es Hes.
  assert (H : let s := winch_run (winch_start size name) es in
    size_now s = size /\ signalled s = false /\ at_ s = Idle /\ forall m, In m (log s) -> exists n, m = MAttach n size).
  { induction es as [|e es IH] using rev_ind; [cbn; repeat split; auto; intros ? []|].
    cbv zeta. rewrite winch_run_app. cbn [winch_run fold_left].
    assert (Hes' : forall z, ~ In (SizeChange z) es) by (intros z H; apply (Hes z); apply in_or_app; left; exact H).
    destruct (IH Hes') as (A & B & C & D). remember (fold_left winch_step es (winch_start size name)) as s eqn:Es.
    fold (winch_run (winch_start size name) es) in Es. rewrite <- Es in *.
    destruct e as [z| n | | | | | |]; cbn [winch_step]; rewrite ?C, ?B; auto.
    - exfalso. apply (Hes z). apply in_or_app. right. left. reflexivity.
    - repeat split; auto. cbn. intros m Hm. apply in_app_or in Hm. destruct Hm as [Hm|[<-|[]]]; [auto|].
      exists (slot_name s). rewrite A. reflexivity. }
  cbv zeta in H. intros m Hm. apply H. exact Hm.
Qed.
Print Assumptions C59_no_change_no_report.

(** Full claim: "the session knows the size of the window".  Refuted twice.  A change
    during the attach handshake is reported before the daemon has the session: the
    report is refused, the refusal only logged, and the session keeps the old size. *)
Theorem C59_change_while_attaching_refuted : exists size name es,
  let s := winch_run (winch_start size name) es in
  attach_sent s = true /\ signalled s = false /\ at_ s = Idle /\
  (forall n z, In (MReport n z ReportOdd) (log s) -> False) /\ ~ In MFailed (log s) /\
  ~ knows (slot_name s) (size_now s) (log s).
Proof.
  exists (mkSize 24 80 0 0), (lit "main"),
    [AttachSent; SizeChange (mkSize 50 80 0 0); Take; Dial true; Measure true; Send true; Reply (Some ReportNotFound)].
  cbn. repeat split.
  - intros n z [H|[H|[]]]; discriminate.
  - intros [H|[H|[]]]; discriminate.
  - intros (b & m & a & E & Hc & _).
    assert (Hin := in_elt m b a). rewrite <- E in Hin.
    destruct Hin as [<-|[<-|[]]]; inversion Hc.
Qed.
Print Assumptions C59_change_while_attaching_refuted.

(** And there is no time limit on the answer: while one report goes unanswered, no
    later change is reported, however many there are. *)
Theorem C59_unanswered_report_silences_the_rest_refuted : forall s n z es,
  at_ s = Asked n z -> (forall r, ~ In (Reply r) es) ->
  at_ (winch_run s es) = Asked n z /\
  forall m, In m (log (winch_run s es)) -> In m (log s) \/ exists n' z', m = MAttach n' z'.
Proof.
  intros s n z es Ha. induction es as [|e es IH] using rev_ind; intros Hr; [cbn; auto|].
  assert (Hr' : forall r, ~ In (Reply r) es) by (intros r H; apply (Hr r); apply in_or_app; left; exact H).
  destruct (IH Hr') as (A & L). rewrite winch_run_app. cbn [winch_run fold_left].
  fold (winch_run s es). destruct e as [z'| n' | | | | | |r]; cbn [winch_step]; rewrite A; cbn [at_ log]; auto.
  - split; [reflexivity|]. intros m Hm. apply in_app_or in Hm. destruct Hm as [Hm|[<-|[]]]; eauto.
  - exfalso. apply (Hr r). apply in_or_app. right. left. reflexivity.
Qed.
Print Assumptions C59_unanswered_report_silences_the_rest_refuted.

Definition small := mkSize 24 80 0 0.
Definition large := mkSize 50 200 0 0.

Example C59_nonvacuous :
  let s := winch_run (winch_start small (lit "a"))
    [AttachSent; SizeChange large; Take; Dial true; SizeChange small; Measure true; Send true; Rename (lit "b");
     Reply (Some ReportOk); AttachSent; SizeChange large; Take; Dial true; Measure true; Send true; Reply (Some ReportOk)] in
  attach_sent s = true /\ signalled s = false /\ at_ s = Idle /\ slot_name s = lit "b" /\ size_now s = large /\
  log s = [MAttach (lit "a") small; MReport (lit "a") small ReportOk; MAttach (lit "b") small; MReport (lit "b") large ReportOk] /\
  exists s', at_ s' = Asked (lit "a") small.
Proof.
  cbn. repeat split; try reflexivity. exists (mkWinch small (lit "a") true false (Asked (lit "a") small) []). reflexivity.
Qed.
