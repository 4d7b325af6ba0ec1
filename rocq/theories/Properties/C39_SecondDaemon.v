(** C39: starting a daemon while one is serving. *)
From Coq Require Import List NArith ZArith Bool Arith Lia.
From Verif Require Import Model.Daemonize Spec.DaemonizeSpec Proofs.DaemonizeProofs.
Import ListNotations.
Open Scope nat_scope.

(** While a daemon serves and can be reached, and nobody has yet taken its socket for
    dead: whatever clients and daemons are started, run, stopped and killed, in
    whatever order, the daemon goes on serving, its control socket leads to it, and
    no other daemon comes to serve. *)
Theorem C39_control : forall st d l,
  serving st d -> reaches st d ->
  (forall p, p <> d -> ~ bound (procs st p) /\ ~ removing (procs st p)) -> (forall p, next st <= p -> procs st p = Absent) ->
  (forall p, In (Term p) l \/ In (Kill p) l -> p <> d) ->
  let st' := exec_all st l in
  serving st' d /\ reaches st' d /\ forall p, p <> d -> ~ serving st' p.
Proof.
  intros st d l S R O A K. assert (U : undisturbed d st) by (constructor; assumption). clear R O A. cbn zeta.
  assert (G : undisturbed d (exec_all st l) /\ serving (exec_all st l) d).
  { revert st S U K. induction l as [|a l IH]; intros st S U K; [split; assumption|]. rewrite exec_all_cons. apply IH.
    - apply serving_exec; [exact S|intros p H; apply K; destruct H as [-> | ->]; [left|right]; left; reflexivity|apply (un_ids _ _ U)].
    - apply undisturbed_exec; [exact U|intros p H; apply K; destruct H as [-> | ->]; [left|right]; left; reflexivity|intros _; exact S].
    - intros p [H|H]; apply K; [left|right]; right; exact H. }
  destruct G as [U' S']. split; [exact S'|]. split; [exact (un_reaches _ _ U')|]. intros p N (auto & E). destruct (un_others _ _ U' p N) as [B _]. rewrite E in B. apply B. exact I.
Qed.
Print Assumptions C39_control.

(** A daemon started by hand, by itself, while one is serving: it exits, and no other
    process and neither the control socket nor the pid file is touched.  But the
    events socket of the running daemon is gone. *)
Theorem C39_by_hand_partial : forall st d, quiet st -> serving st d -> reaches st d ->
  let st' := exec_all st (NewDaemon :: repeat (Go (next st)) 6) in
  procs st' (next st) = DExited /\ (forall p, p <> next st -> procs st' p = procs st p) /\
  control st' = control st /\ pid_file st' = pid_file st /\ events st' = None.
Proof.
  intros st d Q S [R1 R2]. cbn zeta. apply second_by_hand with (d := d); try assumption. destruct Q as (_ & Q2 & Q3). split; [exact R1|]. pose proof (Q3 d R1). lia.
Qed.
Print Assumptions C39_by_hand_partial.

(** The full claim fails: the running daemon's events socket is removed. *)
Theorem C39_events_refuted : exists st d, quiet st /\ serving st d /\ reaches st d /\ events st = Some d /\
  let st' := exec_all st (NewDaemon :: repeat (Go (next st)) 6) in
  serving st' d /\ reaches st' d /\ procs st' (next st) = DExited /\ events st' = None.
Proof.
  exists (launch false (boot None None None)), 1. pose proof (launch_quiet false _ (boot_quiet None None None)) as Q.
  assert (F : let st := launch false (boot None None None) in procs st 1 = DServe true /\ control st = Some 1 /\ events st = Some 1 /\ next st = 2) by (vm_compute; auto).
  cbn zeta in F. remember (launch false (boot None None None)) as st eqn:E. clear E. destruct F as (A & B & C & D).
  assert (S : serving st 1) by (exists true; exact A). assert (R : reaches st 1) by (split; [exact B|rewrite A; reflexivity]).
  split; [exact Q|]. split; [exact S|]. split; [exact R|]. split; [exact C|]. cbn zeta.
  destruct (C39_by_hand_partial st 1 Q S R) as (X1 & X2 & X3 & X4 & X5).
  split; [exists true; rewrite X2 by (rewrite D; lia); exact A|]. split; [split; [rewrite X3; exact B|rewrite X2 by (rewrite D; lia); rewrite A; reflexivity]|]. split; assumption.
Qed.
Print Assumptions C39_events_refuted.

(** A daemon launched by a client exits at once, having changed nothing, if at that
    moment another holds the lock on the pid file. *)
Theorem C39_locked_partial : forall st p q i, procs st p = DFlock i -> procs st q = DLocked i -> q < next st ->
  exec st (Go p) = set_proc st p DExited.
Proof.
  intros st p q i Hp Hq L. cbn [exec]. unfold turn. rewrite Hp. replace (held st i) with true; [reflexivity|]. symmetry. apply existsb_exists. exists q.
  split; [apply in_seq; lia|]. rewrite Hq. apply Nat.eqb_refl.
Qed.
Print Assumptions C39_locked_partial.

(** Two clients launching at once can leave two daemons past that lock.  The second
    one fails, but takes the first one's events socket and pid file with it; both
    clients are content. *)
Definition late_second : list act :=
  [NewClient false; NewClient false; Go 0; Go 1; Go 0; Go 1] ++ repeat (Go 2) 8 ++ [Go 0; Go 1] ++ repeat (Go 3) 10.
Lemma late_second_facts : let st := exec_all (boot None None None) late_second in
  procs st 0 = CDone /\ procs st 1 = CDone /\ procs st 2 = DServe true /\ procs st 3 = DExited /\ control st = Some 2 /\ events st = None /\ pid_file st = None.
Proof. vm_compute. repeat split. Qed.
Theorem C39_pid_refuted : exists l, let st := exec_all (boot None None None) l in
  procs st 0 = CDone /\ procs st 1 = CDone /\ serving st 2 /\ reaches st 2 /\ procs st 3 = DExited /\ events st = None /\ pid_file st = None.
Proof.
  exists late_second. pose proof late_second_facts as F. cbn zeta in *. remember (exec_all _ late_second) as st eqn:E. clear E.
  destruct F as (A & B & C & D & K & L & M). repeat split; try assumption; [eexists; eassumption|rewrite C; reflexivity].
Qed.
Print Assumptions C39_pid_refuted.

(** Not vacuous: the hypotheses of C39_control hold after a launch, and a second
    daemon started then exits. *)
Example C39_after_launch : let st := launch false (boot (Some 4) None None) in
  serving st 6 /\ reaches st 6 /\ (forall p, p <> 6 -> ~ bound (procs st p) /\ ~ removing (procs st p)) /\ (forall p, next st <= p -> procs st p = Absent).
Proof.
  cbn zeta. pose proof (launch_cases false _ (boot_quiet (Some 4) None None)) as L. cbn zeta in L. destruct L as [(d & [R1 R2] & _)|(_ & pid & H)].
  - exfalso. cbn in R2. discriminate R2.
  - change (next (boot (Some 4) None None)) with 5 in H. remember (launch false (boot (Some 4) None None)) as st eqn:E. clear E.
    split; [exists true; exact (f_d _ _ _ _ _ _ _ _ _ H)|]. split; [split; [exact (f_control _ _ _ _ _ _ _ _ _ H)|rewrite (f_d _ _ _ _ _ _ _ _ _ H); reflexivity]|]. split.
    + intros p N. destruct (Nat.eq_dec p 5) as [->|N5]; [rewrite (f_c _ _ _ _ _ _ _ _ _ H); cbn; tauto|]. rewrite (f_old _ _ _ _ _ _ _ _ _ H p N5 N). cbn. tauto.
    + intros p Hp. rewrite (f_next _ _ _ _ _ _ _ _ _ H) in Hp. rewrite (f_old _ _ _ _ _ _ _ _ _ H p) by lia. reflexivity.
Qed.
