(** C53: a daemon that stops or dies. *)
From Coq Require Import List NArith ZArith Bool Arith Lia.
From Verif Require Import Model.Daemonize Spec.DaemonizeSpec Proofs.DaemonizeProofs.
Import ListNotations.
Open Scope nat_scope.

(** Told to stop, a daemon removes the two sockets, and the pid file if it was
    launched automatically, and exits; no other process is touched. *)
(** Missing for the full claim: that the files removed are its own, which they need
    not be; refuted below. *)
Theorem C53_stopped_partial : forall st d auto, procs st d = DServe auto ->
  let st' := exec_all st [Term d; Go d; Go d; Go d] in
  procs st' d = DExited /\ (forall p, p <> d -> procs st' p = procs st p) /\
  control st' = None /\ events st' = None /\ pid_file st' = (if auto then None else pid_file st).
Proof. intros st d auto H. destruct (stop_effect st d auto H) as (A & B & C & D & E & _). auto. Qed.
Print Assumptions C53_stopped_partial.

(** A second signal ends it at once, with whatever files are left: an inaccessible
    socket then, never a live one. *)
Theorem C53_twice : forall st d, (exists auto, procs st d = DServe auto) ->
  forall n, n <= 2 -> let st' := exec_all st ([Term d] ++ repeat (Go d) n ++ [Term d]) in
  (procs st' d = Dead \/ procs st' d = DExited) /\ ~ reaches st' d.
Proof. intros st d (auto & H) n L. apply (twice st d auto n H L). Qed.
Print Assumptions C53_twice.

(** After a daemon has stopped, or has been killed leaving its files behind, the
    next client brings up a new one that it reaches. *)
Theorem C53_again : forall st d patient, quiet st -> reaches st d ->
  (let st1 := exec_all st [Term d; Go d; Go d; Go d] in let st2 := launch patient st1 in
     procs st2 (next st1) = CDone /\ reaches st2 (S (next st1)) /\ serving st2 (S (next st1))) /\
  (let st1 := exec st (Kill d) in let st2 := launch patient st1 in
     procs st2 (next st1) = CDone /\ reaches st2 (S (next st1)) /\ serving st2 (S (next st1))).
Proof.
  intros st d patient Q [R1 R2]. assert (S : exists auto, procs st d = DServe auto).
  { destruct Q as (Q1 & _). specialize (Q1 d). destruct (procs st d); cbn in *; try discriminate R2; try contradiction. eauto. }
  destruct S as (auto & S). split; cbn zeta.
  - assert (Q' : quiet (exec_all st [Term d; Go d; Go d; Go d])) by (apply (happen_quiet st (Stopped d) Q)).
    destruct (stop_effect st d auto S) as (A & B & C & _). remember (exec_all st _) as st1 eqn:E. clear E.
    destruct (launch_cases patient st1 Q') as [(k & [X _] & _)|(_ & pid & H)]; [congruence|].
    split; [exact (f_c _ _ _ _ _ _ _ _ _ H)|]. split; [split; [exact (f_control _ _ _ _ _ _ _ _ _ H)|]|exists true; exact (f_d _ _ _ _ _ _ _ _ _ H)]. rewrite (f_d _ _ _ _ _ _ _ _ _ H). reflexivity.
  - assert (Q' : quiet (exec st (Kill d))) by (apply (happen_quiet st (Ended d) Q)).
    assert (E : exec st (Kill d) = set_proc st d Dead) by (cbn [exec]; rewrite S; reflexivity). rewrite E in *. clear E.
    assert (Np : forall k, ~ reaches (set_proc st d Dead) k).
    { intros k [X Y]. cbn in X. replace k with d in Y by congruence. rewrite procs_set_same in Y. discriminate Y. }
    remember (set_proc st d Dead) as st1 eqn:E. clear E.
    destruct (launch_cases patient st1 Q') as [(k & X & _)|(_ & pid & H)]; [exfalso; exact (Np k X)|].
    split; [exact (f_c _ _ _ _ _ _ _ _ _ H)|]. split; [split; [exact (f_control _ _ _ _ _ _ _ _ _ H)|]|exists true; exact (f_d _ _ _ _ _ _ _ _ _ H)]. rewrite (f_d _ _ _ _ _ _ _ _ _ H). reflexivity.
Qed.
Print Assumptions C53_again.

(** The files go by name: a daemon that lost its socket to another one removes the
    other one's when told to stop, and then nobody can be reached. *)
Definition cut_off : list act :=
  [NewClient false; Go 0; Go 0] ++ repeat (Go 1) 7 ++ [NewClient false; Go 2; Go 1; Go 2; Go 2] ++ repeat (Go 3) 9 ++ [Go 0; Go 2; Term 1; Go 1; Go 1; Go 1].
Lemma cut_off_facts : let st := exec_all (boot None None None) cut_off in
  procs st 1 = DExited /\ procs st 3 = DServe true /\ control st = None /\ events st = None.
Proof. vm_compute. auto. Qed.
Theorem C53_other_refuted : exists l, let st := exec_all (boot None None None) l in
  procs st 1 = DExited /\ serving st 3 /\ (forall d, ~ reaches st d).
Proof.
  exists cut_off. pose proof cut_off_facts as F. cbn zeta in *. remember (exec_all _ cut_off) as st eqn:E. clear E.
  destruct F as (A & B & C & D). split; [exact A|]. split; [eexists; exact B|]. intros d [X _]. congruence.
Qed.
Print Assumptions C53_other_refuted.

Example C53_launched : quiet (launch true (boot None None (Some 3))) /\ exists d, reaches (launch true (boot None None (Some 3))) d.
Proof.
  split; [apply launch_quiet; apply boot_quiet|]. exists 1. split; vm_compute; reflexivity.
Qed.
