(** C69: however it was started, a daemon goes on answering and follows its configuration
    files. *)
From Coq Require Import List NArith ZArith Bool Arith String.
From Verif Require Import Model.Base Model.Forks Spec.ForksSpec Proofs.ForksProofs Proofs.ForksMore Proofs.ForksMind Properties.C68_Daemonizing.
Import ListNotations.
Open Scope nat_scope.

Lemma reached_mind st : reached st -> inv st /\ mind st /\ heirs st.
Proof.
  intros (n & left & d & l & ->). pose proof (inv_boot n left d) as I. split; [|split]; [apply inv_run, I|apply mind_run; [exact I|apply mind_boot]|apply heirs_run; [exact I|apply heirs_boot]].
Qed.
Lemma reached_more st l : reached st -> reached (run st l).
Proof. intros (n & left & d & l0 & ->). exists n, left, d, (l0 ++ l). unfold run. rewrite fold_left_app. reflexivity. Qed.

(** A daemon started by hand: when its watching thread has had five turns more than it
    used for writing to the log, and the files were left alone meanwhile, the daemon has
    what is in the files, and no lock is held, so that it answers. *)
Theorem C69_by_hand_partial : forall st l p x s y, reached st -> procs st p = Some x -> born x = Started s ->
  (forall n, ~ In (Edit n) l) -> procs (run st l) p = Some y -> live y = true -> 5 + logged p l <= worked p l ->
  config y = disk st /\
  (forall k ok n, at_ y = PServe k -> exists y', procs (turn (run st l) p ok n) p = Some y' /\ at_ y' = PServe (S k)).
(** Missing for the full claim: daemons that were launched, for which it is false
    (C69_launched_refuted, C69_stuck_refuted). *)
Proof.
  intros st l p x s y R P B NE Y L H. destruct (reached_mind st R) as (I & M & _).
  destruct (follows st l p x s y I M P B NE Y L H) as (C & E1 & E2). split; [exact C|].
  intros k ok n A. unfold turn. rewrite Y, A, E1, E2. cbn [orb]. eexists. split; [apply put_at|reflexivity].
Qed.
Print Assumptions C69_by_hand_partial.

(** It has the thread, and what it locks is locked only while it runs. *)
Theorem C69_locks_by_hand : forall st p x s, reached st -> procs st p = Some x -> born x = Started s ->
  watch x <> WNone /\ (log_held x = true <-> watch x = WLogs \/ watch x = WLoadsLogs) /\ (config_held x = true <-> watch x = WLoads \/ watch x = WLoadsLogs).
Proof.
  intros st p x s R P B. destruct (reached_mind st R) as (_ & M & _). destruct (M p x s P B) as (M1 & M2 & M3 & _). rewrite M2, M3.
  split; [exact M1|]. destruct (watch x); cbn; intuition congruence.
Qed.
Print Assumptions C69_locks_by_hand.

(** A daemon that was launched has lost the thread in the fork: whatever happens to the
    files, its configuration stays what it was when it was launched. *)
Theorem C69_launched : forall st p x l s m, reached st -> serving st p x -> descends st p l s -> s_auto s = true ->
  exists y, procs (run st m) p = Some y /\ config y = config x.
Proof.
  intros st p x l s m R (P & k & A) D Au. destruct (reached_mind st R) as (I & _). destruct (cut st p x k I P A) as (l' & s' & D' & H1 & H2).
  destruct (descends_one st I p l s D l' s' D') as (-> & ->). destruct (H1 Au) as (_ & F).
  destruct (forked_run m st p x I P F) as (y & Y & _ & C & _). eauto.
Qed.
Print Assumptions C69_launched.
Definition serves_now : world := run launched_world [Turn 100 true 0; Turn 102 true 0; Turn 102 true 0; Turn 102 true 0].
Theorem C69_launched_refuted : exists st p x l s, reached st /\ serving st p x /\ descends st p l s /\ s_auto s = true /\
  forall m, exists y, procs (run (step st (Edit 1)) m) p = Some y /\ config y = 0 /\ disk (step st (Edit 1)) = 1.
Proof.
  destruct (procs serves_now 102) as [x|] eqn:P; [|vm_compute in P; discriminate].
  assert (R : reached serves_now) by (apply reached_more; exists 100, (Some (lit "31337 and more")), 0, launch; reflexivity).
  assert (A : at_ x = PServe 1 /\ config x = 0 /\ born x = Forked2) by (vm_compute in P; injection P as <-; repeat split).
  destruct A as (A & C & B). destruct (cut serves_now 102 x 1 (reached_inv _ R) P A) as (l & s & D & H1 & H2).
  assert (Au : s_auto s = true).
  { destruct (s_auto s) eqn:Au; [reflexivity|]. destruct (H2 eq_refl) as (E & _). subst l. inversion D; subst; [congruence|].
    pose proof (i_fine _ (reached_inv _ R) 102 x P) as F. unfold fine in F. rewrite B in F. destruct F as (_ & _ & _ & _ & _ & _ & _ & m & ym & l & yl & s' & Pm & Ym & Bm & _ & Pl & Yl & Bl & Au' & _).
    assert (D' : descends serves_now 102 l s') by (apply (From _ 102 x l s' P ltac:(congruence)); rewrite Pm; apply (From _ m ym l s' Ym ltac:(congruence)); rewrite Pl; exact (Itself _ l yl s' Yl Bl)).
    destruct (descends_one _ (reached_inv _ R) 102 102 s D l s' D') as (_ & ->). congruence. }
  exists serves_now, 102, x, l, s. split; [exact R|]. split; [split; [exact P|eauto]|]. split; [exact D|]. split; [exact Au|].
  intros m. change (run (step serves_now (Edit 1)) m) with (run serves_now (Edit 1 :: m)).
  destruct (C69_launched serves_now 102 x l s (Edit 1 :: m) R (conj P (ex_intro _ 1 A)) D Au) as (y & Y & E). exists y. rewrite E. auto.
Qed.
Print Assumptions C69_launched_refuted.

(** And if the thread held a lock at the moment of the fork, nobody releases it: the
    daemon does not get to serve, or answers nothing, for ever. *)
Theorem C69_stuck : forall st m y l, reached st -> procs st m = Some y -> born y = Forked1 -> parent y = l -> log_held y = true \/ config_held y = true ->
  forall more p x s, serving (run st more) p x -> descends (run st more) p l s -> s_auto s = true -> at_ x = PServe 0 /\ log_held y = false.
Proof.
  intros st m y l R Y B Pa H more p x s (P & k & A) D Au. pose proof (reached_more st more R) as R'. destruct (reached_mind st R) as (I & _).
  destruct (reached_mind _ R') as (I' & _ & H'). destruct (forked_run more st m y I Y ltac:(unfold forked; rewrite B; exact Logic.I)) as (y' & Y' & B' & _ & L' & C').
  assert (Pa' : parent y' = l).
  { clear - Y Y' I Pa B. revert st y Y Y' I Pa B. induction more as [|a more IH]; intros st y Y Y' I Pa B; [cbn in Y'; congruence|].
    change (run st (a :: more)) with (run (step st a) more) in Y'.
    assert (K : exists z, procs (step st a) m = Some z /\ born z = born y /\ parent z = parent y).
    { destruct (forked_step st a m y I Y ltac:(unfold forked; rewrite B; exact Logic.I)) as (z & Z & Bz & _). exists z. split; [exact Z|]. split; [exact Bz|].
      destruct a as [s|q ok n|q log|n|q t| |q];
        try (match type of Z with context [step st ?a] => destruct (keeps_step st a m I ltac:(discriminate) ltac:(discriminate)) as (_ & K); destruct (K y Y) as (z' & Z' & S1 & S2 & _); congruence end).
      - destruct (Nat.eq_dec q m) as [->|N].
        + cbn [step] in Z. unfold watch_turn in Z. rewrite Y in Z. repeat (match type of Z with procs (match ?e with _ => _ end) _ = _ => destruct e end); rewrite ?put_at in Z; rewrite ?Y in Z; injection Z as <-; reflexivity.
        + destruct (keeps_step st (Watch q log) m I ltac:(congruence) ltac:(discriminate)) as (_ & K); destruct (K y Y) as (z' & Z' & S1 & S2 & _); congruence.
      - cbn [step map_procs procs] in Z. rewrite Y in Z. injection Z as <-. reflexivity. }
    destruct K as (z & Z & Bz & Pz). apply (IH (step st a) z Z Y' (inv_step _ _ I)); congruence. }
  destruct (H' p x P) as (Hx1 & Hx2). pose proof (i_fine _ I' p x P) as F. unfold fine in F. destruct (born x) as [s'| |] eqn:Bx.
  - exfalso. inversion D; subst.
    + rewrite A in F. destruct F as (_ & _ & _ & _ & _ & _ & F & _). rewrite H0 in P. injection P as ->. congruence.
    + rewrite P in H0. injection H0 as <-. exact (H1 s' Bx).
  - rewrite A in F. destruct F as (_ & _ & _ & ? & ? & ? & _ & _ & _ & _ & _ & _ & []).
  - destruct F as (_ & _ & _ & _ & _ & _ & _ & m' & ym & l' & yl & s' & Pm & Ym & Bm & _ & Pl & Yl & Bl & _).
    assert (D' : descends (run st more) p l' s') by (apply (From _ p x l' s' P ltac:(congruence)); rewrite Pm; apply (From _ m' ym l' s' Ym ltac:(congruence)); rewrite Pl; exact (Itself _ l' yl s' Yl Bl)).
    destruct (descends_one _ I' p l s D l' s' D') as (El & Es).
    assert (Em : m' = m) by (apply (i_one _ I' m' m ym y' Ym Y'); [unfold forked; rewrite Bm; exact Logic.I|unfold forked; rewrite B', B; exact Logic.I|congruence]).
    destruct (Hx1 eq_refl) as (z & Z & Bz & _ & Lz & Cz). rewrite Pm, Em, Y' in Z. injection Z as <-.
    destruct (Hx2 ltac:(unfold forked; rewrite Bx; exact Logic.I) k A) as (E1 & E2).
    assert (Ly : log_held y = false) by congruence. split; [|exact Ly]. destruct H as [H|H]; [congruence|]. rewrite A. f_equal. apply E2. congruence.
Qed.
Print Assumptions C69_stuck.

(** Both can happen: the files are edited while a client launches the daemon. *)
Definition at_the_fork : list action := [Start from_a_shell; Turn 100 true 0; Turn 100 true 0; Turn 100 true 0; Edit 1; Watch 100 false].
Definition stuck_log : world := run (boot 100 None 0) (at_the_fork ++ [Turn 100 true 0]).
Definition stuck_config : world := run (boot 100 None 0) (at_the_fork ++ [Watch 100 false; Turn 100 true 0]).
Theorem C69_stuck_refuted :
  (exists st m y l, reached st /\ procs st m = Some y /\ born y = Forked1 /\ parent y = l /\
     forall more p x s, serving (run st more) p x -> descends (run st more) p l s -> s_auto s = true -> False) /\
  (exists st m y l, reached st /\ procs st m = Some y /\ born y = Forked1 /\ parent y = l /\
     forall more p x s, serving (run st more) p x -> descends (run st more) p l s -> s_auto s = true -> at_ x = PServe 0).
Proof.
  split.
  - destruct (procs stuck_log 101) as [y|] eqn:Y; [|vm_compute in Y; discriminate].
    assert (E : born y = Forked1 /\ parent y = 100 /\ log_held y = true) by (vm_compute in Y; injection Y as <-; repeat split). destruct E as (E1 & E2 & E3).
    assert (R : reached stuck_log) by (eexists _, _, _, _; reflexivity). exists stuck_log, 101, y, 100. repeat (split; [assumption|]).
    intros more p x s S D Au. destruct (C69_stuck stuck_log 101 y 100 R Y E1 E2 (or_introl E3) more p x s S D Au) as (_ & N). congruence.
  - destruct (procs stuck_config 101) as [y|] eqn:Y; [|vm_compute in Y; discriminate].
    assert (E : born y = Forked1 /\ parent y = 100 /\ config_held y = true) by (vm_compute in Y; injection Y as <-; repeat split). destruct E as (E1 & E2 & E3).
    assert (R : reached stuck_config) by (eexists _, _, _, _; reflexivity). exists stuck_config, 101, y, 100. repeat (split; [assumption|]).
    intros more p x s S D Au. destruct (C69_stuck stuck_config 101 y 100 R Y E1 E2 (or_intror E3) more p x s S D Au) as (N & _). exact N.
Qed.
Print Assumptions C69_stuck_refuted.

(** Concretely: started by hand, edited twice, and the thread gets its turns. *)
Definition by_hand : start := mkStart false true 50 40 (Some 7) (fun n => if n <? 3 then Some (Inherited n) else None) (lit "/home/me") 18%N.
Example C69_nonvacuous :
  let st := run (boot 100 None 0) [Start by_hand; Turn 100 true 0; Turn 100 true 0; Edit 1; Watch 100 false; Watch 100 true; Edit 2] in
  let st' := run st [Watch 100 true; Turn 100 true 0; Watch 100 false; Watch 100 false; Watch 100 false; Watch 100 false; Watch 100 false; Watch 100 false; Turn 100 true 0] in
  option_map config (procs st 100) = Some 0 /\ option_map config (procs st' 100) = Some 2 /\ option_map at_ (procs st' 100) = Some (PServe 1) /\
  (* the launch that got stuck with the log waits, whatever is tried *)
  option_map at_ (procs (run stuck_log [Turn 101 true 0; Turn 101 true 0; Turn 101 true 0; Watch 100 false; Watch 101 false; Turn 101 true 0; Turn 100 true 0]) 101) = Some PLogSid.
Proof. vm_compute. repeat split. Qed.
