(** C41: interruptible sleep. *)
From Coq Require Import List NArith Bool Lia Arith ZifyBool ZifyN ZifyNat.
From Verif Require Import Model.Base Model.Sleep Spec.SleepSpec Proofs.SleepProofs.
Import ListNotations.
Open Scope N_scope.

(** Whatever the stop condition does and however slow the machine is, the answer
    is the last observation of the stop condition, and every earlier observation
    was negative.  The condition is observed before the first sleep and after every
    sleep. *)
Theorem C41_answer_is_last_observation : forall stop delay fuel t0 total s r,
  sleep_unless stop delay fuel t0 total s = Some r ->
  polls r = S (length (sleeps r)) /\
  stop (length (sleeps r)) = answer r /\
  (forall i, (i < length (sleeps r))%nat -> stop i = false).
Proof.
  intros stop delay fuel t0 total s r H. unfold sleep_unless in H. cbv zeta in H.
  rewrite <- (interval_first s) in H.
  apply sleep_loop_spec in H.
  - destruct H as (A & (_ & B & _) & C & _). auto.
  - split; [reflexivity|]. split; [lia|]. intros [|j]; discriminate.
Qed.
Print Assumptions C41_answer_is_last_observation.

(** "Timed out" is only ever said once the full time has passed. *)
Theorem C41_false_only_after_full_time : forall stop delay fuel t0 total s r,
  sleep_unless stop delay fuel t0 total s = Some r -> answer r = false -> t0 + total <= ended r.
Proof.
  intros stop delay fuel t0 total s r H. unfold sleep_unless in H. cbv zeta in H.
  rewrite <- (interval_first s) in H.
  apply sleep_loop_spec in H.
  - apply H.
  - split; [reflexivity|]. split; [lia|]. intros [|j]; discriminate.
Qed.
Print Assumptions C41_false_only_after_full_time.

(** Every sleep starts before the deadline, ends no later than the deadline, and
    otherwise lasts exactly the pause the poll strategy prescribes. *)
Theorem C41_sleeps_follow_the_strategy : forall stop delay fuel t0 total s r,
  sleep_unless stop delay fuel t0 total s = Some r ->
  forall i now d, nth_error (sleeps r) i = Some (now, d) ->
  now < t0 + total /\ now + d <= t0 + total /\ d = N.min (t0 + total - now) (interval s i).
Proof.
  intros stop delay fuel t0 total s r H i now d Hn. unfold sleep_unless in H. cbv zeta in H.
  rewrite <- (interval_first s) in H.
  apply sleep_loop_spec in H.
  - destruct H as (_ & (_ & _ & B) & _). apply B in Hn. destruct Hn as (A & C). split; [assumption|]. split; [lia|assumption].
  - split; [reflexivity|]. split; [lia|]. intros [|j]; discriminate.
Qed.
Print Assumptions C41_sleeps_follow_the_strategy.

(** A strategy that never asks for an empty pause finishes, after at most one poll
    per nanosecond of the window, whatever the clock does. *)
Theorem C41_terminates : forall stop delay t0 total s, always_pauses s ->
  forall fuel, (N.to_nat total < fuel)%nat -> exists r, sleep_unless stop delay fuel t0 total s = Some r.
Proof.
  intros stop delay t0 total s Hp fuel Hf. unfold sleep_unless. cbv zeta. rewrite <- (interval_first s).
  apply sleep_loop_terminates with (k := fuel); [assumption|lia|lia].
Qed.
Print Assumptions C41_terminates.

(** Fixed intervals, zero included, are such strategies; so is a backoff that does not grow. *)
Theorem C41_which_strategies_pause : forall s, always_pauses s <->
  match s with
  | Uniform _ | Backoff _ false _ _ => True
  | Backoff _ true scale cap => 0 < cap /\ forall i, 0 < scale (interval s i)
  end.
Proof. exact always_pauses_iff. Qed.
Print Assumptions C41_which_strategies_pause.

(** A growing backoff with a zero cap defeats the protection against zero
    intervals: from the second poll on it does not pause at all, and makes no
    progress of its own towards the deadline. *)
Theorem C41_zero_cap_spins_refuted : forall fuel total, 1000000 < total ->
  sleep_unless (fun _ => false) (fun _ => 0) fuel 0 total (Backoff 0 true (fun d => 2 * d) 0) = None.
Proof.
  intros [|fuel] total Ht; [reflexivity|]. unfold sleep_unless. cbv zeta.
  change (0 =? 0) with true. cbv iota. cbn [sleep_loop]. rewrite !N.add_0_l.
  replace (total <=? 0) with false by (symmetry; lia).
  rewrite N.min_0_r.
  match goal with |- context [sleep_loop _ _ fuel 1 ?t _ _ ?s ?l] =>
    change (sleep_loop (fun _ => false) (fun _ => 0) fuel 1 t total (interval s 1) s l = None) end.
  apply sleep_loop_spins with (d := 0); [lia| |reflexivity].
  intros j Hj. destruct j; [lia|]. cbn [interval]. apply N.min_0_r.
Qed.
Print Assumptions C41_zero_cap_spins_refuted.

(** The client's detach backoff (1 ms doubling to 25 ms within 300 ms): condition
    true at the fourth observation, 5 microseconds lost per round. *)
Example C41_nonvacuous :
  let s := Backoff 1000000 true (fun d => 2 * d) 25000000 in
  always_pauses s /\
  sleep_unless (fun i => Nat.eqb i 3) (fun _ => 5000) 10 7 300000000 s =
  Some {| answer := true; polls := 4; ended := 7020007;
          sleeps := [(5007, 1000000); (1010007, 2000000); (3015007, 4000000)] |}.
Proof.
  split; [|vm_compute; reflexivity]. apply always_pauses_iff. split; [reflexivity|].
  assert (H : forall i, 0 < interval (Backoff 1000000 true (fun d => 2 * d) 25000000) i).
  { induction i; [reflexivity|]. rewrite interval_next. lia. }
  intros i. specialize (H i). lia.
Qed.
