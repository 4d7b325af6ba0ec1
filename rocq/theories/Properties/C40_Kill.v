(** C40: kill escalation. *)
From Coq Require Import List NArith ZArith Bool Lia Arith.
From Verif Require Import Model.Base Model.ExitLatch Proofs.ExitLatchProofs.
Import ListNotations.
Open Scope nat_scope.

(** Only the recorded pid is ever signalled, SIGHUP first, and SIGKILL at most once. *)
Theorem C40_hangup_first : forall p at_hup at_kill e1 e2 seen,
  exists tail, asked (session_kill p at_hup at_kill e1 e2 seen) = (p, SIGHUP) :: tail /\
    (tail = [] \/ tail = [(p, SIGKILL)]).
Proof.
  intros p at_hup at_kill e1 e2 seen. unfold session_kill.
  destruct (at_hup p), e1, seen; cbn; eexists; split; try reflexivity; auto.
Qed.
Print Assumptions C40_hangup_first.

(** SIGKILL is sent exactly when the SIGHUP was delivered and the grace period
    passed without the exit having been seen. *)
Theorem C40_sigkill_exactly_when_still_running : forall p at_hup at_kill e1 e2 seen,
  In (p, SIGKILL) (asked (session_kill p at_hup at_kill e1 e2 seen)) <->
  (at_hup p <> None /\ e1 = false /\ seen = None).
Proof.
  intros p at_hup at_kill e1 e2 seen. unfold session_kill.
  destruct (at_hup p), e1, seen; cbn; split; intros H; try (destruct H as (? & ? & ?)); try congruence;
    repeat (destruct H as [H|H]; try discriminate); try contradiction; auto.
  repeat split; congruence.
Qed.
Print Assumptions C40_sigkill_exactly_when_still_running.

(** An already dead shell is success, at either signal; the only failures are
    signals that could not be sent for another reason. *)
Theorem C40_success : forall p at_hup at_kill e1 e2 seen,
  succeeded (session_kill p at_hup at_kill e1 e2 seen) = false <->
  (at_hup p <> None /\ (e1 = true \/ (seen = None /\ at_kill p <> None /\ e2 = true))).
Proof.
  intros p at_hup at_kill e1 e2 seen. unfold session_kill.
  destruct (at_hup p), e1, seen, (at_kill p), e2; cbn; split; intros H; try reflexivity; try congruence;
    try (split; [discriminate|]; auto; right; repeat split; congruence);
    destruct H as (H1 & [H2|(H2 & H3 & H4)]); congruence.
Qed.
Print Assumptions C40_success.

(** As long as the pid belongs to the session's shell or to nobody, nothing but the
    shell is hit, and after a successful kill of a running shell it received a
    SIGHUP and, unless it was seen to exit, a SIGKILL (or had gone by then). *)
(** Missing for the full claim: a pid that the system has given to another process;
    refuted below. *)
Theorem C40_only_own_process_partial : forall p shell at_hup at_kill e1 e2 seen,
  (forall q, at_hup p = Some q -> q = shell) -> (forall q, at_kill p = Some q -> q = shell) ->
  (forall q s, In (q, s) (hit (session_kill p at_hup at_kill e1 e2 seen)) -> q = shell) /\
  (at_hup p = Some shell -> succeeded (session_kill p at_hup at_kill e1 e2 seen) = true ->
     In (shell, SIGHUP) (hit (session_kill p at_hup at_kill e1 e2 seen)) /\
     (seen <> None \/ at_kill p = None \/ In (shell, SIGKILL) (hit (session_kill p at_hup at_kill e1 e2 seen)))).
Proof.
  intros p shell at_hup at_kill e1 e2 seen H1 H2. unfold session_kill.
  destruct (at_hup p) as [q1|] eqn:Q1; [assert (q1 = shell) by auto; subst q1|].
  - destruct e1, seen; cbn; (split; [|intros _ Hs]); try (intros q s []); try discriminate.
    + injection H as <- _. reflexivity.
    + contradiction.
    + split; [auto|]. left. discriminate.
    + injection H as <- _. reflexivity.
    + destruct (at_kill p) eqn:Q2; [|destruct H]. destruct e2; [destruct H|].
      destruct H as [H|[]]. injection H as <- _. auto.
    + split; [auto|]. right. destruct (at_kill p) as [q2|] eqn:Q2; [|auto]. assert (q2 = shell) by auto. subst q2.
      destruct e2; [discriminate|]. right. right. left. reflexivity.
  - cbn. split; [intros q s []|discriminate].
Qed.
Print Assumptions C40_only_own_process_partial.

(** But a shell that has exited and been reaped keeps its entry in the session table
    while it is detached, and its pid is free for reuse: a kill then signals
    whatever process has the pid now. *)
Theorem C40_reused_pid_refuted :
  exists p shell other at_hup at_kill e1 e2 seen, shell <> other /\
    at_hup p = Some other /\ seen = Some 0%Z /\
    In (other, SIGHUP) (hit (session_kill p at_hup at_kill e1 e2 seen)).
Proof.
  exists 4242%N, 1, 2, (fun _ => Some 2), (fun _ => Some 2), false, false, (Some 0%Z).
  split; [discriminate|]. split; [reflexivity|]. split; [reflexivity|]. left. reflexivity.
Qed.
Print Assumptions C40_reused_pid_refuted.

(** A shell that ignores SIGHUP; one that obeys; one that is gone. *)
Example C40_nonvacuous :
  hit (session_kill 9%N (fun _ => Some 5) (fun _ => Some 5) false false None) = [(5, SIGHUP); (5, SIGKILL)] /\
  hit (session_kill 9%N (fun _ => Some 5) (fun _ => None) false false (Some 129%Z)) = [(5, SIGHUP)] /\
  session_kill 9%N (fun _ => None) (fun _ => None) false false None =
    {| asked := [(9%N, SIGHUP)]; hit := []; succeeded := true |}.
Proof. repeat split; reflexivity. Qed.
