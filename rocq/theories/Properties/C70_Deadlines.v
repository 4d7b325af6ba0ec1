(** C70: the reaper acts on every deadline it is told of, in order, never early, once, and
    only on the latest one of each name. *)
From Coq Require Import String List NArith Bool Arith Lia Permutation.
From Verif Require Import Model.Base Model.Reaper Spec.ReaperThreadSpec Proofs.ReaperThreadProofs.
Import ListNotations.
Open Scope nat_scope.

(** Whatever it ends, the deadline is the latest it was told for the name, has not been
    acted on before, is over, and none that is still pending is earlier. *)
Theorem C70_only_due : forall l pre n d t post,
  log (run reaper_new l) = pre ++ Reaped n d t :: post ->
  pending pre n = Some d /\ (d <= t)%N /\ forall m d', pending pre m = Some d' -> (d <= d')%N.
Proof.
  intros l pre n d t post H. destruct (log_run l reaper_new inv_new) as (more & L & Q). rewrite L in H. exact (Q pre n d t post H).
Qed.
Print Assumptions C70_only_due.

(** Every deadline it is told of is noted, in order. *)
Theorem C70_noted : forall l, noted (log (run reaper_new l)) = received l.
Proof. intros l. rewrite noted_run. reflexivity. Qed.
Print Assumptions C70_noted.

(** It is never late: it is to wake up no later than the earliest deadline ... *)
Theorem C70_wakes : forall l n d, pending (log (run reaper_new l)) n = Some d ->
  exists top, peek (heap (run reaper_new l)) = Some top /\ (reap_at top <= d)%N.
Proof.
  intros l n d P. pose proof (inv_run l reaper_new inv_new) as I. apply (i_pending _ I) in P. pose proof (i_ordered _ I) as O.
  destruct (heap (run reaper_new l)) as [|top rest] eqn:H; [destruct P|]. exists top. split; [reflexivity|].
  apply (In_nth _ _ no_one) in P. destruct P as (i & L & Q). pose proof (ordered_top _ i O L) as T. unfold key, get in T. rewrite Q in T. exact T.
Qed.
Print Assumptions C70_wakes.

(** ... and when it has woken up as often as it was told of deadlines, nothing that was
    due is left. *)
Theorem C70_in_time : forall l now k, ~ In Disconnected l -> length (received l) <= k ->
  forall n d, pending (log (run reaper_new (l ++ repeat (Timer now) k))) n = Some d -> (now < d)%N.
Proof.
  intros l now k N L n d. unfold run. rewrite fold_left_app. fold (run reaper_new l). apply timers.
  - apply inv_run, inv_new.
  - clear - N. assert (G : forall l r, ended r = false -> ~ In Disconnected l -> ended (run r l) = false).
    { clear. induction l as [|e l IH]; intros r E N; [exact E|]. change (run r (e :: l)) with (run (step r e) l). apply IH; [|intros H; apply N; right; exact H].
      destruct e as [n t| |now]; [unfold step; rewrite E; reflexivity|destruct N; left; reflexivity|rewrite timer_ended; exact E]. }
    apply G; [reflexivity|exact N].
  - pose proof (heap_small l reaper_new inv_new) as H. rewrite C70_noted in H. cbn in H. lia.
Qed.
Print Assumptions C70_in_time.

(** Between two ends of sessions of one name there is a new deadline for it. *)
Theorem C70_once : forall l a n d t b d' t' c,
  log (run reaper_new l) = a ++ Reaped n d t :: b ++ Reaped n d' t' :: c -> In (Scheduled n d') b.
Proof.
  intros l a n d t b d' t' c H.
  assert (P : pending (a ++ Reaped n d t :: b) n = Some d').
  { apply (C70_only_due l _ n d' t' c). rewrite H, <- app_assoc. reflexivity. }
  clear H. unfold pending in P. revert P. generalize (@None N). induction a as [|x a IH]; intros o P.
  - cbn [app pending_from] in P. destruct (name_dec n n); [|contradiction]. clear - P.
    enough (G : forall b o, pending_from o b n = Some d' -> o = Some d' \/ In (Scheduled n d') b) by (destruct (G b None P) as [Q|Q]; [discriminate|exact Q]).
    clear. induction b as [|x b IH]; intros o P; [auto|]. cbn [pending_from] in P. destruct x as [m t|m u t]; apply IH in P.
    + destruct P as [P|P]; [|right; right; exact P]. destruct (name_dec n m) as [->|N]; [injection P as ->; right; left; reflexivity|auto].
    + destruct P as [P|P]; [|right; right; exact P]. destruct (name_dec n m); [discriminate|auto].
  - cbn [app pending_from] in P. destruct x; exact (IH _ P).
Qed.
Print Assumptions C70_once.

(** What the heap gives is a least one, and the others are kept. *)
Theorem C70_heap : forall l x rest, pop (heap (run reaper_new l)) = Some (x, rest) ->
  Permutation (heap (run reaper_new l)) (x :: rest) /\ forall y, In y (heap (run reaper_new l)) -> (reap_at x <= reap_at y)%N.
Proof.
  intros l x rest H. destruct (pop_ok _ _ _ (i_ordered _ (inv_run l reaper_new inv_new)) H) as (_ & P & _ & M). auto.
Qed.
Print Assumptions C70_heap.

(** When nobody can tell it of sessions any more it ends. *)
Theorem C70_ends : forall l l', let r := run reaper_new (l ++ [Disconnected]) in ended r = true /\ run r l' = r.
Proof.
  intros l l' r. assert (E : ended r = true).
  { unfold r, run. rewrite fold_left_app. cbn [fold_left]. unfold step at 1. destruct (ended (fold_left step l reaper_new)) eqn:E; [exact E|reflexivity]. }
  split; [exact E|]. induction l' as [|e l' IH]; [reflexivity|]. change (run r (e :: l')) with (run (step r e) l').
  replace (step r e) with r by (unfold step; rewrite E; reflexivity). exact IH.
Qed.
Print Assumptions C70_ends.

(** Five deadlines, one of them replaced by a later one, one by an earlier one. *)
Example C70_nonvacuous :
  let l := [Message (lit "a") 50; Message (lit "b") 20; Message (lit "c") 40; Message (lit "b") 70; Timer 10; Message (lit "a") 30; Timer 25; Timer 45; Timer 45; Timer 45; Timer 60; Message (lit "c") 65; Timer 80; Timer 80] in
  log (run reaper_new l) =
    [Scheduled (lit "a") 50; Scheduled (lit "b") 20; Scheduled (lit "c") 40; Scheduled (lit "b") 70; Scheduled (lit "a") 30;
     Reaped (lit "a") 30 45; Reaped (lit "c") 40 45; Scheduled (lit "c") 65; Reaped (lit "c") 65 80; Reaped (lit "b") 70 80]%N.
Proof. vm_compute. reflexivity. Qed.
