(** C23: cleanup only removes the session that ended. *)
From Coq Require Import List NArith ZArith Bool Arith Lia.
From Verif Require Import Model.Base Model.Protocol Model.Names Model.Server Spec.ServerSpec Spec.ServerExamples
  Proofs.BaseLemmas Proofs.ServerProofs Proofs.ServerEvents Proofs.ServerMoves.
Import ListNotations.
Open Scope nat_scope.

(** The cleanup of a session whose shell has exited leaves every other name
    alone, and removes exactly that session if it is still the one listed under
    its name; it is done only for a shell that has exited. *)
Theorem C23_cleanup_partial : forall st c h s now,
  reachable st -> handlers st c = HUnwind h s true -> locked st = None ->
  (forall s', listed st (h_name h) s' -> s' = s) ->
  let st' := step st (AUnwind c now) in
  ~ shell_running st s /\
  (forall n, ~ listed st' n s) /\
  (forall n s', s' <> s -> listed st n s' -> listed st' n s') /\
  (forall n s', listed st' n s' -> listed st n s') /\ sessions st' = sessions st.
Proof.
  intros st c h s now R Hc Hl Own. pose proof (reachable_inv _ R) as I.
  assert (Nm : forall n, listed st n s -> n = h_name h).
  { intros n L. destruct (i_tab _ I n s L) as (x & Hx & Hn). destruct (i_hdr _ I c h s) as ((y & Hy & Hh) & _); [rewrite Hc; reflexivity|]. congruence. }
  split. { intros (x & Hx & He). destruct (i_done _ I c s) as (y & v & Hy & Hv); [eauto|]. congruence. }
  cbn [step]. unfold attach_unwind, listed in *. rewrite Hc, Hl.
  destruct (lookup (h_name h) (table st)) as [s1|] eqn:L; cbn [table sessions goto publish with_table with_events with_handlers].
  - rewrite (Own s1 eq_refl) in L. split; [|split; [|split]].
    + intros n. destruct (str_eq_dec n (h_name h)) as [->|N]; [rewrite lookup_remove_eq; discriminate|].
      rewrite lookup_remove_neq by assumption. intros L'. apply N. apply Nm. exact L'.
    + intros n s' N L'. rewrite lookup_remove_neq; [exact L'|]. intros ->. congruence.
    + intros n s'. apply lookup_remove_some.
    + reflexivity.
  - split; [|auto]. intros n L'. assert (n = h_name h) by (apply Nm; exact L'). congruence.
Qed.
Print Assumptions C23_cleanup_partial.

(** Only that cleanup and the other announced ways ever take a session away
    (C17_stays_listed); but the cleanup goes by name.  Killed and created again
    before its first handler notices the exit, the new session is removed from the
    table with its shell still running and a client connected to it. *)
Definition reused : list action :=
  creates 1 work None ++ [AExit 0 1; AEnd 1 true true true; asks 2 (QKill [work]); AKill 2 []] ++ creates 3 work None.
Lemma reused_facts :
  let st := run fresh reused in let st' := step st (AUnwind 1 50) in
  option_map (fun p => match p with HUnwind h s d => (h_name h, s, d) | _ => ([], 9, false) end) (Some (handlers st 1)) = Some (work, 0, true) /\
  lookup work (table st) = Some 1 /\ option_map s_exit (session_at st 1) = Some None /\
  match handlers st' 3 with HStream _ s k => Some (s, k) | _ => None end = Some (1, 3) /\
  table st' = [] /\ option_map s_exit (session_at st' 1) = Some None.
Proof. vm_compute. intuition. Qed.
Theorem C23_cleanup_refuted : exists l h,
  let st := run fresh l in let st' := step st (AUnwind 1 50) in
  handlers st 1 = HUnwind h 0 true /\ listed st (h_name h) 1 /\ shell_running st 1 /\
  connected st' 3 1 /\ shell_running st' 1 /\ forall n, ~ listed st' n 1.
Proof.
  exists reused. destruct reused_facts as (F1 & F2 & F3 & F4 & F5 & F6). cbn zeta in *.
  remember (run fresh reused) as st eqn:E. clear E. remember (step st (AUnwind 1 50)) as st' eqn:E. clear E.
  destruct (handlers st 1) eqn:Hc; try discriminate F1. injection F1 as F1 F7 F8. subst. exists h.
  split; [reflexivity|]. split; [unfold listed; rewrite F1; exact F2|].
  split. { destruct (session_at st 1) as [x|] eqn:Hx; [|discriminate F3]. injection F3 as F3. exists x. auto. }
  split. { destruct (handlers st' 3) eqn:Hc3; try discriminate F4. injection F4 as -> ->. exists 3, h0. exact Hc3. }
  split. { destruct (session_at st' 1) as [x|] eqn:Hx; [|discriminate F6]. injection F6 as F6. exists x. auto. }
  intros n L. unfold listed in L. rewrite F5 in L. discriminate L.
Qed.
Print Assumptions C23_cleanup_refuted.

Example C23_nonvacuous :
  let st := run fresh (creates 1 work None ++ creates 2 play None ++ [AExit 0 1; AEnd 1 true true true]) in
  exists h, handlers st 1 = HUnwind h 0 true /\ locked st = None /\ lookup (h_name h) (table st) = Some 0 /\
  table (step st (AUnwind 1 50)) = [(play, 1)].
Proof. exists (hdr work None). vm_compute. auto. Qed.
