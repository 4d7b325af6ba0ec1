(** C25: the control channels of the sessions, under every schedule and every time-out. *)
From Coq Require Import List Bool Arith Lia.
From Verif Require Import Model.Control Spec.ControlSpec Proofs.ControlProofs Proofs.ControlLive Proofs.ControlStuck.
Import ListNotations.

(** An acknowledgement is only ever received by the request it answers: late ones
    included, whatever channels they share. *)
Theorem C25_acks : forall N M d, reachable N M d -> forall mine answered, In (mine, answered) (acks d) -> mine = answered.
Proof. intros N M d R. exact (i_ack _ _ _ (reachable_inv _ _ _ R)). Qed.
Print Assumptions C25_acks.

(** One request at a time talks to a session's thread, and one thread has the table. *)
Theorem C25_one_at_a_time : forall N M d p q r r' n n', reachable N M d ->
  (phases d p = Sending r \/ phases d p = Waiting r n) -> (phases d q = Sending r' \/ phases d q = Waiting r' n') -> on r = on r' -> p = q.
Proof.
  intros N M d p q r r' n n' R Hp Hq E. pose proof (reachable_inv _ _ _ R) as Iv.
  assert (A : ctl d (on r) = Some p) by (apply (i_ctl _ _ _ Iv); destruct Hp as [X|X]; rewrite X; [apply holds_sending|apply holds_waiting]; reflexivity).
  assert (B : ctl d (on r') = Some q) by (apply (i_ctl _ _ _ Iv); destruct Hq as [X|X]; rewrite X; [apply holds_sending|apply holds_waiting]; reflexivity).
  rewrite E in A. congruence.
Qed.
Print Assumptions C25_one_at_a_time.

(** As long as nobody has given up waiting for an acknowledgement, nothing is stuck:
    some thread can move unless all requests are done ... *)
Theorem C25_moves_partial : forall N M l, Forall (fun a => ~ waits_too_long a) l ->
  forall p, ~ at_rest (phases (run N M idle l) p) -> exists a, by_itself a /\ step N M (run N M idle l) a <> None.
Proof.
  intros N M l W p B. apply (move_any N M _ p); [apply run_inv; apply idle_inv| |exact B].
  apply run_attended; [apply idle_inv|intros s; apply idle_attended|exact W].
Qed.
Print Assumptions C25_moves_partial.

(** ... however the threads move, they cannot go on for ever ... *)
Theorem C25_finite : forall N M d, reachable N M d -> exists bound, forall l d', Forall by_itself l -> path N M d l d' -> length l <= bound.
Proof.
  intros N M d (l0 & ->). exists (work N M (run N M idle l0)). intros l d' B P.
  pose proof (path_work N M _ l d' P (run_inv N M l0 _ (idle_inv N M)) (run_quiet N M l0 _ (idle_inv N M) (idle_quiet M)) B). lia.
Qed.
Print Assumptions C25_finite.

(** ... and so every request comes to its end, by itself. *)
Theorem C25_live_partial : forall N M l, Forall (fun a => ~ waits_too_long a) l ->
  exists l' d', Forall by_itself l' /\ path N M (run N M idle l) l' d' /\ forall p, at_rest (phases d' p).
Proof.
  intros N M l W. apply (live N M (work N M (run N M idle l))); auto.
  - apply run_inv. apply idle_inv.
  - apply run_quiet; [apply idle_inv|apply idle_quiet].
  - apply run_attended; [apply idle_inv|intros s; apply idle_attended|exact W].
Qed.
Print Assumptions C25_live_partial.

(** If no time-out strikes at all and no session ends, no request fails. *)
Theorem C25_answered : forall N M l, Forall calm l -> forall p, phases (run N M idle l) p <> Finished false.
Proof.
  intros N M l C p E. assert (A : all_calm (run N M idle l)) by (apply run_calm; [|exact C]; split; intros; exact I).
  destruct A as [A _]. specialize (A p). rewrite E in A. discriminate A.
Qed.
Print Assumptions C25_answered.

(** Giving up on an acknowledgement is not harmless.  Whatever the request was, once it
    has given up and the session's thread gets round to answering it, the answer has
    nobody to go to ... *)
Theorem C25_orphan : forall N M d p r n, reachable N M d -> phases d p = Waiting r n -> patient r = false -> srv d (on r) <> Ended ->
  orphaned (run N M d [AckTimeout p; Handled (on r)]) (on r).
Proof.
  intros N M d p r n R P Pa S. pose proof (reachable_inv _ _ _ R) as Iv. cbn [run fold_left].
  assert (E1 : exec N M d (AckTimeout p) = fail p r d) by (unfold exec; cbn [step]; rewrite P, Pa; reflexivity). rewrite E1. clear E1.
  destruct (fail_facts p r d) as (F1 & F2 & _).
  assert (W : forall q, ~ awaits (fail p r d) q (on r)).
  { intros q (r' & m & Q & On). rewrite F1 in Q. destruct (Nat.eq_dec q p) as [->|Nq]; [rewrite upd_same in Q; discriminate Q|]. rewrite upd_other in Q by exact Nq.
    apply Nq. assert (A : ctl d (on r) = Some p) by (apply (i_ctl _ _ _ Iv); rewrite P; apply holds_waiting; reflexivity).
    assert (B : ctl d (on r') = Some q) by (apply (i_ctl _ _ _ Iv); rewrite Q; apply holds_waiting; reflexivity). rewrite On in B. congruence. }
  unfold exec. cbn [step]. rewrite F2. destruct (i_wait _ _ _ Iv p r n P) as [E|[E|E]]; rewrite E in *.
  - split.
    + exists (via r), n, (last r). cbn. apply upd_same.
    + intros q (r' & m & Q & On). apply (W q). exists r', m. auto.
  - split; [exists (via r), n, (last r); rewrite F2; exact E|exact W].
  - congruence.
Qed.
Print Assumptions C25_orphan.

(** ... so that, until the session is killed, its thread stays where it is: it forwards
    nothing, nobody gets an answer from it, and whoever asks fails or waits. *)
Theorem C25_deaf_refuted : forall N M d s, orphaned d s -> forall l, removed (run N M d l) s = false ->
  let d' := run N M d l in srv d' s = srv d s /\ (forall p, ~ awaits d' p s) /\
  forall p r a d'', phases d' p = Sending r -> on r = s -> via r <> Push -> step N M d' a = Some d'' -> phases d'' p = Sending r \/ (patient r = false /\ phases d'' p = Finished false).
Proof.
  intros N M d s O l R. cbn zeta. destruct (orphan_run N M l d s O R) as [E O']. split; [exact E|]. split; [exact (proj2 O')|].
  intros p r a d'' P On V H. destruct O' as [(k & n & e & A) _]. destruct (step_moved N M _ a d'' p H) as [E1|Mv]; [left; congruence|right]. rewrite <- On in A.
  remember (phases d'' p) as x eqn:Ex. clear Ex. destruct Mv; unfold leaves in *; try congruence.
  - rewrite P in H0. destruct H0.
  - destruct H0 as [L|(? & L)]; [|congruence]. rewrite P in L. injection L as <-. auto.
  - destruct H0 as [L|(? & L)]; [|congruence]. rewrite P in L. injection L as <-. congruence.
Qed.
Print Assumptions C25_deaf_refuted.

(** And the next [shpool detach] of that session has no time-out: it waits for ever with
    the table locked, and with it everything that needs the table, for any session. *)
Theorem C25_wedged_refuted : forall N M d s p r, reachable N M d -> orphaned d s -> phases d p = Sending r -> on r = s -> tabled r = true ->
  forall l, phases (run N M d l) p = Sending r /\ table (run N M d l) = Some p /\ orphaned (run N M d l) s /\
    forall q, wants_table (phases d q) -> phases (run N M d l) q = phases d q.
Proof.
  intros N M d s p r R O P On T l. assert (Z : frozen N M d p s r) by (constructor; auto; apply reachable_inv; exact R).
  destruct (frozen_run N M p s r l d Z) as [Z' _]. split; [apply Z'|]. split; [eapply frozen_table; exact Z'|]. split; [apply Z'|].
  intros q Wq. eapply frozen_wants_run; eassumption.
Qed.
Print Assumptions C25_wedged_refuted.

(** That needs no more than a client too slow to read its heartbeats for a third of a
    second, a detach and a list. *)
Definition slow_client : list action := [Ask 1 (Timed 0 Beat false); GetCtl 1; Take 1; AckTimeout 1; Handled 0].
Definition then_detach : list action := [Ask 2 (Detach [0]); GetTable 2; Next 2; GetCtl 2; Ask 3 (Table [])].
Lemma wedge_facts : let d := run 4 2 idle (slow_client ++ then_detach) in
  phases d 2 = Sending (mkReq 0 Conn false true true []) /\ phases d 3 = WantTable [] /\ srv d 0 = Acking Beat 0 false /\
  phases d 0 = Resting /\ phases d 1 = Finished false.
Proof. vm_compute. auto. Qed.
Theorem C25_slow_client_refuted : exists d, reachable 4 2 d /\ phases d 3 = WantTable [] /\
  forall l, phases (run 4 2 d l) 3 = WantTable [] /\ table (run 4 2 d l) = Some 2.
Proof.
  pose proof wedge_facts as F. cbn zeta in F. assert (R : reachable 4 2 (run 4 2 idle (slow_client ++ then_detach))) by (eexists; reflexivity).
  remember (run 4 2 idle (slow_client ++ then_detach)) as d eqn:E. clear E. destruct F as (F2 & F3 & F0 & Fz & F1). exists d. split; [exact R|]. split; [exact F3|].
  assert (O : orphaned d 0).
  { split; [exists Beat, 0, false; exact F0|]. intros p (r & n & P & _).
    assert (L : p < 4) by (apply (i_range _ _ _ (reachable_inv _ _ _ R)); rewrite P; cbn; auto).
    destruct p as [|[|[|[|p]]]]; try congruence. lia. }
  intros l. destruct (C25_wedged_refuted 4 2 d 0 2 _ R O F2 eq_refl eq_refl l) as (_ & T & _ & W). split; [|exact T]. rewrite (W 3); [exact F3|]. rewrite F3. exact I.
Qed.
Print Assumptions C25_slow_client_refuted.

(** Ten changes of variables later the session's buffer is full as well, and no change
    of a variable gets past it any more. *)
Theorem C25_variables_refuted : forall N M d s, orphaned d s -> push_capacity <= queue d s -> forall p r a d', phases d p = Sending r -> on r = s ->
  step N M d a = Some d' -> phases d' p = Sending r \/ (patient r = false /\ phases d' p = Finished false).
Proof.
  intros N M d s [(k & n & e & A) W] Q p r a d' P On H. destruct (step_moved N M d a d' p H) as [E1|Mv]; [left; congruence|right]. subst s.
  remember (phases d' p) as x eqn:Ex. clear Ex. destruct Mv; unfold leaves in *; try congruence.
  - rewrite P in H0. destruct H0.
  - rewrite P in H0. injection H0 as <-. lia.
  - destruct H0 as [L|(? & L)]; [|congruence]. rewrite P in L. injection L as <-. auto.
  - destruct H0 as [L|(? & L)]; [|congruence]. rewrite P in L. injection L as <-. congruence.
Qed.
Print Assumptions C25_variables_refuted.
Definition changes_a_variable : list action := [Ask 3 (Vars [0; 1]); GetCtl 3; Take 3; GetCtl 3; Take 3].
Example C25_full : let d := run 4 2 idle (slow_client ++ concat (repeat changes_a_variable 10)) in
  queue d 0 = push_capacity /\ phases d 3 = Finished true /\ (exists n e, srv d 0 = Acking Beat n e) /\
  phases (run 4 2 d (changes_a_variable ++ [SendTimeout 3])) 3 = Finished false.
Proof. vm_compute. split; [reflexivity|]. split; [reflexivity|]. split; [exists 0, false; reflexivity|reflexivity]. Qed.

(** Killing the session helps, if it comes before the detach. *)
Theorem C25_kill : forall N M d p s, p < N -> s < M -> at_rest (phases d p) -> table d = None -> (forall q, uses s (phases d q) = false) ->
  srv (run N M d [Ask p (Table [s]); GetTable p; Drop s]) s = Ended.
Proof.
  intros N M d p s Hp Hs Rp T U. cbn [run fold_left].
  assert (E1 : exec N M d (Ask p (Table [s])) = phase_to p (WantTable [s]) d).
  { unfold exec. cbn [step in_range forallb]. apply Nat.ltb_lt in Hp, Hs. rewrite Hp, Hs. destruct (phases d p); try destruct Rp; reflexivity. }
  rewrite E1. clear E1.
  assert (E2 : exec N M (phase_to p (WantTable [s]) d) (GetTable p) = phase_to p (Finished true) (remove_all [s] (phase_to p (WantTable [s]) d))).
  { unfold exec. cbn [step phase_to table phases]. rewrite T, upd_same. reflexivity. }
  rewrite E2. clear E2. unfold exec. cbn [step]. cbn [removed phase_to remove_all existsb phases]. rewrite Nat.eqb_refl. cbn [orb andb].
  assert (F : forallb (fun q => negb (uses s (upd (upd (phases d) p (WantTable [s])) p (Finished true) q))) (seq 0 N) = true).
  { apply forallb_forall. intros q _. unfold upd. destruct (q =? p); [reflexivity|]. rewrite U. reflexivity. }
  rewrite F. cbn. apply upd_same.
Qed.
Print Assumptions C25_kill.

(** Concrete runs: an attach and a heartbeat that go well while a detach waits its turn;
    and the two threads left at their ease by a late answer. *)
Example C25_smooth :
  let l := [Ask 0 (Timed 0 Conn false); Ask 1 (Timed 0 Beat false); Ask 2 (Detach [0; 1]); GetCtl 0; GetTable 2; Next 2; Take 0; Ask 3 (Table []); Handled 0] in
  let d := run 4 2 idle l in
  Forall calm l /\ phases d 0 = Waiting (mkReq 0 Conn false false false []) 0 /\ phases d 2 = WantCtl (mkReq 0 Conn false true true [1]) /\
  acks (run 4 2 d [Ack 0; GetCtl 2; Take 2; Handled 0; Ack 2; GetCtl 1; Take 1; Handled 0; Ack 1]) = [(0, 0); (1, 1); (2, 2)].
Proof. cbn zeta. split; [repeat constructor|]. vm_compute. auto. Qed.
Example C25_late : let d := run 4 2 idle [Ask 1 (Timed 0 Beat false); GetCtl 1; Take 1] in
  reachable 4 2 d /\ (exists r, phases d 1 = Waiting r 0 /\ patient r = false /\ srv d (on r) <> Ended) /\ removed (run 4 2 d [AckTimeout 1; Handled 0; Ask 2 (Timed 0 Conn false); GetCtl 2; SendTimeout 2]) 0 = false.
Proof. cbn zeta. split; [eexists; reflexivity|]. split; [|vm_compute; reflexivity]. eexists. split; [vm_compute; reflexivity|]. split; [reflexivity|vm_compute; discriminate]. Qed.
