(** C15: one client per session. *)
From Coq Require Import List NArith ZArith Bool Arith Lia.
From Verif Require Import Model.Base Model.Protocol Model.Names Model.Server Spec.ServerSpec Spec.ServerExamples
  Proofs.BaseLemmas Proofs.ServerProofs.
Import ListNotations.
Open Scope nat_scope.

(** In no schedule do two handlers have the same session at once. *)
Theorem C15_one_handler : forall st c1 c2 s,
  reachable st -> attached st c1 s -> attached st c2 s -> c1 = c2.
Proof.
  intros st c1 c2 s R A1 A2. apply reachable_inv in R. destruct (i_exists _ R _ _ A1) as [x Hx].
  apply (i_inner _ R s x _ Hx) in A1, A2. congruence.
Qed.
Print Assumptions C15_one_handler.

(** Nor are two clients' streams connected to the same session. *)
Theorem C15_one_client : forall st k1 k2 s,
  reachable st -> connected st k1 s -> connected st k2 s -> k1 = k2.
Proof.
  intros st k1 k2 s R (c1 & h1 & E1) (c2 & h2 & E2).
  assert (c1 = c2) as ->. { apply (C15_one_handler st c1 c2 s R); unfold attached; [rewrite E1|rewrite E2]; reflexivity. }
  congruence.
Qed.
Print Assumptions C15_one_client.

(** An attach request for a session some handler has is answered Busy, and only
    such a request is. *)
Theorem C15_busy : forall st c c0 s h pid now,
  reachable st -> handlers st c = HAccepted pid (QAttach h) -> daemon_rejects (h_name h) = false ->
  locked st = None -> listed st (h_name h) s -> attached st c0 s ->
  replies (step st (AAttach c true now)) = replies st ++ [(c, RAttach Busy)] /\
  handlers (step st (AAttach c true now)) c = HDone.
Proof.
  intros st c c0 s h pid now R Hc Hr Hl Hls A. apply reachable_inv in R. unfold listed in Hls.
  destruct (i_tab _ R _ _ Hls) as (x & Hx & _). apply (i_inner _ R s x c0 Hx) in A.
  cbn [step]. unfold attach_select. rewrite Hc, Hr, Hl, Hls, Hx, A. cbn. rewrite Nat.eqb_refl. auto.
Qed.
Print Assumptions C15_busy.

Theorem C15_busy_only_if : forall st a c,
  reachable st -> replies (step st a) = replies st ++ [(c, RAttach Busy)] ->
  exists h pid e now s c0, a = AAttach c e now /\ handlers st c = HAccepted pid (QAttach h) /\
    listed st (h_name h) s /\ attached st c0 s.
Proof.
  intros st a c R E. apply reachable_inv in R. apply new_reply in E. inversion E; subst.
  - match goal with H : handlers st c = HAccepted ?pid (QAttach ?h), H2 : s_inner ?x = Some ?c0, H3 : session_at st ?s = Some ?x |- _ =>
      exists h, pid, true, now, s, c0; repeat split; auto; eapply (i_inner _ R); eassumption end.
  - destruct created; discriminate.
Qed.
Print Assumptions C15_busy_only_if.

(** A client told that it is attached is told so while no other client's stream
    is connected to the session. *)
Theorem C15_attached_alone : forall st a k,
  reachable st ->
  replies (step st a) = replies st ++ [(k, RAttach (Attached []))] \/
  replies (step st a) = replies st ++ [(k, RAttach (Created []))] ->
  exists c s, attached st c s /\ forall k2, ~ connected st k2 s.
Proof.
  intros st a k R E.
  assert (X : exists c h s created, handlers st c = HReply h s created).
  { destruct E as [E|E]; apply new_reply in E; inversion E; subst; eauto 6. }
  destruct X as (c & h & s & created & Hc). exists c, s. split; [unfold attached; rewrite Hc; reflexivity|].
  intros k2 (c2 & h2 & E2).
  assert (c = c2) as ->. { apply (C15_one_handler st c c2 s R); unfold attached; [rewrite Hc|rewrite E2]; reflexivity. }
  congruence.
Qed.
Print Assumptions C15_attached_alone.

(** A client streams, a second one asks for the same session. *)
Definition c15_state : server := run fresh (creates 1 work None ++ [asks 2 (QAttach (hdr work None))]).
Example C15_nonvacuous :
  reachable c15_state /\ connected c15_state 1 0 /\ listed c15_state work 0 /\ attached c15_state 1 0 /\
  locked c15_state = None /\ handlers c15_state 2 = HAccepted 42 (QAttach (hdr work None)) /\
  replies (step c15_state (AAttach 2 true 30)) = [(1, RAttach (Created [])); (2, RAttach Busy)].
Proof.
  split; [exists [], (creates 1 work None ++ [asks 2 (QAttach (hdr work None))]); reflexivity|].
  split; [exists 1, (hdr work None); reflexivity|]. repeat split; vm_compute; reflexivity.
Qed.
