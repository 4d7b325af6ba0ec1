(** C21: attach and detach events pair up. *)
From Coq Require Import List NArith ZArith Bool Arith Lia.
From Verif Require Import Model.Base Model.Protocol Model.Names Model.Server Spec.ServerSpec Spec.ServerExamples
  Proofs.BaseLemmas Proofs.ServerProofs Proofs.ServerEvents Proofs.ServerMoves Proofs.ServerGossip.
Import ListNotations.
Open Scope nat_scope.

(** Whatever the schedule, a connection causes at most one attached event and,
    after it, at most one detached event. *)
Theorem C21_at_most_once : forall st c, reachable st ->
  comings_and_goings c (events st) = [] \/ comings_and_goings c (events st) = [EAttached] \/
  comings_and_goings c (events st) = [EAttached; EDetached].
Proof.
  intros st c (d & l & ->). pose proof (order_run d l c) as O.
  destruct (stage (handlers (run (server_new d) l) c)) as [|[|[|n]]]; cbn in O; tauto.
Qed.
Print Assumptions C21_at_most_once.

(** In a schedule in which no attach request is broken off before it streams,
    every attached event of a connection that is done is followed by a detached
    event of that connection or by the removal of that session. *)
Theorem C21_paired_partial : forall defaults l c es1 e es2 s0,
  calm (server_new defaults) l ->
  let st := run (server_new defaults) l in
  handlers st c = HDone -> events st = es1 ++ e :: es2 -> e_kind e = EAttached -> e_conn e = Some c -> e_sid e = Some s0 ->
  exists e', In e' es2 /\ ((e_kind e' = EDetached /\ e_conn e' = Some c) \/ (e_kind e' = ERemoved /\ e_sid e' = Some s0)).
Proof.
  intros d l c es1 e es2 s0 Q st Hd E K C S.
  assert (M : matched st c).
  { apply calm_matched; auto; [exists d, []; reflexivity|cbn; lia|]. fold st. rewrite Hd. cbn. lia. }
  exact (M _ _ _ _ E K C S).
Qed.
Print Assumptions C21_paired_partial.

(** While the connection is attached, no detached event of its has been published. *)
Theorem C21_not_early : forall st c s h, reachable st -> 
  handlers st c = HReply h s true \/ handlers st c = HReply h s false \/ handlers st c = HStart h s \/ (exists k, handlers st c = HStream h s k) ->
  comings_and_goings c (events st) = [EAttached].
Proof.
  intros st c s h (d & l & ->) H. pose proof (order_run d l c) as O.
  destruct H as [H|[H|[H|[k H]]]]; rewrite H in O; exact O.
Qed.
Print Assumptions C21_not_early.

Example C21_nonvacuous :
  let l := creates 1 work None ++ goes 1 30 ++ reattaches 2 work ++ exits 2 0 40 in
  calm fresh l /\ handlers (run fresh l) 1 = HDone /\ handlers (run fresh l) 2 = HDone /\
  map (fun e => (e_kind e, e_conn e)) (events (run fresh l)) =
    [(ECreated, Some 1); (EAttached, Some 1); (EDetached, Some 1); (EAttached, Some 2); (ERemoved, Some 2)].
Proof. vm_compute. intuition. Qed.

(** Nothing is published for a connection that is done. *)
Lemma done_quiet : forall l st c, handlers st c = HDone -> comings_and_goings c (events (run st l)) = comings_and_goings c (events st).
Proof.
  induction l as [|a l IH]; intros st c H; [reflexivity|]. change (run st (a :: l)) with (run (step st a) l). rewrite IH by (apply step_done; exact H).
  destruct (step_gossip st a c) as (es & -> & _ & G). rewrite comings_app. unfold gossip in G. cbn zeta in G. rewrite H in G.
  unfold comings_and_goings at 2.
  destruct G as [[F _]|[(F & _)|[(hd1 & s & pid & _ & X & _)|[(hd1 & s & _ & X & _)|(hd1 & s0 & s & X & _)]]]];
    try discriminate X; rewrite F; apply app_nil_r.
Qed.

(** A client that hangs up in the message-of-the-day pager of a session it is
    reattaching to leaves an attached event that is never matched: it is done,
    nobody is attached, the session lives on, and no detached event will ever be
    published for it. *)
Definition hung_up : list action := creates 1 work None ++ goes 1 30 ++ [asks 2 (QAttach (hdr work None)); AAttach 2 true 40; AReply 2 true false].
Lemma hung_up_facts :
  let st := run fresh hung_up in
  handlers st 2 = HDone /\ comings_and_goings 2 (events st) = [EAttached] /\
  (exists es, events st = es ++ [mkEvent EAttached work (Some 0) (Some 2)]) /\
  lookup work (table st) = Some 0 /\ option_map s_inner (session_at st 0) = Some None.
Proof.
  cbn zeta. do 2 (split; [vm_compute; reflexivity|]). split; [|vm_compute; auto].
  exists [mkEvent ECreated work (Some 0) (Some 1); mkEvent EAttached work (Some 0) (Some 1); mkEvent EDetached work (Some 0) (Some 1)].
  vm_compute. reflexivity.
Qed.
Theorem C21_paired_refuted : exists l,
  let st := run fresh l in
  handlers st 2 = HDone /\ (exists es, events st = es ++ [mkEvent EAttached work (Some 0) (Some 2)]) /\
  listed st work 0 /\ (forall c, ~ attached st c 0) /\
  forall l', comings_and_goings 2 (events (run st l')) = [EAttached].
Proof.
  exists hung_up. cbn zeta. assert (R : reachable (run fresh hung_up)) by (exists [], hung_up; reflexivity).
  destruct hung_up_facts as (H1 & H2 & H3 & H4 & H5). remember (run fresh hung_up) as st eqn:E. clear E.
  split; [exact H1|]. split; [exact H3|]. split; [exact H4|]. split.
  - intros c Hc. destruct (session_at st 0) as [x|] eqn:Hx; [|discriminate H5]. injection H5 as H5.
    apply (i_inner _ (reachable_inv _ R) 0 x c Hx) in Hc. congruence.
  - intros l'. rewrite done_quiet by exact H1. exact H2.
Qed.
Print Assumptions C21_paired_refuted.

(** The same happens to the creator of a session when a second client slips in
    and leaves again between the creator's insertion of the session and its
    fetching it: the creator finds no client stream, which the code takes to be
    impossible. *)
Theorem C21_no_stream_refuted : exists l,
  let st := run fresh l in
  handlers st 1 = HDone /\ comings_and_goings 1 (events st) = [EAttached] /\ (forall r, ~ In (1, r) (replies st)) /\
  lookup work (table st) = Some 0.
Proof.
  exists ([asks 1 (QAttach (hdr work None)); AAttach 1 true 10; ASpawn 1 true 11 1000; AInsert 1] ++
          reattaches 2 work ++ goes 2 30 ++ [AFetch 1; AReply 1 true true]).
  cbn zeta. split; [vm_compute; reflexivity|]. split; [vm_compute; reflexivity|]. split; [|vm_compute; reflexivity].
  match goal with |- forall r, ~ In _ (replies ?st) => assert (RP : replies st = [(2, RAttach (Attached []))]) by (vm_compute; reflexivity); intros r H; rewrite RP in H end.
  destruct H as [H|[]]. discriminate H.
Qed.
Print Assumptions C21_no_stream_refuted.
