(** C78: what becomes of an attachment, from the threads that serve it to the daemon's
    account. *)
From Coq Require Import List NArith ZArith Bool Arith Lia.
From Verif Require Import Model.Base Model.Chunk Model.Protocol Model.Duration Model.Config Model.Restore Model.Pager Model.Motd Model.Sentinel
  Model.ShellToClient Spec.TurnSpec Spec.OutputExamples Proofs.ShellToClientProofs Proofs.TurnProofs.
From Verif Require Import Model.Server Spec.ServerSpec Spec.ServerExamples Spec.InStepSpec Spec.AttachmentEndSpec
  Proofs.BaseLemmas Proofs.ServerProofs Proofs.ServerMoves Proofs.InStepProofs.
From Verif Require Model.Streaming Spec.StreamingSpec Proofs.StreamingProofs Properties.C64_Attachment.
Import ListNotations.
Open Scope nat_scope.

Lemma lets_go {e : engines} b st s (before after : @s2c e) ev m :
  in_step st s before -> after = s2c_step b before ev -> waiting before = false -> takes before ev m -> gets m = None ->
  exists l, Forall (by_itself s) l /\ in_step (run st l) s after.
Proof.
  intros K -> W M G. pose proof (proj1 M) as F. apply (rest_in_step st s before); [exact K|exact F|]. intros F'.
  destruct m as [id z| |status]; [discriminate G| |].
  - destruct (took_message b before ev Disconnect M eq_refl) as [(_ & N)|(_ & n & Fn & Wn & Cn & R)]; cbn zeta in *; [contradiction|].
    destruct (R F') as (R1 & R2). rewrite R1, Wn, W. split; [reflexivity|]. rewrite Cn in R2. destruct R2; auto.
  - destruct (took_exit b before ev status M W) as [(_ & r & E & _)|(_ & E)]; cbn zeta in *; congruence.
Qed.

(** A detach typed by the user: the output thread lets the client go, as the daemon has
    it; the handler is where it was. *)
Theorem C78_typed_detach : forall e b st s (before after : @s2c e) ev c h k,
  reachable st -> in_step st s before -> handlers st c = HStream h s k ->
  takes before ev Disconnect -> after = s2c_step b before ev ->
  exists l, Forall (by_itself s) l /\ in_step (run st l) s after /\ handlers (run st l) c = HStream h s k.
Proof.
  intros e b st s before after ev c h k R K Hc M E.
  assert (W : waiting before = false) by (eapply in_step_started; eauto; apply M).
  destruct (lets_go b st s before after ev Disconnect K E W M eq_refl) as (l & F & K'). exists l. split; [exact F|]. split; [exact K'|].
  rewrite (proj1 (by_itself_handlers _ _ _ F)). exact Hc.
Qed.
Print Assumptions C78_typed_detach.

(** However the threads of an attachment got to its end, and whatever they told the output
    thread: the daemon's account agrees with what the output thread is doing then, and the
    handler goes on to clean up, treating the session as over exactly if the threads have
    said so, which they do only if the shell has exited. *)
Theorem C78_whole_end : forall e b st s (before after : @s2c e) c h k x keys sched r,
  reachable st -> in_step st s before -> handlers st c = HStream h s k -> session_at st s = Some x ->
  let a := Streaming.run (Streaming.opened keys) sched in
  Streaming.boss_at a = Streaming.KDone r -> Streaming.exited a = s_exit x -> output_did b before (Streaming.told a) after ->
  exists l, Forall (by_itself s) l /\
    let st' := step (run st l) (AEnd c (says_over r) false true) in
    in_step st' s after /\ handlers st' c = HUnwind h s (says_over r) /\
    (says_over r = true -> s_exit x <> None) /\ only_handler c (run st l) st'.
Proof.
  intros e b st s before after c h k x keys sched r R K Hc Hx a Hr Ex O.
  destruct (C64_Attachment.C64_truthful keys sched) as (T1 & T2 & T3). fold a in T1, T2, T3.
  assert (X : says_over r = true -> s_exit x <> None).
  { intros Y. rewrite <- Ex. apply T1. rewrite Hr. destruct r as [[|]| |]; try discriminate Y. reflexivity. }
  assert (G : exists l, Forall (by_itself s) l /\ in_step (run st l) s after).
  { destruct (Streaming.told a) as [|m [|m' t]].
    - cbn in O. subst after. exists []. split; [constructor|exact K].
    - destruct O as (ev & M & E). assert (W : waiting before = false) by (eapply in_step_started; eauto; apply M).
      eapply lets_go; eauto. destruct m; reflexivity.
    - cbn in T3. lia. }
  destruct G as (l & F & K'). exists l. split; [exact F|]. cbn zeta. pose proof K' as (x' & Hx' & Q).
  assert (Ex' : s_exit x' = s_exit x) by (eapply by_itself_exit; eauto).
  assert (Es : step (run st l) (AEnd c (says_over r) false true) = goto (run st l) c (HUnwind h s (says_over r))).
  { cbn [step]. unfold attach_end. rewrite (proj1 (by_itself_handlers _ _ _ F)), Hc, Hx', Ex'. destruct (says_over r) eqn:Y; cbn [andb]; [|reflexivity].
    destruct (s_exit x); [reflexivity|destruct (X eq_refl eq_refl)]. }
  rewrite Es. split; [exists x'; auto|]. split; [apply goto_same|]. split; [exact X|]. intros c' N. apply goto_other. exact N.
Qed.
Print Assumptions C78_whole_end.

(** A session whose shell exits with status 3 while somebody is attached: the threads end,
    having told the output thread; the output thread ends; the daemon's account is that,
    and its handler goes on to clean up a session that is over. *)
Example C78_nonvacuous :
  let st := run fresh [asks 1 (QAttach (hdr work None)); AAttach 1 true 10%Z; ASpawn 1 true 11%Z 1000%N; AInsert 1; AFetch 1; AReply 1 true true; AStart 1 true; AExit 0 3%Z] in
  let a := Streaming.run (Streaming.opened (match C64_Attachment.default_bindings with Ok b => Some b | Err _ => None end)) (C64_Attachment.an_afternoon ++ C64_Attachment.its_end) in
  let st' := run st [AThreadEnd 0 true; AEnd 1 true false true] in
  option_map (fun t0 =>
    let t1 := s2c_step (e := recorder) Release t0 (First (Some (NewConn 1 z80)) 0 true) in
    let t2 := s2c_step Release t1 (Iter (quiet (SelConn (DisconnectExit 3)) PollTimeout)) in
    (handlers st 1, map s_exit (sessions st), map s_thread (sessions st), seen t1,
     (Streaming.boss_at a, Streaming.told a, Streaming.exited a),
     map (fun x => (s_thread x, s_client x)) (sessions st'), (seen t2, writes_to t2), handlers st' 1))
    (s2c_new false false default_config z80)
  = Some (HStream (hdr work None) 0 1, [Some 3%Z], [TRunning], TRunning,
          (Streaming.KDone (Streaming.Returned true), [Streaming.TellExit 3], Some 3%Z),
          [(TFinished true, None)], (TFinished true, None), HUnwind (hdr work None) 0 true).
Proof. vm_compute. reflexivity. Qed.
