(** C76: the daemon's account of who is attached agrees with what the session's output
    thread does. *)
From Coq Require Import String List NArith ZArith Bool Arith Lia.
From Verif Require Import Model.Base Model.Chunk Model.Protocol Model.Duration Model.Config Model.Restore Model.Pager Model.Motd Model.Sentinel
  Model.ShellToClient Spec.TurnSpec Spec.OutputExamples Proofs.ShellToClientProofs Proofs.TurnProofs.
From Verif Require Import Model.Server Spec.ServerSpec Spec.ServerExamples Spec.InStepSpec Proofs.BaseLemmas Proofs.ServerProofs Proofs.ServerMoves Proofs.InStepProofs.
Import ListNotations.
Open Scope nat_scope.

(** They agree from the start ... *)
Theorem C76_from_the_start : forall e sup dump_motd c size (t : @s2c e) st k h pid ok now inst,
  s2c_new sup dump_motd c size = Some t -> handlers st k = HSpawn h pid ->
  let s := length (sessions st) in let st' := step st (ASpawn k ok now inst) in
  (exists x, session_at st' s = Some x) -> in_step st' s t.
Proof.
  intros e sup dm c size t st k h pid ok now inst Hn Hk. cbn zeta. intros (x & Hx).
  assert (N : session_at st (length (sessions st)) = None) by (apply nth_error_None; lia).
  destruct (step_new_session st _ _ x N Hx) as (k' & ok' & now' & inst' & h' & pid' & d & _ & _ & _ & _ & Ex & _).
  exists x. split; [exact Hx|]. subst x. unfold s2c_new in Hn. destruct (gate_new sup); [|discriminate]. injection Hn as <-. split; [reflexivity|]. left. reflexivity.
Qed.
Print Assumptions C76_from_the_start.

(** ... and whatever the daemon does without talking to a thread leaves it that way. *)
Theorem C76_otherwise_untouched : forall e st s (t : @s2c e) a,
  in_step st s t -> talks a = false -> in_step (step st a) s t.
Proof.
  intros e st s t a (x & Hx & C & T) N. destruct (step_alters st a s x Hx) as [Hx'|(x' & Hx' & A)].
  - exists x. auto.
  - exists x'. split; [exact Hx'|]. clear Hx Hx'.
    assert (F : is_live (s_thread x) = false -> finished t <> None).
    { intros L. destruct T as [T|(T & _)]; [|exact T]. intros F. rewrite T, (live_seen t F) in L. discriminate L. }
    destruct A; try discriminate N; cbn; auto.
    + split; [destruct (s_exit x); exact C|]. right. split; [apply F; match goal with H : s_thread x = TFinished _ |- _ => rewrite H end; reflexivity|]. destruct (s_exit x); reflexivity.
Qed.
Print Assumptions C76_otherwise_untouched.

(** Whatever happens to the thread without a message about clients is something the
    daemon's account knows: the thread goes on, drops its client, or ends. *)
Theorem C76_by_itself : forall e b st s (before after : @s2c e) ev,
  in_step st s before -> after = s2c_step b before ev -> takes_none before ev ->
  exists l, Forall (by_itself s) l /\ in_step (run st l) s after.
Proof.
  intros e b st s before after ev K -> N.
  assert (Stay : forall t', t' = before -> exists l, Forall (by_itself s) l /\ in_step (run st l) s t').
  { intros t' ->. exists []. split; [constructor|exact K]. }
  destruct (finished before) as [r|] eqn:F.
  { apply Stay. destruct ev as [m now ok|it]; cbn; rewrite ?F; [reflexivity|]. unfold s2c_turn. rewrite F. destruct (waiting before); reflexivity. }
  destruct ev as [[m|] now ok|it]; cbn [s2c_step]; rewrite ?F; destruct (waiting before) eqn:W; try (apply Stay; reflexivity).
  - destruct (N m). split; [exact F|]. auto.
  - apply (rest_in_step st s before); [exact K|exact F|]. cbn. discriminate.
  - destruct (turn_account b before it F) as (_ & A & B). pose proof (select_account b before it F) as D. cbn zeta in *.
    apply (rest_in_step st s before); [exact K|exact F|]. intros F'.
    destruct (finished (fst (s2c_select b before it))) eqn:Fm; [rewrite A in F' by discriminate; congruence|].
    destruct (B eq_refl F') as (B1 & B2). destruct (D eq_refl) as (D1 & D2). rewrite B1, D1. split; [reflexivity|].
    assert (C : next_client (client before) it = client before).
    { unfold next_client. destruct (sel it) as [m| | | | | | |] eqn:S; try reflexivity. destruct (N m). split; [exact F|]. auto. }
    rewrite D2, C in B2. exact B2.
Qed.
Print Assumptions C76_by_itself.

(** An attach: the thread takes the new client, the daemon's handler goes on to serve it
    exactly if the thread has answered, and the two agree again. *)
Theorem C76_attach : forall e b st s (before after : @s2c e) ev c h x id size,
  in_step st s before -> after = s2c_step b before ev ->
  handlers st c = HStart h s -> session_at st s = Some x -> s_stream x = Some id -> takes before ev (NewConn id size) ->
  exists ok l new, said before after new /\ Forall (together s (AStart c ok)) l /\ In (AStart c ok) l /\ in_step (run st l) s after /\
    handlers (run st l) c = match new with [] => HUnwind h s false | _ => HStream h s id end.
Proof.
  intros e b st s before after ev c h x id size K -> Hc Hx Hs M. unfold said.
  destruct (took_message b before ev (NewConn id size) M eq_refl) as [(A & F)|(A & n & F & W & C & R)]; cbn zeta in *.
  - exists false. destruct (finished (s2c_step b before ev)) as [r|] eqn:E; [|destruct (F eq_refl)].
    exists [AThreadEnd s (ended_well r); AStart c false], []. rewrite app_nil_r. split; [exact A|]. split; [constructor; [right; left; eauto|]; constructor; [left; reflexivity|constructor]|]. split; [cbn; auto|].
    change (run st _) with (step (step st (AThreadEnd s (ended_well r))) (AStart c false)).
    assert (K' := ends_in_step st s before _ r K (proj1 M) E). split; [apply ended_in_step; [exact K'|congruence]|].
    cbn [step]. unfold attach_start, thread_end. cbn [handlers change with_sessions]. rewrite Hc, here_change, Hx. cbn [option_map].
    destruct (is_live (s_thread x)); cbn; rewrite Hs; cbn; apply goto_same.
  - exists true. destruct K as (x0 & Hx0 & C0 & T0). rewrite Hx in Hx0. injection Hx0 as <-.
    assert (L : is_live (s_thread x) = true).
    { destruct T0 as [->|(N & _)]; [apply live_seen; exact (proj1 M)|destruct (N (proj1 M))]. }
    destruct (after_handler (step st (AStart c true)) s (set_thread (set_client (set_stream x None) (Some id)) TRunning) n (s2c_step b before ev)) as (l & Fl & Kl).
    + cbn [step]. unfold attach_start. rewrite Hc, Hx, Hs, L. cbn [andb]. rewrite at_goto, !here_change, Hx. reflexivity.
    + reflexivity.
    + cbn. rewrite C. reflexivity.
    + exact F.
    + exact W.
    + exact R.
    + exists (AStart c true :: l), [answer_to before (NewConn id size)]. split; [exact A|]. split.
      { constructor; [left; reflexivity|]. eapply Forall_impl; [|exact Fl]. intros a Ha. right. exact Ha. }
      split; [cbn; auto|]. split; [exact Kl|]. change (run st (AStart c true :: l)) with (run (step st (AStart c true)) l). rewrite (proj1 (by_itself_handlers _ _ _ Fl)).
      cbn [step]. unfold attach_start. rewrite Hc, Hx, Hs, L. cbn [andb]. apply goto_same.
Qed.
Print Assumptions C76_attach.

(** A detach: the request goes on exactly if the thread has answered, and the session is
    noted as not attached exactly if the thread says it had no client. *)
Theorem C76_detach : forall e b st s (before after : @s2c e) ev c n rest nf na now,
  lived b before -> in_step st s before -> after = s2c_step b before ev ->
  handlers st c = HDetach (n :: rest) nf na -> listed st n s -> takes before ev Disconnect ->
  exists l new, said before after new /\ Forall (together s (ADetachNext c now)) l /\ In (ADetachNext c now) l /\ in_step (run st l) s after /\
    handlers (run st l) c = match new with
                            | [] => HDone
                            | AckDetachNone :: _ => HDetach rest nf (na ++ [n])
                            | _ => HDetach rest nf na
                            end.
Proof.
  intros e b st s before after ev c n rest nf na now V K -> Hc Ln M. unfold said, listed in *.
  destruct (took_message b before ev Disconnect M eq_refl) as [(A & F)|(A & m & F & W & C & R)]; cbn zeta in *; pose proof K as (x & Hx & C0 & T0).
  - destruct (finished (s2c_step b before ev)) as [r|] eqn:E; [|destruct (F eq_refl)].
    exists [AThreadEnd s (ended_well r); ADetachNext c now], []. rewrite app_nil_r. split; [exact A|]. split; [constructor; [right; left; eauto|]; constructor; [left; reflexivity|constructor]|]. split; [cbn; auto|].
    change (run st _) with (step (step st (AThreadEnd s (ended_well r))) (ADetachNext c now)).
    assert (K' := ends_in_step st s before _ r K (proj1 M) E). split; [apply ended_in_step; [exact K'|congruence]|].
    destruct T0 as [T0|(N & _)]; [|destruct (N (proj1 M))].
    cbn [step]. unfold detach_next, thread_end. cbn [handlers table change with_sessions]. rewrite Hc, Ln.
    rewrite here_change, Hx. cbn [option_map]. rewrite T0, (live_seen before (proj1 M)). cbn. apply goto_same.
  - destruct T0 as [T0|(N & _)]; [|destruct (N (proj1 M))].
    destruct (seen_live before (proj1 M)) as (S1 & S2). rewrite S1 in T0. rewrite S2 in C0.
    assert (G : exists y, session_at (step st (ADetachNext c now)) s = Some y /\ s_thread y = TRunning /\ s_client y = None /\
       handlers (step st (ADetachNext c now)) c = match answer_to before Disconnect with AckDetachNone => HDetach rest nf (na ++ [n]) | _ => HDetach rest nf na end).
    { cbn [step]. unfold detach_next, answer_to. rewrite Hc, Ln, Hx, T0, C0. destruct (waiting before) eqn:Wb.
      - assert (Cn : s_client x = None) by (rewrite C0; apply (waiting_client b before V Wb)).
        rewrite at_goto, here_change, Hx. eexists. split; [reflexivity|]. cbn. split; [reflexivity|]. split; [exact Cn|]. apply goto_same.
      - destruct (client before); rewrite at_goto, ?here_change, Hx; eexists; (split; [reflexivity|]); cbn; rewrite ?T0; (split; [reflexivity|]); (split; [try reflexivity; exact C0|]); apply goto_same. }
    destruct G as (y & Hy & Ty & Cy & Hh).
    destruct (after_handler (step st (ADetachNext c now)) s y m (s2c_step b before ev) Hy Ty ltac:(rewrite C; exact Cy) F W R) as (l & Fl & Kl).
    exists (ADetachNext c now :: l), [answer_to before Disconnect]. split; [exact A|]. split.
    { constructor; [left; reflexivity|]. eapply Forall_impl; [|exact Fl]. intros a Ha. right. exact Ha. }
    split; [cbn; auto|]. split; [exact Kl|]. change (run st (ADetachNext c now :: l)) with (run (step st (ADetachNext c now)) l). rewrite (proj1 (by_itself_handlers _ _ _ Fl)).
    exact Hh.
Qed.
Print Assumptions C76_detach.

(** A message asking the session to let its client go: answered exactly if the thread has
    answered. *)
Theorem C76_message : forall e b st s (before after : @s2c e) ev c,
  lived b before -> in_step st s before -> after = s2c_step b before ev ->
  handlers st c = HMessage s -> takes before ev Disconnect ->
  exists ok l new, said before after new /\ Forall (together s (AMessageSend c ok)) l /\ In (AMessageSend c ok) l /\ in_step (run st l) s after /\
    handlers (run st l) c = HDone /\ replies (run st l) = replies st ++ match new with [] => [] | _ => [(c, RMessage true)] end.
Proof.
  intros e b st s before after ev c V K -> Hc M. unfold said.
  destruct (took_message b before ev Disconnect M eq_refl) as [(A & F)|(A & m & F & W & C & R)]; cbn zeta in *; pose proof K as (x & Hx & C0 & T0).
  - destruct (finished (s2c_step b before ev)) as [r|] eqn:E; [|destruct (F eq_refl)].
    exists false, [AThreadEnd s (ended_well r); AMessageSend c false], []. rewrite !app_nil_r. split; [exact A|].
    split; [constructor; [right; left; eauto|]; constructor; [left; reflexivity|constructor]|]. split; [cbn; auto|].
    change (run st _) with (step (step st (AThreadEnd s (ended_well r))) (AMessageSend c false)).
    assert (K' := ends_in_step st s before _ r K (proj1 M) E). split; [apply ended_in_step; [exact K'|congruence]|].
    cbn [step]. unfold message_send, thread_end. cbn [handlers change with_sessions]. rewrite Hc, here_change, Hx. cbn [option_map andb]. split; [apply goto_same|reflexivity].
  - assert (L : is_live (s_thread x) = true).
    { destruct T0 as [->|(N & _)]; [apply live_seen; exact (proj1 M)|destruct (N (proj1 M))]. }
    destruct (after_handler (step st (AMessageSend c true)) s (set_thread (set_client x None) TRunning) m (s2c_step b before ev)) as (l & Fl & Kl); [| reflexivity | cbn; rewrite C; reflexivity | exact F | exact W | exact R |].
    { cbn [step]. unfold message_send. rewrite Hc, Hx, L. cbn [andb]. rewrite at_goto, at_say, here_change, Hx. reflexivity. }
    exists true, (AMessageSend c true :: l), [answer_to before Disconnect]. split; [exact A|]. split.
    { constructor; [left; reflexivity|]. eapply Forall_impl; [|exact Fl]. intros a Ha. right. exact Ha. }
    split; [cbn; auto|]. split; [exact Kl|]. change (run st (AMessageSend c true :: l)) with (run (step st (AMessageSend c true)) l).
    rewrite (proj1 (by_itself_handlers _ _ _ Fl)), (proj2 (by_itself_handlers _ _ _ Fl)).
    cbn [step]. unfold message_send. rewrite Hc, Hx, L. cbn [andb]. split; [apply goto_same|reflexivity].
Qed.
Print Assumptions C76_message.

(** The end of an attachment: the handler has the thread let its client go, or, when the
    shell has exited, tell it the status and end. *)
Theorem C76_end : forall e b st s (before after : @s2c e) ev c h k ok,
  reachable st -> in_step st s before -> after = s2c_step b before ev ->
  handlers st c = HStream h s k -> takes before ev Disconnect ->
  exists delivered l, Forall (together s (AEnd c false delivered ok)) l /\ In (AEnd c false delivered ok) l /\ in_step (run st l) s after /\
    handlers (run st l) c = HUnwind h s false.
Proof.
  intros e b st s before after ev c h k ok Rs K -> Hc M.
  pose proof K as (x & Hx & C0 & T0). destruct T0 as [T0|(N & _)]; [|destruct (N (proj1 M))].
  assert (Wb : waiting before = false).
  { destruct (waiting before) eqn:Wb; [|reflexivity]. destruct (streaming_started st Rs c h s k Hc) as (x' & Hx' & N). rewrite Hx in Hx'. injection Hx' as <-.
    destruct N. rewrite T0. unfold seen. rewrite (proj1 M), Wb. reflexivity. }
  destruct (took_message b before ev Disconnect M eq_refl) as [(A & F)|(A & m & F & W & C & R)]; cbn zeta in *.
  - destruct (finished (s2c_step b before ev)) as [r|] eqn:E; [|destruct (F eq_refl)].
    exists false, [AThreadEnd s (ended_well r); AEnd c false false ok].
    split; [constructor; [right; left; eauto|]; constructor; [left; reflexivity|constructor]|]. split; [cbn; auto|].
    change (run st _) with (step (step st (AThreadEnd s (ended_well r))) (AEnd c false false ok)).
    assert (K' := ends_in_step st s before _ r K (proj1 M) E). split; [apply ended_in_step; [exact K'|congruence]|].
    cbn [step]. unfold attach_end, thread_end. cbn [handlers change with_sessions]. rewrite Hc, here_change, Hx. cbn [option_map andb]. apply goto_same.
  - assert (T1 : s_thread x = TRunning) by (rewrite T0; unfold seen; rewrite (proj1 M), Wb; reflexivity).
    destruct (after_handler (step st (AEnd c false true ok)) s (set_client x None) m (s2c_step b before ev)) as (l & Fl & Kl); [| exact T1 | cbn; rewrite C; reflexivity | exact F | exact W | exact R |].
    { cbn [step]. unfold attach_end. rewrite Hc, Hx, T1. cbn [andb is_live]. rewrite at_goto, here_change, Hx. reflexivity. }
    exists true, (AEnd c false true ok :: l). split.
    { constructor; [left; reflexivity|]. eapply Forall_impl; [|exact Fl]. intros a Ha. right. exact Ha. }
    split; [cbn; auto|]. split; [exact Kl|]. change (run st (AEnd c false true ok :: l)) with (run (step st (AEnd c false true ok)) l).
    rewrite (proj1 (by_itself_handlers _ _ _ Fl)).
    cbn [step]. unfold attach_end. rewrite Hc, Hx. cbn [andb]. apply goto_same.
Qed.
Print Assumptions C76_end.

Theorem C76_exit : forall e b st s (before after : @s2c e) ev c h k x status ok,
  reachable st -> in_step st s before -> after = s2c_step b before ev ->
  handlers st c = HStream h s k -> session_at st s = Some x -> s_exit x = Some status -> takes before ev (DisconnectExit status) ->
  exists delivered l, Forall (together s (AEnd c true delivered ok)) l /\ In (AEnd c true delivered ok) l /\ in_step (run st l) s after /\
    handlers (run st l) c = HUnwind h s ok /\ finished after <> None.
Proof.
  intros e b st s before after ev c h k x status ok Rs K -> Hc Hx X M.
  pose proof K as (x0 & Hx0 & C0 & T0). rewrite Hx in Hx0. injection Hx0 as <-. destruct T0 as [T0|(N & _)]; [|destruct (N (proj1 M))].
  assert (Wb : waiting before = false).
  { destruct (waiting before) eqn:Wb; [|reflexivity]. destruct (streaming_started st Rs c h s k Hc) as (x' & Hx' & N). rewrite Hx in Hx'. injection Hx' as <-.
    destruct N. rewrite T0. unfold seen. rewrite (proj1 M), Wb. reflexivity. }
  destruct (took_exit b before ev status M Wb) as [(_ & r & E & _)|(_ & E)]; cbn zeta in *.
  - exists false, [AThreadEnd s (ended_well r); AEnd c true false ok].
    split; [constructor; [right; left; eauto|]; constructor; [left; reflexivity|constructor]|]. split; [cbn; auto|].
    change (run st _) with (step (step st (AThreadEnd s (ended_well r))) (AEnd c true false ok)).
    assert (K' := ends_in_step st s before _ r K (proj1 M) E). split; [apply ended_in_step; [exact K'|congruence]|]. split; [|congruence].
    cbn [step]. unfold attach_end, thread_end. cbn [handlers change with_sessions]. rewrite Hc, here_change, Hx. cbn [option_map].
    destruct (is_live (s_thread x)); cbn; rewrite X; cbn; apply goto_same.
  - exists true, [AEnd c true true ok]. split; [constructor; [left; reflexivity|constructor]|]. split; [cbn; auto|]. split; [|split; [|congruence]].
    + destruct (seen_end _ EndOk E) as (S1 & S2). exists (set_client (set_thread x (TFinished true)) None). cbn [run fold_left step]. unfold attach_end. rewrite Hc, Hx, X.
      rewrite T0, (live_seen before (proj1 M)). cbn [andb]. rewrite at_goto, here_change, Hx, S1, S2. auto.
    + cbn [run fold_left step]. unfold attach_end. rewrite Hc, Hx, X. cbn [andb]. apply goto_same.
Qed.
Print Assumptions C76_exit.

(** So a session that a detach request passes over without noting it as not attached, and
    that has ever had a client, had one; that client has been sent the status 0, and its
    connection has been closed. *)
Theorem C76_detached_was_told : forall e b (before after : @s2c e) ev new,
  lived b before -> after = s2c_step b before ev -> takes before ev Disconnect -> waiting before = false ->
  said before after new -> new <> [] -> ~ In AckDetachNone new ->
  exists id, client before = Some id /\ In id (shut after) /\ exists arrived, In (mkSent id (mkChunk ExitStatus [0; 0; 0; 0]%N) arrived) (log after).
Proof.
  intros e b before after ev new V -> M Wb A N1 N2. unfold said in A.
  destruct (took_message b before ev Disconnect M eq_refl) as [(A' & _)|(A' & m & F & W & C & R)]; cbn zeta in *; rewrite A' in A.
  { destruct N1. rewrite <- (app_nil_r (acks before)) in A at 1. apply app_inv_head in A. congruence. }
  apply app_inv_head in A. subst new. unfold answer_to in N2. rewrite Wb in N2. destruct (client before) as [id|] eqn:Cb; [|destruct N2; left; reflexivity].
  exists id. split; [reflexivity|]. destruct M as (Fb & M). destruct ev as [[m'|] now ok|it]; [destruct M; congruence|destruct M|]. destruct M as (_ & M).
  cbn [s2c_step] in *. rewrite Wb in *. destruct (turn_account b before it Fb) as (K & T & _). cbn zeta in *.
  pose proof (turn_acks b before it Fb) as (Q1 & Q2). rewrite Q2, (select_shut b before it Fb). rewrite (turn_log b before it Fb).
  assert (So : shutdown_ok it = true).
  { rewrite K, (select_acks b before it Fb) in A'. apply app_inv_head in A'. unfold sel_end in A'. rewrite M, Cb in A'. destruct (shutdown_ok it); [reflexivity|discriminate A']. }
  unfold closed_by. rewrite M, Cb, So. split; [cbn; auto|].
  exists (wrote (w_sel it)). apply in_or_app. right. unfold turn_frames. apply in_or_app. left. unfold sel_frames. rewrite Cb, M. left. reflexivity.
Qed.
Print Assumptions C76_detached_was_told.

(** A session is created and attached to, its shell prints, somebody detaches it: the
    account and the thread agree at each point, with connection 1 as the client in
    between. *)
Example C76_nonvacuous :
  let st := run fresh [asks 1 (QAttach (hdr work None)); AAttach 1 true 10%Z; ASpawn 1 true 11%Z 1000%N; AInsert 1; AFetch 1; AReply 1 true true] in
  let st1 := run st [AStart 1 true] in
  let st2 := run st1 [asks 2 (QDetach [work]); ADetach 2] in
  let st3 := run st2 [ADetachNext 2 20%Z] in
  option_map (fun t0 =>
    let t1 := s2c_step (e := recorder) Release t0 (First (Some (NewConn 1 z80)) 0 true) in
    let t2 := s2c_step Release t1 (Iter (shell_prints "hello"%string)) in
    let t3 := s2c_step Release t2 (Iter (quiet (SelConn Disconnect) PollTimeout)) in
    (map (fun x => (s_thread x, s_client x)) (sessions st), (seen t0, writes_to t0),
     map (fun x => (s_thread x, s_client x)) (sessions st1), (seen t1, writes_to t1), (seen t2, writes_to t2),
     handlers st2 2, map (fun x => (s_thread x, s_client x)) (sessions st3), (seen t3, writes_to t3), acks t3, handlers st3 2, shut t3))
    (s2c_new false false default_config z80)
  = Some ([(TWaiting, None)], (TWaiting, None), [(TRunning, Some 1)], (TRunning, Some 1), (TRunning, Some 1),
          HDetach [work] [] [], [(TRunning, None)], (TRunning, None), [AckNew; AckDetached], HDetach [] [] [], [1]).
Proof. vm_compute. reflexivity. Qed.
