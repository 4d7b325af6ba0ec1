(** C58: the callbacks of the wrapping binary. *)
From Coq Require Import List NArith ZArith Bool Arith Lia.
From Verif Require Import Model.Base Model.Protocol Model.Names Model.Server Model.Hooks Spec.ServerSpec Spec.ServerExamples Spec.HooksSpec
  Proofs.BaseLemmas Proofs.ServerProofs Proofs.ServerEvents Proofs.ServerMoves Proofs.HooksProofs.
Import ListNotations.
Open Scope nat_scope.

(** In every schedule each connection makes nothing, one busy call, one opening call,
    or an opening call and later one closing call, all for one session name. *)
Theorem C58_per_connection : forall defaults l c,
  let cs := calls_of c (calls (server_new defaults) l) in
  cs = [] \/ exists n, cs = [(OnBusy, n)] \/ (exists o, opens o /\ cs = [(o, n)]) \/
                       (exists o k, opens o /\ closes k /\ cs = [(o, n); (k, n)]).
Proof.
  intros d l c cs. pose proof (fresh_so_far d l c) as G. fold cs in G.
  destruct (handlers (run (server_new d) l) c); cbn [so_far] in G; auto; right;
    try (exists (h_name h); right; left; exists OnNewSession; split; [left; reflexivity|exact G]).
  - exists (h_name h). right. left. destruct created; [exists OnNewSession|exists OnReattach]; (split; [|exact G]); [left|right]; reflexivity.
  - destruct G as (o & Ho & G). exists (h_name h). right. left. exists o. auto.
  - destruct G as (o & Ho & G). exists (h_name h). right. left. exists o. auto.
  - exists (h_name h). right. destruct done; destruct G as (o & Ho & G).
    + right. exists o, OnShellDisconnect. split; [exact Ho|]. split; [right; reflexivity|exact G].
    + left. exists o. auto.
  - destruct G as (o & n & Ho & G). exists n. right. right. exists o, (if done then OnShellDisconnect else OnClientDisconnect).
    split; [exact Ho|]. split; [destruct done; [right|left]; reflexivity|exact G].
Qed.
Print Assumptions C58_per_connection.

(** From the moment its client is to be streamed to until it is done, a connection
    makes exactly one call, a closing one for the name it asked for. *)
Theorem C58_closing : forall st l c h s,
  handlers st c = HStart h s \/ (exists k, handlers st c = HStream h s k) ->
  handlers (run st l) c = HDone ->
  exists k, closes k /\ calls_of c (calls st l) = [(k, h_name h)].
Proof.
  intros st l c h s H Hd. pose proof (owes_run l st c (h_name h) []) as G. rewrite Hd in G. cbn [owes app] in G. apply G.
  destruct H as [H|[k H]]; rewrite H; split; reflexivity.
Qed.
Print Assumptions C58_closing.

(** Busy callbacks are made exactly when clients are told that the session is busy,
    in the same order. *)
Theorem C58_busy : forall defaults l,
  busy_calls (calls (server_new defaults) l) = busy_replies (replies (run (server_new defaults) l)).
Proof. intros d l. rewrite busy_run. reflexivity. Qed.
Print Assumptions C58_busy.

(** Reattach callbacks are made exactly by the connections that attached to a
    session they did not create. *)
Theorem C58_reattach : forall defaults l c n,
  let evs := events (run (server_new defaults) l) in
  In (mkCall c OnReattach n) (calls (server_new defaults) l) <->
  exists s, In (mkEvent EAttached n (Some s) (Some c)) evs /\ forall n' s', ~ In (mkEvent ECreated n' (Some s') (Some c)) evs.
Proof.
  intros d l c n evs. destruct (agrees_fresh d l c) as (A & B & C). fold evs in A, B, C. split.
  - intros H. apply in_calls_of in H. destruct (A n H) as (s & Hs). exists s. split; [exact Hs|]. intros n' s' Hc. apply C in Hc.
    pose proof (C58_per_connection d l c) as P. cbn zeta in P. set (cs := calls_of c (calls (server_new d) l)) in *.
    destruct P as [P|(m & [P|[(o & Ho & P)|(o & k & Ho & Hk & P)]])]; rewrite P in H, Hc; cbn in H, Hc.
    + destruct H.
    + destruct H as [H|[]]; discriminate H.
    + destruct H as [H|[]], Hc as [Hc|[]]. congruence.
    + destruct H as [H|[H|[]]], Hc as [Hc|[Hc|[]]]; destruct Hk as [-> | ->]; congruence.
  - intros (s & Hs & N). apply in_calls_of. destruct (B n s Hs) as [H|H]; [exfalso; exact (N _ _ H)|exact H].
Qed.
Print Assumptions C58_reattach.

(** Whoever created a session made the new-session callback for it before.  Missing
    for the full claim: the converse, which is false; see below. *)
Theorem C58_new_partial : forall defaults l c n s,
  In (mkEvent ECreated n (Some s) (Some c)) (events (run (server_new defaults) l)) ->
  In (mkCall c OnNewSession n) (calls (server_new defaults) l).
Proof. intros d l c n s H. destruct (agrees_fresh d l c) as (_ & _ & C). apply in_calls_of. eapply C. exact H. Qed.
Print Assumptions C58_new_partial.

(** The shell-disconnect callback is made only by a handler that was streaming to
    the session of that name whose shell has exited. *)
Theorem C58_shell_gone : forall st a c n, In (mkCall c OnShellDisconnect n) (step_calls st a) ->
  exists h s k x v, handlers st c = HStream h s k /\ h_name h = n /\ session_at st s = Some x /\ s_exit x = Some v.
Proof.
  intros st a c n. destruct a; cbn [step_calls]; try (intros []; fail).
  - unfold attach_calls. repeat match goal with |- context [match ?e with _ => _ end] => destruct e end; intros H;
      try (destruct H; fail); destruct H as [H|H]; try discriminate H; destruct H.
  - unfold end_calls. destruct (handlers st c0) eqn:Hc; try (intros []; fail). destruct (session_at st s) as [x|] eqn:Hx; [|intros []].
    destruct c_done; cbn [andb]; [|intros []]. destruct (s_exit x) as [v|] eqn:He; [|intros []]. destruct ok; [|intros []].
    intros [H|[]]. injection H as -> <-. exists h, s, client, x, v. auto.
  - unfold unwind_calls. repeat match goal with |- context [match ?e with _ => _ end] => destruct e end; intros H;
      try (destruct H; fail); destruct H as [H|H]; try discriminate H; destruct H.
Qed.
Print Assumptions C58_shell_gone.

(** When the client-disconnect callback is made, the detachment has been announced if
    the session is still listed. *)
Theorem C58_client_gone : forall st a c n, In (mkCall c OnClientDisconnect n) (step_calls st a) ->
  forall s, listed st n s -> events (step st a) = events st ++ [mkEvent EDetached n (Some s) (Some c)].
Proof.
  intros st a c n H s L. destruct a; cbn [step_calls] in H; try (destruct H; fail).
  - exfalso. revert H. unfold attach_calls. repeat match goal with |- context [match ?e with _ => _ end] => destruct e end; intros H;
      try (destruct H; fail); destruct H as [H|H]; try discriminate H; destruct H.
  - exfalso. revert H. unfold end_calls. repeat match goal with |- context [match ?e with _ => _ end] => destruct e end; intros H;
      try (destruct H; fail); destruct H as [H|H]; try discriminate H; destruct H.
  - unfold unwind_calls in H. cbn [step]. unfold attach_unwind. destruct (handlers st c0); try (destruct H; fail). destruct done; [destruct H|].
    destruct (locked st); [destruct H|]. destruct H as [H|[]]. injection H as -> <-. unfold listed in L. rewrite L. reflexivity.
Qed.
Print Assumptions C58_client_gone.

(** Create and leave, busy, reattach, exit. *)
Example C58_nonvacuous :
  let l := creates 1 work None ++ [asks 3 (QAttach (hdr work None)); AAttach 3 true 25] ++ goes 1 30 ++ reattaches 2 work ++ exits 2 0 40 in
  calls fresh l =
    [mkCall 1 OnNewSession work; mkCall 3 OnBusy work; mkCall 1 OnClientDisconnect work; mkCall 2 OnReattach work; mkCall 2 OnShellDisconnect work] /\
  handlers (run fresh (creates 1 work None)) 1 = HStream (hdr work None) 0 1.
Proof. split; vm_compute; reflexivity. Qed.

(** A new-session callback need not mean that there is a new session: it is made
    before the shell is started, and starting it may fail. *)
Theorem C58_new_without_session_refuted : exists l,
  calls fresh l = [mkCall 1 OnNewSession work] /\ handlers (run fresh l) 1 = HDone /\
  table (run fresh l) = [] /\ sessions (run fresh l) = [] /\ forall l', calls_of 1 (calls (run fresh l) l') = [].
Proof.
  exists [asks 1 (QAttach (hdr work None)); AAttach 1 true 10; ASpawn 1 false 11 1000].
  do 4 (split; [vm_compute; reflexivity|]). intros l'. remember (run fresh _) as st eqn:E.
  assert (H : handlers st 1 = HDone) by (rewrite E; vm_compute; reflexivity). clear E. revert st H.
  induction l' as [|a l' IH]; intros st H; [reflexivity|]. cbn [calls]. rewrite calls_of_app, IH by (apply step_done; exact H).
  rewrite still_no_calls; [reflexivity|]. rewrite H. apply step_done. exact H.
Qed.
Print Assumptions C58_new_without_session_refuted.

(** A client that hangs up in the message-of-the-day pager is never reported gone. *)
Theorem C58_lost_in_pager_refuted : exists l,
  calls_of 2 (calls fresh l) = [(OnReattach, work)] /\ handlers (run fresh l) 2 = HDone /\
  forall l', calls_of 2 (calls (run fresh l) l') = [].
Proof.
  exists (creates 1 work None ++ goes 1 30 ++ [asks 2 (QAttach (hdr work None)); AAttach 2 true 40; AReply 2 true false]).
  do 2 (split; [vm_compute; reflexivity|]). intros l'. remember (run fresh _) as st eqn:E.
  assert (H : handlers st 2 = HDone) by (rewrite E; vm_compute; reflexivity). clear E. revert st H.
  induction l' as [|a l' IH]; intros st H; [reflexivity|]. cbn [calls]. rewrite calls_of_app, IH by (apply step_done; exact H).
  rewrite still_no_calls; [reflexivity|]. rewrite H. apply step_done. exact H.
Qed.
Print Assumptions C58_lost_in_pager_refuted.

(** A session that ends while nobody is attached, by its shell exiting or by being
    killed, is not reported at all. *)
Theorem C58_silent_end_refuted : exists l1 l2,
  shell_running (run fresh l1) 0 /\ listed (run fresh l1) work 0 /\
  ~ shell_running (run fresh (l1 ++ l2)) 0 /\ table (run fresh (l1 ++ l2)) = [] /\
  calls (run fresh l1) l2 = [].
Proof.
  exists (creates 1 work None ++ goes 1 30), [asks 2 (QKill [work]); AKill 2 [true]; AExit 0 0].
  split; [eexists; split; [vm_compute; reflexivity|reflexivity]|]. split; [vm_compute; reflexivity|].
  split; [|split; vm_compute; reflexivity]. intros (x & Hx & He). vm_compute in Hx. injection Hx as <-. discriminate He.
Qed.
Print Assumptions C58_silent_end_refuted.

(** A shell that exits while an error ends the streaming is reported as a client that
    hung up. *)
Theorem C58_exit_called_hangup_refuted : exists l,
  ~ shell_running (run fresh l) 0 /\ calls_of 1 (calls fresh l) = [(OnNewSession, work); (OnClientDisconnect, work)] /\
  handlers (run fresh l) 1 = HDone.
Proof.
  exists (creates 1 work None ++ [AExit 0 0; AEnd 1 true true false; AUnwind 1 30; ALeave 1]).
  split; [|split; vm_compute; reflexivity]. intros (x & Hx & He). vm_compute in Hx. injection Hx as <-. discriminate He.
Qed.
Print Assumptions C58_exit_called_hangup_refuted.
