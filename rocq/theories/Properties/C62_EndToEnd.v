(** C62: what the user sees and types, from end to end: the daemon's threads, the wire
    and the client's threads together. *)
From Coq Require Import String List NArith ZArith Bool Arith Lia.
From Verif Require Import Model.Base Model.Chunk Model.Protocol Model.Duration Model.Sentinel Model.Config Model.Restore Model.Pager Model.Motd
  Model.ShellToClient Model.Pipe Model.EndToEnd Model.Keybindings Model.Input
  Spec.Wire Spec.PipeSpec Spec.OutputSpec Spec.OutputExamples Spec.KeySpec Spec.InputSpec Spec.EndToEndSpec Spec.TurnSpec
  Proofs.KeybindingProofs Proofs.ChunkProofs Proofs.PipeProofs Proofs.FrameProofs Proofs.SentinelProofs Proofs.EndToEndProofs
  Properties.C02_FramesFit Properties.C09_Input Properties.C12_Output Properties.C13_ExitFrame Properties.C36_ExitCode Properties.C63_OutputThread.
Import ListNotations.
Open Scope nat_scope.

Section Lemmas.
  Context {e : engines}.
  Variable b : build.

  Lemma frames_fit sup dm c size (s0 : @s2c e) m now ok its id :
    s2c_new sup dm c size = Some s0 -> Forall small_turn its ->
    Forall (fun x => representable x /\ (Wire.size x <= BUF_SIZE)%N) (frames_to id (log (s2c_run b s0 (First m now ok :: map Iter its)))).
  Proof.
    intros Hn Hs. apply Forall_forall. intros x Hx. unfold frames_to in Hx. apply in_flat_map in Hx. destruct Hx as (y & Hy & Hx).
    destruct (Nat.eqb (to y) id); [|destruct Hx]. destruct Hx as [<-|[]].
    destruct (new_state _ _ _ _ _ Hn) as (g & _ & E). rewrite (life_turns b s0 m now ok its) in Hy by (rewrite E; reflexivity).
    destruct (turns_fits b _ its y Hs Hy) as [H|H]; [rewrite first_log, E in H; destruct H|exact H].
  Qed.

  Lemma frames_written sup dm c size (s0 : @s2c e) m now ok its id :
    s2c_new sup dm c size = Some s0 -> Forall small_turn its ->
    exists stream, written (frames_to id (log (s2c_run b s0 (First m now ok :: map Iter its)))) = Some stream /\
      Wire.frames (frames_to id (log (s2c_run b s0 (First m now ok :: map Iter its)))) stream /\
      Forall (fun x => (Wire.size x <= BUF_SIZE)%N) (frames_to id (log (s2c_run b s0 (First m now ok :: map Iter its)))).
  Proof.
    intros Hn Hs. pose proof (frames_fit _ _ _ _ _ m now ok its id Hn Hs) as F. apply Forall_and_inv in F. destruct F as (R & S).
    destruct (written_frames _ R) as (st & W & F). exists st. auto.
  Qed.

  (** Whatever part of the stream has arrived and however the client's threads are
      scheduled, the terminal shows an initial part of the data handed over. *)
  Lemma shown_starts cs stream k ended decode follow schedule :
    Wire.frames cs stream -> Forall (fun x => (Wire.size x <= BUF_SIZE)%N) cs ->
    starts (shown (pipe_run follow schedule (pipe_start (frames_read decode (firstn k stream) ended)))) (data_of_frames cs).
  Proof.
    intros F S. destruct (frames_read_cut decode cs stream k ended F S) as (n & last & E & L). rewrite E.
    destruct (C36_output_shown follow (map (classify decode) (firstn n cs) ++ last) schedule) as (rec & la & un & E2 & _ & ->).
    apply starts_trans with (displayed (map (classify decode) (firstn n cs) ++ last)).
    - rewrite E2, !displayed_app. apply starts_app.
    - rewrite displayed_app, displayed_classify. replace (displayed last) with (@nil N) by (destruct L as [-> | ->]; reflexivity).
      rewrite app_nil_r. rewrite <- (firstn_skipn n cs) at 2. rewrite data_of_frames_app. apply starts_app.
  Qed.

  (** A client whose last frame is an exit frame. *)
  Lemma last_frame_decides cs stream decode follow old st :
    Wire.frames cs stream -> Forall (fun x => (Wire.size x <= BUF_SIZE)%N) cs ->
    cs = old ++ [mkChunk ExitStatus (i32_bytes st)] -> exit_only_last cs -> no_switch decode follow cs ->
    (-2147483648 <= st < 2147483648)%Z -> forall ended, leaves_with decode follow stream ended st (data_of_frames cs).
  Proof.
    intros F S E L Hw Hr ended schedule. cbv zeta.
    assert (D : data_of_frames cs = displayed (map (classify decode) old)).
    { rewrite E, data_of_frames_app, displayed_classify. cbn. apply app_nil_r. }
    rewrite D. clear D. rewrite (frames_read_all decode _ stream F S ended), E, map_app, <- app_assoc. cbn [map app].
    rewrite (C36_status_encoding decode st Hr).
    assert (H : Forall (harmless follow) (map (classify decode) old)).
    { apply Forall_forall. intros f Hfi. apply in_map_iff in Hfi. destruct Hfi as (x & <- & Hxi). destruct x as [k buf].
      unfold classify. cbn [c_kind Chunk.c_buf]. destruct k; try constructor.
      - exfalso. apply in_split in Hxi. destruct Hxi as (l1 & l2 & El). subst old.
        specialize (L l1 (mkChunk ExitStatus buf) (l2 ++ [mkChunk ExitStatus (i32_bytes st)])). rewrite E, <- app_assoc in L.
        specialize (L eq_refl eq_refl). destruct l2; discriminate L.
      - destruct (Hw (mkChunk MaybeSwitch buf) ltac:(rewrite E; apply in_or_app; left; exact Hxi) eq_refl) as (v & Hv & Hfo).
        cbn [Chunk.c_buf] in Hv. rewrite Hv. constructor. exact Hfo. }
    intros K.
    pose proof (C36_exit_frame_wins follow _ (FExit st) (Exit st) _ schedule H (dec_exit follow st) K) as W. cbv zeta in W.
    pose proof (C36_shown_by_then follow _ (FExit st) (Exit st) _ schedule H (dec_exit follow st) K) as Y. cbv zeta in Y.
    set (fs := map (classify decode) old) in *. clearbody fs.
    split; [|split].
    - intros c Hc. unfold exit_code in Hc. destruct (main _) as [| | | |[x|v]|x]; try discriminate Hc; injection Hc as <-; [injection W as ->|]; auto.
    - intros v Hv. rewrite Hv in W. discriminate W.
    - exists (repeat (SockGo true) (2 * length (fs ++ FExit st :: (if ended then [FBroken] else [])) + 2) ++ [MainGo false; MainGo false; MainGo true]).
      edestruct (C36_ends follow fs (FExit st) (Exit st) (if ended then [FBroken] else []) schedule) as (A & B); [exact H|constructor|exact K|apply le_n|].
      split; [exact A|]. unfold exit_code. match type of B with match ?x with _ => _ end => destruct x as [| | | |r|cd] end; try contradiction; subst; reflexivity.
  Qed.

  (** A client that meets something that is no frame. *)
  Lemma broken_leaves cs stream ended decode follow :
    (forall x, In x cs -> c_kind x <> ExitStatus /\ (c_kind x = MaybeSwitch -> exists v, decode (Chunk.c_buf x) = Some v /\ follow v = false)) ->
    frames_read decode stream ended = map (classify decode) cs ++ [FBroken] ->
    leaves_with decode follow stream ended 1 (data_of_frames cs).
  Proof.
    intros H R.
    assert (Hh : Forall (harmless follow) (map (classify decode) cs)).
    { apply Forall_forall. intros f Hf. apply in_map_iff in Hf. destruct Hf as (x & <- & Hx). destruct (H x Hx) as (H1 & H2). destruct x as [kd buf].
      unfold classify. cbn [c_kind Chunk.c_buf] in *. destruct kd; try constructor.
      - destruct (H1 eq_refl).
      - destruct (H2 eq_refl) as (v & Hv & Hfo). rewrite Hv. constructor. exact Hfo. }
    intros schedule. cbv zeta. rewrite R, <- (displayed_classify decode). set (fs := map (classify decode) cs) in *. clearbody fs. intros K.
    destruct (C36_cut_off follow fs schedule (2 * length fs + 4) Hh K) as (A & B). cbv zeta in *.
    destruct (B (le_n _)) as (K2 & V).
    destruct (C36_cut_off follow fs _ 0 Hh K2) as (A2 & _). cbv zeta in *.
    unfold exit_code. split; [|split].
    - intros x Hx. destruct (main (pipe_run follow schedule _)) as [| | | |r|y]; try discriminate Hx; destruct A as (-> & ->); injection Hx as <-; auto.
    - intros v Hv. rewrite Hv in A. destruct A as (A & _). discriminate A.
    - eexists. split; [exact K2|]. destruct (main (pipe_run follow (_ ++ _) _)) as [| | | |r|y]; try contradiction; destruct A2 as (-> & _); reflexivity.
  Qed.
End Lemmas.

(** The client that created the session: at every moment, whatever the daemon's thread
    has done, however much of the stream has arrived and however the client's threads
    are scheduled, the terminal shows an initial part of the message of the day (if it
    is dumped) followed by what the gate lets through of the shell's output: nothing is
    invented, reordered, repeated or left out in between. *)
(** Missing for the full claim: output still in the pty when it hangs up, see C12. *)
Theorem C62_terminal_shows_the_output_partial :
  forall e b sup dump_motd c size (s0 after : @s2c e) now ok its id z,
  s2c_new sup dump_motd c size = Some s0 ->
  after = s2c_run b s0 (First (Some (NewConn id z)) now ok :: map Iter its) ->
  NoDup (connections (Some (NewConn id z)) its) -> Forall small_turn its -> finished after = None ->
  exists stream output motd,
    written (frames_to id (log after)) = Some stream /\
    gate_reads (out_gate s0) (took after) = Some (out_gate after, output) /\
    (motd = [] \/ (dump_motd = true /\ In motd (flat_map iter_motd its))) /\
    forall k ended decode follow schedule,
      starts (shown (pipe_run follow schedule (pipe_start (frames_read decode (firstn k stream) ended)))) (motd ++ concat output).
Proof.
  intros e b sup dm c size s0 after now ok its id z Hn Ha Hd Hs Hf.
  destruct (C12_first_client_gets_all_output_partial e b sup dm c size s0 after now ok its id z Hn Ha Hd Hf) as (out & k0 & mt & G & D & _ & M).
  subst after.
  destruct (frames_written b _ _ _ _ _ (Some (NewConn id z)) now ok its id Hn Hs) as (stream & W & F & S).
  exists stream, out, mt. split; [exact W|]. split; [exact G|]. split; [exact M|].
  intros k ended decode follow schedule. eapply starts_trans; [exact (shown_starts _ stream k ended decode follow schedule F S)|].
  unfold data_to in D. rewrite D. rewrite <- (firstn_skipn k0 out) at 2. rewrite concat_app, app_assoc. apply starts_app.
Qed.
Print Assumptions C62_terminal_shows_the_output_partial.

(** In particular for a shell without sentinels and no message of the day: the terminal
    shows an initial part of the shell's output itself. *)
Theorem C62_terminal_shows_the_shell :
  forall e b c size (s0 after : @s2c e) now ok its id z,
  s2c_new false false c size = Some s0 ->
  after = s2c_run b s0 (First (Some (NewConn id z)) now ok :: map Iter its) ->
  NoDup (connections (Some (NewConn id z)) its) -> Forall small_turn its -> finished after = None ->
  exists stream, written (frames_to id (log after)) = Some stream /\
    forall k ended decode follow schedule,
      starts (shown (pipe_run follow schedule (pipe_start (frames_read decode (firstn k stream) ended)))) (concat (took after)).
Proof.
  intros e b c size s0 after now ok its id z Hn Ha Hd Hs Hf.
  destruct (C62_terminal_shows_the_output_partial e b false false c size s0 after now ok its id z Hn Ha Hd Hs Hf) as (st & out & mt & W & G & M & H).
  assert (Hg : g_seen (out_gate s0) = true).
  { unfold s2c_new, gate_new in Hn. destruct (Sentinel.scanner_new _); [|discriminate]. injection Hn as <-. reflexivity. }
  rewrite (gate_reads_seen _ _ Hg) in G. injection G as _ <-.
  destruct M as [-> |(X & _)]; [|discriminate X]. exists st. split; [exact W|]. exact H.
Qed.
Print Assumptions C62_terminal_shows_the_shell.

(** A client that attaches later ([it]): the same after the restored screen. *)
(** Missing for the full claim: the same. *)
Theorem C62_reattached_terminal_partial :
  forall e b sup dump_motd c size (s0 before after : @s2c e) m now ok its1 it its2 id z,
  s2c_new sup dump_motd c size = Some s0 ->
  before = s2c_run b s0 (First m now ok :: map Iter its1) ->
  after = s2c_run b s0 (First m now ok :: map Iter (its1 ++ it :: its2)) ->
  NoDup (connections m (its1 ++ it :: its2)) -> sel it = SelConn (NewConn id z) -> finished after = None ->
  Forall small_turn (its1 ++ it :: its2) ->
  exists stream reads output motd,
    written (frames_to id (log after)) = Some stream /\
    took after = took before ++ reads /\
    gate_reads (out_gate before) reads = Some (out_gate after, output) /\
    (motd = [] \/ (motd_due before = true /\ In motd (flat_map iter_motd (it :: its2)))) /\
    forall k ended decode follow schedule,
      starts (shown (pipe_run follow schedule (pipe_start (frames_read decode (firstn k stream) ended))))
             (spool_restore (spool_resize (conf it) (out_spool before) z) ++ motd ++ concat output).
Proof.
  intros e b sup dm c size s0 before after m now ok its1 it its2 id z Hn Hb Ha Hd Hs Hf Hsm.
  destruct (C12_reattached_client_gets_all_output_partial e b sup dm c size s0 before after m now ok its1 it its2 id z Hn Hb Ha Hd Hs Hf)
    as (reads & out & k0 & mt & T & G & D & _ & M).
  subst after.
  destruct (frames_written b _ _ _ _ _ m now ok _ id Hn Hsm) as (stream & W & F & S).
  exists stream, reads, out, mt. split; [exact W|]. split; [exact T|]. split; [exact G|]. split; [exact M|].
  intros k ended decode follow schedule. eapply starts_trans; [exact (shown_starts _ stream k ended decode follow schedule F S)|].
  unfold data_to in D. rewrite D. rewrite <- (firstn_skipn k0 out) at 2. rewrite concat_app, !app_assoc. apply starts_app.
Qed.
Print Assumptions C62_reattached_terminal_partial.

(** Nothing stays behind: once the whole stream has arrived, after any schedule in which
    neither standard output fails nor standard input ends, a bounded number of turns of
    the socket thread brings all of it to the terminal, and the client goes on. *)
Theorem C62_everything_is_shown :
  forall e b sup dump_motd c size (s0 after : @s2c e) m now ok its id decode follow schedule,
  s2c_new sup dump_motd c size = Some s0 ->
  after = s2c_run b s0 (First m now ok :: map Iter its) -> Forall small_turn its ->
  (forall x, In x (frames_to id (log after)) -> c_kind x <> ExitStatus) ->
  no_switch decode follow (frames_to id (log after)) ->
  Forall (fun ev => ev <> SockGo false /\ ev <> StdinGo true) schedule ->
  exists stream, written (frames_to id (log after)) = Some stream /\
    forall n, 2 * length (frames_to id (log after)) < n ->
    let p := pipe_run follow (schedule ++ repeat (SockGo true) n) (pipe_start (frames_read decode stream false)) in
    shown p = data_to id (log after) /\ exit_code p = None /\ slot p = None.
Proof.
  intros e b sup dm c size s0 after m now ok its id decode follow schedule Hn -> Hs He Hw Hsch.
  destruct (frames_written b _ _ _ _ _ m now ok its id Hn Hs) as (stream & W & F & S).
  exists stream. split; [exact W|]. intros n Hlen. cbv zeta.
  set (cs := frames_to id (log (s2c_run b s0 (First m now ok :: map Iter its)))) in *.
  rewrite (frames_read_all decode cs stream F S false), app_nil_r.
  assert (Hh : Forall (harmless follow) (map (classify decode) cs)).
  { apply Forall_forall. intros f Hf. apply in_map_iff in Hf. destruct Hf as (x & <- & Hx). destruct x as [k buf].
    unfold classify. cbn [c_kind Chunk.c_buf]. destruct k; try constructor.
    - exfalso. exact (He _ Hx eq_refl).
    - destruct (Hw _ Hx eq_refl) as (v & Hv & Hfo). cbn [Chunk.c_buf] in Hv. rewrite Hv. constructor. exact Hfo. }
  destruct (all_shown follow (map (classify decode) cs) schedule n Hh Hsch ltac:(rewrite map_length; exact Hlen)) as (B0 & B1 & B2).
  unfold exit_code. rewrite B0, B1, B2. split; [|auto]. unfold data_to. fold cs. apply displayed_classify.
Qed.
Print Assumptions C62_everything_is_shown.

(** The status the client's process ends with is never made up: it is 1, the fallback, or
    one that the daemon had reason to report: 0 for a takeover or a detach, or the
    shell's own status. *)
(** Missing for the full claim: the status is the shell's whenever the shell ends; an
    unknown status and a late exit frame are refuted in C13 and C36. *)
Theorem C62_exit_code_is_not_made_up_partial :
  forall e b sup dump_motd c size (s0 : @s2c e) m now ok its id,
  s2c_new sup dump_motd c size = Some s0 -> Forall small_turn its ->
  (forall st, exit_cause its st -> (-2147483648 <= st < 2147483648)%Z) ->
  exists stream, written (frames_to id (log (s2c_run b s0 (First m now ok :: map Iter its)))) = Some stream /\
    forall k ended decode follow schedule st,
      exit_code (pipe_run follow schedule (pipe_start (frames_read decode (firstn k stream) ended))) = Some st ->
      st = 1%Z \/ exit_cause its st.
Proof.
  intros e b sup dm c size s0 m now ok its id Hn Hs Hr.
  destruct (frames_written b _ _ _ _ _ m now ok its id Hn Hs) as (stream & W & F & S).
  exists stream. split; [exact W|]. intros k ended decode follow schedule st H.
  destruct (frames_read_cut decode _ stream k ended F S) as (n & last & E & L).
  pose proof (C36_streaming_result follow (frames_read decode (firstn k stream) ended) schedule) as C. cbv zeta in C.
  unfold exit_code in H.
  assert (G : forall rec un r, frames_read decode (firstn k stream) ended = rec ++ un -> concludes follow rec r ->
    match r with Exit x => x | Switch _ => 1%Z end = st -> st = 1%Z \/ exit_cause its st).
  { intros rec un r Er Hc Est. destruct Hc as [before f r Hrec Hh Hd|Hd]; [|left; congruence].
    destruct Hd as [x|v Hv]; [|left; congruence]. subst st. right.
    assert (Hin : In (FExit x) (frames_read decode (firstn k stream) ended)).
    { rewrite Er, Hrec. apply in_or_app. left. apply in_or_app. right. left. reflexivity. }
    rewrite E in Hin. apply in_app_or in Hin. destruct Hin as [Hin|Hin]; [|destruct L as [-> | ->]; cbn in Hin; intuition discriminate].
    apply in_map_iff in Hin. destruct Hin as (y & Hy & Hin).
    assert (Hin' : In y (frames_to id (log (s2c_run b s0 (First m now ok :: map Iter its))))).
    { rewrite <- (firstn_skipn n). apply in_or_app. left. exact Hin. }
    unfold frames_to in Hin'. apply in_flat_map in Hin'. destruct Hin' as (z & Hz & Hyz).
    destruct (Nat.eqb (to z) id); [|destruct Hyz]. destruct Hyz as [<-|[]].
    destruct (what z) as [kd buf] eqn:Ez. try rewrite Ez in Hy. unfold classify in Hy. cbn [c_kind Chunk.c_buf] in Hy.
    destruct kd; try discriminate Hy; [|destruct (decode buf); discriminate Hy].
    destruct (C13_exit_status_is_truthful e b sup dm c size s0 m now ok its z Hn Hz ltac:(rewrite Ez; reflexivity)) as (st & B & X).
    rewrite Ez in B. cbn [Chunk.c_buf] in B. subst buf. rewrite (read_i32_bytes st (Hr st X)) in Hy. injection Hy as <-. exact X. }
  destruct (main (pipe_run follow schedule (pipe_start (frames_read decode (firstn k stream) ended)))) as [| | | |r|code]; try discriminate H.
  - destruct C as (rec & un & Er & Hc). destruct r as [x|v]; [|discriminate H]. injection H as ->. exact (G rec un (Exit st) Er Hc eq_refl).
  - destruct C as (rec & un & r & Er & Hc & Ec). injection H as ->. exact (G rec un r Er Hc (eq_sym Ec)).
Qed.
Print Assumptions C62_exit_code_is_not_made_up_partial.

(** When the shell ends while a client is attached and its status is known, that client's
    process ends with it, having shown all that was sent to it, if the stream arrives,
    standard output works and the client's first grace period is not cut short. *)
Theorem C62_exit_status_reaches_the_user :
  forall e b sup dump_motd c size (s0 before after : @s2c e) m now ok its it id st decode follow,
  s2c_new sup dump_motd c size = Some s0 -> NoDup (connections m (its ++ [it])) -> Forall small_turn (its ++ [it]) ->
  before = s2c_run b s0 (First m now ok :: map Iter its) -> finished before = None -> client before = Some id ->
  after = s2c_run b s0 (First m now ok :: map Iter (its ++ [it])) ->
  sel it = SelConn (DisconnectExit st) \/ (sel it = SelNothing /\ exists p, poll it = PollHangup p (Some st)) ->
  (-2147483648 <= st < 2147483648)%Z -> no_switch decode follow (frames_to id (log after)) ->
  data_to id (log after) = data_to id (log before) /\
  exists stream, written (frames_to id (log after)) = Some stream /\
    forall ended, leaves_with decode follow stream ended st (data_to id (log after)).
Proof.
  intros e b sup dm c size s0 before after m now ok its it id st decode follow Hn Hd Hsm Hb Hf Hc Ha Hx Hr Hw.
  assert (Hfr : frames_to id (log after) = frames_to id (log before) ++ [mkChunk ExitStatus (i32_bytes st)]).
  { destruct (C13_exit_is_told_partial e b sup dm c size s0 before after m now ok its it id Hn Hb Hf Hc Ha) as (_ & _ & T1 & T2).
    destruct Hx as [Hx|(Hx & p & Hp)]; [exact (proj1 (T1 st Hx))|exact (proj1 (T2 p st Hx Hp))]. }
  split; [unfold data_to; rewrite Hfr, data_of_frames_app; cbn; apply app_nil_r|].
  assert (L : exit_only_last (frames_to id (log after))) by (rewrite Ha; eapply C13_exit_frame_is_last; eassumption).
  rewrite Ha in Hw, Hfr, L |- *.
  destruct (frames_written b _ _ _ _ _ m now ok (its ++ [it]) id Hn Hsm) as (stream & W & F & S).
  exists stream. split; [exact W|]. intros ended. unfold data_to. eapply last_frame_decides; eassumption.
Qed.
Print Assumptions C62_exit_status_reaches_the_user.

(** When the attached client is detached, by a request or a key, or another client takes
    the session over, its process ends with status 0, having shown all that was sent to
    it before, under the same conditions.  The session goes on without it. *)
Theorem C62_detached_user_leaves :
  forall e b sup dump_motd c size (s0 before after : @s2c e) m now ok its it id decode follow,
  s2c_new sup dump_motd c size = Some s0 -> NoDup (connections m (its ++ [it])) -> Forall small_turn (its ++ [it]) ->
  before = s2c_run b s0 (First m now ok :: map Iter its) -> finished before = None -> client before = Some id ->
  after = s2c_run b s0 (First m now ok :: map Iter (its ++ [it])) ->
  sel it = SelConn Disconnect \/ (exists i z, sel it = SelConn (NewConn i z) /\ i <> id) ->
  no_switch decode follow (frames_to id (log after)) ->
  (finished after = None -> client after <> Some id) /\ data_to id (log after) = data_to id (log before) /\
  exists stream, written (frames_to id (log after)) = Some stream /\
    forall ended, leaves_with decode follow stream ended 0 (data_to id (log after)).
Proof.
  intros e b sup dm c size s0 before after m now ok its it id decode follow Hn Hd Hsm Hb Hf Hc Ha Hx Hw.
  assert (Hfr : frames_to id (log after) = frames_to id (log before) ++ [mkChunk ExitStatus (i32_bytes 0)]).
  { destruct (C13_exit_is_told_partial e b sup dm c size s0 before after m now ok its it id Hn Hb Hf Hc Ha) as (T1 & T2 & _).
    destruct Hx as [Hx|(i & z & Hx & Hi)]; [exact (T2 Hx)|exact (T1 i z Hx Hi)]. }
  split.
  { intros Hf'. assert (N : next_client (client before) it <> Some id).
    { unfold next_client. destruct Hx as [-> |(i & z & -> & Hi)]; [discriminate|]. intros [= ->]. exact (Hi eq_refl). }
    destruct (C63_who_is_attached e b sup dm c size s0 before after m now ok its it Hn Hb Hf Ha Hf') as [-> |(-> & _)]; [exact N|discriminate]. }
  split; [unfold data_to; rewrite Hfr, data_of_frames_app; cbn; apply app_nil_r|].
  assert (L : exit_only_last (frames_to id (log after))) by (rewrite Ha; eapply C13_exit_frame_is_last; eassumption).
  rewrite Ha in Hw, Hfr, L |- *.
  destruct (frames_written b _ _ _ _ _ m now ok (its ++ [it]) id Hn Hsm) as (stream & W & F & S).
  exists stream. split; [exact W|]. intros ended. unfold data_to. eapply last_frame_decides; try eassumption. lia.
Qed.
Print Assumptions C62_detached_user_leaves.

(** When the daemon is gone in the middle of things: wherever the stream is cut, the
    client ends with status 1, having shown all the whole frames that arrived. *)
Theorem C62_daemon_gone :
  forall e b sup dump_motd c size (s0 after : @s2c e) m now ok its id decode follow,
  s2c_new sup dump_motd c size = Some s0 ->
  after = s2c_run b s0 (First m now ok :: map Iter its) -> Forall small_turn its ->
  (forall x, In x (frames_to id (log after)) -> c_kind x <> ExitStatus) ->
  no_switch decode follow (frames_to id (log after)) ->
  exists stream, written (frames_to id (log after)) = Some stream /\
    forall k, exists n, leaves_with decode follow (firstn k stream) true 1 (data_of_frames (firstn n (frames_to id (log after)))) /\
      (length stream <= k -> length (frames_to id (log after)) <= n).
Proof.
  intros e b sup dm c size s0 after m now ok its id decode follow Hn -> Hs He Hw.
  destruct (frames_written b _ _ _ _ _ m now ok its id Hn Hs) as (stream & W & F & S).
  exists stream. split; [exact W|]. intros k.
  set (cs := frames_to id (log (s2c_run b s0 (First m now ok :: map Iter its)))) in *. clearbody cs.
  assert (R : exists n, frames_read decode (firstn k stream) true = map (classify decode) (firstn n cs) ++ [FBroken] /\
    (length stream <= k -> length cs <= n)).
  { destruct (Nat.le_gt_cases (length stream) k) as [Hk|Hk].
    - exists (length cs). rewrite firstn_all2 by exact Hk. rewrite (frames_read_all decode cs stream F S true), firstn_all. auto.
    - destruct (read_cut BUF_SIZE cs stream k F S ltac:(lia)) as (n & pre & _ & _ & _ & _ & E).
      exists n. unfold frames_read. rewrite E. split; [reflexivity|]. lia. }
  destruct R as (n & R & Rk). exists n. split; [|exact Rk]. apply (broken_leaves (firstn n cs)); [|exact R].
  intros x Hx. assert (Hx' : In x cs) by (rewrite <- (firstn_skipn n cs); apply in_or_app; left; exact Hx). split; [exact (He _ Hx')|exact (Hw _ Hx')].
Qed.
Print Assumptions C62_daemon_gone.

(** The same if what follows is no frame, or one too large for the client (C02): nothing
    after it is shown, whether the daemon goes on or not. *)
Theorem C62_broken_stream : forall cs stream tail err ended decode follow,
  Wire.frames cs stream -> Forall (fun x => (Wire.size x <= BUF_SIZE)%N) cs ->
  (forall x, In x cs -> c_kind x <> ExitStatus) -> no_switch decode follow cs ->
  bad_front BUF_SIZE tail err -> err <> EofInFrame ->
  leaves_with decode follow (stream ++ tail) ended 1 (data_of_frames cs).
Proof.
  intros cs stream tail err ended decode follow F S He Hw Hb Ne. apply broken_leaves.
  - intros x Hx. split; [exact (He x Hx)|exact (Hw x Hx)].
  - apply read_errors in Hb. unfold frames_read. rewrite (read_all_app BUF_SIZE cs stream tail F S), (read_all_step BUF_SIZE tail), Hb.
    rewrite app_nil_r. destruct err; try reflexivity. congruence.
Qed.
Print Assumptions C62_broken_stream.

(** What the client writes to the socket is an initial part of what the user typed, and
    all of it as long as nothing fails. *)
Theorem C62_client_forwards_what_is_typed : forall turns,
  starts (forward turns) (typed_by_user turns) /\ (Forall good_turn turns -> forward turns = typed_by_user turns).
Proof. intros turns. split; [apply forward_starts|apply forward_all]. Qed.
Print Assumptions C62_client_forwards_what_is_typed.

(** Keystrokes from end to end: however the bytes are cut into reads on either side, as
    long as no binding is completed, the shell gets an initial part of what was typed;
    what is missing is still on its way or held back as the possible start of a binding. *)
(** Missing for the full claim: histories in which bindings fire, where C09 says what
    reaches the shell and refutes that nothing is lost. *)
Theorem C62_keystrokes_reach_the_shell_partial :
  forall cfg m b size turns reads vss on_the_way,
  denotes_keymap cfg m -> bindings_new cfg = Ok b ->
  forward turns = concat reads ++ on_the_way -> Forall (good_read size) reads ->
  split_verdicts m reads vss -> (forall a, ~ In (Fires a) (concat vss)) ->
  exists st to_shell,
    read_all_input (c2s_start b size) reads = Some (Continue st to_shell) /\
    starts (to_shell ++ c_partial st ++ on_the_way) (typed_by_user turns) /\
    (Forall good_turn turns -> to_shell ++ c_partial st ++ on_the_way = typed_by_user turns).
Proof.
  intros cfg m b size turns reads vss later Hm Hb Hfw Hr Hs Hq.
  destruct (C09_lossless_without_bindings cfg m b size Hm Hb reads vss Hr Hs Hq) as (st & w & E & Hl).
  exists st, w. split; [exact E|]. rewrite app_assoc, Hl, <- Hfw.
  split; [apply forward_starts|apply forward_all].
Qed.
Print Assumptions C62_keystrokes_reach_the_shell_partial.

(** With bindings that fire on the way: exactly what C09 lets through of the bytes read
    so far, and those are an initial part of what the user typed. *)
Theorem C62_keystrokes_with_bindings :
  forall cfg m b size turns reads vss on_the_way,
  denotes_keymap cfg m -> bindings_new cfg = Ok b ->
  forward turns = concat reads ++ on_the_way -> Forall (good_read size) reads ->
  split_verdicts m reads vss -> ~ In (Fires Detach) (concat vss) ->
  exists st to_shell,
    read_all_input (c2s_start b size) reads = Some (Continue st to_shell) /\
    delivered (combine reads vss) [] to_shell (c_partial st) /\
    (Forall (fun vs => ~ starts_second vs) vss -> passed (combine (concat reads) (concat vss)) [] to_shell (c_partial st)) /\
    starts (concat reads ++ on_the_way) (typed_by_user turns) /\
    (Forall good_turn turns -> concat reads ++ on_the_way = typed_by_user turns).
Proof.
  intros cfg m b size turns reads vss later Hm Hb Hfw Hr Hs Hq.
  destruct (C09_every_history cfg m b size Hm Hb reads vss Hr Hs Hq) as (st & w & E & Hl).
  exists st, w. split; [exact E|]. split; [exact Hl|]. split.
  { intros Hn. destruct (C09_input_is_exact_partial cfg m b size Hm Hb reads vss Hr Hs Hq Hn) as (st' & w' & E' & Hp).
    rewrite E in E'. injection E' as <- <-. exact Hp. }
  rewrite <- Hfw. split; [apply forward_starts|apply forward_all].
Qed.
Print Assumptions C62_keystrokes_with_bindings.

(** The shell prints "hi" and exits with status 7: all the hypotheses of the theorems
    above hold of this, the stream is the bytes given here, and a schedule of the
    client's threads shows "hi" and ends the process with 7; of a stream cut short
    inside the exit frame the user still sees "hi". *)
Example C62_session :
  let its := [shell_prints "hi"] in
  let it := quiet SelNothing (PollHangup [] (Some 7%Z)) in
  let stream := [0; 2; 0; 0; 0; 104; 105; 2; 7; 0; 0; 0]%N in
  let dec (_ : list N) : option var_list := None in
  let follow (_ : var_list) := false in
  let schedule := repeat (SockGo true) 5 ++ [StdinGo false; MainGo false; MainGo false; MainGo false] in
  NoDup (connections (Some (NewConn 0 z80)) (its ++ [it])) /\ Forall small_turn (its ++ [it]) /\
  option_map (fun s0 : @s2c recorder =>
      let before := s2c_run Release s0 (First (Some (NewConn 0 z80)) 0 true :: map Iter its) in
      let after := s2c_run Release s0 (First (Some (NewConn 0 z80)) 0 true :: map Iter (its ++ [it])) in
      (finished before, client before, took before, written (frames_to 0 (log before)), written (frames_to 0 (log after))))
    (s2c_new false false default_config z80)
  = Some (None, Some 0, [lit "hi"], Some (firstn 7 stream), Some stream) /\
  (forall x, In x [mkChunk Data (lit "hi"); mkChunk ExitStatus [7; 0; 0; 0]%N] -> c_kind x <> MaybeSwitch) /\
  kind_run follow schedule (pipe_start (frames_read dec stream true)) /\
  (let p := pipe_run follow schedule (pipe_start (frames_read dec stream true)) in
   shown p = lit "hi" /\ exit_code p = Some 7%Z) /\
  shown (pipe_run follow (repeat (SockGo true) 9) (pipe_start (frames_read dec (firstn 9 stream) true))) = lit "hi" /\
  shown (pipe_run follow (repeat (SockGo true) 9) (pipe_start (frames_read dec (firstn 7 stream) false))) = lit "hi".
Proof.
  cbv zeta. split; [constructor; [intros []|constructor]|]. split.
  { assert (Q : forall s p, (forall bs, s = SelSwitch (Some bs) -> (len bs <= BUF_SIZE)%N) ->
      (forall bs, p = PollRead (Ok bs) -> (len bs <= BUF_SIZE)%N) -> small_turn (quiet s p))
      by (intros s p A B; split; [exact A|]; split; [exact B|]; intros m raw X; discriminate X).
    constructor; [|constructor; [|constructor]]; apply Q; intros bs E; try discriminate E. injection E as <-. vm_compute. discriminate. }
  split; [vm_compute; reflexivity|].
  split; [intros x [<-|[<-|[]]]; discriminate|].
  split; [vm_compute; repeat split|]. split; vm_compute; repeat split.
Qed.

(** The shell prints "hi" and the user detaches: all the hypotheses of
    C62_detached_user_leaves hold, and a schedule shows "hi" and ends the process with 0. *)
Example C62_detaching :
  let its := [shell_prints "hi"] in
  let it := quiet (SelConn Disconnect) PollTimeout in
  let stream := [0; 2; 0; 0; 0; 104; 105; 2; 0; 0; 0; 0]%N in
  let dec (_ : list N) : option var_list := None in
  let follow (_ : var_list) := false in
  let schedule := repeat (SockGo true) 5 ++ [StdinGo false; MainGo false; MainGo false; MainGo false] in
  NoDup (connections (Some (NewConn 0 z80)) (its ++ [it])) /\ Forall small_turn (its ++ [it]) /\
  option_map (fun s0 : @s2c recorder =>
      let before := s2c_run Release s0 (First (Some (NewConn 0 z80)) 0 true :: map Iter its) in
      let after := s2c_run Release s0 (First (Some (NewConn 0 z80)) 0 true :: map Iter (its ++ [it])) in
      (finished before, client before, finished after, client after, frames_to 0 (log after), written (frames_to 0 (log after))))
    (s2c_new false false default_config z80)
  = Some (None, Some 0, None, None, [mkChunk Data (lit "hi"); mkChunk ExitStatus [0; 0; 0; 0]%N], Some stream) /\
  kind_run follow schedule (pipe_start (frames_read dec stream false)) /\
  (let p := pipe_run follow schedule (pipe_start (frames_read dec stream false)) in shown p = lit "hi" /\ exit_code p = Some 0%Z).
Proof.
  cbv zeta. split; [constructor; [intros []|constructor]|]. split.
  { assert (Q : forall s p, (forall bs, s = SelSwitch (Some bs) -> (len bs <= BUF_SIZE)%N) ->
      (forall bs, p = PollRead (Ok bs) -> (len bs <= BUF_SIZE)%N) -> small_turn (quiet s p))
      by (intros s p A B; split; [exact A|]; split; [exact B|]; intros m raw X; discriminate X).
    constructor; [|constructor; [|constructor]]; apply Q; intros bs E; try discriminate E. injection E as <-. vm_compute. discriminate. }
  split; [vm_compute; reflexivity|]. split; [vm_compute; repeat split|]. vm_compute; repeat split.
Qed.

(** "hi" is printed and the daemon is killed: the one frame sent carries no exit, and the
    client ends with 1, with "hi" on the terminal if all of it arrived. *)
Example C62_killed :
  let stream := [0; 2; 0; 0; 0; 104; 105]%N in
  let dec (_ : list N) : option var_list := None in
  let follow (_ : var_list) := false in
  let schedule := repeat (SockGo true) 5 ++ [StdinGo false; MainGo false; MainGo false; MainGo true] in
  option_map (fun s0 : @s2c recorder => frames_to 0 (log (s2c_run Release s0 (First (Some (NewConn 0 z80)) 0 true :: map Iter [shell_prints "hi"]))))
    (s2c_new false false default_config z80) = Some [mkChunk Data (lit "hi")] /\
  written [mkChunk Data (lit "hi")] = Some stream /\
  (let start := pipe_start (frames_read dec stream true) in
   kind_run follow schedule start /\ shown (pipe_run follow schedule start) = lit "hi" /\ exit_code (pipe_run follow schedule start) = Some 1%Z) /\
  (let start := pipe_start (frames_read dec (firstn 6 stream) true) in
   kind_run follow schedule start /\ shown (pipe_run follow schedule start) = [] /\ exit_code (pipe_run follow schedule start) = Some 1%Z).
Proof. cbv zeta. split; [vm_compute; reflexivity|]. split; [reflexivity|]. split; vm_compute; repeat split; discriminate. Qed.

(** Typing "l", Ctrl-a, "s", return, with a pause and with Ctrl-a Ctrl-b bound: cut into
    other pieces on the way, the bytes all reach the shell. *)
Example C62_typing :
  let cfg := [(lit "Ctrl-a Ctrl-b", NoOp)] in
  let m : keymap action := [([Ctrl (Sym 97); Ctrl (Sym 98)], NoOp)] in
  let turns := [mkStdin false (Readable (Ok [108; 1]%N)) 2 true; mkStdin false NotYet 0 true;
                mkStdin false (Readable (Ok [115; 13; 1]%N)) 16 true] in
  let reads := [[108]; [1; 115; 13]]%N in
  let vss := [[Nothing]; [Pending; Nothing; Nothing]] in
  Forall good_turn turns /\ denotes_keymap cfg m /\ forward turns = concat reads ++ [1%N] /\
  Forall (good_read 8) reads /\ split_verdicts m reads vss /\ (forall a, ~ In (Fires a) (concat vss)) /\
  exists b st, bindings_new cfg = Ok b /\ read_all_input (c2s_start b 8) reads = Some (Continue st [108; 1; 115; 13]%N).
Proof.
  cbn zeta. split.
  { repeat constructor; try discriminate; cbn; lia. }
  assert (Hm : denotes_keymap [(lit "Ctrl-a Ctrl-b", NoOp)] [([Ctrl (Sym 97); Ctrl (Sym 98)], NoOp)]).
  { constructor; [|constructor]. split; [|reflexivity]. cbn [fst]. split.
    + repeat (constructor; [split; [cbn; unfold sym_char; lia || exact I|discriminate]|]). constructor.
    + exists [], []. split; [reflexivity|]. split; [|left; reflexivity].
      exists (lit "Ctrl"). split; [discriminate|left; reflexivity]. }
  assert (Hby : byte_stream (concat [[108]; [1; 115; 13]]%N)).
  { unfold byte_stream. cbn. repeat (constructor; [lia|]). constructor. }
  assert (Hb : exists b, bindings_new [(lit "Ctrl-a Ctrl-b", NoOp)] = Ok b) by (vm_compute; eexists; reflexivity).
  destruct Hb as [b Eb].
  split; [exact Hm|]. split; [reflexivity|]. split.
  { repeat (constructor; [split; [discriminate|split; [cbn; lia|unfold byte_stream; repeat (constructor; [lia|]); constructor]]|]).
    constructor. }
  split.
  { split; [repeat constructor|]. destruct (KeybindingProofs.new_state _ _ b Hm Eb) as [l Hst].
    destruct (KeybindingProofs.transitions_spec l _ _ Hby b [] Hst) as (b' & rs & s' & E & _ & Ht).
    exists s'. revert E Ht. vm_compute in Eb. injection Eb as <-. cbn [concat app].
    intros E Ht. vm_compute in E. injection E as <- <-. exact Ht. }
  split; [intros a H; cbn in H; repeat (destruct H as [H|H]; [discriminate|]); exact H|].
  exists b. vm_compute in Eb. injection Eb as <-. vm_compute. eexists. repeat split.
Qed.

(** But the last words of a shell can be lost on the way: it prints "hi" and "bye" and
    exits, the output thread notices the hangup before it reads "bye", and however the
    rest goes the user never sees more than "hi". *)
Definition says_bye : list iter := [shell_prints "hi"; quiet SelNothing (PollHangup (lit "bye") (Some 0%Z))].
Theorem C62_last_words_refuted : exists stream,
  option_map (fun s0 : @s2c recorder =>
      let after := s2c_run Release s0 (First (Some (NewConn 0 z80)) 0 true :: map Iter says_bye) in
      (finished after, written (frames_to 0 (log after))))
    (s2c_new false false default_config z80) = Some (Some EndOk, Some stream) /\
  forall k ended decode follow schedule,
    starts (shown (pipe_run follow schedule (pipe_start (frames_read decode (firstn k stream) ended)))) (lit "hi").
Proof.
  exists [0; 2; 0; 0; 0; 104; 105; 2; 0; 0; 0; 0]%N. split; [vm_compute; reflexivity|].
  intros k ended decode follow schedule.
  assert (R : Forall representable [mkChunk Data (lit "hi"); mkChunk ExitStatus [0; 0; 0; 0]%N]).
  { repeat (constructor; [split; [try discriminate; reflexivity|reflexivity]|]). constructor. }
  destruct (written_frames _ R) as (st & W & F). vm_compute in W. injection W as <-.
  apply (shown_starts _ _ k ended decode follow schedule F). repeat (constructor; [vm_compute; discriminate|]). constructor.
Qed.
Print Assumptions C62_last_words_refuted.

(** And so can its status, if it is not known when the hangup is noticed: the client's
    process then ends with 1 whatever the status is. *)
Theorem C62_status_refuted : exists stream,
  option_map (fun s0 : @s2c recorder =>
      let after := s2c_run Release s0 (First (Some (NewConn 0 z80)) 0 true :: map Iter [shell_prints "hi"; quiet SelNothing (PollHangup [] None)]) in
      (finished after, written (frames_to 0 (log after))))
    (s2c_new false false default_config z80) = Some (Some EndOk, Some stream) /\
  (forall k ended decode follow schedule st,
    exit_code (pipe_run follow schedule (pipe_start (frames_read decode (firstn k stream) ended))) = Some st -> st = 1%Z) /\
  (exists schedule, forall decode follow, exit_code (pipe_run follow schedule (pipe_start (frames_read decode stream true))) = Some 1%Z).
Proof.
  exists [0; 2; 0; 0; 0; 104; 105]%N. split; [vm_compute; reflexivity|]. split.
  - set (its := [shell_prints "hi"; quiet SelNothing (PollHangup [] None)]).
    assert (N : forall st, ~ exit_cause its st).
    { intros st (it & [<-|[<-|[]]] & [(_ & i & z & X)|[(_ & X)|[X|(p & X)]]]); discriminate X. }
    destruct (s2c_new false false default_config z80 : option (@s2c recorder)) as [s0|] eqn:E; [|vm_compute in E; discriminate E].
    assert (Q : forall s p, (forall bs, s = SelSwitch (Some bs) -> (len bs <= BUF_SIZE)%N) ->
      (forall bs, p = PollRead (Ok bs) -> (len bs <= BUF_SIZE)%N) -> small_turn (quiet s p))
      by (intros s p A B; split; [exact A|]; split; [exact B|]; intros m raw X; discriminate X).
    assert (S : Forall small_turn its).
    { constructor; [|constructor; [|constructor]]; apply Q; intros bs X; try discriminate X. injection X as <-. vm_compute. discriminate. }
    destruct (C62_exit_code_is_not_made_up_partial recorder Release false false default_config z80 s0 (Some (NewConn 0 z80)) 0 true its 0 E S
                ltac:(intros st X; destruct (N st X))) as (stream & W & H).
    intros k ended decode follow schedule st X.
    assert (W' : Some stream = Some [0; 2; 0; 0; 0; 104; 105]%N).
    { rewrite <- W. vm_compute in E. injection E as <-. vm_compute. reflexivity. }
    injection W' as ->. destruct (H k ended decode follow schedule st X) as [->|Y]; [reflexivity|destruct (N st Y)].
  - exists (repeat (SockGo true) 5 ++ [MainGo false; MainGo false; MainGo true]). intros decode follow. vm_compute. reflexivity.
Qed.
Print Assumptions C62_status_refuted.

(** A change of variables that takes more than 16 KiB throws the attached user out, with
    status 1, although the session goes on. *)
Theorem C62_thrown_out_refuted : forall e b sup dump_motd c size (s0 : @s2c e) now id z bs it,
  s2c_new sup dump_motd c size = Some s0 -> sel it = SelSwitch (Some bs) -> w_sel it = WroteAll -> poll it = PollTimeout ->
  (16 * 1024 < len bs)%N -> (len bs < 2 ^ 32)%N ->
  let after := s2c_run b s0 [First (Some (NewConn id z)) now true; Iter it] in
  finished after = None /\ client after = Some id /\
  exists stream, written (frames_to id (log after)) = Some stream /\
    forall ended decode follow, leaves_with decode follow stream ended 1 [].
Proof.
  intros e b sup dm c size s0 now id z bs it Hn Hs Hw Hp Hbig Hrep. cbv zeta.
  destruct (C02_big_variables_break_the_client_refuted e b sup dm c size s0 now id z bs it [] Hn Hs Hw Hp Hbig Hrep) as (F & bytes & W & R).
  rewrite F. split; [|split].
  1,2: destruct (new_state _ _ _ _ _ Hn) as (g & _ & ->); unfold s2c_run; cbn [fold_left s2c_step finished waiting]; unfold s2c_first, acknowledge; cbn [waiting];
    unfold s2c_turn; cbn [finished]; unfold s2c_select; rewrite Hs; cbn [client]; rewrite Hw; unfold emit; cbn [finished log];
    unfold s2c_poll; rewrite Hp; unfold s2c_resize; cbn [resize_cmd]; destruct (now <=? t_due it)%N; reflexivity.
  exists bytes. split; [cbn [written]; rewrite W, app_nil_r; reflexivity|]. intros ended decode follow.
  apply (C62_broken_stream [] [] bytes (TooBig (len bs)) ended decode follow); [constructor|constructor|intros x []|intros x []| |discriminate].
  rewrite app_nil_r in R. apply read_errors. exact R.
Qed.
Print Assumptions C62_thrown_out_refuted.

(** Such turns there are, and what is no frame there is too. *)
Example C62_thrown_out :
  let bs := repeat 97%N (N.to_nat 16385) in let it := quiet (SelSwitch (Some bs)) PollTimeout in
  w_sel it = WroteAll /\ (16 * 1024 < len bs)%N /\ (len bs < 2 ^ 32)%N /\
  bad_front BUF_SIZE [7; 0]%N (UnknownKind 7).
Proof. cbv zeta. split; [reflexivity|]. split; [vm_compute; reflexivity|]. split; [vm_compute; reflexivity|]. apply read_errors. reflexivity. Qed.
