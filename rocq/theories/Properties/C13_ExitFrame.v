(** C13: the exit frame is final. *)
From Coq Require Import String List NArith ZArith Bool Lia.
From Verif Require Import Model.Base Model.Chunk Model.Protocol Model.Duration Model.Config Model.Restore Model.Pipe Model.Pager
  Model.ShellToClient Spec.OutputSpec Spec.OutputExamples Proofs.ShellToClientProofs Proofs.OutputProofs Proofs.FrameProofs Proofs.PipeProofs.
Import ListNotations.
Open Scope N_scope.

(** For every connection, at every moment of every life of the thread: at most one
    exit frame, and nothing after it. *)
Theorem C13_exit_frame_is_last : forall e b sup dump_motd c size (s0 : @s2c e) m now ok its id,
  s2c_new sup dump_motd c size = Some s0 -> NoDup (connections m its) ->
  exit_only_last (frames_to id (log (s2c_run b s0 (First m now ok :: map Iter its)))).
Proof.
  intros e b sup dm c size s0 m now ok its id Hn Hd.
  assert (X := first_exits sup dm c size s0 m now ok Hn).
  destruct (new_state _ _ _ _ _ Hn) as (g & _ & E). clear Hn.
  rewrite (life_turns b s0 m now ok) by (rewrite E; reflexivity).
  unfold connections in Hd.
  assert (D : NoDup (flat_map iter_conn its) /\ forall x, In x (flat_map iter_conn its) -> ~ In x (first_conn m)).
  { revert Hd. generalize (flat_map iter_conn its). unfold first_conn. destruct m as [[i z| |st]|]; cbn; intros l Hd; try (split; [exact Hd|auto]).
    inversion Hd as [|? ? A B]; subst. split; [exact B|]. intros x Hx [-> | []]. contradiction. }
  destruct D as [D1 D2]. destruct (turns_exits b _ _ its X D1 D2) as [L _ _]. apply L.
Qed.
Print Assumptions C13_exit_frame_is_last.

(** Every exit frame carries 0 and a detach or takeover is behind it, or the status the
    supervisor passed on, or the status known at the hangup. *)
Theorem C13_exit_status_is_truthful : forall e b sup dump_motd c size (s0 : @s2c e) m now ok its x,
  s2c_new sup dump_motd c size = Some s0 ->
  In x (log (s2c_run b s0 (First m now ok :: map Iter its))) -> c_kind (what x) = ExitStatus ->
  exists st, c_buf (what x) = i32_bytes st /\ exit_cause its st.
Proof.
  intros e b sup dm c size s0 m now ok its x Hn Hx Hk.
  destruct (new_state _ _ _ _ _ Hn) as (g & _ & E). clear Hn.
  rewrite (life_turns b s0 m now ok) in Hx by (rewrite E; reflexivity).
  destruct (turns_exit_cause b _ its x Hx Hk) as [H|H]; [|exact H]. rewrite first_log, E in H. destruct H.
Qed.
Print Assumptions C13_exit_status_is_truthful.

(** ... and a client reading the frame gets that status back. *)
Theorem C13_status_round_trips : forall st, (-2147483648 <= st < 2147483648)%Z -> read_i32 (i32_bytes st) = Some st.
Proof. intros st H. apply read_i32_bytes. exact H. Qed.
Print Assumptions C13_status_round_trips.

(** Conversely the attached client does get told: on takeover and on detach 0, on the
    supervisor's request its status, on a hangup the status if it is known. *)
(** Missing for the full claim: the case of a hangup with a status that is not known
    yet; refuted below. *)
Theorem C13_exit_is_told_partial : forall e b sup dump_motd c size (s0 before after : @s2c e) m now ok its it id,
  s2c_new sup dump_motd c size = Some s0 ->
  before = s2c_run b s0 (First m now ok :: map Iter its) -> finished before = None -> client before = Some id ->
  after = s2c_run b s0 (First m now ok :: map Iter (its ++ [it])) ->
  (forall i z, sel it = SelConn (NewConn i z) -> i <> id ->
     frames_to id (log after) = frames_to id (log before) ++ [mkChunk ExitStatus (i32_bytes 0)]) /\
  (sel it = SelConn Disconnect -> frames_to id (log after) = frames_to id (log before) ++ [mkChunk ExitStatus (i32_bytes 0)]) /\
  (forall st, sel it = SelConn (DisconnectExit st) ->
     frames_to id (log after) = frames_to id (log before) ++ [mkChunk ExitStatus (i32_bytes st)] /\ finished after <> None) /\
  (forall p st, sel it = SelNothing -> poll it = PollHangup p (Some st) ->
     frames_to id (log after) = frames_to id (log before) ++ [mkChunk ExitStatus (i32_bytes st)] /\ finished after = Some EndOk).
Proof.
  intros e b sup dm c size s0 before after m now ok its it id Hn -> Hf Hc ->.
  destruct (new_state _ _ _ _ _ Hn) as (g & _ & E). clear Hn.
  rewrite (life_turns b s0 m now ok) in * by (rewrite E; reflexivity).
  rewrite (life_turns b s0 m now ok) by (rewrite E; reflexivity).
  rewrite turns_snoc. set (s := turns b (s2c_first s0 m now ok) its) in *. clearbody s.
  rewrite (turn_log b s it Hf), frames_to_app. unfold turn_frames.
  assert (SF := frames_to_app id (sel_frames s it)). rewrite SF. clear SF.
  split; [|split; [|split]].
  - intros i z Hs Hi. unfold sel_frames at 1. rewrite Hc, Hs, frames_to_same. cbn [app]. f_equal. f_equal.
    destruct (finished (fst (s2c_select b s it))) eqn:E1; [reflexivity|]. unfold sel_again. rewrite Hs, frames_to_app.
    rewrite frames_to_sends_other by exact Hi. cbn [app]. apply poll_frames_other.
    destruct (mid_keeps b s it Hf E1) as (_ & _ & _ & M4 & _). rewrite M4. unfold sel_client. rewrite Hs. congruence.
  - intros Hs. unfold sel_frames at 1. rewrite Hc, Hs, frames_to_same. cbn [app]. f_equal. f_equal.
    destruct (finished (fst (s2c_select b s it))) eqn:E1; [reflexivity|]. unfold sel_again. rewrite Hs. cbn [app].
    apply poll_frames_other. destruct (mid_keeps b s it Hf E1) as (_ & _ & _ & M4 & _). rewrite M4. unfold sel_client. rewrite Hs. discriminate.
  - intros st Hs. unfold sel_frames at 1. rewrite Hc, Hs, frames_to_same. cbn [app].
    assert (F : finished (fst (s2c_select b s it)) <> None).
    { unfold s2c_select. rewrite Hs, Hc. unfold farewell, write_exit_chunk, acknowledge. destruct (shutdown_ok it); cbn; rewrite ?Hf; cbn; [|discriminate].
      destruct (ack_ok it); cbn; rewrite ?Hf; cbn; discriminate. }
    rewrite (turn_cases b s it Hf). cbv zeta. destruct (finished (fst (s2c_select b s it))) eqn:E1; [|contradiction]. split; [reflexivity|]. congruence.
  - intros p st Hs Hp. unfold sel_frames at 1. rewrite Hc, Hs. cbn [app frames_to flat_map].
    assert (S : fst (s2c_select b s it) = s) by (unfold s2c_select; rewrite Hs; reflexivity).
    rewrite (turn_cases b s it Hf). cbv zeta. rewrite S, Hf. unfold sel_again. rewrite Hs. cbn [app].
    destruct (mid_keeps b s it Hf ltac:(rewrite S; exact Hf)) as (_ & _ & _ & M4 & M5 & _).
    unfold sel_client in M4. rewrite Hs, Hc in M4. split.
    + unfold poll_frames. rewrite M4, Hp, frames_to_same. reflexivity.
    + unfold s2c_poll. rewrite M4, Hp. reflexivity.
Qed.
Print Assumptions C13_exit_is_told_partial.

Example C13_example :
  let its := [shell_prints "x"; quiet (SelConn (NewConn 1 z100)) PollTimeout; quiet SelNothing (PollHangup [] (Some 7%Z)); shell_prints "y"] in
  NoDup (connections (Some (NewConn 0 z80)) its) /\
  option_map (fun s0 : @s2c recorder =>
      let s := s2c_run Release s0 (First (Some (NewConn 0 z80)) 0 true :: map Iter its) in
      (frames_to 0 (log s), frames_to 1 (log s))) (s2c_new false false default_config z80)
  = Some ([mkChunk Data (lit "x"); mkChunk ExitStatus [0;0;0;0]], [mkChunk Data (lit "x"); mkChunk ExitStatus [7;0;0;0]]).
Proof.
  split; [|vm_compute; reflexivity].
  cbn. constructor; [intros [H|[]]; discriminate|]. constructor; [intros []|constructor].
Qed.

(** Not every end of a session is told: if the status is not known in time, the
    client gets no exit frame from this thread, only the end of its stream. *)
Theorem C13_unknown_status_is_not_told_refuted : forall e b sup dump_motd c size (s0 before after : @s2c e) m now ok its it id p,
  s2c_new sup dump_motd c size = Some s0 ->
  before = s2c_run b s0 (First m now ok :: map Iter its) -> finished before = None -> client before = Some id ->
  after = s2c_run b s0 (First m now ok :: map Iter (its ++ [it])) -> sel it = SelNothing -> poll it = PollHangup p None ->
  finished after = Some EndOk /\ frames_to id (log after) = frames_to id (log before).
Proof.
  intros e b sup dm c size s0 before after m now ok its it id p Hn -> Hf Hc -> Hs Hp.
  destruct (new_state _ _ _ _ _ Hn) as (g & _ & E). clear Hn.
  rewrite (life_turns b s0 m now ok) in * by (rewrite E; reflexivity).
  rewrite (life_turns b s0 m now ok) by (rewrite E; reflexivity).
  rewrite turns_snoc. set (s := turns b (s2c_first s0 m now ok) its) in *. clearbody s.
  unfold s2c_turn. rewrite Hf. unfold s2c_select. rewrite Hs, Hf.
  destruct (resize_keeps s it) as (R1 & _ & _ & _ & R5 & _). cbn zeta in *. unfold s2c_poll. rewrite Hp, R5, Hc.
  cbn [fin log finished]. rewrite R1. auto.
Qed.
Print Assumptions C13_unknown_status_is_not_told_refuted.

(** A first message that already asks to disconnect is acknowledged as a new
    connection, and one that asks to end the thread does not end it. *)
Theorem C13_first_message_misread_refuted : forall e sup dump_motd c size (s0 : @s2c e) now st,
  s2c_new sup dump_motd c size = Some s0 ->
  acks (s2c_first s0 (Some Disconnect) now true) = [AckNew] /\
  acks (s2c_first s0 (Some (DisconnectExit st)) now true) = [AckNew] /\
  finished (s2c_first s0 (Some (DisconnectExit st)) now true) = None.
Proof.
  intros e sup dm c size s0 now st Hn. destruct (new_state _ _ _ _ _ Hn) as (g & _ & E). clear Hn. subst s0. cbn. auto.
Qed.
Print Assumptions C13_first_message_misread_refuted.
