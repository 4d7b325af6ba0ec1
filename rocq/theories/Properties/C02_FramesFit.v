(** C02: every chunk the daemon writes fits the client's buffer. *)
From Coq Require Import String List NArith ZArith Bool Lia.
From Verif Require Import Model.Base Model.Chunk Model.Protocol Model.Duration Model.Sentinel Model.Config Model.Restore Model.Pager Model.Motd
  Model.ShellToClient Spec.Wire Spec.OutputSpec Spec.OutputExamples
  Proofs.ChunkProofs Proofs.ShellToClientProofs Proofs.FrameProofs.
Import ListNotations.
Open Scope N_scope.

(** Missing for the full claim: the two kinds of frames whose size nothing bounds
    (the message about variables and a dumped message of the day) are taken to be
    small ([small_turn]); see the refutations below.  Reads are bounded by the buffer
    they are read into.  Restore buffers of any size are covered. *)
Theorem C02_every_frame_can_be_read_partial : forall e b sup dump_motd c size (s0 : @s2c e) m now ok its x rest,
  s2c_new sup dump_motd c size = Some s0 -> Forall small_turn its ->
  In x (log (s2c_run b s0 (First m now ok :: map Iter its))) ->
  exists bytes, write_to (what x) = Some bytes /\ frame (what x) bytes /\ read_into (16 * 1024) (bytes ++ rest) = Ok (what x, rest).
Proof.
  intros e b sup dm c z s0 m now ok its x rest Hn Hs Hx. destruct (new_state _ _ _ _ _ Hn) as (g & _ & E). clear Hn.
  rewrite (life_turns b s0 m now ok its) in Hx by (rewrite E; reflexivity).
  destruct (turns_fits b _ its x Hs Hx) as [H|[R S]].
  - rewrite first_log, E in H. destruct H.
  - destruct (write_is_frame _ R) as (bs & W & F). exists bs. split; [exact W|]. split; [exact F|]. apply read_frame; assumption.
Qed.
Print Assumptions C02_every_frame_can_be_read_partial.

(** A life with restore frames, heartbeat, data and exit status. *)
Example C02_example :
  let its := [shell_prints "hello"; quiet SelHeartbeat PollTimeout; quiet (SelConn (NewConn 1 z100)) PollTimeout;
              quiet (SelSwitch (Some [1; 2])) (PollHangup [] (Some 3%Z))] in
  Forall small_turn its /\
  option_map (fun s0 : @s2c recorder => map what (log (s2c_run Release s0 (First (Some (NewConn 0 z80)) 0 true :: map Iter its))))
    (s2c_new false false default_config z80) =
      Some [mkChunk Data (lit "hello"); mkChunk Heartbeat []; mkChunk ExitStatus [0;0;0;0]; mkChunk Data (lit "hello");
       mkChunk MaybeSwitch [1; 2]; mkChunk ExitStatus [3;0;0;0]].
Proof.
  split.
  - repeat constructor; cbn; try discriminate; intros bs H; injection H as <-; vm_compute; discriminate.
  - vm_compute. reflexivity.
Qed.

(** The pager's frames: its reads go into a buffer of the same size. *)
Theorem C02_pager_frames_can_be_read : forall s t c rest,
  (forall bs, pty_read t = Ok bs -> len bs <= 16 * 1024) ->
  In c (frames_out (pager_turn s t)) -> In c (frames_out s) \/
  exists bytes, write_to c = Some bytes /\ read_into (16 * 1024) (bytes ++ rest) = Ok (c, rest).
Proof.
  intros s t c rest Hr Hc.
  assert (G : In c (frames_out s) \/ fits c).
  { unfold pager_turn in Hc. destruct (returned s); [auto|].
    destruct (negb (Pager.poll_ok t)); [auto|]. destruct (pager_exited t); [auto|].
    destruct (negb (pty_ready t) && negb (client_ready t)).
    - destruct (_ <=? _); [|auto]. unfold send_client in Hc. destruct (client_write t); auto. cbn in Hc.
      apply in_app_or in Hc. destruct Hc as [Hc|[<-|[]]]; [auto|]. right. apply fits_data; [discriminate|vm_compute; discriminate].
    - assert (I : forall s, frames_out (pager_input s t) = frames_out s).
      { intros s'. unfold pager_input. destruct (client_read t) as [[|x bs]|]; try reflexivity.
        destruct (negb (pty_write_ok t)); [reflexivity|]. destruct (negb (pty_flush_ok t)); reflexivity. }
      assert (O : In c (frames_out (if pty_ready t then pager_output s t else s)) -> In c (frames_out s) \/ fits c).
      { destruct (pty_ready t); [|auto]. unfold pager_output. destruct (pty_read t) as [[|x bs]|] eqn:Ep; auto.
        unfold send_client. destruct (client_write t); auto. cbn. intros H. apply in_app_or in H. destruct H as [H|[<-|[]]]; [auto|].
        right. apply fits_data; [discriminate|]. apply Hr. reflexivity. }
      destruct (returned (if pty_ready t then pager_output s t else s)); [auto|].
      destruct (client_ready t); [rewrite I in Hc|]; auto. }
  destruct G as [G|[R S]]; [auto|]. right. destruct (write_is_frame _ R) as (bs & W & F). exists bs. split; [exact W|].
  apply read_frame; assumption.
Qed.
Print Assumptions C02_pager_frames_can_be_read.

(** A message about variables longer than the buffer is written all the same, and the
    attached client cannot read it. *)
Theorem C02_big_variables_break_the_client_refuted : forall e b sup dump_motd c size (s0 : @s2c e) now id z bs it rest,
  s2c_new sup dump_motd c size = Some s0 -> sel it = SelSwitch (Some bs) -> w_sel it = WroteAll -> poll it = PollTimeout ->
  16 * 1024 < len bs -> len bs < 2 ^ 32 ->
  frames_to id (log (s2c_run b s0 [First (Some (NewConn id z)) now true; Iter it])) = [mkChunk MaybeSwitch bs] /\
  exists bytes, write_to (mkChunk MaybeSwitch bs) = Some bytes /\ read_into (16 * 1024) (bytes ++ rest) = Err (TooBig (len bs)).
Proof.
  intros e b sup dm c size s0 now id z bs it rest Hn Hs Hw Hp Hbig Hrep.
  destruct (new_state _ _ _ _ _ Hn) as (g & _ & E). clear Hn. split.
  - rewrite E. unfold s2c_run. cbn [fold_left s2c_step finished waiting]. unfold s2c_first, acknowledge. cbn [waiting].
    unfold s2c_turn. cbn [finished]. unfold s2c_select. rewrite Hs. cbn [client]. rewrite Hw. unfold emit. cbn [finished log].
    unfold s2c_poll. rewrite Hp. unfold s2c_resize. cbn [resize_cmd]. destruct (now <=? t_due it); cbn; rewrite Nat.eqb_refl; reflexivity.
  - assert (R : representable (mkChunk MaybeSwitch bs)) by (split; [discriminate|exact Hrep]).
    destruct (write_is_frame _ R) as (bytes & W & F). exists bytes. split; [exact W|]. apply (read_too_big BUF_SIZE MaybeSwitch bs); [auto|exact F|exact Hbig].
Qed.
Print Assumptions C02_big_variables_break_the_client_refuted.

(** Likewise a long message of the day in dump mode. *)
Theorem C02_big_motd_breaks_the_client_refuted : forall e b c size (s0 : @s2c e) now id z m raw it r rs rest,
  s2c_new false true c size = Some s0 -> sel it = SelNothing -> poll it = PollRead (Ok (r :: rs)) ->
  motd (conf it) = Some MotdDump -> motd_text it = Ok m -> convert_to_raw (cr it) m = Ok raw ->
  16 * 1024 < len raw -> len raw < 2 ^ 32 ->
  (exists later, frames_to id (log (s2c_run b s0 [First (Some (NewConn id z)) now true; Iter it])) = mkChunk Data raw :: later) /\
  exists bytes, write_to (mkChunk Data raw) = Some bytes /\ read_into (16 * 1024) (bytes ++ rest) = Err (TooBig (len raw)).
Proof.
  intros e b c size s0 now id z m raw it r rs rest Hn Hs Hp Hm Ht Hc Hbig Hrep. destruct (new_state _ _ _ _ _ Hn) as (g & Hg & E). clear Hn. split.
  - subst s0.
    rewrite (life_turns b _ (Some (NewConn id z)) now true [it]) by reflexivity.
    unfold ShellToClientProofs.turns. cbn [fold_left]. rewrite turn_log by reflexivity. unfold turn_frames.
    unfold s2c_select. rewrite Hs. unfold s2c_first, acknowledge. cbn [fst finished sel_frames client]. unfold sel_frames. rewrite Hs. cbn [client].
    unfold sel_again. rewrite Hs. cbn [app]. unfold mid, is_attach, s2c_select. rewrite Hs. cbn [fst].
    unfold poll_frames. rewrite Hp.
    destruct (resize_keeps {| waiting := false; out_spool := spool_new e c size (scrollback_lines c); out_gate := g; motd_due := true;
        client := Some id; resize_cmd := Some (z, now); winsize := mkSize 0 0 0 0; log := []; shut := []; acks := [] ++ [AckNew]; took := []; finished := None |} it)
      as (_ & R2 & R3 & _ & R5 & _). cbn [waiting out_spool out_gate motd_due client resize_cmd winsize log shut acks took finished] in *.
    rewrite R5. unfold read_shown. rewrite Hp, R2.
    assert (Hgr : gate_read g (r :: rs) = Some (g, Some (r :: rs))).
    { unfold Sentinel.gate_new in Hg. destruct (Sentinel.scanner_new _); [|discriminate]. injection Hg as <-. reflexivity. }
    rewrite Hgr. unfold motd_frames. rewrite R3, Hm. unfold dump, motd_mode_of. rewrite Ht, Hc.
    eexists. cbn. rewrite Nat.eqb_refl. cbn. reflexivity.
  - assert (R : representable (mkChunk Data raw)) by (split; [discriminate|exact Hrep]).
    destruct (write_is_frame _ R) as (bytes & W & F). exists bytes. split; [exact W|]. apply (read_too_big BUF_SIZE Data raw); [auto|exact F|exact Hbig].
Qed.
Print Assumptions C02_big_motd_breaks_the_client_refuted.
