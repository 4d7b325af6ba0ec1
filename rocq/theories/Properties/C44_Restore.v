(** C44: the restore buffer is chosen by the configuration and delivered whole. *)
From Coq Require Import String List NArith ZArith Bool Lia.
From Verif Require Import Model.Base Model.Chunk Model.Protocol Model.Duration Model.Sentinel Model.Config Model.Restore Model.Pager
  Model.ShellToClient Spec.OutputSpec Spec.OutputExamples Proofs.ShellToClientProofs Proofs.OutputProofs Proofs.FrameProofs.
Import ListNotations.
Open Scope N_scope.

(** Any buffer is delivered as data frames that concatenate to it, none empty, none
    bigger than the client's buffer, all but the last full. *)
Theorem C44_buffer_is_delivered_in_frames : forall buf,
  concat (map c_buf (restore_frames buf)) = buf /\
  Forall (fun c => c_kind c = Data /\ c_buf c <> [] /\ len (c_buf c) <= 16384) (restore_frames buf) /\
  (forall pre c post, restore_frames buf = pre ++ c :: post -> post <> [] -> len (c_buf c) = 16384).
Proof.
  intros buf. unfold restore_frames, chunks. split; [|split].
  - rewrite map_map. cbn [c_buf]. rewrite map_id. apply chunks_fuel_concat; lia.
  - apply Forall_forall. intros c Hc. apply in_map_iff in Hc. destruct Hc as (bs & <- & Hb). cbn [c_kind c_buf].
    assert (F := chunks_fuel_sizes (N.to_nat 16384) (length buf) buf ltac:(lia)). rewrite Forall_forall in F.
    destruct (F bs Hb) as [A B]. split; [reflexivity|]. split; [exact A|]. unfold len. lia.
  - intros pre c post H Hp. apply map_eq_app in H. destruct H as (l1 & l2 & Hl & Hl1 & Hl2).
    destruct l2 as [|bs l2]; [discriminate|]. cbn [map] in Hl2. injection Hl2 as <- <-. cbn [c_buf].
    assert (L := chunks_fuel_full (N.to_nat 16384) (length buf) buf ltac:(lia) ltac:(lia) l1 bs l2 Hl).
    unfold len. rewrite L; [lia|]. intros ->. apply Hp. reflexivity.
Qed.
Print Assumptions C44_buffer_is_delivered_in_frames.

Example C44_frames_example :
  map (fun c => len (c_buf c)) (restore_frames (repeat 65 (N.to_nat 40000))) = [16384; 16384; 7232] /\ restore_frames [] = [].
Proof. vm_compute. auto. Qed.

(** The frames a reattaching client gets before anything else. *)
Theorem C44_reattach_sends_the_restore_buffer : forall e b (s : @s2c e) it id z,
  finished s = None -> sel it = SelConn (NewConn id z) -> poll it = PollTimeout ->
  client s <> Some id -> finished (s2c_turn b s it) = None ->
  frames_to id (log (s2c_turn b s it)) =
    frames_to id (log s) ++ restore_frames (spool_restore (spool_resize (conf it) (out_spool s) z)).
Proof.
  intros e b s it id z Hf Hs Hp Hc Hu. destruct (turn_unfinished b s it Hu) as [_ H1].
  rewrite (turn_log b s it Hf), frames_to_app. f_equal. unfold turn_frames. rewrite H1. unfold sel_again. rewrite Hs, !frames_to_app.
  rewrite sel_frames_other by exact Hc. rewrite frames_to_sends. unfold poll_frames, read_shown. rewrite Hp.
  destruct (client (mid b s it)); cbn; rewrite app_nil_r; reflexivity.
Qed.
Print Assumptions C44_reattach_sends_the_restore_buffer.

(** What the buffer is, for every configuration and every history of output and sizes:
    nothing in simple mode; otherwise what the chosen emulator, after that history,
    gives for the whole screen or for the last n lines.  Screen mode and the vt100
    emulator are the defaults. *)
(** Missing for the full claim: the documented default number of lines, which
    differs; refuted below. *)
Theorem C44_restore_follows_the_configuration_partial : forall e c size lines ops,
  let v := vt100_after e (vt100_new e (rows size) (match vt100_output_spool_width c with Some w => w | None => 1024 end) lines) ops in
  let t := vterm_after e (vterm_new e lines (rows size) (cols size)) ops in
  spool_restore (fold_left spool_apply ops (spool_new e c size lines)) =
  match session_restore_mode c, session_restore_engine c with
  | Some Simple, _ => []
  | (None | Some Screen), (None | Some Vt100) => contents_formatted e v ++ input_mode_formatted e v
  | Some (Lines n), (None | Some Vt100) => last_n_rows_contents_formatted e v n ++ input_mode_formatted e v
  | (None | Some Screen), Some Vterm => vterm_screen e t
  | Some (Lines n), Some Vterm => vterm_bottom_lines e t n
  end.
Proof.
  intros e c size lines ops v t.
  assert (Nul : fold_left spool_apply ops (@NullSpool e) = NullSpool).
  { clear. induction ops as [|[c' z|bs] ops IH]; cbn; auto. }
  assert (A : forall p, fold_left spool_apply ops (@Vt100Screen e p) = Vt100Screen (vt100_after e p ops)).
  { clear. induction ops as [|[c' z|bs] ops IH]; intros p; [reflexivity| |]; cbn [fold_left]; cbn [spool_apply spool_resize spool_process]; rewrite IH; reflexivity. }
  assert (B : forall p n, fold_left spool_apply ops (@Vt100Lines e p n) = Vt100Lines (vt100_after e p ops) n).
  { clear. induction ops as [|[c' z|bs] ops IH]; intros p n; [reflexivity| |]; cbn [fold_left]; cbn [spool_apply spool_resize spool_process]; rewrite IH; reflexivity. }
  assert (C : forall q m, fold_left spool_apply ops (@VtermSpool e q m) = VtermSpool (vterm_after e q ops) m).
  { clear. induction ops as [|[c' z|bs] ops IH]; intros q m; [reflexivity| |]; cbn [fold_left]; cbn [spool_apply spool_resize spool_process]; rewrite IH; reflexivity. }
  unfold spool_new. destruct (session_restore_mode c) as [[| |n]|], (session_restore_engine c) as [[]|];
    rewrite ?Nul, ?A, ?B, ?C; reflexivity.
Qed.
Print Assumptions C44_restore_follows_the_configuration_partial.

(** End to end: at any moment of a session's life the restore buffer is made by an
    emulator that was given the configured number of scrollback lines (or as many as are
    to be restored, or 500) and fed exactly the output shown so far. *)
Theorem C44_restore_buffer_of_a_session : forall e b sup dump_motd c size (s0 s : @s2c e) m now ok its,
  s2c_new sup dump_motd c size = Some s0 ->
  s = s2c_run b s0 (First m now ok :: map Iter its) -> finished s = None ->
  let lines := match output_spool_lines c, session_restore_mode c with
               | Some n, _ => n | None, Some (Lines n) => n | None, _ => 500 end in
  exists ops shown,
    gate_reads (out_gate s0) (took s) = Some (out_gate s, shown) /\ fed ops = shown /\ resized ops = flat_map iter_size its /\
    let v := vt100_after e (vt100_new e (rows size) (match vt100_output_spool_width c with Some w => w | None => 1024 end) lines) ops in
    let t := vterm_after e (vterm_new e lines (rows size) (cols size)) ops in
    spool_restore (out_spool s) =
    match session_restore_mode c, session_restore_engine c with
    | Some Simple, _ => []
    | (None | Some Screen), (None | Some Vt100) => contents_formatted e v ++ input_mode_formatted e v
    | Some (Lines n), (None | Some Vt100) => last_n_rows_contents_formatted e v n ++ input_mode_formatted e v
    | (None | Some Screen), Some Vterm => vterm_screen e t
    | Some (Lines n), Some Vterm => vterm_bottom_lines e t n
    end.
Proof.
  intros e b sup dm c size s0 s m now ok its Hn -> Hf lines.
  destruct (new_state _ _ _ _ _ Hn) as (g & _ & E). clear Hn.
  rewrite (life_turns b s0 _ now ok) in * by (rewrite E; reflexivity). subst s0.
  destruct (turns_spool b _ its Hf) as (ops & reads & shown & H1 & H2 & H3 & H4 & H5).
  assert (Hf1 := turns_unfinished b _ _ Hf).
  exists ops, shown. rewrite H1, H2. unfold s2c_first, acknowledge in *.
  destruct m as [m|]; [|discriminate Hf1]. destruct ok; [|discriminate Hf1]. cbn [took out_gate out_spool app] in *.
  split; [exact H3|]. split; [exact H4|]. split; [exact H5|]. apply C44_restore_follows_the_configuration_partial.
Qed.
Print Assumptions C44_restore_buffer_of_a_session.

Example C44_modes_example :
  let ops := [OpFeed (lit "ab"); OpResize default_config z100; OpFeed (lit "cd")] in
  spool_restore (fold_left spool_apply ops (spool_new recorder default_config z80 500)) = lit "abcd".
Proof. reflexivity. Qed.

(** The documented default is 10000 lines (config.rs 256). *)
Theorem C44_documented_default_refuted : scrollback_lines default_config = 500.
Proof. reflexivity. Qed.
Print Assumptions C44_documented_default_refuted.

(** The first client's size, when it is no longer the one the session was created with
    (the window changed while the message of the day was shown), reaches the pty but
    not the scrollback emulator. *)
Theorem C44_first_size_misses_the_scrollback_refuted : forall e b sup dump_motd c size (s0 : @s2c e) now ok id z its,
  s2c_new sup dump_motd c size = Some s0 -> flat_map iter_size its = [] ->
  finished (s2c_run b s0 (First (Some (NewConn id z)) now ok :: map Iter its)) = None ->
  exists ops, resized ops = [] /\
    out_spool (s2c_run b s0 (First (Some (NewConn id z)) now ok :: map Iter its)) =
    fold_left spool_apply ops (spool_new e c size (scrollback_lines c)).
Proof.
  intros e b sup dm c size s0 now ok id z its Hn Hi Hf.
  destruct (new_state _ _ _ _ _ Hn) as (g & _ & E). clear Hn.
  rewrite (life_turns b s0 _ now ok) in * by (rewrite E; reflexivity). subst s0.
  destruct (turns_spool b _ its Hf) as (ops & reads & shown & H1 & _ & _ & _ & H5).
  exists ops. split; [congruence|]. rewrite H1. unfold s2c_first, acknowledge. destruct ok; reflexivity.
Qed.
Print Assumptions C44_first_size_misses_the_scrollback_refuted.

Example C44_first_size_example :
  let c := mkConfig None None None None None None None None None None None None (Some Vterm) None None None None None None None in
  option_map (fun s0 : @s2c recorder =>
      let s := s2c_run Release s0 [First (Some (NewConn 0 z100)) 0 true; Iter (shell_prints "x")] in
      (winsize s, match out_spool s with VtermSpool t _ => fst t | _ => (0, 0) end)) (s2c_new false false c z80)
  = Some (z100, (24, 80)).
Proof. vm_compute. reflexivity. Qed.
