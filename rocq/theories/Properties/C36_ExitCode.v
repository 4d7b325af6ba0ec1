(** C36: client exit code. *)
From Coq Require Import List NArith ZArith Bool Lia.
From Verif Require Import Model.Base Model.Protocol Model.Config Model.Duration Model.Template Model.Names Model.Chunk Model.Pipe Model.AttachClient
  Spec.TemplateSpec Spec.UnicodeSpec Spec.ShellEnvSpec Spec.PathSpec Spec.PipeSpec Spec.ClientSpec
  Proofs.BaseLemmas Proofs.TemplateProofs Proofs.ShellEnvProofs Proofs.NamesProofs Proofs.PipeProofs Proofs.PipeEnds Proofs.AttachClientProofs.
Import ListNotations.
Open Scope nat_scope.

(** Whatever the daemon sends and however the threads are scheduled: the streaming
    phase ends as the last frame read says, or with 1 if no frame read said how. *)
Theorem C36_streaming_result : forall follow frames schedule,
  let p := pipe_run follow schedule (pipe_start frames) in
  match main p with
  | Returned r => exists received unread, frames = received ++ unread /\ concludes follow received r
  | Died c => exists received unread r, frames = received ++ unread /\ concludes follow received r /\
                c = match r with Exit s => s | Switch _ => 1%Z end
  | _ => True
  end.
Proof.
  intros follow fs es. cbv zeta. destruct (inv_start follow fs) as (H & G).
  destruct (pipe_run_inv follow fs es _ H G) as (H1 & G1). unfold ended_ok in G1.
  destruct (main (pipe_run follow es (pipe_start fs))) as [| | | |r|c]; try exact I.
  - destruct G1 as (G1 & _). eapply inv_concludes; eassumption.
  - destruct G1 as (r & G1 & ->). destruct (inv_concludes _ _ _ _ H1 G1) as (rec & un & E & C). exists rec, un, r. auto.
Qed.
Print Assumptions C36_streaming_result.

(** An exit frame (or a switch that must be followed) that arrives decides the
    result, as long as standard output works and the frame does not come later than
    300 ms after standard input has ended. *)
Theorem C36_exit_frame_wins : forall follow before f r rest schedule,
  Forall (harmless follow) before -> decides follow f r ->
  let start := pipe_start (before ++ f :: rest) in
  kind_run follow schedule start ->
  match main (pipe_run follow schedule start) with
  | Returned r' => r' = r
  | Died c => c = match r with Exit s => s | Switch _ => 1%Z end
  | _ => True
  end.
Proof.
  intros follow before f r rest es Hb Hd. cbv zeta. intros K.
  assert (P : pending follow f r (pipe_start (before ++ f :: rest))).
  { left. cbn. split; [reflexivity|]. split; [auto|]. split; [discriminate|]. exists before, rest. auto. }
  pose proof (pending_run _ _ _ _ _ Hd P K) as Q.
  destruct (inv_start follow (before ++ f :: rest)) as (H & G).
  destruct (pipe_run_inv follow _ es _ H G) as (_ & G1). unfold ended_ok in G1.
  destruct (main (pipe_run follow es (pipe_start (before ++ f :: rest)))) as [| | | |r'|c] eqn:Em; try exact I.
  - destruct Q as [(_ & [Q|Q] & _)|(Q & _)]; [congruence|congruence|]. destruct G1 as (G1 & _). congruence.
  - destruct Q as [(_ & [Q|Q] & _)|(Q & _)]; [congruence|congruence|]. destruct G1 as (r' & G1 & ->). rewrite Q in G1. injection G1 as <-. reflexivity.
Qed.
Print Assumptions C36_exit_frame_wins.

(** By then the terminal shows everything the daemon sent before that frame, and nothing
    after it: the process does not end before its output is out. *)
Theorem C36_shown_by_then : forall follow before f r rest schedule,
  Forall (harmless follow) before -> decides follow f r ->
  let start := pipe_start (before ++ f :: rest) in
  kind_run follow schedule start ->
  match main (pipe_run follow schedule start) with
  | Returned _ | Died _ => shown (pipe_run follow schedule start) = displayed before
  | _ => exists later, displayed before = shown (pipe_run follow schedule start) ++ later
  end.
Proof.
  intros follow before f r rest es Hb Hd. cbv zeta. intros K.
  destruct (owed_run follow f r _ es _ Hd (owed_start follow f r before rest Hb) K) as [(_ & Hm & _ & b2 & r2 & _ & _ & Ht)|(_ & _ & Ht)].
  - destruct Hm as [-> | ->]; exists (displayed b2); symmetry; exact Ht.
  - rewrite Ht. destruct (main _); try reflexivity; exists []; symmetry; apply app_nil_r.
Qed.
Print Assumptions C36_shown_by_then.

(** And it does end: whatever the threads have done so far, once the frame has arrived
    two turns of the socket thread for each frame and three of the main thread are enough. *)
Theorem C36_ends : forall follow before f r rest schedule n,
  Forall (harmless follow) before -> decides follow f r ->
  let start := pipe_start (before ++ f :: rest) in
  kind_run follow schedule start -> 2 * length (before ++ f :: rest) + 2 <= n ->
  let all := schedule ++ repeat (SockGo true) n ++ [MainGo false; MainGo false; MainGo true] in
  kind_run follow all start /\
  match main (pipe_run follow all start) with Returned r' => r' = r | Died c => c = match r with Exit s => s | Switch _ => 1%Z end | _ => False end.
Proof.
  intros follow before f r rest es n Hb Hd. cbv zeta. intros K Hn.
  set (start := pipe_start (before ++ f :: rest)) in *.
  assert (O := owed_run follow f r _ es _ Hd (owed_start follow f r before rest Hb) K). fold start in O.
  assert (B : turns_left (pipe_run follow es start) <= n).
  { pose proof (frames_shrink follow es start) as F. change (Pipe.frames start) with (before ++ f :: rest) in F. unfold turns_left.
    destruct (slot _); [lia|]. destruct (sock_thread _); lia. }
  destruct (socket_ends follow f r _ Hd n _ O B) as (O2 & E2). cbn zeta in *.
  assert (A : kind_run follow (es ++ repeat (SockGo true) n ++ [MainGo false; MainGo false; MainGo true]) start).
  { rewrite !kind_run_app. split; [exact K|]. split; [apply kind_repeat|]. apply main_ends_kindly. exact E2. }
  split; [exact A|].
  assert (W := C36_exit_frame_wins follow before f r rest _ Hb Hd A). cbv zeta in W.
  assert (V := main_ends follow _ E2). unfold over in V.
  unfold pipe_run in *. rewrite !fold_left_app in *. fold start in W.
  destruct (main _); try contradiction; exact W.
Qed.
Print Assumptions C36_ends.

(** If the daemon is gone, or sends what is no frame, without having said how the attach
    ends: the client ends with 1, after showing all it got, and it does end. *)
Theorem C36_cut_off : forall follow before schedule n,
  Forall (harmless follow) before ->
  let start := pipe_start (before ++ [FBroken]) in
  kind_run follow schedule start ->
  match main (pipe_run follow schedule start) with
  | Returned r => r = Exit 1 /\ shown (pipe_run follow schedule start) = displayed before
  | Died c => c = 1%Z /\ shown (pipe_run follow schedule start) = displayed before
  | _ => True
  end /\
  (2 * length before + 4 <= n ->
   let all := schedule ++ repeat (SockGo true) n ++ [MainGo false; MainGo false; MainGo true] in
   kind_run follow all start /\
   match main (pipe_run follow all start) with Returned _ | Died _ => True | _ => False end).
Proof.
  intros follow before es n Hb. cbv zeta. intros K. set (start := pipe_start (before ++ [FBroken])) in *.
  assert (C := cut_run follow _ es _ (cut_start follow before Hb) K). fold start in C. split.
  - pose proof (C36_streaming_result follow (before ++ [FBroken]) es) as R. cbv zeta in R. fold start in R.
    assert (D : forall rec un r, before ++ [FBroken] = rec ++ un -> concludes follow rec r -> r = Exit 1).
    { intros rec un r E [b f r0 Er _ Hd|]; [|reflexivity]. exfalso. subst rec.
      assert (In f (before ++ [FBroken])) as I1 by (rewrite E; apply in_or_app; left; apply in_or_app; right; left; reflexivity).
      apply in_app_or in I1. destruct I1 as [I1|[<-|[]]]; [|inversion Hd].
      rewrite Forall_forall in Hb. exact (harmless_not_decides follow f _ (Hb f I1) Hd). }
    destruct C as [(_ & [Hm|Hm] & _)|(_ & Ht)]; [rewrite Hm; exact I|rewrite Hm; exact I|]. rewrite Ht.
    destruct (main (pipe_run follow es start)) as [| | | |r|c]; try exact I.
    + destruct R as (rec & un & E & Hc). split; [exact (D _ _ _ E Hc)|reflexivity].
    + destruct R as (rec & un & r & E & Hc & ->). rewrite (D _ _ _ E Hc). auto.
  - intros Hn.
    assert (B : turns_left (pipe_run follow es start) <= n).
    { pose proof (frames_shrink follow es start) as F. change (Pipe.frames start) with (before ++ [FBroken]) in F. rewrite app_length in F. cbn in F. unfold turns_left.
      destruct (slot _); [lia|]. destruct (sock_thread _); lia. }
    assert (E2 := socket_cut follow _ n _ C B).
    split.
    + rewrite !kind_run_app. split; [exact K|]. split; [apply kind_repeat|]. apply main_ends_kindly. left. exact E2.
    + assert (V := main_ends follow _ (or_introl E2)). unfold over in V. unfold pipe_run in *. rewrite !fold_left_app. exact V.
Qed.
Print Assumptions C36_cut_off.

(** What is shown is the data of the frames read, in order and without loss (except
    for a frame that standard output refused). *)
Theorem C36_output_shown : forall follow frames schedule,
  exists received last unread, frames = received ++ last ++ unread /\ length last <= 1 /\
    shown (pipe_run follow schedule (pipe_start frames)) = displayed received.
Proof.
  intros follow fs es. destruct (inv_start follow fs) as (H & G).
  destruct (pipe_run_inv follow fs es _ H G) as (H1 & _).
  destruct H1 as [done A B C D E|done f A B C D E F|done f r A B C D E F].
  - exists done, [], (Pipe.frames (pipe_run follow es (pipe_start fs))). split; [exact A|]. split; [cbn; lia|assumption].
  - exists done, [f], (Pipe.frames (pipe_run follow es (pipe_start fs))). rewrite app_assoc. split; [exact A|]. split; [cbn; lia|assumption].
  - exists done, [f], (Pipe.frames (pipe_run follow es (pipe_start fs))). rewrite app_assoc. split; [exact A|]. split; [cbn; lia|assumption].
Qed.
Print Assumptions C36_output_shown.

(** Once a worker thread has finished the client ends, even if the other one is
    stuck for ever in a read or write: four turns of the main thread are enough. *)
Theorem C36_no_hang : forall follow frames schedule,
  let p := pipe_run follow schedule (pipe_start frames) in
  stdin_thread p = Finished \/ sock_thread p = Finished ->
  match main (pipe_run follow [MainGo true; MainGo true; MainGo true; MainGo true] p) with
  | Returned _ | Died _ => True
  | _ => False
  end.
Proof.
  intros follow fs es. cbv zeta. set (p := pipe_run follow es (pipe_start fs)). intros H. clearbody p. clear fs es.
  destruct p as [sl st so fr sh m]. cbn [stdin_thread sock_thread] in H. unfold pipe_run. cbn [fold_left].
  destruct H as [-> | ->]; destruct m; (try exact I);
    [destruct so|destruct so|destruct so|destruct so|destruct st|destruct st|destruct st|destruct st]; destruct sl as [[]|]; exact I.
Qed.
Print Assumptions C36_no_hang.

(** The status travels unharmed: the daemon's exit frame is read back as its status. *)
Theorem C36_status_encoding : forall decode s, (-2147483648 <= s < 2147483648)%Z ->
  classify decode (mkChunk ExitStatus (i32_bytes s)) = FExit s.
Proof. intros decode s H. unfold classify. cbn [c_kind c_buf]. rewrite read_i32_bytes by assumption. reflexivity. Qed.
Print Assumptions C36_status_encoding.

(** Every frame the daemon can send, as the client takes it: heartbeats are ignored
    whatever they carry, data is shown as it is, an exit status is four bytes (more are
    ignored, fewer are an error), a variable list must decode. *)
Theorem C36_frames : forall decode body,
  classify decode (mkChunk Heartbeat body) = FIdle /\
  classify decode (mkChunk Data body) = FShow body /\
  (length body < 4 -> classify decode (mkChunk ExitStatus body) = FBroken) /\
  (forall s rest, (-2147483648 <= s < 2147483648)%Z -> body = i32_bytes s ++ rest ->
     classify decode (mkChunk ExitStatus body) = FExit s) /\
  classify decode (mkChunk MaybeSwitch body) =
    match decode body with Some vars => FSwitch vars | None => FBroken end.
Proof.
  intros decode body. split; [reflexivity|]. split; [reflexivity|]. split; [|split; [|reflexivity]].
  - intros H. unfold classify. cbn [c_kind c_buf].
    destruct body as [|a [|b [|c [|d body]]]]; try reflexivity. cbn [length] in H. lia.
  - intros s rest Hs ->. unfold classify. cbn [c_kind c_buf].
    pose proof (read_i32_bytes s Hs) as R.
    change (read_i32 (i32_bytes s ++ rest)) with (read_i32 (i32_bytes s)). rewrite R. reflexivity.
Qed.
Print Assumptions C36_frames.

(** The client goes on streaming as long as there is no reason to stop: only frames
    that leave it streaming, standard output accepting what is written, standard input
    not ending.  Time alone does not end it. *)
Theorem C36_keeps_running : forall follow frames schedule,
  Forall (harmless follow) frames ->
  Forall (fun e => e <> SockGo false /\ e <> StdinGo true) schedule ->
  let p := pipe_run follow schedule (pipe_start frames) in
  main p = Watching /\ slot p = None /\ stdin_thread p <> Finished /\ sock_thread p <> Finished.
Proof.
  intros follow fs es Hf He. cbv zeta. unfold pipe_run.
  assert (G : forall p, Forall (harmless follow) (Pipe.frames p) ->
    main p = Watching /\ slot p = None /\ stdin_thread p <> Finished /\ sock_thread p <> Finished ->
    let q := fold_left (pipe_step follow) es p in
    main q = Watching /\ slot q = None /\ stdin_thread q <> Finished /\ sock_thread q <> Finished).
  2: { apply G; [exact Hf|]. repeat split; discriminate. }
  clear Hf fs. induction He as [|e es (H1 & H2) He IH]; intros p Hf Hp; [exact Hp|]. cbn [fold_left].
  destruct p as [sl st so fr sh m]. cbn [main slot stdin_thread sock_thread Pipe.frames] in *. destruct Hp as (-> & -> & Hst & Hso).
  apply IH; clear IH.
  - destruct e as [[]| |[]| |t]; try congruence; cbn; try (destruct so; assumption); try (destruct st; assumption).
    + destruct so; [exact Hf| |exact Hf]. destruct fr as [|f fr]; [exact Hf|].
      pose proof (Forall_inv Hf) as F1. pose proof (Forall_inv_tail Hf) as F2. destruct f; exact F2.
    + destruct st, so; try congruence; exact Hf.
  - destruct e as [[]| |[]| |t]; try congruence; cbn.
    + destruct so; cbn; [repeat split; congruence| |congruence]. destruct fr as [|f fr]; [cbn; repeat split; congruence|].
      pose proof (Forall_inv Hf) as F1. inversion F1 as [|b|v Hv]; subst; cbn; [repeat split; congruence|repeat split; congruence|].
      rewrite Hv. repeat split; congruence.
    + destruct so; cbn; repeat split; congruence.
    + destruct st; cbn; repeat split; congruence.
    + destruct st; cbn; repeat split; congruence.
    + destruct st, so; try congruence; cbn; repeat split; congruence.
Qed.
Print Assumptions C36_keeps_running.

(** Once the result is settled each worker thread stops at the latest when it has dealt
    with one more frame (or one more bit of input), so a busy daemon cannot keep the
    client alive. *)
Theorem C36_threads_notice : forall follow p r, slot p = Some r ->
  (match main p with Returned _ | Died _ => False | _ => True end) ->
  (Pipe.frames p <> [] -> forall ok ok', sock_thread (pipe_run follow [SockGo ok; SockGo ok'] p) = Finished) /\
  (forall ok, sock_thread (pipe_run follow [SockIdle; SockGo ok] p) = Finished) /\
  (forall ends ends', stdin_thread (pipe_run follow [StdinGo ends; StdinGo ends'] p) = Finished) /\
  (forall ends, stdin_thread (pipe_run follow [StdinIdle; StdinGo ends] p) = Finished).
Proof.
  intros follow [sl st so fr sh m] r Hs Hm. cbn [slot main Pipe.frames] in *. subst sl.
  unfold pipe_run. cbn [fold_left]. split; [|split; [|split]].
  - intros Hf ok ok'. destruct fr as [|f fr]; [congruence|].
    destruct m; try contradiction; destruct so; try reflexivity; destruct f; try reflexivity; cbn;
      try (destruct ok; reflexivity); destruct (follow vars); reflexivity.
  - intros ok. destruct m; try contradiction; destruct so; reflexivity.
  - intros a b. destruct m; try contradiction; destruct st; try reflexivity; destruct a; reflexivity.
  - intros a. destruct m; try contradiction; destruct st; reflexivity.
Qed.
Print Assumptions C36_threads_notice.

(** The whole command: it exits at most once, as its last act; and the code is the
    status from the streaming phase, 1 on any failure, and 0 when it was told to stay
    in the background -- or was refused (below). *)
Theorem C36_exits_once : forall k answers,
  exits (client_trace k answers) = 0 \/
  exists t c, client_trace k answers = t ++ [Exits c] /\ exits t = 0.
Proof.
  intros k answers. unfold client_trace. destruct (client_run k WantVars answers) as [s es] eqn:E.
  apply client_run_exit in E; [|discriminate]. cbn [snd]. destruct E as [(_ & E)|(_ & es0 & c & -> & E)].
  - left. exact E.
  - right. exists (Request GetVars :: es0), c. split; [reflexivity|exact E].
Qed.
Print Assumptions C36_exits_once.

(** Missing for the full claim: that every refusal exits with 1; the cases with 0 are
    listed here and refuted below. *)
Theorem C36_exit_code_partial : forall k w s a s' es c, client_step k w s a = (s', es) -> In (Exits c) es ->
  (* the streaming phase's status *)
  (exists r, s = Streaming r /\ a = APipe (Exit c)) \/
  (* failures *)
  c = 1%Z \/
  (* background attach done *)
  (c = 0%Z /\ s = WantBackgroundDetach /\ exists nf na, a = ADetach nf na) \/
  (* refused: busy, or a bad name *)
  (c = 0%Z /\ k_force k = false /\ (exists r t d, s = WantAttach r t d) /\ a = AAttach Busy) \/
  (c = 0%Z /\ exists vars, (a = AVars vars \/ a = APipe (Switch vars)) /\
     ~ good_name (r_name (apply_templates (k_tmpls k) vars))).
Proof.
  intros k w s a s' es c H Hin.
  assert (Ht : forall r t d s es, try_attach k w r t d = (s, es) -> In (Exits c) es -> c = 1%Z).
  { intros r t d s0 es0 E F. unfold try_attach in E. destruct (attach_request k w r); injection E as <- <-; destruct F as [F|[]]; congruence. }
  assert (Hb : forall r t s es, busy_again k w r t = (s, es) -> In (Exits c) es -> c = 1%Z).
  { intros r t s0 es0 E F. unfold busy_again in E. destruct (Nat.ltb MAX_FORCE_RETRIES t).
    - injection E as <- <-. destruct F as [F|[F|[]]]; congruence.
    - destruct (try_attach k w r (S t) true) as [s1 es1] eqn:E1. injection E as <- <-. destruct F as [F|F]; [discriminate|]. eapply Ht; eassumption. }
  assert (Hr : forall vars s es, attach_resolved k w (apply_templates (k_tmpls k) vars) = (s, es) -> In (Exits c) es ->
     c = 1%Z \/ (c = 0%Z /\ ~ good_name (r_name (apply_templates (k_tmpls k) vars)))).
  { intros vars s0 es0 E F. unfold attach_resolved in E.
    destruct (client_check (r_name (apply_templates (k_tmpls k) vars))) eqn:Ec.
    - injection E as <- <-. destruct F as [F|[]]. right. split; [congruence|]. intros G. apply client_check_iff in G. congruence.
    - left. eapply Ht; eassumption. }
  unfold client_step in H.
  destruct s as [|r tries d|r tries| |r|], a as [vars|st|nf na|[st|vars]|];
    try (injection H as <- <-; destruct Hin as [Hin|[]]; right; left; congruence);
    try (injection H as <- <-; destruct Hin; fail).
  - destruct (attach_resolved k w _) as [s1 es1] eqn:E. injection H as <- <-. apply in_app_or in Hin.
    destruct Hin as [Hin|Hin]; [destruct (k_background k); [contradiction|destruct Hin as [Hin|[]]; discriminate]|].
    destruct (Hr _ _ _ E Hin) as [X|(X & Y)]; [right; left; assumption|]. do 4 right. split; [assumption|]. exists vars. auto.
  - destruct st.
    + destruct (k_background k); injection H as <- <-; destruct Hin as [Hin|[]]; discriminate.
    + destruct (k_background k); injection H as <- <-; destruct Hin as [Hin|[]]; discriminate.
    + destruct (k_force k) eqn:Ef; cbn [negb] in H.
      * destruct d; cbn [negb] in H; [right; left; eapply Hb; eassumption|]. injection H as <- <-. destruct Hin as [Hin|[]]; discriminate.
      * injection H as <- <-. destruct Hin as [Hin|[]]. do 3 right. left. split; [congruence|]. split; [reflexivity|]. split; [exists r, tries, d; reflexivity|reflexivity].
    + injection H as <- <-. destruct Hin as [Hin|[]]. right; left; congruence.
    + injection H as <- <-. destruct Hin as [Hin|[]]. right; left; congruence.
  - right. left. eapply Hb; eassumption.
  - injection H as <- <-. destruct Hin as [Hin|[]]. right. right. left. split; [congruence|]. split; [reflexivity|]. eauto.
  - injection H as <- <-. destruct Hin as [Hin|[]]. left. exists r. split; congruence.
  - destruct (attach_resolved k w _) as [s1 es1] eqn:E. injection H as <- <-. destruct Hin as [Hin|Hin]; [discriminate|].
    destruct (Hr _ _ _ E Hin) as [X|(X & Y)]; [right; left; assumption|]. do 4 right. split; [assumption|]. exists vars. auto.
Qed.
Print Assumptions C36_exit_code_partial.

Definition plain_client (name : rstr) : attach_client := mkClient (mkTemplates (mkTemplate name [Raw name]) None None None) false false None.
Definition any_world : client_world := {| c_tty := None; c_env := fun _ => None; c_cwd := Some (lit "/"); c_config := default_config |}.

(** "Exits 1 in every other case" is false: a refused attach exits 0. *)
Theorem C36_refusal_exits_zero_refuted :
  (exists t, client_trace (plain_client (lit "main")) [(any_world, AVars []); (any_world, AAttach Busy)] = t ++ [Exits 0]) /\
  (exists t, client_trace (plain_client (lit "a/b")) [(any_world, AVars [])] = t ++ [Exits 0]).
Proof.
  split.
  - eexists [_; _; _]. vm_compute. reflexivity.
  - eexists [_; _]. vm_compute. reflexivity.
Qed.
Print Assumptions C36_refusal_exits_zero_refuted.

(** A switch that must be followed is not, and the client exits 1 instead, if the
    stdin thread is stuck (say, writing to a full socket). *)
Theorem C36_switch_dropped_refuted : exists follow schedule v,
  follow v = true /\ main (pipe_run follow schedule (pipe_start [FSwitch v])) = Died 1.
Proof.
  exists (fun _ => true), [SockGo true; SockGo true; SockGo true; MainGo false; MainGo false; MainGo true], [].
  split; reflexivity.
Qed.
Print Assumptions C36_switch_dropped_refuted.

(** An exit frame that comes more than 300 ms after standard input ended is missed:
    the session's status 0 becomes 1. *)
Theorem C36_late_exit_frame_refuted : exists follow schedule,
  main (pipe_run follow schedule (pipe_start [FShow [65%N]; FExit 0])) = Returned (Exit 1).
Proof.
  exists (fun _ => false), [StdinGo true; StdinGo true; SockGo true; SockGo true; MainGo false; MainGo true; MainGo false; SockGo true; MainGo false].
  reflexivity.
Qed.
Print Assumptions C36_late_exit_frame_refuted.

(** A normal end: output, then the exit frame. *)
Example C36_nonvacuous :
  let sched := [SockGo true; SockGo true; SockGo true; SockGo true; SockGo true; StdinGo false; MainGo false; MainGo false; MainGo false] in
  let p := pipe_run (fun _ => false) sched (pipe_start [FShow [65%N]; FExit 7]) in
  kind_run (fun _ => false) sched (pipe_start [FShow [65%N]; FExit 7]) /\ main p = Returned (Exit 7) /\ shown p = [65%N].
Proof. vm_compute. repeat split. Qed.
