(** C74: the shell's window has the size of the user's terminal. *)
From Coq Require Import String List NArith ZArith Bool Lia.
From Verif Require Import Model.Base Model.Protocol Model.Duration Model.Config Model.Restore Model.Pager Model.ShellToClient Model.Winch Model.Window
  Spec.WinchSpec Spec.OutputSpec Spec.OutputExamples Spec.WindowSpec Proofs.ShellToClientProofs Proofs.OutputProofs Proofs.FrameProofs Proofs.WindowProofs Properties.C14_WindowSize.
Import ListNotations.
Open Scope N_scope.

(** A client attaches to a session, new or old, perhaps past a pager, while the user
    resizes the window whenever they like.  Once the client has been handed over and
    every change has been reported and answered, the shell's window is the terminal's,
    or will be as soon as the delayed resize is carried out. *)
(** Missing for the full claim: a report that comes between the attach request and the
    hand-over; refuted below. *)
Theorem C74_follows_partial : forall e b sup dump_motd c size (s0 : @s2c e) past z name l,
  s2c_new sup dump_motd c size = Some s0 -> past_ok past ->
  Forall alone l -> never too_early (set_out z name past) l ->
  let j := travel (set_out z name past) l in settled_in j ->
  let s := s2c_run b s0 (life j) in finished s = None -> window_is s (terminal z l).
Proof.
  intros e b sup dm c size s0 past z name l Hn Hp Ha Hl j Hj s Hf. replace (terminal z l) with (size_now (user j)) by apply size_is.
  destruct (fine_settled j (fine_run l _ (fine_start z name past Hp) Ha Hl) Hj) as (m & now & ok & its & E & L).
  destruct (C14_settles_at_the_last_request e b sup dm c size s0 s m now ok its Hn) as (A & B); [unfold s; rewrite E; reflexivity|exact Hf|].
  fold zero in *. rewrite L in *. unfold window_is. destruct (resize_cmd s) as [[z' w]|]; [eapply B; reflexivity|apply A; reflexivity].
Qed.
Print Assumptions C74_follows_partial.

(** The delayed resize is carried out by any quiet turn after its time, fifty
    milliseconds after the hand-over at the latest (C14_delay); then the sizes agree. *)
Theorem C74_agrees : forall e b (s : @s2c e) z it,
  window_is s z -> iter_size it = [] -> sel it = SelNothing -> (forall y w, resize_cmd s = Some (y, w) -> w <= t_due it) ->
  finished (s2c_turn b s it) = None ->
  resize_cmd (s2c_turn b s it) = None /\ winsize (s2c_turn b s it) = z.
Proof.
  intros e b s z it W I N D F. unfold window_is in W. destruct (resize_cmd s) as [[y w]|] eqn:R.
  - subst y. eapply C14_due_resize_is_carried_out; try eassumption; [exact (D z w eq_refl)| |]; rewrite N; discriminate.
  - subst z. destruct (turn_unfinished b s it F) as [F0 H1]. assert (S := select_sizes b s it F0 H1). rewrite N, R in S. destruct S as [S1 S2].
    rewrite (turn_cases b s it F0) in *. cbv zeta in *. rewrite H1 in *.
    assert (A : sel_again s it = false) by (unfold sel_again; rewrite N; reflexivity). rewrite A in *.
    assert (M : resize_cmd (mid b s it) = None /\ winsize (mid b s it) = winsize s).
    { unfold mid, is_attach. rewrite N. unfold s2c_resize. rewrite S1. auto. }
    destruct (mid_keeps b s it F0 H1) as (_ & _ & _ & _ & F1 & _). assert (P := poll_ok (mid b s it) it F1 F).
    destruct (poll it) as [| | |p x|[[|y bs]|[]]]; try contradiction; try (rewrite P; exact M).
    destruct P as (g & sh & _ & _ & _ & _ & X & Y & _). rewrite X, Y. exact M.
Qed.
Print Assumptions C74_agrees.

(** The way there is open: as long as every report so far was answered well, from
    wherever things are, a few steps of threads that are only waiting for their turn lead
    to that point, with the size the terminal has now. *)
Theorem C74_can_settle : forall past z name l it, past_ok past ->
  Forall alone l -> never too_early (set_out z name past) l ->
  let j := travel (set_out z name past) l in attach_sent (user j) = true -> all_heard (log (user j)) ->
  exists rest, Forall alone rest /\ never too_early j rest /\ length rest = 12%nat /\
    (forall h, In h rest -> In h [PagerDone; PagerOff; HandOver 0 0 true it; Client Take; Client (Dial true); Client (Measure true); Client (Send true); Report it true]) /\
    settled_in (travel j rest) /\ terminal z (l ++ rest) = terminal z l.
Proof.
  intros past z name l it Hp Ha Hl j Hs Hh. assert (F : fine j) by (apply fine_run; [apply fine_start; exact Hp|exact Ha|exact Hl]).
  exists (the_rest it). split; [repeat constructor|]. split; [apply rest_in_time; assumption|]. split; [reflexivity|].
  split; [cbn; tauto|]. destruct (rest_settles it j F Hs Hh) as (A & B). split; [exact A|].
  unfold j in B. rewrite <- travel_app, !size_is in B. exact B.
Qed.
Print Assumptions C74_can_settle.

(** While the pager shows the message of the day, nothing comes too early: however many
    changes are reported, the pager gets them, and the last one is handed over. *)
Theorem C74_under_the_pager : forall l j,
  held j <> None -> pager j = Showing -> ~ In PagerDone l ->
  never too_early j l /\ pager (travel j l) = Showing /\ held (travel j l) <> None.
Proof.
  induction l as [|h l IH]; intros j Hh Hp Hn; [cbn; auto|].
  assert (S : held (happens j h) <> None /\ pager (happens j h) = Showing).
  { destruct j as [u hd pg lf]. cbn [held pager] in *. subst pg. destruct hd as [z|]; [|congruence].
    destruct h as [ev| | | | | | | | |]; cbn [happens held pager life user];
      [destruct ev| | |exfalso; apply Hn; left; reflexivity| | |destruct (at_ u)| | |destruct lf]; split; (reflexivity || discriminate). }
  destruct S as (S1 & S2).
  destruct (IH _ S1 S2 ltac:(intros X; apply Hn; right; exact X)) as (A & B & C).
  change (travel j (h :: l)) with (travel (happens j h) l).
  split; [|auto]. split; [|exact A]. destruct h; cbn [too_early]; auto. rewrite Hp. tauto.
Qed.
Print Assumptions C74_under_the_pager.

(** A session made by this very attach, without a pager: no report can come too early. *)
Theorem C74_new_session : forall e b sup dump_motd c size (s0 : @s2c e) z name l,
  s2c_new sup dump_motd c size = Some s0 -> Forall alone l -> ~ In PagerUp l ->
  let j := travel (set_out z name []) l in settled_in j ->
  let s := s2c_run b s0 (life j) in finished s = None -> window_is s (terminal z l).
Proof.
  intros e b sup dm c size s0 z name l Hn Ha Hp j Hj s Hf. eapply C74_follows_partial; try eassumption; [left; reflexivity|].
  apply fresh_in_time; [reflexivity|reflexivity| |exact Hp]. cbn. split; [discriminate|congruence].
Qed.
Print Assumptions C74_new_session.

(** Whatever went before, early reports and all: once the client has been handed over,
    the next change of the terminal's size puts things right, for good. *)
Theorem C74_next_change : forall e b sup dump_motd c size (s0 : @s2c e) past z name l1 z' l2,
  s2c_new sup dump_motd c size = Some s0 -> past_ok past -> Forall alone l2 ->
  let j1 := travel (set_out z name past) l1 in attach_sent (user j1) = true -> held j1 = None ->
  let j := travel j1 (Client (SizeChange z') :: l2) in settled_in j ->
  let s := s2c_run b s0 (life j) in finished s = None -> window_is s (terminal z' l2).
Proof.
  intros e b sup dm c size s0 past z name l1 z' l2 Hn Hp Ha j1 Hs1 Hh1 j Hj s Hf.
  replace (terminal z' l2) with (size_now (user j)) by (unfold j; rewrite size_is; unfold terminal; cbn [flat_map app]; apply last_cons).
  assert (S : sound j1) by (apply sound_run, sound_start, Hp).
  assert (F : fine j).
  { unfold j. cbn [travel fold_left]. apply fine_run; [apply sound_change; exact S|exact Ha|].
    apply done_in_time; cbn [happens user held]; [exact Hh1|]. destruct (user j1); exact Hs1. }
  destruct (fine_settled j F Hj) as (m & now & ok & its & E & L).
  destruct (C14_settles_at_the_last_request e b sup dm c size s0 s m now ok its Hn) as (A & B); [unfold s; rewrite E; reflexivity|exact Hf|].
  fold zero in *. rewrite L in *. unfold window_is. destruct (resize_cmd s) as [[y w]|]; [eapply B; reflexivity|apply A; reflexivity].
Qed.
Print Assumptions C74_next_change.

(** A change while attaching to a session that exists: the report is answered well, and
    then the hand-over brings the size the request was sent with.  The shell keeps it. *)
Definition late (s : select_case) : iter :=
  {| sel := s; t_sel := 0; t_due := 1000000000; oversize_ok := true; shutdown_ok := true; ack_ok := true; conf := default_config;
     w_sel := WroteAll; w_restore := fun _ => WroteAll; w_motd := WroteAll; w_data := WroteAll; w_exit := WroteAll;
     cr := Some [13]; motd_text := Err tt; poll := PollTimeout |}.
Definition was_attached : list s2c_event := [First (Some (NewConn 0 z80)) 0 true; Iter (late (SelConn Disconnect))].
Definition resized_to (z : tty_size) : list happening :=
  [Client (SizeChange z); Client Take; Client (Dial true); Client (Measure true); Client (Send true); Report (late SelNothing) true].

Theorem C74_overtaken_refuted : exists l,
  past_ok was_attached /\ Forall alone l /\ ~ In PagerUp l /\
  let j := travel (set_out z80 (lit "main") was_attached) l in settled_in j /\ terminal z80 l = z100 /\
  option_map (fun s0 => let s := s2c_run Release s0 (life j) in (finished s, winsize s, resize_cmd s)) (@s2c_new recorder false false default_config z80) =
    Some (None, z80, None).
Proof.
  exists (Request :: resized_to z100 ++ [HandOver 1 0 true (late SelNothing)]).
  split; [right; exists (Some (NewConn 0 z80)), 0, true, [late (SelConn Disconnect)]; reflexivity|].
  split; [repeat constructor|]. split; [intros H; cbn in H; repeat (destruct H as [H|H]; [discriminate|]); exact H|].
  cbn zeta. split; [|split; [vm_compute; reflexivity|vm_compute; reflexivity]].
  unfold settled_in. vm_compute. repeat split. intros m [<-|[<-|[]]]; exact I.
Qed.
Print Assumptions C74_overtaken_refuted.

(** The same in a new session, with a pager that is being closed: it takes the report,
    and the size it had before is handed over. *)
Theorem C74_closing_pager_refuted : exists l,
  Forall alone l /\
  let j := travel (set_out z80 (lit "main") []) l in settled_in j /\ terminal z80 l = z100 /\
  option_map (fun s0 => let s := s2c_run Release s0 (life j) in (finished s, winsize s, resize_cmd s)) (@s2c_new recorder false false default_config z80) =
    Some (None, z80, None).
Proof.
  exists (Request :: PagerUp :: PagerDone :: resized_to z100 ++ [PagerOff; HandOver 1 0 true (late SelNothing); Turn (late SelNothing)]).
  split; [repeat constructor|].
  cbn zeta. split; [|split; [vm_compute; reflexivity|vm_compute; reflexivity]].
  unfold settled_in. vm_compute. repeat split. intros m [<-|[<-|[]]]; exact I.
Qed.
Print Assumptions C74_closing_pager_refuted.

(** Not vacuous: a session that exists, a change under the pager and one afterwards. *)
Example C74_case : exists l,
  Forall alone l /\ never too_early (set_out z80 (lit "main") was_attached) l /\
  let j := travel (set_out z80 (lit "main") was_attached) l in settled_in j /\ terminal z80 l = mkSize 50 200 0 0 /\
  option_map (fun s0 => let s := s2c_run Release s0 (life j) in (finished s, winsize s, resize_cmd s)) (@s2c_new recorder false false default_config z80) =
    Some (None, mkSize 50 200 0 0, None).
Proof.
  exists (Request :: PagerUp :: resized_to z100 ++ [PagerDone; PagerOff; HandOver 1 0 true (late SelNothing)] ++ resized_to (mkSize 50 200 0 0)).
  split; [repeat constructor|]. split.
  { cbn [never app resized_to]. repeat match goal with |- _ /\ _ => split end; try exact I; try (intros H; exact H); vm_compute; intros [A B]; congruence. }
  cbn zeta. split; [|split; [vm_compute; reflexivity|vm_compute; reflexivity]].
  unfold settled_in. vm_compute. repeat split. intros m [<-|[<-|[<-|[]]]]; exact I.
Qed.
