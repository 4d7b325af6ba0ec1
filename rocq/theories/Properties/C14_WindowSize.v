(** C14: the window size settles at what was last asked for. *)
From Coq Require Import String List NArith ZArith Bool Lia.
From Verif Require Import Model.Base Model.Chunk Model.Protocol Model.Duration Model.Config Model.Restore Model.Pager
  Model.ShellToClient Spec.OutputSpec Spec.OutputExamples Proofs.ShellToClientProofs Proofs.OutputProofs Proofs.FrameProofs.
Import ListNotations.
Open Scope N_scope.

(** At every moment of a running session: the delayed resize, if there is one, is for
    the size most recently asked for; if there is none, the pty has that size. *)
Theorem C14_settles_at_the_last_request : forall e b sup dump_motd c size (s0 s : @s2c e) m now ok its,
  s2c_new sup dump_motd c size = Some s0 ->
  s = s2c_run b s0 (First m now ok :: map Iter its) -> finished s = None ->
  (resize_cmd s = None -> winsize s = last (size_requests m its) (mkSize 0 0 0 0)) /\
  (forall z w, resize_cmd s = Some (z, w) -> z = last (size_requests m its) (mkSize 0 0 0 0)).
Proof.
  intros e b sup dm c size s0 s m now ok its Hn -> Hf.
  destruct (new_state _ _ _ _ _ Hn) as (g & _ & E). clear Hn.
  rewrite (life_turns b s0 m now ok) in * by (rewrite E; reflexivity). subst s0.
  assert (Hf1 := turns_unfinished b _ _ Hf).
  assert (S : settled (last (size_requests m its) (mkSize 0 0 0 0)) (turns b (s2c_first {| waiting := true; out_spool := spool_new e c size (scrollback_lines c); out_gate := g; motd_due := dm;
             client := None; resize_cmd := None; winsize := mkSize 0 0 0 0; log := []; shut := []; acks := []; took := []; finished := None |} m now ok) its)).
  { unfold size_requests. rewrite last_app_default. apply turns_settled; [|exact Hf].
    unfold s2c_first, acknowledge in *. destruct m as [m|]; [|discriminate Hf1]. destruct ok; [|discriminate Hf1].
    destruct m; cbn; reflexivity. }
  unfold settled in S. split.
  - intros H. rewrite H in S. exact S.
  - intros z w H. rewrite H in S. exact S.
Qed.
Print Assumptions C14_settles_at_the_last_request.

(** A delayed resize is carried out by the first turn that comes after its time,
    brings no new request and gets as far as looking at it. *)
Theorem C14_due_resize_is_carried_out : forall e b (s : @s2c e) it z w,
  resize_cmd s = Some (z, w) -> iter_size it = [] -> w <= t_due it ->
  (forall enc, sel it = SelSwitch enc -> client s <> None /\ enc <> None) -> sel it <> SelSwitchClosed ->
  finished (s2c_turn b s it) = None ->
  resize_cmd (s2c_turn b s it) = None /\ winsize (s2c_turn b s it) = z.
Proof.
  intros e b s it z w Hr Hi Hw Hs1 Hs2 Hf. eapply turn_executes; try eassumption.
  unfold sel_again. destruct (sel it) as [[i y| |st]| |y| | |enc| |]; try reflexivity; [|congruence].
  destruct (Hs1 enc eq_refl) as [A B]. destruct (client s); [|congruence]. destruct enc; [reflexivity|congruence].
Qed.
Print Assumptions C14_due_resize_is_carried_out.

(** The delay: none for a resize request, fifty milliseconds for an attach, during
    which the pty is one row and one column bigger than asked for, so that the program
    in it sees a change in any case. *)
Theorem C14_delay : forall e b (s : @s2c e) it,
  finished s = None -> finished (s2c_turn b s it) = None ->
  (forall id z, sel it = SelConn (NewConn id z) -> rows z < 65535 -> cols z < 65535 -> t_due it < t_sel it + 50000000 ->
     resize_cmd (s2c_turn b s it) = Some (z, t_sel it + 50000000) /\
     winsize (s2c_turn b s it) = mkSize (rows z + 1) (cols z + 1) (xpixel z) (ypixel z) /\ winsize (s2c_turn b s it) <> z) /\
  (forall z, sel it = SelSize z -> t_sel it <= t_due it ->
     resize_cmd (s2c_turn b s it) = None /\ winsize (s2c_turn b s it) = z).
Proof.
  intros e b s it Hf Hu. destruct (turn_unfinished b s it Hu) as [_ H1]. assert (S := select_sizes b s it Hf H1).
  destruct (mid_keeps b s it Hf H1) as (_ & _ & _ & _ & F & _).
  assert (T := turn_cases b s it Hf). cbv zeta in T. rewrite H1 in T.
  assert (Keep : finished (s2c_poll (mid b s it) it) = None ->
     resize_cmd (s2c_poll (mid b s it) it) = resize_cmd (mid b s it) /\ winsize (s2c_poll (mid b s it) it) = winsize (mid b s it)).
  { intros Hp. assert (P := poll_ok (mid b s it) it F Hp).
    destruct (poll it) as [| | |p x|[[|y bs]|[]]]; try contradiction; try (rewrite P; auto).
    destruct P as (g & sh & _ & _ & _ & _ & A & B & _). auto. }
  split.
  - intros id z Hs Hr Hc Hd. unfold sel_again in T. rewrite Hs in *. rewrite T in *. destruct (Keep Hu) as [-> ->].
    destruct S as (S1 & r & cc & A1 & A2 & S2).
    assert (add1_ok : forall n, n < 65535 -> add1_u16 b n = Some (n + 1)).
    { intros n Hn. unfold add1_u16. destruct (N.ltb_spec (n + 1) 65536); [reflexivity|lia]. }
    rewrite add1_ok in A1, A2 by assumption. injection A1 as <-. injection A2 as <-.
    unfold mid, is_attach. rewrite Hs.
    destruct (restore_keeps (s2c_resize (fst (s2c_select b s it)) it) it) as (_ & _ & _ & _ & _ & _ & _ & _ & -> & ->).
    unfold s2c_resize. rewrite S1. change REATTACH_RESIZE_DELAY with 50000000.
    destruct (N.leb_spec (t_sel it + 50000000) (t_due it)); [lia|]. rewrite S1, S2. split; [reflexivity|]. split; [reflexivity|].
    intros X. apply (f_equal rows) in X. cbn in X. lia.
  - intros z Hs Hd. unfold sel_again in T. rewrite Hs in *. rewrite T in *. destruct (Keep Hu) as [-> ->].
    destruct S as (S1 & S2). unfold mid, is_attach. rewrite Hs. unfold s2c_resize. rewrite S1.
    destruct (N.leb_spec (t_sel it) (t_due it)); [|lia]. cbn. auto.
Qed.
Print Assumptions C14_delay.

(** Requests that cannot fail: every resize; and every attach in an optimised build, or
    with both numbers below 65535, as far as the arithmetic is concerned. *)
Theorem C14_any_size_can_be_asked_for_partial : forall e b (s : @s2c e) it,
  finished s = None -> ack_ok it = true -> shutdown_ok it = true -> oversize_ok it = true ->
  (forall z, sel it = SelSize z -> finished (fst (s2c_select b s it)) = None) /\
  (forall id z, sel it = SelConn (NewConn id z) -> (b = Release \/ (rows z < 65535 /\ cols z < 65535)) ->
     finished (fst (s2c_select b s it)) = None).
Proof.
  intros e b s it Hf Ha Hs Ho. split.
  - intros z Hz. unfold s2c_select, acknowledge. rewrite Hz, Ha. cbn. exact Hf.
  - intros id z Hz Hb. unfold s2c_select, farewell, write_exit_chunk, acknowledge. rewrite Hz, Ha, Hs, Ho.
    assert (A : forall n, b = Release \/ n < 65535 -> exists r, add1_u16 b n = Some r).
    { intros n H. unfold add1_u16. destruct (N.ltb_spec (n + 1) 65536); [eauto|]. destruct H as [-> | H]; [eauto|lia]. }
    destruct (A (rows z)) as [r Hr]; [tauto|]. destruct (A (cols z)) as [cc Hc]; [tauto|].
    destruct (client s); cbn; rewrite Hf; cbn; rewrite Hr, Hc; cbn; (reflexivity || exact Hf).
Qed.
Print Assumptions C14_any_size_can_be_asked_for_partial.

(** An attach with 65535 rows or columns makes a debug build's thread panic. *)
Theorem C14_largest_size_panics_refuted : forall e (s : @s2c e) it id z,
  finished s = None -> shutdown_ok it = true ->
  sel it = SelConn (NewConn id z) -> (rows z = 65535 \/ cols z = 65535) ->
  finished (s2c_turn Debug s it) = Some EndPanic.
Proof.
  intros e s it id z Hf Hsd Hs Hz. unfold s2c_turn. rewrite Hf.
  assert (P : finished (fst (s2c_select Debug s it)) = Some EndPanic).
  { unfold s2c_select, farewell, write_exit_chunk. rewrite Hs, Hsd.
    destruct (client s); cbn; rewrite Hf; cbn; destruct Hz as [-> | ->]; cbn;
      repeat match goal with |- context [match ?x with _ => _ end] => destruct x; cbn end; reflexivity. }
  destruct (s2c_select Debug s it) as [s1 f]. cbn [fst] in P. rewrite P. destruct f; exact P.
Qed.
Print Assumptions C14_largest_size_panics_refuted.

(** In an optimised build the same attach gives the pty no rows for fifty
    milliseconds, and then settles like any other. *)
Theorem C14_largest_size_wraps : forall e (s : @s2c e) it id z,
  finished s = None -> sel it = SelConn (NewConn id z) -> rows z = 65535 -> cols z < 65535 ->
  finished (fst (s2c_select Release s it)) = None ->
  winsize (fst (s2c_select Release s it)) = mkSize 0 (cols z + 1) (xpixel z) (ypixel z).
Proof.
  intros e s it id z Hf Hs Hr Hc H1. assert (S := select_sizes Release s it Hf H1). rewrite Hs in S.
  destruct S as (_ & r & c & A1 & A2 & ->). rewrite Hr in A1. cbn in A1. injection A1 as <-.
  unfold add1_u16 in A2. destruct (N.ltb_spec (cols z + 1) 65536); [|lia]. injection A2 as <-. reflexivity.
Qed.
Print Assumptions C14_largest_size_wraps.

Definition at_time (t : N) (it : iter) : iter :=
  {| sel := sel it; t_sel := t; t_due := t; oversize_ok := oversize_ok it; shutdown_ok := shutdown_ok it; ack_ok := ack_ok it;
     conf := conf it; w_sel := w_sel it; w_restore := w_restore it; w_motd := w_motd it; w_data := w_data it; w_exit := w_exit it;
     cr := cr it; motd_text := motd_text it; poll := poll it |}.

(** Attach at 24x80, resize, reattach at 40x100, wait. *)
Example C14_example :
  let go its := option_map (fun s0 : @s2c recorder =>
      let s := s2c_run Debug s0 (First (Some (NewConn 0 z80)) 0 true :: map Iter its) in (winsize s, resize_cmd s, finished s))
      (s2c_new false false default_config z80) in
  let a := at_time 1 (quiet (SelSize (mkSize 10 10 0 0)) PollTimeout) in
  let r := at_time 2 (quiet (SelConn (NewConn 1 z100)) PollTimeout) in
  go [a] = Some (mkSize 10 10 0 0, None, None) /\
  go [a; r] = Some (mkSize 41 101 0 0, Some (z100, 50000002), None) /\
  go [a; r; at_time 50000001 (quiet SelNothing PollTimeout)] = Some (mkSize 41 101 0 0, Some (z100, 50000002), None) /\
  go [a; r; at_time 50000002 (quiet SelNothing PollTimeout)] = Some (z100, None, None).
Proof. vm_compute. auto. Qed.
