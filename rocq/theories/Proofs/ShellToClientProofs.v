From Coq Require Import List NArith ZArith Bool Lia Arith.
From Verif Require Import Model.Base Model.Chunk Model.Protocol Model.Duration Model.Sentinel Model.Config Model.Restore
  Model.Pipe Model.Pager Model.Motd Model.ShellToClient Spec.OutputSpec Proofs.BaseLemmas.
Import ListNotations.
Open Scope N_scope.

(** * Chunks of a buffer *)
Lemma chunks_fuel_concat n fuel l : (0 < n)%nat -> (length l <= fuel)%nat -> concat (chunks_fuel fuel n l) = l.
Proof.
  intros Hn. revert l. induction fuel as [|fuel IH]; intros l Hl.
  - destruct l; [reflexivity|cbn in Hl; lia].
  - destruct l as [|x l]; [reflexivity|]. cbn [chunks_fuel concat]. rewrite IH.
    + apply firstn_skipn.
    + rewrite skipn_length. cbn [length] in *. lia.
Qed.

Lemma chunks_fuel_sizes n fuel l : (0 < n)%nat ->
  Forall (fun b => b <> [] /\ (length b <= n)%nat) (chunks_fuel fuel n l).
Proof.
  intros Hn. revert l. induction fuel as [|fuel IH]; intros l; [constructor|].
  destruct l as [|x l]; [constructor|]. cbn [chunks_fuel]. constructor; [|apply IH].
  split; [destruct n; [lia|discriminate]|apply firstn_le_length].
Qed.

(** All but the last are full. *)
Lemma chunks_fuel_full n fuel l : (0 < n)%nat -> (length l <= fuel)%nat ->
  forall pre b post, chunks_fuel fuel n l = pre ++ b :: post -> post <> [] -> length b = n.
Proof.
  intros Hn. revert l. induction fuel as [|fuel IH]; intros l Hl pre b post H Hp.
  - destruct pre; discriminate.
  - destruct l as [|x l]; [destruct pre; discriminate|]. cbn [chunks_fuel] in H. destruct pre as [|p pre].
    + cbn [app] in H. injection H as H1 H2. subst b.
      rewrite firstn_length. destruct (le_lt_dec n (length (x :: l))); [lia|].
      exfalso. apply Hp. rewrite <- H2. rewrite skipn_all2 by lia. destruct fuel; reflexivity.
    + cbn [app] in H. injection H as _ H. eapply IH; [|exact H|exact Hp].
      rewrite skipn_length. cbn [length] in *. lia.
Qed.

(** * Logs *)
Lemma frames_to_app id l1 l2 : frames_to id (l1 ++ l2) = frames_to id l1 ++ frames_to id l2.
Proof. apply flat_map_app. Qed.
Lemma data_of_frames_app a c : data_of_frames (a ++ c) = data_of_frames a ++ data_of_frames c.
Proof. apply flat_map_app. Qed.
Lemma data_to_app id l1 l2 : data_to id (l1 ++ l2) = data_to id l1 ++ data_to id l2.
Proof. unfold data_to. rewrite frames_to_app. apply data_of_frames_app. Qed.
Lemma frames_to_same id c a : frames_to id [mkSent id c a] = [c].
Proof. unfold frames_to. cbn. rewrite Nat.eqb_refl. reflexivity. Qed.
Lemma frames_to_other id id' c a : id' <> id -> frames_to id [mkSent id' c a] = [].
Proof. intros H. unfold frames_to. cbn. destruct (Nat.eqb_spec id' id); [contradiction|reflexivity]. Qed.

Section Proofs.
  Context {e : engines}.
  Variable b : build.
  Notation s2c := (@s2c e).

  (** * Frames of each stage *)
  Definition sends (id : nat) (cs : list chunk) (i : nat) (w : nat -> write_outcome) : list sent :=
    map (fun p => mkSent id (snd p) (wrote (w (fst p)))) (combine (seq i (length cs)) cs).

  Lemma emit_all_spec cs : forall (s : s2c) id i w,
    emit_all s id cs i w =
    {| waiting := waiting s; out_spool := out_spool s; out_gate := out_gate s; motd_due := motd_due s; client := client s;
       resize_cmd := resize_cmd s; winsize := winsize s; log := log s ++ sends id cs i w; shut := shut s; acks := acks s;
       took := took s; finished := finished s |}.
  Proof.
    induction cs as [|c cs IH]; intros s id i w; cbn [emit_all].
    - unfold sends. cbn. rewrite app_nil_r. destruct s; reflexivity.
    - rewrite IH. unfold emit. cbn [waiting out_spool out_gate motd_due client resize_cmd winsize log shut acks took finished].
      f_equal. rewrite <- app_assoc. reflexivity.
  Qed.

  Lemma frames_to_sends id cs i w : frames_to id (sends id cs i w) = cs.
  Proof.
    revert i. induction cs as [|c cs IH]; intros i; [reflexivity|].
    unfold sends. cbn [length seq combine map fst snd].
    change (frames_to id (?x :: ?l)) with (frames_to id ([x] ++ l)).
    rewrite frames_to_app, frames_to_same. cbn [app]. f_equal. apply IH.
  Qed.

  Lemma frames_to_sends_other id id' cs i w : id' <> id -> frames_to id (sends id' cs i w) = [].
  Proof.
    intros H. revert i. induction cs as [|c cs IH]; intros i; [reflexivity|].
    unfold sends. cbn [length seq combine map fst snd].
    change (frames_to id (?x :: ?l)) with (frames_to id ([x] ++ l)).
    rewrite frames_to_app, frames_to_other by assumption. apply IH.
  Qed.

  Lemma data_of_restore buf : data_of_frames (restore_frames buf) = buf.
  Proof.
    unfold restore_frames, data_of_frames. rewrite flat_map_concat_map, map_map.
    change (fun x => match c_kind (mkChunk Data x) with Data => c_buf (mkChunk Data x) | _ => [] end) with (fun x : list N => x).
    rewrite map_id. apply chunks_fuel_concat; lia.
  Qed.

  (** The select: which frames it sends. *)
  Definition sel_frames (s : s2c) (it : iter) : list sent :=
    match client s with
    | None => []
    | Some id =>
        match sel it with
        | SelConn (NewConn _ _) | SelConn Disconnect => [mkSent id (mkChunk ExitStatus (i32_bytes 0)) (wrote (w_sel it))]
        | SelConn (DisconnectExit st) => [mkSent id (mkChunk ExitStatus (i32_bytes st)) (wrote (w_sel it))]
        | SelHeartbeat => [mkSent id (mkChunk Heartbeat []) (wrote (w_sel it))]
        | SelSwitch (Some bs) => [mkSent id (mkChunk MaybeSwitch bs) (wrote (w_sel it))]
        | _ => []
        end
    end.

  Ltac crush := repeat match goal with
    | |- context [match ?x with _ => _ end] => destruct x eqn:?; cbn in *; subst; try discriminate; try congruence
    | |- context [if ?x then _ else _] => destruct x eqn:?; cbn in *; subst; try discriminate; try congruence
    end.

  Lemma select_log (s : s2c) (it : iter) : finished s = None -> log (fst (s2c_select b s it)) = log s ++ sel_frames s it.
  Proof.
    intros Hf. unfold s2c_select, sel_frames, farewell, write_exit_chunk, acknowledge.
    destruct (sel it) as [[id z| |st]| |z| | |[bs|]| |]; destruct (client s) as [old|] eqn:Ec; cbn;
      rewrite ?app_nil_r; try reflexivity;
      try (destruct (shutdown_ok it); cbn; rewrite ?Hf; cbn);
      try (destruct (add1_u16 b (rows z)), (add1_u16 b (cols z)); cbn; try destruct (oversize_ok it); cbn);
      try (destruct (w_sel it); cbn);
      try (destruct (ack_ok it); cbn; rewrite ?Hf; cbn); rewrite ?app_nil_r; reflexivity.
  Qed.

  (** The select leaves the gate, the reads and the motd flag alone. *)
  Lemma select_keeps (s : s2c) (it : iter) : finished s = None ->
    let s' := fst (s2c_select b s it) in
    out_gate s' = out_gate s /\ motd_due s' = motd_due s /\ took s' = took s /\ waiting s' = waiting s.
  Proof.
    intros Hf. unfold s2c_select, farewell, write_exit_chunk, acknowledge.
    destruct (sel it) as [[id z| |st]| |z| | |[bs|]| |]; destruct (client s) as [old|] eqn:Ec; cbn;
      try (destruct (shutdown_ok it); cbn; rewrite ?Hf; cbn);
      try (destruct (add1_u16 b (rows z)), (add1_u16 b (cols z)); cbn; try destruct (oversize_ok it); cbn);
      try (destruct (w_sel it); cbn);
      try (destruct (ack_ok it); cbn; rewrite ?Hf; cbn); auto.
  Qed.

  Definition sel_client (s : s2c) (it : iter) : option nat :=
    match sel it with
    | SelConn (NewConn id _) => Some id
    | SelConn _ => None
    | _ => client s
    end.

  Lemma select_client (s : s2c) (it : iter) : finished s = None -> finished (fst (s2c_select b s it)) = None ->
    client (fst (s2c_select b s it)) = sel_client s it.
  Proof.
    intros Hf. unfold s2c_select, sel_client, farewell, write_exit_chunk, acknowledge.
    destruct (sel it) as [[id z| |st]| |z| | |[bs|]| |]; destruct (client s) as [old|] eqn:Ec; cbn;
      try (destruct (shutdown_ok it); cbn; rewrite ?Hf; cbn);
      try (destruct (add1_u16 b (rows z)), (add1_u16 b (cols z)); cbn; try destruct (oversize_ok it); cbn);
      try (destruct (w_sel it); cbn);
      try (destruct (ack_ok it); cbn; rewrite ?Hf; cbn); try discriminate; auto.
  Qed.

  Lemma select_flow (s : s2c) (it : iter) : finished (fst (s2c_select b s it)) = None ->
    snd (s2c_select b s it) =
      match sel it with
      | SelConn (NewConn _ _) => Rest true
      | SelSwitch enc => match client s, enc with Some _, Some _ => Rest false | _, _ => Again end
      | SelSwitchClosed => Again
      | _ => Rest false
      end.
  Proof.
    unfold s2c_select, farewell, write_exit_chunk, acknowledge.
    destruct (sel it) as [[id z| |st]| |z| | |[bs|]| |]; destruct (client s) as [old|] eqn:Ec; cbn;
      try (destruct (shutdown_ok it); cbn);
      repeat match goal with |- context [match finished ?x with _ => _ end] => destruct (finished x) eqn:?; cbn end;
      try (destruct (add1_u16 b (rows z)), (add1_u16 b (cols z)); cbn; try destruct (oversize_ok it); cbn);
      try (destruct (w_sel it); cbn);
      try (destruct (ack_ok it); cbn);
      repeat match goal with |- context [match finished ?x with _ => _ end] => destruct (finished x) eqn:?; cbn end;
      try discriminate; try congruence; auto.
  Qed.

  Lemma select_spool (s : s2c) (it : iter) : finished s = None -> finished (fst (s2c_select b s it)) = None ->
    out_spool (fst (s2c_select b s it)) =
      match sel it with
      | SelConn (NewConn _ z) | SelSize z => spool_resize (conf it) (out_spool s) z
      | _ => out_spool s
      end.
  Proof.
    intros Hf. unfold s2c_select, farewell, write_exit_chunk, acknowledge.
    destruct (sel it) as [[id z| |st]| |z| | |[bs|]| |]; destruct (client s) as [old|] eqn:Ec; cbn;
      try (destruct (shutdown_ok it); cbn; rewrite ?Hf; cbn);
      try (destruct (add1_u16 b (rows z)), (add1_u16 b (cols z)); cbn; try destruct (oversize_ok it); cbn);
      try (destruct (w_sel it); cbn);
      try (destruct (ack_ok it); cbn; rewrite ?Hf; cbn); try discriminate; auto.
  Qed.

  Lemma select_sizes (s : s2c) (it : iter) : finished s = None -> finished (fst (s2c_select b s it)) = None ->
    match sel it with
    | SelConn (NewConn _ z) =>
        resize_cmd (fst (s2c_select b s it)) = Some (z, t_sel it + REATTACH_RESIZE_DELAY) /\
        exists r c, add1_u16 b (rows z) = Some r /\ add1_u16 b (cols z) = Some c /\
          winsize (fst (s2c_select b s it)) = mkSize r c (xpixel z) (ypixel z)
    | SelSize z => resize_cmd (fst (s2c_select b s it)) = Some (z, t_sel it) /\ winsize (fst (s2c_select b s it)) = winsize s
    | _ => resize_cmd (fst (s2c_select b s it)) = resize_cmd s /\ winsize (fst (s2c_select b s it)) = winsize s
    end.
  Proof.
    intros Hf. unfold s2c_select, farewell, write_exit_chunk, acknowledge.
    destruct (sel it) as [[id z| |st]| |z| | |[bs|]| |]; destruct (client s) as [old|] eqn:Ec; cbn;
      try (destruct (shutdown_ok it); cbn; rewrite ?Hf; cbn);
      try (destruct (add1_u16 b (rows z)) eqn:?, (add1_u16 b (cols z)) eqn:?; cbn; try destruct (oversize_ok it); cbn);
      try (destruct (w_sel it); cbn);
      try (destruct (ack_ok it); cbn; rewrite ?Hf; cbn); try discriminate; eauto 10.
  Qed.

  (** * The later stages *)
  Lemma resize_keeps (s : s2c) (it : iter) : let s' := s2c_resize (e := e) s it in
    log s' = log s /\ out_gate s' = out_gate s /\ motd_due s' = motd_due s /\ took s' = took s /\ client s' = client s /\
    out_spool s' = out_spool s /\ finished s' = finished s /\ waiting s' = waiting s.
  Proof. unfold s2c_resize. destruct (resize_cmd s) as [[z w]|]; cbn; [|auto 10]. destruct (w <=? t_due it); cbn; auto 10. Qed.

  (** The frames of the read. *)
  Definition read_shown (s : s2c) (it : iter) : option (list N) :=
    match poll it with
    | PollRead (Ok (x :: bs)) => match gate_read (out_gate s) (x :: bs) with Some (_, sh) => sh | None => None end
    | _ => None
    end.

  Definition motd_frames (s : s2c) (it : iter) (id : nat) : list sent :=
    if motd_due s then match dump (motd (conf it)) (cr it) (motd_text it) with
      | Dumped c => [mkSent id c (wrote (w_motd it))] | _ => [] end else [].

  Definition motd_panics (s : s2c) (it : iter) : bool :=
    motd_due s && match dump (motd (conf it)) (cr it) (motd_text it) with DumpPanicked => true | _ => false end.

  Definition poll_frames (s : s2c) (it : iter) : list sent :=
    match client s with
    | None => []
    | Some id =>
        match poll it with
        | PollHangup _ (Some st) => [mkSent id (mkChunk ExitStatus (i32_bytes st)) (wrote (w_exit it))]
        | _ =>
            match read_shown s it with
            | Some sh => motd_frames s it id ++ (if motd_panics s it then [] else [mkSent id (mkChunk Data sh) (wrote (w_data it))])
            | None => []
            end
        end
    end.

  Lemma poll_log (s : s2c) (it : iter) : finished s = None -> log (s2c_poll s it) = log s ++ poll_frames s it.
  Proof.
    intros Hf. unfold s2c_poll, poll_frames, read_shown, s2c_output, motd_frames, motd_panics, write_exit_chunk.
    destruct (poll it) as [| | |pend [st|]|[[|x bs]|[]]]; destruct (client s) as [id|] eqn:Ec; cbn;
      rewrite ?Ec; cbn; rewrite ?app_nil_r; try reflexivity.
    - destruct (gate_read (out_gate s) (x :: bs)) as [[g [sh|]]|]; cbn; rewrite ?Ec; cbn; rewrite ?app_nil_r; try reflexivity.
      destruct (motd_due s); cbn.
      + destruct (dump _ _ _); cbn; rewrite ?Hf; cbn; rewrite ?app_nil_r; try reflexivity;
          destruct (w_data it); cbn; rewrite <- ?app_assoc; reflexivity.
      + rewrite Hf. destruct (w_data it); cbn; reflexivity.
    - destruct (gate_read (out_gate s) (x :: bs)) as [[g [sh|]]|]; cbn; rewrite ?Ec; cbn; rewrite ?app_nil_r; reflexivity.
  Qed.

  (** A poll that does not end the thread. *)
  Lemma poll_ok (s : s2c) (it : iter) : finished s = None -> finished (s2c_poll s it) = None ->
    match poll it with
    | PollTimeout | PollRead (Ok []) => s2c_poll s it = s
    | PollRead (Ok bs) =>
        exists g sh, gate_read (out_gate s) bs = Some (g, sh) /\
          out_gate (s2c_poll s it) = g /\ took (s2c_poll s it) = took s ++ [bs] /\
          out_spool (s2c_poll s it) = match sh with Some x => spool_process (out_spool s) x | None => out_spool s end /\
          resize_cmd (s2c_poll s it) = resize_cmd s /\ winsize (s2c_poll s it) = winsize s /\
          waiting (s2c_poll s it) = waiting s /\
          client (s2c_poll s it) = match client s, sh with
                                   | Some id, Some _ => if wrote (w_data it) then Some id else None
                                   | c, _ => c end /\
          motd_due (s2c_poll s it) = match client s, sh with Some _, Some _ => false | _, _ => motd_due s end /\
          (forall id x, client s = Some id -> sh = Some x -> motd_panics s it = false)
    | _ => False
    end.
  Proof.
    intros Hf. unfold s2c_poll.
    destruct (poll it) as [| | |pend [st|]|[[|x bs]|[]]]; try (destruct (client s) as [id|] eqn:Ec; cbn; intros H; discriminate);
      try (cbn; intros; discriminate); try reflexivity.
    change (out_gate (with_took s (x :: bs))) with (out_gate s).
    destruct (gate_read (out_gate s) (x :: bs)) as [[g [sh|]]|]; [| |cbn; discriminate].
    - unfold s2c_output, motd_panics. destruct s as [wt sp gt md cl rc wn lg shu ak tk fi]; cbn in *. subst fi.
      destruct cl as [id|]; cbn.
      + destruct md; cbn.
        * destruct (dump _ _ _); cbn; [| |discriminate];
            (destruct (w_data it); cbn; intros _; exists g, (Some sh); repeat split; auto; discriminate).
        * destruct (w_data it); cbn; intros _; exists g, (Some sh); repeat split; auto; discriminate.
      + intros _. exists g, (Some sh). repeat split; auto; discriminate.
    - intros _. exists g, None. destruct s as [wt sp gt md cl rc wn lg shu ak tk fi]; cbn in *.
      repeat split; auto; try (destruct cl; reflexivity); discriminate.
  Qed.

  (** * A whole turn *)
  Definition sel_again (s : s2c) (it : iter) : bool :=
    match sel it with
    | SelSwitch enc => match client s, enc with Some _, Some _ => false | _, _ => true end
    | SelSwitchClosed => true
    | _ => false
    end.
  Definition is_attach (it : iter) : bool := match sel it with SelConn (NewConn _ _) => true | _ => false end.

  (** The state between select and poll. *)
  Definition mid (s : s2c) (it : iter) : s2c :=
    let s1 := s2c_resize (fst (s2c_select b s it)) it in if is_attach it then s2c_restore s1 it else s1.

  Lemma restore_keeps (s : s2c) (it : iter) : let s' := s2c_restore (e := e) s it in
    log s' = log s ++ match client s with Some id => sends id (restore_frames (spool_restore (out_spool s))) 0 (w_restore it) | None => [] end /\
    out_gate s' = out_gate s /\ motd_due s' = motd_due s /\ took s' = took s /\ client s' = client s /\
    out_spool s' = out_spool s /\ finished s' = finished s /\ waiting s' = waiting s /\ resize_cmd s' = resize_cmd s /\ winsize s' = winsize s.
  Proof.
    unfold s2c_restore. destruct (client s) eqn:Ec; [rewrite emit_all_spec; cbn; rewrite ?Ec; auto 12|].
    cbn. rewrite app_nil_r. auto 12.
  Qed.

  Lemma turn_cases (s : s2c) (it : iter) : finished s = None ->
    let s1 := fst (s2c_select b s it) in
    s2c_turn b s it =
      match finished s1 with
      | Some _ => s1
      | None => if sel_again s it then s1 else s2c_poll (mid s it) it
      end.
  Proof.
    intros Hf. cbv zeta. unfold s2c_turn. rewrite Hf.
    assert (Hfl := select_flow s it).
    destruct (s2c_select b s it) as [s1 f] eqn:Es. cbn [fst snd] in *.
    destruct (finished s1) eqn:E1; [destruct f; reflexivity|]. rewrite (Hfl eq_refl). unfold mid, sel_again, is_attach. rewrite Es. cbn [fst].
    destruct (sel it) as [[id z| |st]| |z| | |enc| |]; try reflexivity.
    destruct (client s), enc; reflexivity.
  Qed.

  Lemma mid_keeps (s : s2c) (it : iter) : finished s = None -> finished (fst (s2c_select b s it)) = None ->
    out_gate (mid s it) = out_gate s /\ motd_due (mid s it) = motd_due s /\ took (mid s it) = took s /\
    client (mid s it) = sel_client s it /\ finished (mid s it) = None /\ waiting (mid s it) = waiting s /\
    out_spool (mid s it) = match sel it with
      | SelConn (NewConn _ z) | SelSize z => spool_resize (conf it) (out_spool s) z
      | _ => out_spool s
      end /\
    log (mid s it) = log s ++ sel_frames s it ++
      match sel it with SelConn (NewConn id z) =>
        sends id (restore_frames (spool_restore (spool_resize (conf it) (out_spool s) z))) 0 (w_restore it) | _ => [] end.
  Proof.
    intros Hf H1. destruct (select_keeps s it Hf) as (A1 & A2 & A3 & A4). assert (C := select_client s it Hf H1).
    assert (L := select_log s it Hf). assert (SP := select_spool s it Hf H1).
    unfold mid. set (s1 := fst (s2c_select b s it)) in *.
    destruct (resize_keeps s1 it) as (R1 & R2 & R3 & R4 & R5 & R6 & R7 & R8).
    set (s2 := s2c_resize s1 it) in *. clearbody s2.
    destruct (restore_keeps s2 it) as (T1 & T2 & T3 & T4 & T5 & T6 & T7 & T8 & _ & _).
    unfold is_attach in *. unfold sel_client in *. clearbody s1.
    destruct (sel it) as [[id z| |st]| |z| | |enc| |];
      try (repeat split; try congruence; rewrite ?R1, ?L, ?app_nil_r, <- ?app_assoc; reflexivity).
    repeat split; try congruence.
    rewrite T1, R5, C, R6, SP, R1, L, <- app_assoc. reflexivity.
  Qed.

  (** The frames of a turn. *)
  Definition turn_frames (s : s2c) (it : iter) : list sent :=
    sel_frames s it ++
    match finished (fst (s2c_select b s it)) with
    | Some _ => []
    | None =>
        if sel_again s it then [] else
        match sel it with SelConn (NewConn id z) =>
          sends id (restore_frames (spool_restore (spool_resize (conf it) (out_spool s) z))) 0 (w_restore it) | _ => [] end ++
        poll_frames (mid s it) it
    end.

  Lemma turn_log (s : s2c) (it : iter) : finished s = None -> log (s2c_turn b s it) = log s ++ turn_frames s it.
  Proof.
    intros Hf. rewrite (turn_cases s it Hf). cbv zeta. unfold turn_frames.
    destruct (finished (fst (s2c_select b s it))) eqn:E1.
    - rewrite app_nil_r. apply select_log. exact Hf.
    - destruct (sel_again s it); [rewrite app_nil_r; apply select_log; exact Hf|].
      destruct (mid_keeps s it Hf E1) as (_ & _ & _ & _ & F & _ & _ & L).
      rewrite (poll_log _ _ F), L, <- !app_assoc. reflexivity.
  Qed.

  Lemma turn_finished_mono (s : s2c) it r : finished s = Some r -> s2c_turn b s it = s.
  Proof. intros H. unfold s2c_turn. rewrite H. reflexivity. Qed.

  Lemma turn_unfinished (s : s2c) (it : iter) : finished (s2c_turn b s it) = None ->
    finished s = None /\ finished (fst (s2c_select b s it)) = None.
  Proof.
    intros H. destruct (finished s) eqn:Hf.
    - rewrite (turn_finished_mono s it _ Hf) in H. congruence.
    - split; [reflexivity|]. rewrite (turn_cases s it Hf) in H. cbv zeta in H.
      destruct (finished (fst (s2c_select b s it))) eqn:E1; [|reflexivity]. congruence.
  Qed.

  Definition turns (s : s2c) (its : list iter) : s2c := fold_left (s2c_turn b) its s.

  Lemma turns_unfinished (s : s2c) its : finished (turns s its) = None -> finished s = None.
  Proof.
    revert s. induction its as [|it its IH]; intros s H; [exact H|]. cbn [turns fold_left] in H.
    apply IH in H. apply turn_unfinished in H. apply H.
  Qed.

  Lemma turns_snoc (s : s2c) its it : turns s (its ++ [it]) = s2c_turn b (turns s its) it.
  Proof. unfold turns. rewrite fold_left_app. reflexivity. Qed.

  Lemma first_waiting (s : s2c) m now ok : finished (s2c_first s m now ok) = None -> waiting (s2c_first (e := e) s m now ok) = false.
  Proof. unfold s2c_first, acknowledge. destruct m as [m|]; [|cbn; discriminate]. destruct ok; cbn; [auto|discriminate]. Qed.

  Lemma turn_waiting (s : s2c) (it : iter) : waiting s = false -> waiting (s2c_turn b s it) = false.
  Proof.
    intros Hw. destruct (finished s) eqn:Hf; [rewrite (turn_finished_mono s it _ Hf); exact Hw|].
    rewrite (turn_cases s it Hf). cbv zeta. destruct (select_keeps s it Hf) as (_ & _ & _ & A4).
    destruct (finished (fst (s2c_select b s it))) eqn:E1; [congruence|].
    destruct (sel_again s it); [congruence|].
    destruct (mid_keeps s it Hf E1) as (_ & _ & _ & _ & F & W & _ & _).
    assert (G : waiting (s2c_poll (mid s it) it) = waiting (mid s it)).
    { clear. generalize (mid s it). intros m. unfold s2c_poll, s2c_output.
      destruct (poll it) as [| | |p [st|]|[[|x bs]|[]]]; try reflexivity; try (destruct (client m); reflexivity).
      destruct (gate_read _ _) as [[g [sh|]]|]; try reflexivity. cbn. destruct (client m); [|reflexivity].
      destruct (motd_due m); cbn; [destruct (dump _ _ _); cbn|]; destruct (finished m); try reflexivity; destruct (w_data it); reflexivity. }
    congruence.
  Qed.

  (** The whole life of the thread as a first message and a list of turns. *)
  Lemma run_turns (s : s2c) m now ok its : waiting s = true -> finished s = None ->
    finished (s2c_first s m now ok) = None ->
    s2c_run b s (First m now ok :: map Iter its) = turns (s2c_first s m now ok) its.
  Proof.
    intros Hw Hf H. unfold s2c_run. cbn [fold_left s2c_step]. rewrite Hf, Hw.
    assert (W := first_waiting s m now ok H). revert W. generalize (s2c_first s m now ok). clear.
    induction its as [|it its IH]; intros s W; [reflexivity|].
    cbn [map fold_left s2c_step turns]. rewrite W. apply IH. apply turn_waiting. exact W.
  Qed.
End Proofs.
