(** One turn of the output thread. *)
From Coq Require Import List NArith ZArith Bool Arith Lia.
From Verif Require Import Model.Base Model.Chunk Model.Protocol Model.Duration Model.Config Model.Restore Model.Pager Model.Motd Model.Trie Model.Sentinel Model.ShellToClient
  Spec.OutputSpec Spec.TurnSpec Spec.SentinelSpec Proofs.SentinelProofs Proofs.ShellToClientProofs Proofs.FrameProofs.
Import ListNotations.
Open Scope N_scope.

Definition gate_ok (g : gate) : Prop :=
  g_seen g = true \/ exists cur, scanning PROMPT_SENTINEL (g_scanner g) cur /\ sc_matches (g_scanner g) = 0.

Lemma gate_read_ok g bs : gate_ok g -> Forall (fun x => x < 256) bs -> exists g' sh, gate_read g bs = Some (g', sh) /\ gate_ok g'.
Proof.
  intros G B. unfold gate_read. destruct (g_seen g) eqn:E; [exists g, (Some bs); split; [reflexivity|left; exact E]|].
  destruct G as [G|(cur & Hs & Hm)]; [congruence|].
  destruct (gate_scan_spec PROMPT_SENTINEL bs B (g_scanner g) cur [] Hs Hm) as [s' Hg]. cbn [app length] in Hg.
  destruct (find PROMPT_SENTINEL cur bs) as [rest|cur'].
  - rewrite Hg. eexists _, _. split; [reflexivity|]. left. reflexivity.
  - destruct Hg as (Hg & H1 & H2). rewrite Hg. eexists _, _. split; [reflexivity|]. right. exists cur'. auto.
Qed.

Section Proofs.
  Context {e : engines}.
  Variable b : build.
  Notation s2c := (@s2c e).
  Notation att s := (there (client s)).

  Lemma add1_some n : add1_u16 b n = None <-> b = Debug /\ 65535 <= n.
  Proof.
    unfold add1_u16. destruct (N.ltb_spec (n + 1) 65536); [split; [discriminate|lia]|].
    destruct b; split; intros H'; try discriminate; try (destruct H'; discriminate); [split; [reflexivity|lia]|reflexivity].
  Qed.

  Lemma size_fits_iff z : size_fits b z <-> exists r c, add1_u16 b (rows z) = Some r /\ add1_u16 b (cols z) = Some c.
  Proof.
    unfold size_fits. pose proof (add1_some (rows z)) as A. pose proof (add1_some (cols z)) as B.
    destruct (add1_u16 b (rows z)) as [r|], (add1_u16 b (cols z)) as [c|]; split; intros H; try (destruct H as (r' & c' & X & Y); discriminate).
    - eauto.
    - intros Hb. split; [destruct (N.lt_ge_cases (rows z) 65535); [assumption|] | destruct (N.lt_ge_cases (cols z) 65535); [assumption|]].
      + destruct A as [_ A]. specialize (A (conj Hb H0)). discriminate.
      + destruct B as [_ B]. specialize (B (conj Hb H0)). discriminate.
    - exfalso. destruct B as [B _]. destruct (B eq_refl) as [Hb B']. specialize (H Hb). lia.
    - exfalso. destruct A as [A _]. destruct (A eq_refl) as [Hb A']. specialize (H Hb). lia.
    - exfalso. destruct A as [A _]. destruct (A eq_refl) as [Hb A']. specialize (H Hb). lia.
  Qed.

  Definition isS {A} (o : option A) : bool := match o with Some _ => true | None => false end.
  Lemma size_fits_bool z : size_fits b z <-> isS (add1_u16 b (rows z)) && isS (add1_u16 b (cols z)) = true.
  Proof.
    rewrite size_fits_iff. split.
    - intros (r & c & -> & ->). reflexivity.
    - destruct (add1_u16 b (rows z)) as [r|], (add1_u16 b (cols z)) as [c|]; cbn; try discriminate. eauto.
  Qed.

  Definition sel_end (s : s2c) (it : iter) : option s2c_end :=
    let sh := negb (there (client s)) || shutdown_ok it in
    let a := if ack_ok it then None else Some EndErr in
    match sel it with
    | SelConn (NewConn _ z) =>
        if sh then if isS (add1_u16 b (rows z)) && isS (add1_u16 b (cols z)) then if oversize_ok it then a else Some EndErr else Some EndPanic
        else Some EndErr
    | SelConn Disconnect => if sh then a else Some EndErr
    | SelConn (DisconnectExit _) => if sh && ack_ok it then Some EndOk else Some EndErr
    | SelConnClosed | SelSizeClosed => Some EndOk
    | SelSize _ => a
    | SelHeartbeat => if there (client s) && match w_sel it with WriteErr => true | _ => false end then Some EndErr else a
    | SelSwitch (Some _) => if there (client s) && match w_sel it with WriteErr => true | _ => false end then Some EndErr else None
    | SelSwitch None | SelSwitchClosed | SelNothing => None
    end.

  Lemma select_fin (s : s2c) it : finished s = None -> finished (fst (s2c_select b s it)) = sel_end s it.
  Proof.
    intros Hf. unfold s2c_select, sel_end, farewell, write_exit_chunk, acknowledge.
    destruct (sel it) as [[id z| |st]| |z| | |[bs|]| |]; destruct (client s) as [old|] eqn:Ec; cbn;
      try (destruct (shutdown_ok it); cbn; rewrite ?Hf; cbn);
      try (destruct (add1_u16 b (rows z)), (add1_u16 b (cols z)); cbn; try destruct (oversize_ok it); cbn);
      try (destruct (w_sel it); cbn);
      try (destruct (ack_ok it); cbn; rewrite ?Hf; cbn); auto.
  Qed.

  Lemma closes_bool a it : closes a it <-> negb a || shutdown_ok it = true.
  Proof. unfold closes. destruct a, (shutdown_ok it); cbn; split; auto; discriminate. Qed.
  Lemma werr_bool a it : (a = true -> w_sel it <> WriteErr) <-> a && match w_sel it with WriteErr => true | _ => false end = false.
  Proof. destruct a, (w_sel it); cbn; split; intros H; auto; try discriminate; try (intros; discriminate); exfalso; apply H; reflexivity. Qed.

  Lemma request_works_iff (s : s2c) it : request_works b (there (client s)) it <-> sel_end s it = None.
  Proof.
    unfold request_works, sel_end.
    destruct (sel it) as [[id z| |st]| |z| | |[bs|]| |]; rewrite ?closes_bool, ?size_fits_bool, ?werr_bool;
      try (destruct (negb _ || _)); try (destruct (isS _ && isS _)); try (destruct (_ && match w_sel it with _ => _ end));
      try (destruct (oversize_ok it)); try (destruct (ack_ok it)); cbn; intuition (try discriminate; auto).
  Qed.

  (** Acknowledgements and closed sockets of the request. *)
  Lemma select_acks (s : s2c) it : finished s = None ->
    acks (fst (s2c_select b s it)) = acks s ++
      match sel_end s it with None => answer (there (client s)) it
      | Some _ => match sel it with SelConn (DisconnectExit _) => if (negb (there (client s)) || shutdown_ok it) && ack_ok it then answer (there (client s)) it else [] | _ => [] end end.
  Proof.
    intros Hf. unfold s2c_select, sel_end, answer, farewell, write_exit_chunk, acknowledge.
    destruct (sel it) as [[id z| |st]| |z| | |[bs|]| |]; destruct (client s) as [old|] eqn:Ec; cbn;
      try (destruct (shutdown_ok it); cbn; rewrite ?Hf; cbn);
      try (destruct (add1_u16 b (rows z)), (add1_u16 b (cols z)); cbn; try destruct (oversize_ok it); cbn);
      try (destruct (w_sel it); cbn);
      try (destruct (ack_ok it); cbn; rewrite ?Hf; cbn); rewrite ?app_nil_r; auto.
  Qed.

  Lemma select_shut (s : s2c) it : finished s = None ->
    shut (fst (s2c_select b s it)) = closed_by (client s) it ++ shut s.
  Proof.
    intros Hf. unfold s2c_select, closed_by, farewell, write_exit_chunk, acknowledge.
    destruct (sel it) as [[id z| |st]| |z| | |[bs|]| |]; destruct (client s) as [old|] eqn:Ec; cbn;
      try (destruct (shutdown_ok it); cbn; rewrite ?Hf; cbn);
      try (destruct (add1_u16 b (rows z)), (add1_u16 b (cols z)); cbn; try destruct (oversize_ok it); cbn);
      try (destruct (w_sel it); cbn);
      try (destruct (ack_ok it); cbn; rewrite ?Hf; cbn); auto.
  Qed.

  (** The rest of the turn neither answers nor closes. *)
  Lemma poll_acks (s : s2c) it : acks (s2c_poll s it) = acks s /\ shut (s2c_poll s it) = shut s.
  Proof.
    unfold s2c_poll, s2c_output, write_exit_chunk.
    destruct (poll it) as [| | |p [st|]|[[|x bs]|[]]]; auto; try (destruct (client s); auto; fail).
    destruct (gate_read _ _) as [[g [sh|]]|]; auto. cbn. destruct (client s); auto.
    destruct (motd_due s); cbn; [destruct (dump _ _ _); cbn|]; destruct (finished s); auto; destruct (w_data it); auto.
  Qed.
  Lemma mid_acks (s : s2c) it : acks (mid b s it) = acks (fst (s2c_select b s it)) /\ shut (mid b s it) = shut (fst (s2c_select b s it)).
  Proof.
    unfold mid. generalize (fst (s2c_select b s it)). intros m.
    assert (R : acks (s2c_resize m it) = acks m /\ shut (s2c_resize m it) = shut m).
    { unfold s2c_resize. destruct (resize_cmd m) as [[z w]|]; auto. destruct (w <=? t_due it); auto. }
    destruct (is_attach it); [|exact R]. rewrite <- (proj1 R), <- (proj2 R). generalize (s2c_resize m it). intros m2.
    unfold s2c_restore. destruct (client m2); auto. rewrite emit_all_spec. auto.
  Qed.

  Lemma turn_acks (s : s2c) it : finished s = None ->
    acks (s2c_turn b s it) = acks (fst (s2c_select b s it)) /\ shut (s2c_turn b s it) = shut (fst (s2c_select b s it)).
  Proof.
    intros Hf. rewrite (turn_cases b s it Hf). cbv zeta.
    destruct (finished (fst (s2c_select b s it))); auto. destruct (sel_again s it); auto.
    destruct (poll_acks (mid b s it) it) as [-> ->]. apply mid_acks.
  Qed.

  Lemma looks_iff (s : s2c) it : looks (there (client s)) it <-> sel_again s it = false.
  Proof.
    unfold looks, sel_again. destruct (sel it) as [[id z| |st]| |z| | |[bs|]| |]; try (split; [reflexivity|auto]; fail);
      destruct (client s); cbn; intuition (try discriminate; try congruence).
  Qed.

  (** How the look at the pty leaves the thread. *)
  Lemma poll_fin (s : s2c) it : finished s = None -> gate_ok (out_gate s) -> byte_turn it -> still_dump (motd_due s) it ->
    finished (s2c_poll s it) =
      match poll it with
      | PollTimeout | PollRead (Ok _) => None
      | PollHangup _ _ => Some EndOk
      | _ => Some EndErr
      end.
  Proof.
    intros Hf G B M. unfold s2c_poll, s2c_output, write_exit_chunk, byte_turn in *.
    destruct (poll it) as [| | |p [st|]|[[|x bs]|[]]]; auto; try (destruct (client s); reflexivity).
    destruct (gate_read_ok (out_gate s) (x :: bs) G (B _ eq_refl)) as (g & sh & E & _). cbn [out_gate with_took]. rewrite E.
    destruct sh as [sh|]; [|exact Hf]. cbn. destruct (client s); [|exact Hf].
    unfold still_dump in M. destruct (motd_due s); cbn.
    - assert (P : dump (motd (conf it)) (cr it) (motd_text it) <> DumpPanicked)
        by (rewrite (M eq_refl); unfold dump; destruct (motd_text it), (cr it); discriminate).
      destruct (dump (motd (conf it)) (cr it) (motd_text it)); [| |congruence]; cbn; rewrite Hf; destruct (w_data it); exact Hf.
    - rewrite Hf. destruct (w_data it); exact Hf.
  Qed.

  Lemma gate_ok_turn (s : s2c) it : gate_ok (out_gate s) -> byte_turn it -> finished (s2c_turn b s it) = None -> gate_ok (out_gate (s2c_turn b s it)).
  Proof.
    intros G B H. destruct (turn_unfinished b s it H) as [Hf H1]. rewrite (turn_cases b s it Hf) in *. cbv zeta in *. rewrite H1 in *.
    destruct (select_keeps b s it Hf) as (K & _). destruct (sel_again s it); [rewrite K; exact G|].
    destruct (mid_keeps b s it Hf H1) as (M & _ & _ & _ & F & _). assert (P := poll_ok (mid b s it) it F H). unfold byte_turn in B.
    destruct (poll it) as [| | |p [st|]|[[|x bs]|[]]]; try contradiction; try (rewrite P, M; exact G).
    destruct P as (g & sh & P1 & P2 & _). rewrite P2.
    destruct (gate_read_ok (out_gate s) (x :: bs) G (B _ eq_refl)) as (g' & sh' & E & Hg). rewrite M, E in P1. injection P1 as -> _. exact Hg.
  Qed.

  Lemma gate_ok_turns (s : s2c) its : gate_ok (out_gate s) -> Forall byte_turn its -> finished (turns b s its) = None -> gate_ok (out_gate (turns b s its)).
  Proof.
    induction its as [|it its IH] using rev_ind; intros G B H; [exact G|]. rewrite turns_snoc in *.
    apply Forall_app in B as [B1 B2]. inversion B2; subst. apply gate_ok_turn; auto. apply IH; auto. apply (turn_unfinished b _ it H).
  Qed.

  Lemma gate_ok_first (s : s2c) m now ok sup : gate_new sup = Some (out_gate s) -> gate_ok (out_gate (s2c_first s m now ok)).
  Proof.
    intros H. assert (E : out_gate (s2c_first s m now ok) = out_gate s).
    { unfold s2c_first, acknowledge. destruct m; [|reflexivity]. destruct ok; reflexivity. }
    rewrite E. unfold gate_new in H.
    destruct (scanner_new_spec PROMPT_SENTINEL) as (sc & E1 & E2 & E3); [vm_compute; repeat constructor|].
    rewrite E1 in H. injection H as <-. right. exists []. auto.
  Qed.

  (** How a turn leaves the thread. *)
  Lemma turn_fin (s : s2c) it : finished s = None -> gate_ok (out_gate s) -> byte_turn it -> still_dump (motd_due s) it ->
    finished (s2c_turn b s it) =
      match sel_end s it with
      | Some r => Some r
      | None => if sel_again s it then None else
          match poll it with PollTimeout | PollRead (Ok _) => None | PollHangup _ _ => Some EndOk | _ => Some EndErr end
      end.
  Proof.
    intros Hf G B M. rewrite (turn_cases b s it Hf). cbv zeta. assert (S := select_fin s it Hf). rewrite S.
    destruct (sel_end s it) eqn:E; [exact S|]. destruct (sel_again s it); [exact S|].
    destruct (mid_keeps b s it Hf S) as (M1 & M2 & _ & _ & F & _). apply poll_fin; auto; [rewrite M1; exact G|]. rewrite M2. exact M.
  Qed.

  Lemma goes_on_iff (s : s2c) it :
    (match sel_end s it with
      | Some r => Some r
      | None => if sel_again s it then None else
          match poll it with PollTimeout | PollRead (Ok _) => None | PollHangup _ _ => Some EndOk | _ => Some EndErr end
      end) = None <-> request_works b (there (client s)) it /\ (looks (there (client s)) it -> pty_works it).
  Proof.
  rewrite request_works_iff, looks_iff. unfold pty_works.
  destruct (sel_end s it); [split; [discriminate|intros [X _]; discriminate]|].
  destruct (sel_again s it); [split; [split; [reflexivity|discriminate]|reflexivity]|].
  destruct (poll it) as [| | |p x|[bs|[]]]; split; try discriminate; try (split; auto); intros [_ X]; exfalso; exact (X eq_refl).
  Qed.

  Lemma ends_well_iff (s : s2c) it :
    (match sel_end s it with
      | Some r => Some r
      | None => if sel_again s it then None else
          match poll it with PollTimeout | PollRead (Ok _) => None | PollHangup _ _ => Some EndOk | _ => Some EndErr end
      end) = Some EndOk <-> ends_well b (there (client s)) it.
  Proof.
    assert (R := request_works_iff s it). assert (L := looks_iff s it). unfold ends_well.
  assert (P : forall X, X = (None : option s2c_end) -> sel_again s it = false -> 
    (match poll it with PollTimeout | PollRead (Ok _) => None | PollHangup _ _ => Some EndOk | _ => Some EndErr end = Some EndOk <->
     X = None /\ sel_again s it = false /\ exists p x, poll it = PollHangup p x)).
  { intros X HX HA. destruct (poll it) as [| | |p x|[bs|[]]]; split; try discriminate; eauto 6; intros (_ & _ & q & y & H); discriminate. }
  destruct (sel it) as [[id z| |st]| |z| | |enc| |] eqn:Es.
  3: { unfold sel_end. rewrite Es, closes_bool. destruct (negb _ || _), (ack_ok it); cbn; split; auto; try discriminate; intros [X Y]; discriminate. }
  3,5: unfold sel_end; rewrite Es; split; auto.
  all: rewrite R, L; destruct (sel_end s it) as [r|] eqn:Er;
    [ assert (r <> EndOk) by (unfold sel_end in Er; rewrite Es in Er; revert Er;
        repeat match goal with |- context [if ?x then _ else _] => destruct x | |- context [match ?x with None => _ | Some _ => _ end] => destruct x end;
        intros Er; inversion Er; discriminate); split; [intros X; injection X as X; contradiction|intros [X _]; discriminate]
    | destruct (sel_again s it) eqn:Ea; [split; [discriminate|intros (_ & X & _); discriminate]|apply P; reflexivity] ].
  Qed.

  Lemma answered_iff (s : s2c) it (l : list ack) :
    let l' := l ++ match sel_end s it with None => answer (there (client s)) it
      | Some _ => match sel it with SelConn (DisconnectExit _) => if (negb (there (client s)) || shutdown_ok it) && ack_ok it then answer (there (client s)) it else [] | _ => [] end end in
    (answered b (there (client s)) it -> l' = l ++ answer (there (client s)) it) /\ (~ answered b (there (client s)) it -> l' = l).
  Proof.
    cbv zeta. unfold answered.
  assert (R := request_works_iff s it).
  destruct (sel it) as [[id z| |st]| |z| | |enc| |] eqn:Es;
    try (rewrite R; destruct (sel_end s it); split; intros H; try discriminate; try reflexivity; try (exfalso; apply H; reflexivity); rewrite app_nil_r; reflexivity).
  rewrite closes_bool. unfold sel_end. rewrite Es.
  destruct (negb _ || _), (ack_ok it); cbn; rewrite ?app_nil_r; split; intros H; try reflexivity; try (destruct H; discriminate); exfalso; apply H; auto.
  Qed.

  (** What the gate shows of a read. *)
  Definition shown_by (g : gate) (bs : list N) : option (list N) :=
    match gate_read g bs with Some (_, sh) => sh | None => None end.

  Lemma dump_panics_iff mode cr t : dump mode cr t = DumpPanicked <-> mode <> Some MotdDump.
  Proof.
    unfold dump, motd_mode_of. destruct mode as [[| |]|]; split; try reflexivity; try discriminate; try congruence;
      destruct t; try discriminate; destruct (convert_to_raw cr a); discriminate.
  Qed.

  Lemma poll_panics (s : s2c) it : finished s = None -> gate_ok (out_gate s) -> byte_turn it ->
    finished (s2c_poll s it) = Some EndPanic <->
    client s <> None /\ motd_due s = true /\ motd (conf it) <> Some MotdDump /\ shows (shown_by (out_gate s)) it.
  Proof.
    intros Hf G B. unfold s2c_poll, s2c_output, write_exit_chunk, byte_turn, shows, shown_by in *.
    destruct (poll it) as [| | |p [st|]|[[|x bs]|[]]] eqn:Ep;
      try (split; [|intros (_ & _ & _ & bs' & sh & X & Y & _); try discriminate Y; injection Y as <-; contradiction];
           try (destruct (client s)); cbn; rewrite ?Hf; discriminate).
    destruct (gate_read_ok (out_gate s) (x :: bs) G (B _ eq_refl)) as (g & sh & E & _). cbn [out_gate with_took]. rewrite E.
    destruct sh as [sh|]; cbn.
    2: { rewrite Hf. split; [discriminate|]. intros (_ & _ & _ & bs' & sh & _ & Y & Z). injection Y as <-. rewrite E in Z. discriminate. }
    destruct (client s) as [id|]; cbn; [|rewrite Hf; split; [discriminate|intros [X _]; contradiction]].
    destruct (motd_due s); cbn.
    - pose proof (dump_panics_iff (motd (conf it)) (cr it) (motd_text it)) as P.
      destruct (dump (motd (conf it)) (cr it) (motd_text it)); cbn; rewrite ?Hf.
      + split; [destruct (w_data it); cbn; rewrite ?Hf; discriminate|]. intros (_ & _ & M & _). apply P in M. discriminate.
      + split; [destruct (w_data it); cbn; rewrite ?Hf; discriminate|]. intros (_ & _ & M & _). apply P in M. discriminate.
      + split; [|reflexivity]. intros _. split; [discriminate|]. split; [reflexivity|]. split; [apply P; reflexivity|].
        exists (x :: bs), sh. split; [discriminate|]. split; [reflexivity|]. rewrite E. reflexivity.
    - rewrite Hf. split; [destruct (w_data it); cbn; rewrite ?Hf; discriminate|intros (_ & X & _); discriminate].
  Qed.

  Lemma turn_panics (s : s2c) it : finished s = None -> gate_ok (out_gate s) -> byte_turn it ->
    finished (s2c_turn b s it) = Some EndPanic <-> panics b (motd_due s) (client s) (shown_by (out_gate s)) it.
  Proof.
    intros Hf G B. rewrite (turn_cases b s it Hf). cbv zeta. assert (S := select_fin s it Hf). unfold panics.
    rewrite request_works_iff, looks_iff.
    assert (A : sel_end s it = Some EndPanic <-> match sel it with SelConn (NewConn _ z) => closes (there (client s)) it /\ ~ size_fits b z | _ => False end).
    { unfold sel_end. destruct (sel it) as [[id z| |st]| |z| | |[bs|]| |]; rewrite ?closes_bool, ?size_fits_bool;
        try (destruct (negb _ || _)); try (destruct (isS _ && isS _)); try (destruct (_ && match w_sel it with _ => _ end));
        try (destruct (oversize_ok it)); try (destruct (ack_ok it)); cbn; intuition (try discriminate; auto). }
    rewrite <- A, S. destruct (sel_end s it) as [r|] eqn:E.
    - rewrite S. split; [auto|]. intros [H|[H _]]; [exact H|discriminate].
    - destruct (sel_again s it) eqn:Ea.
      + rewrite S. split; [discriminate|]. intros [H|(_ & H & _)]; discriminate.
      + destruct (mid_keeps b s it Hf S) as (M1 & M2 & _ & M4 & M5 & _).
        rewrite (poll_panics (mid b s it) it M5) by (rewrite ?M1; assumption). rewrite M1, M2, M4. change (sel_client s it) with (next_client (client s) it).
        split; [intros H; right; repeat split; tauto|]. intros [H|H]; [discriminate|tauto].
  Qed.
End Proofs.
