(** Invariants of the output thread over whole lives. *)
From Coq Require Import List NArith ZArith Bool Lia Arith.
From Verif Require Import Model.Base Model.Chunk Model.Protocol Model.Duration Model.Sentinel Model.Config Model.Restore
  Model.Pipe Model.Pager Model.Motd Model.ShellToClient Spec.OutputSpec Proofs.BaseLemmas Proofs.ShellToClientProofs.
Import ListNotations.
Open Scope N_scope.

Lemma last_app_cons {A} (l : list A) x d : last (l ++ [x]) d = x.
Proof. apply last_last. Qed.

Lemma gate_reads_app g r1 : forall r2, gate_reads g (r1 ++ r2) =
  match gate_reads g r1 with
  | None => None
  | Some (g', o1) => match gate_reads g' r2 with None => None | Some (g'', o2) => Some (g'', o1 ++ o2) end
  end.
Proof.
  revert g. induction r1 as [|r r1 IH]; intros g r2; cbn [app gate_reads].
  - destruct (gate_reads g r2) as [[g' o]|]; reflexivity.
  - destruct (gate_read g r) as [[g1 o]|]; [|reflexivity]. rewrite IH.
    destruct (gate_reads g1 r1) as [[g2 o1]|]; [|reflexivity].
    destruct (gate_reads g2 r2) as [[g3 o2]|]; [|reflexivity]. destruct o; reflexivity.
Qed.

Lemma gate_reads_snoc g rs r g1 sh g2 o : gate_reads g rs = Some (g1, sh) -> gate_read g1 r = Some (g2, o) ->
  gate_reads g (rs ++ [r]) = Some (g2, sh ++ match o with Some x => [x] | None => [] end).
Proof. intros H1 H2. rewrite gate_reads_app, H1. cbn [gate_reads]. rewrite H2. destruct o; reflexivity. Qed.

Section Proofs.
  Context {e : engines}.
  Variable b : build.
  Notation s2c := (@s2c e).
  Notation turns := (@turns e b).

  (** * Window size *)
  Definition settled (want : tty_size) (s : s2c) : Prop :=
    match resize_cmd s with Some (z, _) => z = want | None => winsize s = want end.

  Lemma turn_settled want (s : s2c) it : settled want s -> finished (s2c_turn b s it) = None ->
    settled (last (iter_size it) want) (s2c_turn b s it).
  Proof.
    intros H Hu. destruct (turn_unfinished b s it Hu) as [Hf H1]. assert (S := select_sizes b s it Hf H1).
    rewrite (turn_cases b s it Hf) in *. cbv zeta in *. rewrite H1 in *.
    assert (M : settled (last (iter_size it) want) (fst (s2c_select b s it))).
    { unfold settled, iter_size in *. destruct (sel it) as [[id z| |st]| |z| | |enc| |]; cbn [last];
        destruct S as [S1 S2]; rewrite S1; try reflexivity; try (destruct (resize_cmd s) as [[? ?]|]; congruence). }
    destruct (sel_again s it); [exact M|].
    assert (M2 : settled (last (iter_size it) want) (mid b s it)).
    { unfold mid. assert (R : settled (last (iter_size it) want) (s2c_resize (fst (s2c_select b s it)) it)).
      { unfold s2c_resize, settled in *. destruct (resize_cmd (fst (s2c_select b s it))) as [[z w]|] eqn:E.
        - destruct (w <=? t_due it); cbn [resize_cmd with_resize with_winsize winsize]; [exact M|rewrite E; exact M].
        - rewrite E. exact M. }
      destruct (is_attach it); [|exact R].
      destruct (restore_keeps (s2c_resize (fst (s2c_select b s it)) it) it) as (_ & _ & _ & _ & _ & _ & _ & _ & A & B).
      unfold settled in *. rewrite A, B. exact R. }
    destruct (mid_keeps b s it Hf H1) as (_ & _ & _ & _ & F & _).
    assert (P := poll_ok (mid b s it) it F Hu).
    destruct (poll it) as [| | |p x|[[|y bs]|[]]]; try contradiction; try (rewrite P; exact M2).
    destruct P as (g & sh & _ & _ & _ & _ & A & B & _). unfold settled in *. rewrite A, B. exact M2.
  Qed.

  Lemma last_app_default {A} (l1 l2 : list A) d : last (l1 ++ l2) d = last l2 (last l1 d).
  Proof.
    revert d. induction l2 as [|x l2 IH] using rev_ind; intros d; [rewrite app_nil_r; reflexivity|].
    rewrite app_assoc, !last_last. reflexivity.
  Qed.

  Lemma turns_settled want (s : s2c) its : settled want s -> finished (turns s its) = None ->
    settled (last (flat_map iter_size its) want) (turns s its).
  Proof.
    intros H. induction its as [|it its IH] using rev_ind; intros Hu; [exact H|].
    rewrite turns_snoc in *. rewrite flat_map_app, last_app_default. cbn [flat_map]. rewrite app_nil_r.
    apply turn_settled; [|exact Hu]. apply IH. apply turn_unfinished in Hu. apply Hu.
  Qed.

  (** A due resize is carried out. *)
  Lemma turn_executes (s : s2c) it z w : resize_cmd s = Some (z, w) -> iter_size it = [] -> sel_again s it = false ->
    w <= t_due it -> finished (s2c_turn b s it) = None ->
    resize_cmd (s2c_turn b s it) = None /\ winsize (s2c_turn b s it) = z.
  Proof.
    intros H Hi Ha Hd Hu. destruct (turn_unfinished b s it Hu) as [Hf H1]. assert (S := select_sizes b s it Hf H1).
    rewrite (turn_cases b s it Hf) in *. cbv zeta in *. rewrite H1, Ha in *.
    assert (S' : resize_cmd (fst (s2c_select b s it)) = Some (z, w) /\ is_attach it = false).
    { unfold iter_size, is_attach in *. destruct (sel it) as [[id zz| |st]| |zz| | |enc| |]; try discriminate; destruct S; split; congruence. }
    destruct S' as [S1 S2].
    assert (M : resize_cmd (mid b s it) = None /\ winsize (mid b s it) = z).
    { unfold mid. rewrite S2. unfold s2c_resize. rewrite S1. destruct (N.leb_spec w (t_due it)); [|lia]. cbn. auto. }
    destruct (mid_keeps b s it Hf H1) as (_ & _ & _ & _ & F & _).
    assert (P := poll_ok (mid b s it) it F Hu).
    destruct (poll it) as [| | |p x|[[|y bs]|[]]]; try contradiction; try (rewrite P; exact M).
    destruct P as (g & sh & _ & _ & _ & _ & A & B & _). rewrite A, B. exact M.
  Qed.

  (** * Output *)

  (** Between attaching (reads [took0], gate [g0], log data [R]) and now. *)
  Record attached_since (id : nat) (g0 : gate) (took0 : list (list N)) (due0 : bool) (R : list N) (motds : list (list N)) (s : s2c) : Prop := {
    as_body : exists reads shown k m,
      took s = took0 ++ reads /\ gate_reads g0 reads = Some (out_gate s, shown) /\
      data_to id (log s) = R ++ m ++ concat (firstn k shown) /\
      (client s = Some id -> (length shown <= k)%nat) /\
      (m = [] \/ (due0 = true /\ In m motds)) /\
      (client s = Some id -> motd_due s = true -> shown = [] /\ m = []);
    as_due : motd_due s = true -> due0 = true
  }.

  Lemma data_to_sel_frames id (s : s2c) it : data_to id (sel_frames s it) = [].
  Proof.
    unfold sel_frames, data_to, frames_to. destruct (client s) as [i|]; [|reflexivity].
    destruct (sel it) as [[id' z| |st]| |z| | |[bs|]| |]; cbn; try destruct (Nat.eqb i id); reflexivity.
  Qed.

  Lemma dump_data mode c m ch : dump mode c m = Dumped ch -> c_kind ch = Data.
  Proof.
    unfold dump. destruct (motd_mode_of mode); try discriminate. destruct m; [|discriminate].
    destruct (convert_to_raw c a); [|discriminate]. intros H. injection H as <-. reflexivity.
  Qed.

  Lemma poll_frames_other id (s : s2c) it : client s <> Some id -> frames_to id (poll_frames s it) = [].
  Proof.
    intros Hc. unfold poll_frames. destruct (client s) as [i|]; [|reflexivity].
    assert (Hi : i <> id) by congruence.
    destruct (poll it) as [| | |p [st|]|r]; try (apply frames_to_other; exact Hi);
      try (destruct (read_shown s it) as [sh|]; [|reflexivity]; rewrite frames_to_app;
           unfold motd_frames; destruct (motd_due s); [destruct (dump _ _ _)|]; destruct (motd_panics s it);
           rewrite ?frames_to_other by exact Hi; reflexivity).
  Qed.

  (** Select frames go to the client held before. *)
  Lemma sel_frames_other id (s : s2c) it : client s <> Some id -> frames_to id (sel_frames s it) = [].
  Proof.
    intros Hc. unfold sel_frames. destruct (client s) as [i|]; [|reflexivity]. assert (Hi : i <> id) by congruence.
    destruct (sel it) as [[id' z| |st]| |z| | |[bs|]| |]; try reflexivity; apply frames_to_other; exact Hi.
  Qed.

  (** The poll stage of a turn. *)
  Lemma poll_attached id g0 took0 due0 R motds (s : s2c) it :
    attached_since id g0 took0 due0 R motds s -> finished s = None -> finished (s2c_poll s it) = None ->
    attached_since id g0 took0 due0 R (motds ++ iter_motd it) (s2c_poll s it).
  Proof.
    intros [(reads & shown & k & m & H1 & H2 & H3 & H4 & H5 & H6) Hd] Hf Hu.
    assert (H5' : m = [] \/ due0 = true /\ In m (motds ++ iter_motd it)).
    { destruct H5 as [H5|[H5 H5']]; [left; exact H5|right; split; [exact H5|apply in_or_app; left; exact H5']]. }
    assert (L := poll_log s it Hf). assert (P := poll_ok s it Hf Hu).
    destruct (poll it) as [| | |p x|[[|y bs]|[]]] eqn:Ep; try contradiction.
    - rewrite P. split; [|exact Hd]. exists reads, shown, k, m. repeat split; auto. destruct (H6 H H0); auto. destruct (H6 H H0); auto.
    - rewrite P. split; [|exact Hd]. exists reads, shown, k, m. repeat split; auto. destruct (H6 H H0); auto. destruct (H6 H H0); auto.
    - destruct P as (g & sh & Hg & P1 & P2 & _ & _ & _ & _ & P3 & P4 & P5).
      split; [|rewrite P4; destruct (client s), sh; auto; discriminate].
      assert (G := gate_reads_snoc _ _ _ _ _ _ _ H2 Hg).
      destruct (client s) as [i|] eqn:Ec; [destruct (Nat.eq_dec i id) as [->|Hi]|].
      + (* our client is attached *)
        assert (Hk := H4 eq_refl).
        destruct sh as [sh|].
        * assert (P5' := P5 id sh eq_refl eq_refl).
          assert (RS : read_shown s it = Some sh) by (unfold read_shown; rewrite Ep, Hg; reflexivity).
          unfold poll_frames in L. rewrite Ec, Ep, RS, P5' in L.
          assert (D : data_to id (log (s2c_poll s it)) = data_to id (log s) ++
            (if motd_due s then match dump (motd (conf it)) (cr it) (motd_text it) with Dumped c => c_buf c | _ => [] end else []) ++ sh).
          { rewrite L, !data_to_app. unfold motd_frames. f_equal. f_equal.
            - destruct (motd_due s); [|reflexivity]. destruct (dump _ _ _) eqn:Ed; try reflexivity.
              unfold data_to. rewrite frames_to_same. cbn. rewrite (dump_data _ _ _ _ Ed). apply app_nil_r.
            - unfold data_to. rewrite frames_to_same. cbn. apply app_nil_r. }
          destruct (motd_due s) eqn:Em.
          -- destruct (H6 eq_refl eq_refl) as [-> ->]. cbn [firstn concat length app] in *. rewrite firstn_nil in H3. cbn in H3.
             rewrite app_nil_r in H3.
             exists (reads ++ [y :: bs]), [sh], 1%nat, (match dump (motd (conf it)) (cr it) (motd_text it) with Dumped c => c_buf c | _ => [] end).
             split; [rewrite P2, H1, app_assoc; reflexivity|]. split; [rewrite P1; exact G|].
             split; [rewrite D, H3; cbn; rewrite app_nil_r; reflexivity|].
             split; [intros _; cbn; lia|]. split.
             { destruct (dump _ _ _) eqn:Ed; auto. right. split; [apply Hd; reflexivity|]. apply in_or_app. right. unfold iter_motd. rewrite Ed. left. reflexivity. }
             intros _ Hm. rewrite P4 in Hm. discriminate.
          -- exists (reads ++ [y :: bs]), (shown ++ [sh]), (length (shown ++ [sh])), m.
             split; [rewrite P2, H1, app_assoc; reflexivity|]. split; [rewrite P1; exact G|].
             split.
             { rewrite D, H3. cbn [app]. rewrite firstn_all. rewrite firstn_all2 by lia. rewrite concat_app. cbn. rewrite app_nil_r, <- !app_assoc. reflexivity. }
             split; [intros _; lia|]. split; [exact H5'|]. intros _ Hm. rewrite P4 in Hm. discriminate.
        * assert (RS : read_shown s it = None) by (unfold read_shown; rewrite Ep, Hg; reflexivity).
          unfold poll_frames in L. rewrite Ec, Ep, RS, app_nil_r in L. rewrite app_nil_r in G.
          exists (reads ++ [y :: bs]), shown, k, m.
          split; [rewrite P2, H1, app_assoc; reflexivity|]. split; [rewrite P1; exact G|].
          split; [rewrite L; exact H3|]. split; [intros _; exact Hk|]. split; [exact H5'|].
          intros _ Hm. rewrite P4 in Hm. apply H6; auto.
      + (* another client *)
        assert (F : frames_to id (poll_frames s it) = []) by (apply poll_frames_other; congruence).
        assert (Hc' : client (s2c_poll s it) <> Some id).
        { rewrite P3. destruct sh; [destruct (wrote (w_data it))|]; congruence. }
        exists (reads ++ [y :: bs]), (shown ++ match sh with Some x => [x] | None => [] end), (Nat.min k (length shown)), m.
        split; [rewrite P2, H1, app_assoc; reflexivity|]. split; [rewrite P1; exact G|].
        split.
        { rewrite L, data_to_app, H3. unfold data_to at 1. rewrite F. cbn. rewrite app_nil_r.
          rewrite firstn_app. replace (Nat.min k (length shown) - length shown)%nat with 0%nat by lia.
          cbn [firstn]. rewrite app_nil_r. f_equal. f_equal. f_equal.
          destruct (le_lt_dec k (length shown)); [rewrite Nat.min_l by lia; reflexivity|].
          rewrite Nat.min_r by lia. rewrite firstn_all2 by lia. rewrite firstn_all. reflexivity. }
        split; [contradiction|]. split; [exact H5'|]. contradiction.
      + (* no client *)
        assert (F : poll_frames s it = []) by (unfold poll_frames; rewrite Ec; reflexivity).
        assert (Hc' : client (s2c_poll s it) = None) by (rewrite P3; reflexivity).
        exists (reads ++ [y :: bs]), (shown ++ match sh with Some x => [x] | None => [] end), (Nat.min k (length shown)), m.
        split; [rewrite P2, H1, app_assoc; reflexivity|]. split; [rewrite P1; exact G|].
        split.
        { rewrite L, F, app_nil_r, H3.
          rewrite firstn_app. replace (Nat.min k (length shown) - length shown)%nat with 0%nat by lia.
          cbn [firstn]. rewrite app_nil_r. f_equal. f_equal. f_equal.
          destruct (le_lt_dec k (length shown)); [rewrite Nat.min_l by lia; reflexivity|].
          rewrite Nat.min_r by lia. rewrite firstn_all2 by lia. rewrite firstn_all. reflexivity. }
        split; [congruence|]. split; [exact H5'|]. congruence.
  Qed.

  Lemma attached_transport id g0 took0 due0 R motds motds' (s s' : s2c) :
    attached_since id g0 took0 due0 R motds s ->
    took s' = took s -> out_gate s' = out_gate s -> motd_due s' = motd_due s ->
    data_to id (log s') = data_to id (log s) -> (client s' = Some id -> client s = Some id) ->
    (forall m, In m motds -> In m motds') ->
    attached_since id g0 took0 due0 R motds' s'.
  Proof.
    intros [(reads & shown & k & m & H1 & H2 & H3 & H4 & H5 & H6) Hd] E1 E2 E3 E4 E5 E6.
    split; [|rewrite E3; exact Hd]. exists reads, shown, k, m. rewrite E1, E2, E4. split; [exact H1|]. split; [exact H2|].
    split; [exact H3|]. split; [auto|]. split.
    - destruct H5 as [->|[H5 H5']]; [left; reflexivity|right; auto].
    - intros Hc Hm. apply H6; [auto|congruence].
  Qed.

  (** A turn that does not hand the connection over again. *)
  Lemma turn_attached id g0 took0 due0 R motds (s : s2c) it :
    attached_since id g0 took0 due0 R motds s -> ~ In id (iter_conn it) -> finished (s2c_turn b s it) = None ->
    attached_since id g0 took0 due0 R (motds ++ iter_motd it) (s2c_turn b s it).
  Proof.
    intros H Hn Hu. destruct (turn_unfinished b s it Hu) as [Hf H1].
    destruct (select_keeps b s it Hf) as (A1 & A2 & A3 & _). assert (C := select_client b s it Hf H1).
    assert (L := select_log b s it Hf).
    assert (Cc : sel_client s it = Some id -> client s = Some id).
    { unfold sel_client, iter_conn in *. destruct (sel it) as [[i z| |st]| |z| | |enc| |]; try discriminate; auto.
      intros Hi. injection Hi as ->. exfalso. apply Hn. left. reflexivity. }
    rewrite (turn_cases b s it Hf) in *. cbv zeta in *. rewrite H1 in *.
    destruct (sel_again s it).
    - eapply attached_transport; [exact H|congruence|congruence|congruence| | |intros; apply in_or_app; auto].
      + rewrite L, data_to_app, data_to_sel_frames, app_nil_r. reflexivity.
      + rewrite C. exact Cc.
    - destruct (mid_keeps b s it Hf H1) as (M1 & M2 & M3 & M4 & M5 & _ & _ & M8).
      apply poll_attached; [|exact M5|exact Hu].
      eapply attached_transport; [exact H|congruence|congruence|congruence| | |auto].
      + rewrite M8, !data_to_app, data_to_sel_frames, app_nil_l.
        match goal with |- _ ++ data_to id ?l = _ => assert (Z : data_to id l = []) end; [|rewrite Z, app_nil_r; reflexivity].
        destruct (sel it) as [[i z| |st]| |z| | |enc| |] eqn:Es; try reflexivity.
        unfold data_to. rewrite frames_to_sends_other; [reflexivity|]. intros ->. apply Hn. unfold iter_conn. rewrite Es. left. reflexivity.
      + rewrite M4. exact Cc.
  Qed.

  Lemma turns_attached id g0 took0 due0 R motds (s : s2c) its :
    attached_since id g0 took0 due0 R motds s -> ~ In id (flat_map iter_conn its) -> finished (turns s its) = None ->
    attached_since id g0 took0 due0 R (motds ++ flat_map iter_motd its) (turns s its).
  Proof.
    intros H. induction its as [|it its IH] using rev_ind; intros Hn Hu.
    - cbn. rewrite app_nil_r. exact H.
    - rewrite turns_snoc in *. rewrite flat_map_app in *. cbn [flat_map] in *. rewrite app_nil_r in *. rewrite app_assoc.
      apply turn_attached; [|intros Hi; apply Hn; apply in_or_app; auto|exact Hu].
      apply IH; [intros Hi; apply Hn; apply in_or_app; auto|]. apply turn_unfinished in Hu. apply Hu.
  Qed.

  (** The attaching turn. *)
  Lemma attach_turn id z (s : s2c) it : sel it = SelConn (NewConn id z) -> frames_to id (log s) = [] -> client s <> Some id ->
    finished (s2c_turn b s it) = None ->
    attached_since id (out_gate s) (took s) (motd_due s) (spool_restore (spool_resize (conf it) (out_spool s) z))
      (iter_motd it) (s2c_turn b s it).
  Proof.
    intros Es Hfr Hc Hu. destruct (turn_unfinished b s it Hu) as [Hf H1].
    rewrite (turn_cases b s it Hf) in *. cbv zeta in *. rewrite H1 in *.
    assert (Ha : sel_again s it = false) by (unfold sel_again; rewrite Es; reflexivity). rewrite Ha in *.
    destruct (mid_keeps b s it Hf H1) as (M1 & M2 & M3 & M4 & M5 & _ & _ & M8). rewrite Es in M8.
    change (iter_motd it) with ([] ++ iter_motd it). apply poll_attached; [|exact M5|exact Hu].
    split; [|congruence]. exists [], [], 0%nat, []. rewrite app_nil_r. split; [exact M3|]. split; [cbn; rewrite M1; reflexivity|].
    split.
    - rewrite M8, !data_to_app, data_to_sel_frames. unfold data_to at 1. rewrite Hfr. unfold data_to. rewrite frames_to_sends, data_of_restore.
      cbn. rewrite app_nil_r. reflexivity.
    - split; [auto|]. split; [left; reflexivity|]. auto.
  Qed.

  (** * Scrollback *)
  Lemma turns_spool (s : s2c) its : finished (turns s its) = None ->
    exists ops reads shown, out_spool (turns s its) = fold_left spool_apply ops (out_spool s) /\
      took (turns s its) = took s ++ reads /\ gate_reads (out_gate s) reads = Some (out_gate (turns s its), shown) /\
      fed ops = shown /\ resized ops = flat_map iter_size its.
  Proof.
    induction its as [|it its IH] using rev_ind; intros Hu.
    - exists [], [], []. cbn. rewrite app_nil_r. auto.
    - rewrite turns_snoc in *. destruct (turn_unfinished b (turns s its) it Hu) as [Hf H1].
      destruct (IH Hf) as (ops & reads & shown & I1 & I2 & I3 & I4 & I5).
      rewrite flat_map_app. cbn [flat_map]. rewrite app_nil_r.
      set (t := turns s its) in *. clearbody t.
      destruct (select_keeps b t it Hf) as (A1 & A2 & A3 & _).
      assert (SP := select_spool b t it Hf H1).
      rewrite (turn_cases b t it Hf) in *. cbv zeta in *. rewrite H1 in *.
      set (sop := match sel it with SelConn (NewConn _ z) | SelSize z => [OpResize (conf it) z] | _ => [] end).
      assert (Sr : resized sop = iter_size it /\ fed sop = [] /\
        (match sel it with SelConn (NewConn _ z) | SelSize z => spool_resize (conf it) (out_spool t) z | _ => out_spool t end) =
        fold_left spool_apply sop (out_spool t)).
      { unfold sop, iter_size. destruct (sel it) as [[i z| |st]| |z| | |enc| |]; auto. }
      destruct Sr as (S1 & S2 & S3). clearbody sop.
      assert (App : forall l1 l2, fed (l1 ++ l2) = fed l1 ++ fed l2 /\ resized (l1 ++ l2) = resized l1 ++ resized l2)
        by (intros; split; apply flat_map_app).
      destruct (sel_again t it) eqn:Ea.
      + exists (ops ++ sop), reads, shown. rewrite fold_left_app, <- I1, <- S3.
        split; [exact SP|]. split; [congruence|]. split; [congruence|]. destruct (App ops sop) as [-> ->].
        rewrite S1, S2, I4, I5, app_nil_r. auto.
      + destruct (mid_keeps b t it Hf H1) as (M1 & _ & M3 & _ & M5 & _ & M7 & _). rewrite S3 in M7.
        assert (P := poll_ok (mid b t it) it M5 Hu).
        destruct (poll it) as [| | |p x|[[|y bs]|[]]]; try contradiction.
        1,2: rewrite P; exists (ops ++ sop), reads, shown; rewrite fold_left_app, <- I1; split; [exact M7|];
             split; [congruence|]; split; [congruence|]; destruct (App ops sop) as [-> ->]; rewrite S1, S2, I4, I5, app_nil_r; auto.
        destruct P as (g & sh & Hg & P1 & P2 & P3 & _). rewrite M1 in Hg.
        assert (G := gate_reads_snoc _ _ _ _ _ _ _ I3 Hg).
        exists (ops ++ sop ++ match sh with Some x => [OpFeed x] | None => [] end), (reads ++ [y :: bs]), (shown ++ match sh with Some x => [x] | None => [] end).
        rewrite !fold_left_app, <- I1. split; [rewrite P3, M7; destruct sh; reflexivity|].
        split; [rewrite P2, M3, I2, app_assoc; reflexivity|]. split; [rewrite P1; exact G|].
        destruct (App ops (sop ++ match sh with Some x => [OpFeed x] | None => [] end)) as [-> ->].
        destruct (App sop (match sh with Some x => [OpFeed x] | None => [] end)) as [-> ->].
        rewrite S1, S2, I4, I5. destruct sh; cbn; rewrite ?app_nil_r; auto.
  Qed.
End Proofs.
