(** Which frames the output thread ever hands to which connection. *)
From Coq Require Import List NArith ZArith Bool Lia Arith.
From Verif Require Import Model.Base Model.Chunk Model.Protocol Model.Duration Model.Sentinel Model.Config Model.Restore
  Model.Pipe Model.Pager Model.Motd Model.ShellToClient Spec.OutputSpec Spec.Wire
  Proofs.BaseLemmas Proofs.ChunkProofs Proofs.ShellToClientProofs Proofs.OutputProofs.
Import ListNotations.
Open Scope N_scope.

Definition is_exit (c : chunk) : Prop := c_kind c = ExitStatus.
Definition no_exit (cs : list chunk) : Prop := Forall (fun c => ~ is_exit c) cs.

Lemma no_exit_last cs : no_exit cs -> exit_only_last cs.
Proof.
  intros H pre x post -> Hx. exfalso. apply Forall_app in H. destruct H as [_ H]. apply Forall_inv in H. exact (H Hx).
Qed.

Lemma exit_only_last_snoc cs c : no_exit cs -> exit_only_last (cs ++ [c]).
Proof.
  intros H pre x post E Hx. destruct post as [|y post] using rev_ind; [reflexivity|]. exfalso.
  rewrite app_comm_cons, app_assoc in E. apply app_inj_tail in E. destruct E as [E _]. subst cs.
  apply Forall_app in H. destruct H as [_ H]. apply Forall_inv in H. exact (H Hx).
Qed.

Lemma no_exit_app a c : no_exit a -> no_exit c -> no_exit (a ++ c).
Proof. intros. apply Forall_app. auto. Qed.

Lemma gate_scan_length s : forall orig i buf seen s' buf' seen',
  gate_scan s i orig buf seen = Some (s', buf', seen') -> (length buf' <= length buf)%nat.
Proof.
  intros orig. revert s. induction orig as [|x orig IH]; intros s i buf seen s' buf' seen' H; cbn [gate_scan] in H.
  - injection H as <- <- <-. lia.
  - destruct (scanner_step s x) as [[s1 []]|]; [| |discriminate].
    + destruct (length buf <? i + 1)%nat; [discriminate|]. apply IH in H. rewrite skipn_length in H. lia.
    + apply IH in H. exact H.
Qed.

Lemma gate_read_length g r g' sh : gate_read g r = Some (g', Some sh) -> (length sh <= length r)%nat.
Proof.
  unfold gate_read. destruct (g_seen g).
  - intros H. injection H as <- <-. lia.
  - destruct (gate_scan _ _ _ _ _) as [[[s' buf] []]|] eqn:E; try discriminate.
    intros H. injection H as <- <-. apply gate_scan_length in E. exact E.
Qed.

Lemma i32_bytes_length z : length (i32_bytes z) = 4%nat.
Proof. reflexivity. Qed.

Section Proofs.
  Context {e : engines}.
  Variable b : build.
  Notation s2c := (@s2c e).
  Notation turns := (@turns e b).

  (** * Exit frames *)
  Record exits_ok (used : list nat) (s : s2c) : Prop := {
    ex_last : forall id, exit_only_last (frames_to id (log s));
    ex_client : finished s = None -> forall id, client s = Some id -> no_exit (frames_to id (log s)) /\ In id used;
    ex_fresh : forall id, ~ In id used -> frames_to id (log s) = []
  }.

  Lemma sel_frames_cases (s : s2c) it id : client s = Some id ->
    (exists c w, sel_frames s it = [mkSent id c w]) \/ sel_frames s it = [].
  Proof.
    intros Hc. unfold sel_frames. rewrite Hc. destruct (sel it) as [[i z| |st]| |z| | |[bs|]| |]; eauto.
  Qed.

  (** After a select that sent an exit frame the connection is no longer the client, or the thread is over. *)
  Lemma sel_frames_exit (s : s2c) it id : client s = Some id -> ~ no_exit (frames_to id (sel_frames s it)) ->
    match sel it with SelConn _ => True | _ => False end.
  Proof.
    intros Hc H. unfold sel_frames in H. rewrite Hc in H. destruct (sel it) as [[i z| |st]| |z| | |[bs|]| |]; try exact I; exfalso; apply H;
      try constructor; rewrite ?frames_to_same; (constructor; [intros X; discriminate|constructor]).
  Qed.

  Lemma sel_frames_not_conn (s : s2c) it id : match sel it with SelConn _ => False | _ => True end ->
    no_exit (frames_to id (sel_frames s it)).
  Proof.
    intros H. unfold sel_frames. destruct (client s) as [i|]; [|constructor].
    destruct (sel it) as [[i' z| |st]| |z| | |[bs|]| |]; try contradiction; try constructor;
      (destruct (Nat.eq_dec i id) as [->|Hi]; [rewrite frames_to_same|rewrite frames_to_other by exact Hi];
       repeat constructor; intros X; discriminate).
  Qed.

  Lemma motd_frames_no_exit (s : s2c) it id id' : no_exit (frames_to id (motd_frames s it id')).
  Proof.
    unfold motd_frames. destruct (motd_due s); [|constructor]. destruct (dump _ _ _) eqn:Ed; try constructor.
    destruct (Nat.eq_dec id' id) as [->|Hi]; [rewrite frames_to_same|rewrite frames_to_other by exact Hi; constructor].
    constructor; [|constructor]. unfold is_exit. rewrite (dump_data _ _ _ _ Ed). discriminate.
  Qed.

  (** Only a hangup makes the poll stage send an exit frame, and then the thread is over. *)
  Lemma poll_frames_exit (s : s2c) it id : finished s = None ->
    no_exit (frames_to id (poll_frames s it)) \/
    (exists p st, poll it = PollHangup p (Some st) /\ client s = Some id /\
       frames_to id (poll_frames s it) = [mkChunk ExitStatus (i32_bytes st)] /\ finished (s2c_poll s it) <> None).
  Proof.
    intros Hf. unfold poll_frames. destruct (client s) as [i|] eqn:Ec; [|left; constructor].
    destruct (Nat.eq_dec i id) as [->|Hi].
    - destruct (poll it) as [| | |p [st|]|r] eqn:Ep; try (left; unfold read_shown; rewrite Ep; constructor).
      + right. exists p, st. rewrite frames_to_same. repeat split. unfold s2c_poll. rewrite Ep, Ec. cbn. discriminate.
      + left. destruct (read_shown s it); [|constructor]. rewrite frames_to_app. apply no_exit_app; [apply motd_frames_no_exit|].
        destruct (motd_panics s it); [constructor|]. rewrite frames_to_same. constructor; [intros X; discriminate|constructor].
    - left. destruct (poll it) as [| | |p [st|]|r] eqn:Ep; try (unfold read_shown; rewrite Ep; constructor).
      + rewrite frames_to_other by exact Hi. constructor.
      + destruct (read_shown s it); [|constructor]. rewrite frames_to_app. apply no_exit_app; [apply motd_frames_no_exit|].
        destruct (motd_panics s it); [constructor|]. rewrite frames_to_other by exact Hi. constructor.
  Qed.

  Lemma sends_no_exit id id' buf i w : no_exit (frames_to id (sends id' (restore_frames buf) i w)).
  Proof.
    destruct (Nat.eq_dec id' id) as [->|Hi]; [|rewrite frames_to_sends_other by exact Hi; constructor].
    rewrite frames_to_sends. apply Forall_forall. intros c Hc. unfold restore_frames in Hc. apply in_map_iff in Hc.
    destruct Hc as (x & <- & _). intros X. discriminate.
  Qed.

  Lemma poll_client_some (s : s2c) it id : finished s = None -> finished (s2c_poll s it) = None ->
    client (s2c_poll s it) = Some id -> client s = Some id.
  Proof.
    intros Hf Hu. assert (P := poll_ok s it Hf Hu).
    destruct (poll it) as [| | |p x|[[|y bs]|[]]]; try contradiction; try (rewrite P; auto).
    destruct P as (g & sh & _ & _ & _ & _ & _ & _ & _ & P & _). rewrite P. destruct (client s), sh; auto.
    destruct (wrote (w_data it)); [auto|discriminate].
  Qed.

  Lemma turn_exits used (s : s2c) it : exits_ok used s -> (forall id, In id (iter_conn it) -> ~ In id used) ->
    exits_ok (used ++ iter_conn it) (s2c_turn b s it).
  Proof.
    intros [H1 H2 H3] Hn. destruct (finished s) eqn:Hf.
    { rewrite (turn_finished_mono b s it _ Hf). split; [exact H1|congruence|].
      intros id Hi. apply H3. intros X. apply Hi. apply in_or_app. auto. }
    specialize (H2 eq_refl).
    assert (L := turn_log b s it Hf). unfold turn_frames in L.
    assert (T := turn_cases b s it Hf). cbv zeta in T.
    (* after the select *)
    assert (Q1 : forall id, exit_only_last (frames_to id (log s ++ sel_frames s it))).
    { intros id. rewrite frames_to_app. destruct (client s) as [i|] eqn:Ec.
      - destruct (Nat.eq_dec i id) as [->|Hi].
        + destruct (H2 id eq_refl) as [N _]. destruct (sel_frames_cases s it id Ec) as [(c & w & ->) | ->].
          * rewrite frames_to_same. apply exit_only_last_snoc. exact N.
          * rewrite app_nil_r. apply H1.
        + rewrite sel_frames_other by congruence. rewrite app_nil_r. apply H1.
      - rewrite sel_frames_other by congruence. rewrite app_nil_r. apply H1. }
    assert (Q3 : forall id, ~ In id used -> frames_to id (log s ++ sel_frames s it) = []).
    { intros id Hi. rewrite frames_to_app, (H3 id Hi). cbn. apply sel_frames_other. intros Hc. apply Hi. apply H2. exact Hc. }
    assert (Q2 : finished (fst (s2c_select b s it)) = None -> forall id, sel_client s it = Some id ->
                 no_exit (frames_to id (log s ++ sel_frames s it)) /\ In id (used ++ iter_conn it)).
    { intros H id Hc. unfold sel_client in Hc. destruct (sel it) as [[i z| |st]| |z| | |enc| |] eqn:Es; try discriminate;
        try (rewrite frames_to_app; split; [apply no_exit_app; [apply H2; exact Hc|apply sel_frames_not_conn; rewrite Es; exact I]
             |apply in_or_app; left; apply H2; exact Hc]).
      injection Hc as ->. assert (Hi : ~ In id used) by (apply Hn; unfold iter_conn; rewrite Es; left; reflexivity).
      rewrite (Q3 id Hi). split; [constructor|]. apply in_or_app. right. unfold iter_conn. rewrite Es. left. reflexivity. }
    destruct (finished (fst (s2c_select b s it))) eqn:E1.
    { rewrite T. split.
      - intros id. rewrite (select_log b s it Hf). apply Q1.
      - congruence.
      - intros id Hi. rewrite (select_log b s it Hf). apply Q3. intros X. apply Hi. apply in_or_app. auto. }
    assert (C := select_client b s it Hf E1).
    destruct (sel_again s it) eqn:Ea.
    { rewrite T. split.
      - intros id. rewrite (select_log b s it Hf). apply Q1.
      - intros _ id. rewrite C, (select_log b s it Hf). apply Q2. reflexivity.
      - intros id Hi. rewrite (select_log b s it Hf). apply Q3. intros X. apply Hi. apply in_or_app. auto. }
    destruct (mid_keeps b s it Hf E1) as (_ & _ & _ & M4 & M5 & _ & _ & M8).
    (* the middle *)
    assert (K1 : forall id, exit_only_last (frames_to id (log (mid b s it)))).
    { intros id. rewrite M8, app_assoc, frames_to_app. destruct (sel it) as [[i z| |st]| |z| | |enc| |] eqn:Es;
        try (rewrite app_nil_r; apply Q1).
      destruct (Nat.eq_dec i id) as [->|Hi].
      - rewrite (Q3 id); [|apply Hn; unfold iter_conn; rewrite Es; left; reflexivity]. apply no_exit_last. apply sends_no_exit.
      - rewrite frames_to_sends_other by exact Hi. rewrite app_nil_r. apply Q1. }
    assert (K2 : forall id, client (mid b s it) = Some id -> no_exit (frames_to id (log (mid b s it))) /\ In id (used ++ iter_conn it)).
    { intros id Hc. rewrite M4 in Hc. destruct (Q2 eq_refl id Hc) as [A B]. split; [|exact B].
      rewrite M8, app_assoc, frames_to_app. apply no_exit_app; [exact A|].
      destruct (sel it) as [[i z| |st]| |z| | |enc| |]; try constructor. apply sends_no_exit. }
    assert (K3 : forall id, ~ In id (used ++ iter_conn it) -> frames_to id (log (mid b s it)) = []).
    { intros id Hi. rewrite M8, app_assoc, frames_to_app, Q3; [|intros X; apply Hi; apply in_or_app; auto].
      destruct (sel it) as [[i z| |st]| |z| | |enc| |] eqn:Es; try reflexivity. cbn [app].
      apply frames_to_sends_other. intros ->. apply Hi. apply in_or_app. right. unfold iter_conn. rewrite Es. left. reflexivity. }
    rewrite T. assert (PL := poll_log (mid b s it) it M5). split.
    - intros id. rewrite PL, frames_to_app. destruct (poll_frames_exit (mid b s it) it id M5) as [N|(p & st & _ & Hc & -> & _)].
      + destruct (client (mid b s it)) as [i|] eqn:Ec; [destruct (Nat.eq_dec i id) as [->|Hi]|].
        * apply no_exit_last. apply no_exit_app; [apply K2; reflexivity|exact N].
        * rewrite poll_frames_other by congruence. rewrite app_nil_r. apply K1.
        * rewrite poll_frames_other by congruence. rewrite app_nil_r. apply K1.
      + apply exit_only_last_snoc. apply K2. exact Hc.
    - intros Hu id Hc. apply (poll_client_some _ _ _ M5 Hu) in Hc. destruct (K2 id Hc) as [A B]. split; [|exact B].
      rewrite PL, frames_to_app. apply no_exit_app; [exact A|].
      destruct (poll_frames_exit (mid b s it) it id M5) as [N|(p & st & _ & _ & _ & Hx)]; [exact N|congruence].
    - intros id Hi. rewrite PL, frames_to_app, (K3 id Hi). cbn. apply poll_frames_other. intros Hc. apply Hi. apply K2. exact Hc.
  Qed.

  Lemma turns_exits used (s : s2c) its : exits_ok used s -> NoDup (flat_map iter_conn its) ->
    (forall id, In id (flat_map iter_conn its) -> ~ In id used) -> exits_ok (used ++ flat_map iter_conn its) (turns s its).
  Proof.
    intros H. induction its as [|it its IH] using rev_ind; intros Hd Hn.
    - cbn. rewrite app_nil_r. exact H.
    - rewrite turns_snoc. rewrite flat_map_app in *. cbn [flat_map] in *. rewrite app_nil_r in *. rewrite app_assoc.
      assert (D : NoDup (flat_map iter_conn its) /\ forall x, In x (iter_conn it) -> ~ In x (flat_map iter_conn its)).
      { clear - Hd. revert Hd. generalize (flat_map iter_conn its), (iter_conn it). intros l. induction l as [|a l IH]; intros m Hd.
        - split; [constructor|auto].
        - inversion Hd as [|? ? A B]; subst. destruct (IH m B) as [C D]. split.
          + constructor; [intros X; apply A; apply in_or_app; auto|exact C].
          + intros x Hx [-> | Y]; [apply A; apply in_or_app; auto|exact (D x Hx Y)]. }
      destruct D as [D1 D2].
      apply turn_exits.
      + apply IH; [exact D1|]. intros id Hi. apply Hn. apply in_or_app. auto.
      + intros id Hi X. apply in_app_or in X. destruct X as [X|X]; [apply (Hn id); [apply in_or_app; auto|exact X]|exact (D2 id Hi X)].
  Qed.

  (** Where exit frames come from. *)
  Lemma turn_exit_cause (s : s2c) it x : finished s = None -> In x (turn_frames b s it) -> is_exit (what x) ->
    exists st, c_buf (what x) = i32_bytes st /\
      ((st = 0%Z /\ exists i z, sel it = SelConn (NewConn i z)) \/ (st = 0%Z /\ sel it = SelConn Disconnect) \/
       sel it = SelConn (DisconnectExit st) \/ (exists p, poll it = PollHangup p (Some st))).
  Proof.
    intros Hf Hx He. unfold turn_frames in Hx. apply in_app_or in Hx. destruct Hx as [Hx|Hx].
    - unfold sel_frames in Hx. destruct (client s); [|contradiction].
      destruct (sel it) as [[i z| |st]| |z| | |[bs|]| |]; try contradiction; destruct Hx as [<-|[]]; cbn in He; try discriminate He; cbn.
      + exists 0%Z. split; [reflexivity|]. left. eauto.
      + exists 0%Z. split; [reflexivity|]. auto.
      + exists st. auto.
    - destruct (finished (fst (s2c_select b s it))); [contradiction|]. destruct (sel_again s it); [contradiction|].
      apply in_app_or in Hx. destruct Hx as [Hx|Hx].
      + destruct (sel it) as [[i z| |st]| |z| | |enc| |]; try contradiction.
        assert (N := sends_no_exit i i (spool_restore (spool_resize (conf it) (out_spool s) z)) 0 (w_restore it)).
        exfalso. unfold no_exit in N. rewrite Forall_forall in N. apply (N (what x)); [|exact He].
        unfold sends in Hx. apply in_map_iff in Hx. destruct Hx as ((j & c) & <- & Hc). cbn.
        rewrite frames_to_sends. apply in_combine_r in Hc. exact Hc.
      + unfold poll_frames in Hx. destruct (client (mid b s it)) as [i|]; [|contradiction].
        destruct (poll it) as [| | |p [st|]|r] eqn:Ep; try (unfold read_shown in Hx; rewrite Ep in Hx; contradiction).
        * destruct Hx as [<-|[]]. exists st. split; [reflexivity|]. right. right. right. eauto.
        * exfalso. destruct (read_shown (mid b s it) it); [|contradiction]. apply in_app_or in Hx. destruct Hx as [Hx|Hx].
          -- unfold motd_frames in Hx. destruct (motd_due _); [|contradiction]. destruct (dump _ _ _) eqn:Ed; try contradiction.
             destruct Hx as [<-|[]]. unfold is_exit in He. cbn in He. rewrite (dump_data _ _ _ _ Ed) in He. discriminate.
          -- destruct (motd_panics _ _); [contradiction|]. destruct Hx as [<-|[]]. discriminate He.
  Qed.

  Lemma turns_exit_cause (s : s2c) its x : In x (log (turns s its)) -> is_exit (what x) ->
    In x (log s) \/ exists st, c_buf (what x) = i32_bytes st /\ exit_cause its st.
  Proof.
    intros Hx He. revert Hx. induction its as [|it its IH] using rev_ind; intros Hx; [auto|].
    rewrite turns_snoc in Hx.
    assert (G : In x (log (turns s its)) -> In x (log s) \/ (exists st, c_buf (what x) = i32_bytes st /\ exit_cause (its ++ [it]) st)).
    { intros H. destruct (IH H) as [H'|(st & E & it' & H1 & H2)]; [auto|]. right. exists st. split; [exact E|]. exists it'.
      split; [apply in_or_app; auto|exact H2]. }
    destruct (finished (turns s its)) eqn:Hf.
    - rewrite (turn_finished_mono b _ it _ Hf) in Hx. auto.
    - rewrite (turn_log b _ it Hf) in Hx. apply in_app_or in Hx. destruct Hx as [Hx|Hx]; [auto|].
      destruct (turn_exit_cause _ _ _ Hf Hx He) as (st & E & H). right. exists st. split; [exact E|]. exists it.
      split; [apply in_or_app; right; left; reflexivity|exact H].
  Qed.

  (** * Sizes of frames *)
  Definition fits (c : chunk) : Prop := representable c /\ size c <= BUF_SIZE.

  Lemma fits_data k bs : k <> ExitStatus -> len bs <= BUF_SIZE -> fits (mkChunk k bs).
  Proof.
    intros Hk Hl. unfold fits, representable, size, BUF_SIZE. cbn [c_kind c_buf]. split; [split|].
    - contradiction.
    - unfold len, BUF_SIZE in Hl. change (2 ^ 32) with 4294967296. lia.
    - exact Hl.
  Qed.

  Lemma fits_exit st : fits (mkChunk ExitStatus (i32_bytes st)).
  Proof. unfold fits, representable, size, BUF_SIZE. cbn [c_kind c_buf]. rewrite i32_bytes_length. split; [split|]; cbn; auto; lia. Qed.

  Lemma turn_fits (s : s2c) it x : small_turn it -> In x (turn_frames b s it) -> fits (what x).
  Proof.
    intros (S1 & S2 & S3) Hx. unfold turn_frames in Hx. apply in_app_or in Hx. destruct Hx as [Hx|Hx].
    - unfold sel_frames in Hx. destruct (client s); [|contradiction].
      destruct (sel it) as [[i z| |st]| |z| | |[bs|]| |]; try contradiction; destruct Hx as [<-|[]]; cbn [what].
      1,2,3: apply fits_exit. 1: apply fits_data; [discriminate|unfold len, BUF_SIZE; cbn; lia]. apply fits_data; [discriminate|]. apply S1. reflexivity.
    - destruct (finished (fst (s2c_select b s it))); [contradiction|]. destruct (sel_again s it); [contradiction|].
      apply in_app_or in Hx. destruct Hx as [Hx|Hx].
      + destruct (sel it) as [[i z| |st]| |z| | |enc| |]; try contradiction.
        unfold sends in Hx. apply in_map_iff in Hx. destruct Hx as ((j & c) & <- & Hc). cbn [what fst snd].
        apply in_combine_r in Hc. unfold restore_frames in Hc. apply in_map_iff in Hc. destruct Hc as (bs & <- & Hb).
        apply fits_data; [discriminate|]. unfold chunks in Hb.
        assert (F := chunks_fuel_sizes (N.to_nat 16384) (length (spool_restore (spool_resize (conf it) (out_spool s) z)))
                       (spool_restore (spool_resize (conf it) (out_spool s) z)) ltac:(lia)).
        rewrite Forall_forall in F. specialize (F bs Hb). unfold len, BUF_SIZE. lia.
      + unfold poll_frames in Hx. destruct (client (mid b s it)) as [i|]; [|contradiction].
        destruct (poll it) as [| | |p [st|]|r] eqn:Ep; try (unfold read_shown in Hx; rewrite Ep in Hx; contradiction).
        * destruct Hx as [<-|[]]. apply fits_exit.
        * destruct (read_shown (mid b s it) it) as [sh|] eqn:Er; [|contradiction]. apply in_app_or in Hx. destruct Hx as [Hx|Hx].
          -- unfold motd_frames in Hx. destruct (motd_due _); [|contradiction]. destruct (dump _ _ _) eqn:Ed; try contradiction.
             destruct Hx as [<-|[]]. cbn [what]. unfold dump in Ed. destruct (motd_mode_of _); try discriminate.
             destruct (motd_text it) as [m|] eqn:Em; [|discriminate]. destruct (convert_to_raw (cr it) m) as [raw|] eqn:Ec; [|discriminate].
             injection Ed as <-. apply fits_data; [discriminate|]. eapply S3; [reflexivity|exact Ec].
          -- destruct (motd_panics _ _); [contradiction|]. destruct Hx as [<-|[]]. cbn [what]. apply fits_data; [discriminate|].
             unfold read_shown in Er. rewrite Ep in Er. destruct r as [[|y bs]|]; try discriminate.
             destruct (gate_read (out_gate (mid b s it)) (y :: bs)) as [[g sh']|] eqn:Eg; [|discriminate]. subst sh'.
             apply gate_read_length in Eg. specialize (S2 _ eq_refl). unfold len in *. lia.
  Qed.

  Lemma turns_fits (s : s2c) its x : Forall small_turn its -> In x (log (turns s its)) -> In x (log s) \/ fits (what x).
  Proof.
    intros Hs. induction its as [|it its IH] using rev_ind; intros Hx; [auto|].
    apply Forall_app in Hs. destruct Hs as [Hs Hi]. apply Forall_inv in Hi. rewrite turns_snoc in Hx.
    destruct (finished (turns s its)) eqn:Hf.
    - rewrite (turn_finished_mono b _ it _ Hf) in Hx. auto.
    - rewrite (turn_log b _ it Hf) in Hx. apply in_app_or in Hx. destruct Hx as [Hx|Hx]; [auto|]. right. eapply turn_fits; eassumption.
  Qed.

  (** * Whole lives *)
  Lemma first_log (s : s2c) m now ok : log (s2c_first s m now ok) = log s.
  Proof. unfold s2c_first, acknowledge. destruct m as [m|]; [|reflexivity]. destruct ok; reflexivity. Qed.

  Lemma life_turns (s : s2c) m now ok its : waiting s = true -> finished s = None ->
    s2c_run b s (First m now ok :: map Iter its) = turns (s2c_first s m now ok) its.
  Proof.
    intros Hw Hf. destruct (finished (s2c_first s m now ok)) eqn:E; [|apply run_turns; assumption].
    unfold s2c_run. cbn [fold_left s2c_step]. rewrite Hf, Hw. revert E. generalize (s2c_first s m now ok). clear. intros s E.
    assert (A : turns s its = s).
    { unfold ShellToClientProofs.turns. induction its as [|it its IH]; [reflexivity|]. cbn. rewrite (turn_finished_mono b s it _ E). exact IH. }
    rewrite A. clear A. induction its as [|it its IH]; [reflexivity|]. cbn [map fold_left s2c_step].
    rewrite (turn_finished_mono b s it _ E). destruct (waiting s); exact IH.
  Qed.

  Lemma new_state sup dump_motd c z (s : s2c) : s2c_new sup dump_motd c z = Some s ->
    exists g, gate_new sup = Some g /\
      s = {| waiting := true; out_spool := spool_new e c z (scrollback_lines c); out_gate := g; motd_due := dump_motd;
             client := None; resize_cmd := None; winsize := mkSize 0 0 0 0; log := []; shut := []; acks := []; took := []; finished := None |}.
  Proof. unfold s2c_new. destruct (gate_new sup) as [g|]; [|discriminate]. intros H. injection H as <-. eauto. Qed.

  Lemma first_exits sup dump_motd c z (s : s2c) m now ok : s2c_new sup dump_motd c z = Some s ->
    exits_ok (first_conn m) (s2c_first s m now ok).
  Proof.
    intros H. destruct (new_state _ _ _ _ _ H) as (g & _ & ->). clear H. split.
    - intros id. rewrite first_log. apply no_exit_last. constructor.
    - intros Hf id Hc. rewrite first_log. split; [constructor|]. unfold s2c_first, acknowledge in *.
      destruct m as [m|]; [|discriminate]. destruct ok; [|discriminate]. cbn in Hc. destruct m; try discriminate.
      injection Hc as ->. left. reflexivity.
    - intros id _. rewrite first_log. reflexivity.
  Qed.

  (** A client stays attached while no request takes it away and its writes succeed. *)
  Lemma turns_client_stays (s : s2c) its id : client s = Some id -> finished (turns s its) = None ->
    (forall it, In it its -> match sel it with SelConn _ => False | _ => True end /\ w_data it = WroteAll) ->
    client (turns s its) = Some id.
  Proof.
    intros Hc. induction its as [|it its IH] using rev_ind; intros Hu Hi; [exact Hc|].
    rewrite turns_snoc in *. destruct (turn_unfinished b _ it Hu) as [Hf H1].
    assert (C : client (turns s its) = Some id) by (apply IH; [exact Hf|intros; apply Hi; apply in_or_app; auto]).
    destruct (Hi it ltac:(apply in_or_app; right; left; reflexivity)) as [Hs Hw].
    assert (SC := select_client b _ it Hf H1).
    assert (Hsc : sel_client (turns s its) it = Some id).
    { unfold sel_client. destruct (sel it); try contradiction; exact C. }
    rewrite (turn_cases b _ it Hf) in *. cbv zeta in *. rewrite H1 in *. destruct (sel_again _ it); [congruence|].
    destruct (mid_keeps b _ it Hf H1) as (_ & _ & _ & M4 & M5 & _). assert (P := poll_ok _ it M5 Hu).
    destruct (poll it) as [| | |p x|[[|y bs]|[]]]; try contradiction; try (rewrite P; congruence).
    destruct P as (g & sh & _ & _ & _ & _ & _ & _ & _ & P & _). rewrite P, M4, Hsc, Hw. destruct sh; reflexivity.
  Qed.
End Proofs.

Lemma received_all id l : all_arrived id l -> received id l = frames_to id l.
Proof.
  intros H. induction l as [|x l IH]; [reflexivity|]. cbn. assert (Hl : all_arrived id l) by (intros y Hy; apply H; right; exact Hy).
  unfold frames_to in *. cbn. destruct (Nat.eqb_spec (to x) id) as [E|E]; cbn; [|apply IH; exact Hl].
  rewrite (H x (or_introl eq_refl) E), (IH Hl). reflexivity.
Qed.

Lemma received_prefix id l : exists rest, frames_to id l = received id l ++ rest.
Proof.
  induction l as [|x l [rest IH]]; [exists []; reflexivity|]. unfold frames_to in *. cbn.
  destruct (Nat.eqb (to x) id); [|exists rest; exact IH]. destruct (arrived x); cbn; [exists rest; rewrite IH; reflexivity|].
  eexists. reflexivity.
Qed.
