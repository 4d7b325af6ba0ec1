(** C28: what a subscriber to the events socket reads. *)
From Coq Require Import List NArith ZArith Bool Arith Lia.
From Verif Require Import Model.Base Model.Server Model.EventBus Spec.EventBusSpec Proofs.EventBusProofs Proofs.EventBusMore.
Import ListNotations.
Open Scope nat_scope.

(** Each event is one line, a JSON object without a newline in it. *)
Theorem C28_lines : forall e, serialize_line e = line e /\ exists body, line e = body ++ [10%N] /\ ~ In 10%N body.
Proof.
  intros e. split; [apply serialize_line_eq|]. unfold line. eexists. split; [reflexivity|].
  destruct e; vm_compute; intuition discriminate.
Qed.
Print Assumptions C28_lines.

(** At any time, the bytes written to a subscriber, dropped since or not, are a
    prefix of the lines of the published events, in order, from the one at which
    it joined on; and no more than 64 events are queued for it. *)
Theorem C28_prefix : forall st i b,
  bus_reachable st -> subscriber st i b ->
  is_prefix (b_sent b) (wire (skipn (b_since b) (published st))) /\ length (b_pending b) <= 64.
Proof.
  intros st i b R S. pose proof (v_pub _ (bus_reachable_inv _ R)) as P. destruct (subscriber_ok st i b R S) as (H1 & H2 & H3 & H4).
  split; [|exact H3]. eapply prefix_trans; [exact H2|]. apply wire_prefix. rewrite (taken_prefix st _ P H1). apply prefix_app.
  destruct (b_dropped b); [exact H4|]. destruct H4 as [-> _]. exists []. rewrite app_nil_r. reflexivity.
Qed.
Print Assumptions C28_prefix.

(** A subscriber that is not dropped is owed exactly the rest: what was written and
    what is queued make up all the events taken from the channel since. *)
Theorem C28_no_gap : forall st i b,
  bus_reachable st -> subscriber st i b -> b_dropped b = false ->
  b_sent b ++ skipn (b_off b) (concat (b_pending b)) ++ wire (channel st) = wire (skipn (b_since b) (published st)).
Proof.
  intros st i b R S D. pose proof (v_pub _ (bus_reachable_inv _ R)) as P. destruct (subscriber_ok st i b R S) as (H1 & _ & _ & H4). rewrite D in H4.
  destruct H4 as [Ho (past & es & Ho' & Hp & Hs & _ & _)]. rewrite (taken_prefix st _ P H1), <- Ho, Ho', Hp, Hs, wire_app.
  change (concat (map line es)) with (wire es). unfold written. rewrite app_assoc, <- (app_assoc (wire past)), firstn_skipn, wire_app. reflexivity.
Qed.
Print Assumptions C28_no_gap.

(** So what a subscriber reads is a prefix of the events that were waiting to be
    sent when it was accepted, followed by those published since. *)
Theorem C28_from_acceptance_partial : forall st i rest w r l b,
  bus_reachable st -> sink_at st = Accepting w r -> backlog st = i :: rest ->
  let st' := bus_run (bus_step st (BAccept true)) l in
  subscriber st' i b ->
  exists since, published st' = published st ++ since /\ is_prefix (b_sent b) (wire (channel st ++ since)).
Proof.
  intros st i rest w r l b R Hs Hb. cbn zeta. intros S.
  pose proof (bus_reachable_inv _ R) as I.
  assert (R1 : forall l, bus_reachable (bus_run (bus_step st (BAccept true)) l)).
  { intros l0. destruct R as (l1 & ->). exists (l1 ++ BAccept true :: l0). unfold bus_run. rewrite fold_left_app. reflexivity. }
  assert (S1 : subscriber (bus_step st (BAccept true)) i (sub_new i (length (taken st)))).
  { left. cbn [bus_step]. rewrite Hs, Hb. cbn [subs]. rewrite find_sub_app, find_sub_none.
    - unfold find_sub. cbn. rewrite Nat.eqb_refl. reflexivity.
    - intros Hin. pose proof (v_ids _ I) as V. rewrite Hb in V. apply NoDup_app_remove_l in V. apply NoDup_remove_2 in V. apply V. apply in_or_app. auto. }
  assert (G : exists b', subscriber (bus_run (bus_step st (BAccept true)) l) i b' /\ b_since b' = length (taken st)).
  { clear S. induction l as [|a l IH] using rev_ind; [exists (sub_new i (length (taken st))); auto|]. destruct IH as (b' & S' & E').
    rewrite bus_run_step. destruct (since_stays _ a i b' (bus_reachable_inv _ (R1 l)) S') as (b'' & S'' & E''). exists b''. split; [exact S''|congruence]. }
  destruct G as (b' & S' & E'). assert (b' = b) by (eapply subscriber_unique; [apply bus_reachable_inv, R1|eassumption|eassumption]). subst b'.
  assert (Pub : exists since, published (bus_run (bus_step st (BAccept true)) l) = published st ++ since).
  { clear. induction l as [|a l IH] using rev_ind.
    - exists []. rewrite app_nil_r. cbn. destruct (sink_at st); auto. destruct (backlog st); auto. unfold after_accepts. destruct woken; reflexivity.
    - rewrite bus_run_step. destruct IH as (since & E). remember (bus_run (bus_step st (BAccept true)) l) as s.
      destruct a; cbn [bus_step]; try (exists since; rewrite <- E; repeat (match goal with |- context [match ?e with _ => _ end] => destruct e end); try reflexivity; unfold after_accepts;
        repeat (match goal with |- context [match ?e with _ => _ end] => destruct e end); reflexivity).
      destruct (sink_at s); try destruct (_ <? _); try (exists since; exact E); exists (since ++ [e]); cbn; rewrite E, <- app_assoc; reflexivity. }
  destruct Pub as (since & Pub). exists since. split; [exact Pub|].
  destruct (C28_prefix _ i b (R1 l) S) as [P _]. rewrite E', Pub, (v_pub _ I), <- app_assoc, skipn_app, skipn_all, Nat.sub_diag in P. exact P.
Qed.
Print Assumptions C28_from_acceptance_partial.

(** What the kernel says about other subscribers, when their sockets are full,
    closed or broken, makes no difference to a subscriber. *)
Theorem C28_isolated : forall i l l',
  Forall2 (alike i) l l' ->
  let st := bus_run bus_new l in let st' := bus_run bus_new l' in
  find_sub i (subs st') = find_sub i (subs st) /\ find_sub i (gone st') = find_sub i (gone st) /\
  published st' = published st /\ taken st' = taken st /\ lost st' = lost st.
Proof.
  intros i l l' F. cbn zeta.
  assert (G : same_for i (bus_run bus_new l) (bus_run bus_new l')).
  { assert (H : forall st st', bus_inv st -> bus_inv st' -> in_range st -> in_range st' -> same_for i st st' -> same_for i (bus_run st l) (bus_run st' l')).
    { induction F as [|a a' l l' A F IH]; intros st st' I I' R R' Q; [exact Q|]. cbn. apply IH; auto using bus_inv_step, in_range_step. apply same_for_step; assumption. }
    apply H; try (apply bus_reachable_inv; exists []; reflexivity); try constructor; reflexivity. }
  destruct G. auto.
Qed.
Print Assumptions C28_isolated.

(** No wakeup is lost: if the sink waits in poll with events in the channel, a
    publisher is about to wake it or has done so. *)
Theorem C28_no_lost_wakeup : forall st,
  bus_reachable st -> sink_at st = Polling -> channel st <> [] -> wake st = true \/ 0 < waking st.
Proof.
  intros st R Hs Hc. destruct (v_wake _ (bus_reachable_inv _ R)) as [H|[H|[H|[(r & H)|[(r & H)|H]]]]]; auto; congruence.
Qed.
Print Assumptions C28_no_lost_wakeup.

(** A subscriber whose socket takes what it is given gets everything published, in
    one round of the sink, as long as there are not more than 64 events to send. *)
Theorem C28_delivers : forall st i b,
  bus_reachable st -> sink_at st = Polling -> waking st = 0 -> find_sub i (subs st) = Some b ->
  length (b_pending b) + length (channel st) <= 64 ->
  let st' := bus_run st (round st) in
  exists b', find_sub i (subs st') = Some b' /\ b_sent b' = wire (skipn (b_since b) (published st)) /\
    b_pending b' = [] /\ published st' = published st /\ channel st' = [] /\ b_dropped b' = false.
Proof.
  intros st i b R Hs Hw Hf Ln. pose proof (bus_reachable_inv _ R) as I. pose proof (ids_subs _ I) as N.
  assert (D : b_dropped b = false).
  { pose proof (v_live _ I) as V. rewrite Hs, Forall_forall in V. apply find_sub_in in Hf as [Hf _]. apply V; exact Hf. }
  destruct (subscriber_ok st i b R (or_introl Hf)) as (K1 & _ & _ & K4). rewrite D in K4. destruct K4 as [K4 K5].
  assert (Ex : skipn (b_since b) (published st) = b_offered b ++ channel st) by (rewrite (taken_prefix st _ (v_pub _ I) K1), <- K4; reflexivity).
  assert (Cw : wake st = false -> channel st = []).
  { intros W. destruct (channel st) eqn:Ec; [reflexivity|]. exfalso.
    destruct (C28_no_lost_wakeup st R Hs) as [H|H]; [rewrite Ec; discriminate|congruence|rewrite Hw in H; inversion H]. }
  rewrite Ex. cbn zeta. unfold round.
  remember (map (fun p => (p, match nth_error (subs st) p with Some b => (fun _ => Writable) (b_id b) | None => Quiet end)) (poll_set 0 (subs st))) as r eqn:Er.
  assert (Hn : news i (subs st) r = if wants_pollout b then [Writable] else []) by (rewrite Er, (news_poll i (fun _ => Writable)), Hf by exact N; reflexivity).
  assert (Hr : Forall (fun p => fst p < length (subs st)) r).
  { rewrite Er. apply Forall_map, Forall_forall. intros p Hp. cbn. apply poll_set_lt in Hp. exact Hp. }
  remember (set_sink st (Accepting (wake st) r)) as st1 eqn:E1.
  assert (P1 : bus_step st (BPoll (fun _ => Writable) false) = st1) by (rewrite E1, Er; cbn [bus_step]; rewrite Hs; reflexivity).
  change (bus_run st (BPoll (fun _ => Writable) false :: ?x)) with (bus_run (bus_step st (BPoll (fun _ => Writable) false)) x). rewrite P1.
  assert (R1 : bus_reachable st1). { rewrite <- P1. destruct R as (l0 & ->). exists (l0 ++ [BPoll (fun _ => Writable) false]). rewrite bus_run_step. reflexivity. }
  assert (Run : forall s l, bus_reachable s -> bus_reachable (bus_run s l)).
  { intros s l (l0 & ->). exists (l0 ++ l). unfold bus_run. rewrite fold_left_app. reflexivity. }
  destruct (run_accepts (length (backlog st)) st1 (wake st) r) as (fresh & A1 & A2 & A3 & A4 & A5 & A6); [rewrite E1; reflexivity|rewrite E1; reflexivity|].
  unfold bus_run in *. rewrite !fold_left_app. fold (bus_run st1 (repeat (BAccept true) (S (length (backlog st))))) in *. remember (bus_run st1 (repeat (BAccept true) (S (length (backlog st))))) as st2 eqn:E2.
  assert (R2 : bus_reachable st2) by (rewrite E2; apply Run; exact R1).
  rewrite E1 in A2, A3, A4, A5. cbn [set_sink channel taken published subs] in A2, A3, A4, A5.
  assert (F2 : find_sub i (subs st2) = Some b) by (rewrite A5, find_sub_app, Hf; reflexivity).
  assert (H3 : exists b3, let st3 := bus_run st2 (repeat (BRecv greedy) (S (length (channel st)))) in
    sink_at st3 = Driving r /\ channel st3 = [] /\ published st3 = published st /\ find_sub i (subs st3) = Some b3 /\ map b_id (subs st3) = map b_id (subs st2) /\
    b_dropped b3 = false /\ live_ok b3 /\ b_offered b3 = b_offered b ++ channel st /\ (b_pending b = [] -> b_pending b3 = [] /\ b_sent b3 = wire (b_offered b3))).
  { destruct (wake st).
    - destruct (run_recvs (length (channel st)) st2 r A1) as (B1 & B2 & B3 & B4 & B5); [rewrite A2; reflexivity|].
      exists (fold_left (fun b e => offer (greedy 0) e b) (channel st) b). cbn zeta. rewrite B1, B2, B3, B5, A4, A2.
      assert (Id : forall es x, b_id (fold_left (fun b e => offer (greedy 0) e b) es x) = b_id x).
      { induction es as [|e es IH]; intros x; [reflexivity|]. cbn [fold_left]. rewrite IH. apply offer_id. }
      split; [reflexivity|]. split; [reflexivity|]. split; [reflexivity|]. split; [rewrite find_sub_map by (intros x; apply Id); rewrite F2; reflexivity|].
      split; [rewrite map_map; apply map_ext; intros x; apply Id|].
      destruct (b_pending b) as [|p ps] eqn:Ep.
      + assert (O : b_off b = 0 /\ b_sent b = wire (b_offered b)).
        { destruct K5 as (past & es & L1 & L2 & L3 & L4 & L5). destruct es; [|rewrite L2 in Ep; discriminate Ep]. cbn in L4. split; [exact L4|].
          rewrite L3, L1, L4. unfold written. rewrite !app_nil_r. reflexivity. }
        destruct O as [O1 O2]. rewrite (offers_idle (channel st) b D Ep O1 O2). unfold settled. cbn. repeat split; auto.
        exists (b_offered b ++ channel st), []. cbn. unfold written. rewrite !app_nil_r. repeat split; auto. lia.
      + rewrite <- Ep in Ln. destruct (offers_busy (channel st) b D ltac:(rewrite Ep; discriminate) K5 Ln) as (G1 & G2 & G3 & G4 & G5 & G6).
        repeat split; auto; intros; discriminate.
    - specialize (Cw eq_refl). rewrite (run_no_recvs _ st2 r A1). exists b. cbn zeta. rewrite Cw, app_nil_r in *. repeat split; auto.
      destruct K5 as (past & es & L1 & L2 & L3 & L4 & L5). destruct es; [|rewrite L2 in H; discriminate H]. cbn in L4.
      rewrite L3, L1, L4. unfold written. rewrite !app_nil_r. reflexivity. }
  destruct H3 as (b3 & C1 & C2 & C3 & C4 & C5 & C6 & C7 & C8 & C9). unfold bus_run in *. remember (fold_left bus_step (repeat (BRecv greedy) (S (length (channel st)))) st2) as st3 eqn:E3.
  assert (R3 : bus_reachable st3) by (rewrite E3; apply Run; exact R2). cbn [fold_left bus_step]. rewrite C1. cbn [subs published channel].
  pose proof (ids_subs _ (bus_reachable_inv _ R3)) as N3.
  assert (News : news i (subs st3) r = if wants_pollout b then [Writable] else []) by (rewrite (news_ids i _ _ r C5), A5, news_app by exact Hr; exact Hn).
  pose proof (find_drive_ready i greedy r (subs st3) N3) as F3. rewrite C4, News in F3. cbn [option_map] in F3.
  rewrite find_sub_filter, F3 by (rewrite drive_ready_ids; exact N3). unfold wants_pollout in *.
  destruct (b_pending b) as [|p ps] eqn:Ep; cbn [negb fold_left].
  - destruct (C9 eq_refl) as [C9' C10]. rewrite C6. cbn [negb]. exists b3. rewrite C10, C8. repeat split; auto.
  - unfold drive_one. rewrite C6. rewrite (greedy_drive b3 C7 : drive (greedy i) b3 = _). cbn [b_dropped]. rewrite C6. cbn [negb]. eexists. split; [reflexivity|]. cbn [b_sent b_pending b_dropped]. rewrite C8. repeat split; auto.
Qed.
Print Assumptions C28_delivers.

(** The events subcommand prints what it reads, when what it reads is whole lines. *)
Theorem C28_command : forall es, events_command (wire es) = wire es.
Proof.
  intros es. unfold events_command. induction es as [|e es IH]; [reflexivity|].
  assert (L : lines_of [] (wire (e :: es)) = removelast (line e) :: lines_of [] (wire es)) by (destruct e; reflexivity).
  rewrite L. cbn [map concat]. rewrite IH. change (wire (e :: es)) with (line e ++ wire es). f_equal. destruct e; reflexivity.
Qed.
Print Assumptions C28_command.

(** An event is lost exactly if 4096 are waiting, or the sink has ended. *)
Theorem C28_lost_exactly : forall st e,
  let st' := bus_step st (BPublish e) in
  (sink_at st = Stopped \/ 4096 <= length (channel st) -> published st' = published st /\ lost st' = lost st ++ [e] /\ channel st' = channel st) /\
  (~ (sink_at st = Stopped \/ 4096 <= length (channel st)) -> published st' = published st ++ [e] /\ lost st' = lost st /\ channel st' = channel st ++ [e]).
Proof.
  intros st e. cbn zeta. assert (C : Nat.ltb (length (channel st)) event_channel_cap = Nat.ltb (length (channel st)) 4096) by reflexivity.
  cbn [bus_step]. rewrite C. split; intros H.
  - destruct (sink_at st); try (destruct H as [H|H]; [discriminate|]); try (apply Nat.ltb_ge in H; rewrite H); auto.
  - destruct (sink_at st); try (exfalso; apply H; left; reflexivity);
      (destruct (Nat.ltb_spec (length (channel st)) 4096) as [L|L]; [auto|exfalso; apply H; right; exact L]).
Qed.
Print Assumptions C28_lost_exactly.

(** A subscriber whose socket is broken when it is written to is dropped; before the
    sink polls again it is gone. *)
Lemma broken_drive ws b : broken ws -> b_pending b <> [] -> b_dropped (drive ws b) = true.
Proof.
  intros (n & r & ->) N. unfold drive. destruct (b_pending b) as [|p ps]; [congruence|].
  replace (drive_pending (repeat Interrupted n ++ Broken :: r) (b_sent b) (p :: ps) (b_off b)) with (b_sent b, p :: ps, b_off b, false); [reflexivity|].
  symmetry. induction n as [|n IH]; [reflexivity|]. exact IH.
Qed.
Lemma dropped_stays ws rs : forall b, b_dropped b = true -> fold_left (fun b r => drive_one ws r b) rs b = b.
Proof. induction rs as [|r rs IH]; intros b D; [reflexivity|]. cbn [fold_left]. unfold drive_one at 2. rewrite D. apply IH, D. Qed.
Lemma reported_news l ready i r : reported l ready i r -> In r (news i l ready).
Proof.
  intros (p & b & H1 & H2 & H3). unfold news. apply in_map_iff. exists (p, r). split; [reflexivity|]. apply filter_In. split; [exact H1|].
  cbn. unfold id_at. rewrite H2. apply Nat.eqb_eq. exact H3.
Qed.
Theorem C28_broken_goes : forall st i b os,
  bus_reachable st -> find_sub i (subs st) = Some b -> broken (os i) ->
  (forall ready e rest, sink_at st = Draining ready -> channel st = e :: rest -> b_pending b = [] ->
     exists b', find_sub i (subs (bus_step st (BRecv os))) = Some b' /\ b_dropped b' = true) /\
  (forall ready, sink_at st = Driving ready -> b_pending b <> [] -> reported (subs st) ready i Writable ->
     find_sub i (subs (bus_step st (BDrive os))) = None /\ exists b', find_sub i (gone (bus_step st (BDrive os))) = Some b') /\
  (forall ready, sink_at st = Driving ready -> b_dropped b = true ->
     find_sub i (subs (bus_step st (BDrive os))) = None /\ exists b', find_sub i (gone (bus_step st (BDrive os))) = Some b') /\
  (sink_at st = Polling -> b_dropped b = false).
Proof.
  intros st i b os R Hf Hb. pose proof (bus_reachable_inv _ R) as I. pose proof (ids_subs _ I) as N.
  assert (Gone : forall ready, sink_at st = Driving ready ->
     b_dropped (fold_left (fun b r => drive_one (os i) r b) (news i (subs st) ready) b) = true ->
     find_sub i (subs (bus_step st (BDrive os))) = None /\ exists b', find_sub i (gone (bus_step st (BDrive os))) = Some b').
  { intros ready Hs D. cbn [bus_step]. rewrite Hs. cbn [subs gone].
    assert (N' : NoDup (map b_id (drive_ready os (subs st) ready))) by (rewrite drive_ready_ids; exact N).
    rewrite find_sub_filter by exact N'. pose proof (find_drive_ready i os ready (subs st) N) as F. rewrite Hf in F. cbn [option_map] in F.
    rewrite F, D. split; [reflexivity|]. rewrite find_sub_app. destruct (find_sub i (gone st)); [eauto|].
    rewrite find_sub_filter by exact N'. rewrite F, D. eauto. }
  split; [|split; [|split]].
  - intros ready e rest Hs Hc Hp. cbn [bus_step]. rewrite Hs, Hc. cbn [subs].
    rewrite find_sub_map by (intros x; apply offer_id). rewrite Hf. cbn [option_map]. eexists. split; [reflexivity|].
    destruct (find_sub_in _ _ _ Hf) as [_ E]. rewrite E. unfold offer. destruct (b_dropped b) eqn:D; [exact D|].
    unfold wants_pollout, enqueue, set_offered. cbn [b_pending]. rewrite Hp. cbn [length app negb Nat.leb subscriber_queue_depth]. apply broken_drive; [exact Hb|discriminate].
  - intros ready Hs Hp Hr. apply (Gone ready Hs). apply reported_news in Hr. remember (news i (subs st) ready) as rs. clear - Hr Hp Hb.
    destruct (b_dropped b) eqn:D; [rewrite dropped_stays by exact D; exact D|].
    induction rs as [|r rs IH]; [destruct Hr|]. cbn [fold_left]. unfold drive_one at 2. rewrite D. destruct r.
    + destruct Hr as [Hr|Hr]; [discriminate|]. apply IH. exact Hr.
    + pose proof (broken_drive _ _ Hb Hp) as B. rewrite dropped_stays by exact B. exact B.
    + rewrite dropped_stays; reflexivity.
  - intros ready Hs D. apply (Gone ready Hs). rewrite dropped_stays by exact D. exact D.
  - intros Hs. pose proof (v_live _ I) as V. rewrite Hs, Forall_forall in V. apply V. apply find_sub_in in Hf as [Hf _]. exact Hf.
Qed.
Print Assumptions C28_broken_goes.

(** And no other is: a subscriber keeps its place through any step in which its socket
    is not broken or hung up and its queue not full. *)
Lemma sane_drive ws b : sane ws -> live_ok b -> b_dropped (drive ws b) = b_dropped b.
Proof.
  intros [S1 S2] (past & es & _ & Hp & _ & Ho & _). unfold drive.
  assert (G : snd (drive_pending ws (b_sent b) (b_pending b) (b_off b)) = true).
  { rewrite Hp. clear Hp. generalize (b_sent b). generalize dependent (b_off b). revert es. induction ws as [|w ws IH]; intros es off Ho sent.
    - destruct es; reflexivity.
    - assert (S1' : ~ In Broken ws) by (intros X; apply S1; right; exact X). assert (S2' : ~ In (Wrote 0) ws) by (intros X; apply S2; right; exact X).
      specialize (IH S1' S2'). destruct es as [|e es]; [reflexivity|]. cbn [map drive_pending].
      destruct w as [k| | |]; [|reflexivity|apply (IH (e :: es)); exact Ho|exfalso; apply S1; left; reflexivity].
      cbn in Ho. rewrite skipn_length. destruct k as [|k]; [exfalso; apply S2; left; reflexivity|].
      destruct (Nat.eqb_spec (Nat.min (S k) (length (line e) - off)) 0) as [Z|Z]; [exfalso; lia|].
      destruct (Nat.leb_spec (length (line e)) (off + Nat.min (S k) (length (line e) - off))) as [L|L].
      + apply IH. destruct es as [|e' es']; cbn; [reflexivity|apply line_pos].
      + apply (IH (e :: es)). unfold off_ok. exact L. }
  destruct (drive_pending ws (b_sent b) (b_pending b) (b_off b)) as [[[x y] z] ok]. cbn [snd] in G. subst ok. reflexivity.
Qed.
Theorem C28_kept : forall st i b a,
  bus_reachable st -> find_sub i (subs st) = Some b -> b_dropped b = false ->
  match a with
  | BRecv os => sane (os i) /\ length (b_pending b) < 64
  | BDrive os => sane (os i) /\ forall ready, sink_at st = Driving ready -> ~ reported (subs st) ready i Hangup
  | _ => True
  end ->
  exists b', find_sub i (subs (bus_step st a)) = Some b' /\ b_dropped b' = false /\ b_since b' = b_since b.
Proof.
  intros st i b a R Hf D Ha. pose proof (bus_reachable_inv _ R) as I. pose proof (ids_subs _ I) as N.
  destruct (find_sub_in _ _ _ Hf) as [_ Ei].
  assert (Same : forall st', subs st' = subs st -> exists b', find_sub i (subs st') = Some b' /\ b_dropped b' = false /\ b_since b' = b_since b)
    by (intros st' ->; eauto).
  assert (AA : forall w r, subs (after_accepts st w r) = subs st) by (intros w r; unfold after_accepts; destruct w; reflexivity).
  destruct (subscriber_ok st i b R (or_introl Hf)) as (_ & _ & _ & L). rewrite D in L. destruct L as [_ L].
  assert (Since : forall ws b, b_since (drive ws b) = b_since b) by (intros ws x; unfold drive; destruct (drive_pending _ _ _ _) as [[[? ?] ?] ?]; reflexivity).
  destruct a as [e| | |revs sh|ok| |os|os]; cbn [bus_step].
  - destruct (sink_at st); try destruct (_ <? _); apply Same; reflexivity.
  - destruct (waking st); apply Same; reflexivity.
  - apply Same; reflexivity.
  - destruct (sink_at st); try (apply Same; reflexivity). destruct sh; apply Same; reflexivity.
  - destruct (sink_at st); try (apply Same; reflexivity). destruct (backlog st) as [|k rest]; [apply Same, AA|]. cbn [subs]. destruct ok; [|apply Same; reflexivity].
    rewrite find_sub_app, Hf. eauto.
  - destruct (sink_at st); try (apply Same; reflexivity). apply Same, AA.
  - destruct (sink_at st); try (apply Same; reflexivity). destruct (channel st) as [|e rest]; [apply Same; reflexivity|]. cbn [subs].
    rewrite find_sub_map by (intros x; apply offer_id). rewrite Hf. cbn [option_map]. eexists. split; [reflexivity|]. rewrite Ei.
    destruct Ha as [Ha Hq]. unfold offer. rewrite D. unfold enqueue, set_offered. cbn [b_pending b_id b_off b_dropped b_sent b_offered b_since].
    destruct (Nat.leb_spec subscriber_queue_depth (length (b_pending b))) as [Q|Q]; [exfalso; unfold subscriber_queue_depth in Q; lia|].
    destruct (negb (wants_pollout b)) eqn:W; [|cbn; auto]. rewrite Since. rewrite sane_drive; [cbn; auto|exact Ha|].
    destruct L as (past & es & L1 & L2 & L3 & L4 & L5). exists past, (es ++ [e]). cbn [b_offered b_pending b_sent b_off].
    assert (E0 : es = []) by (unfold wants_pollout in W; rewrite L2 in W; destruct es; [reflexivity|discriminate W]). subst es. cbn in L4. cbn [app].
    split; [rewrite L1, app_nil_r; reflexivity|]. split; [rewrite L2, serialize_line_eq; reflexivity|].
    split; [rewrite L3, L4; unfold written; cbn; reflexivity|]. split; [rewrite L4; apply line_pos|cbn [length]; lia].
  - destruct (sink_at st) eqn:Hs; try (apply Same; reflexivity). cbn [subs]. destruct Ha as [Ha Hh]. specialize (Hh _ eq_refl).
    rewrite find_sub_filter by (rewrite drive_ready_ids; exact N). rewrite (find_drive_ready i os _ (subs st) N), Hf. cbn [option_map].
    assert (Nn : ~ In Hangup (news i (subs st) ready)).
    { intros X. apply Hh. unfold news in X. apply in_map_iff in X as ([p r] & E & X). cbn in E. subst r. apply filter_In in X as [X1 X2].
      cbn in X2. unfold id_at in X2. destruct (nth_error (subs st) p) as [b0|] eqn:E0; [|discriminate]. apply Nat.eqb_eq in X2. exists p, b0. auto. }
    set (rs := news i (subs st) ready) in *. clearbody rs.
    assert (G : let b' := fold_left (fun b r => drive_one (os i) r b) rs b in b_dropped b' = false /\ b_since b' = b_since b).
    { clear - D L Ha Nn Since. revert b D L. induction rs as [|r rs IH]; intros b D L; [cbn; auto|]. cbn [fold_left]. cbv zeta in *.
      assert (Nn' : ~ In Hangup rs) by (intros X; apply Nn; right; exact X).
      unfold drive_one at 2 4. rewrite D. destruct r.
      - apply IH; assumption.
      - rewrite <- (Since (os i) b). apply IH; [exact Nn'|rewrite sane_drive; assumption|]. apply drive_shape; assumption.
      - exfalso. apply Nn. left. reflexivity. }
    destruct G as [G1 G2]. cbv zeta in G1, G2. rewrite G1. cbn [negb]. eauto.
Qed.
Print Assumptions C28_kept.

(** What the events subcommand prints of any text: its lines, each ended by a line feed;
    also what follows the last line feed, if anything does. *)
Theorem C28_command_lines : forall ls rest, Forall a_line ls -> ~ In 10%N rest ->
  events_command (concat (map ended ls) ++ rest) =
  concat (map (fun l => fst l ++ [10%N]) ls) ++ (if match rest with [] => true | _ => false end then [] else rest ++ [10%N]).
Proof.
  assert (Go : forall l cur r, ~ In 10%N l -> lines_of cur (l ++ 10%N :: r) = chomp_cr (cur ++ l) :: lines_of [] r).
  { induction l as [|c l IH]; intros cur r Hn; cbn [app lines_of].
    - rewrite app_nil_r. reflexivity.
    - destruct (N.eqb_spec c newline) as [E|E]; [exfalso; apply Hn; left; exact E|]. rewrite IH by (intros X; apply Hn; right; exact X). rewrite <- app_assoc. reflexivity. }
  assert (End : forall l cur, ~ In 10%N l -> lines_of cur l = match cur ++ l with [] => [] | x => [x] end).
  { induction l as [|c l IH]; intros cur Hn; cbn [lines_of].
    - rewrite app_nil_r. destruct cur; reflexivity.
    - destruct (N.eqb_spec c newline) as [E|E]; [exfalso; apply Hn; left; exact E|]. rewrite IH by (intros X; apply Hn; right; exact X). rewrite <- app_assoc. reflexivity. }
  assert (Chomp : forall l, chomp_cr (l ++ [13%N]) = l) by (intros l; unfold chomp_cr; rewrite rev_app_distr; cbn; apply rev_involutive).
  assert (Keep : forall l : rstr, last l 0%N <> 13%N -> chomp_cr l = l).
  { intros l. unfold chomp_cr. destruct l as [|c l] using rev_ind; [reflexivity|]. rewrite last_last, rev_app_distr. cbn. intros Hn.
    apply N.eqb_neq in Hn. rewrite Hn. reflexivity. }
  intros ls rest F Hr. unfold events_command. induction F as [|[l crlf] ls [H1 H2] F IH]; cbn [map concat app].
  - rewrite End by exact Hr. destruct rest; [reflexivity|]. cbn. rewrite app_nil_r. reflexivity.
  - cbn [fst snd] in *. unfold ended at 1. cbn [fst snd]. destruct crlf.
    + replace (((l ++ [13%N] ++ [10%N]) ++ concat (map ended ls)) ++ rest) with ((l ++ [13%N]) ++ 10%N :: (concat (map ended ls) ++ rest))
        by (rewrite <- !app_assoc; reflexivity).
      rewrite Go by (intros X; apply in_app_or in X as [X|[X|[]]]; [auto|discriminate]). cbn [app map concat]. rewrite Chomp, IH. apply app_assoc.
    + replace (((l ++ [] ++ [10%N]) ++ concat (map ended ls)) ++ rest) with (l ++ 10%N :: (concat (map ended ls) ++ rest))
        by (cbn; rewrite <- !app_assoc; reflexivity).
      rewrite Go by exact H1. cbn [app map concat]. rewrite Keep by (apply H2; reflexivity). rewrite IH. apply app_assoc.
Qed.
Print Assumptions C28_command_lines.

(** Not so: an event published before the subscriber connected is sent to it, if the
    sink has not taken it from the channel yet. *)
Theorem C28_since_accepted_refuted : exists before after i b,
  let st := bus_run bus_new before in let st' := bus_run st (BConnect :: after) in
  next st = i /\ subscriber st' i b /\ published st' = published st /\ published st = [ECreated] /\ b_sent b = wire [ECreated].
Proof.
  exists [BPublish ECreated; BWake], [BPoll (fun _ => Quiet) false; BAccept true; BAccept true; BRecv greedy; BRecv greedy; BDrive greedy], 0,
    (mkSub 0 [] 0 false (wire [ECreated]) [ECreated] 0).
  cbn zeta. repeat split. left. vm_compute. reflexivity.
Qed.
Print Assumptions C28_since_accepted_refuted.

(** An event is lost for every subscriber, none of them dropped, if the channel is full. *)
Lemma publishes n : forall st, sink_at st = Polling -> length (channel st) + n <= event_channel_cap ->
  let st' := bus_run st (repeat (BPublish ECreated) n) in
  sink_at st' = Polling /\ channel st' = channel st ++ repeat ECreated n /\ subs st' = subs st /\ published st' = published st ++ repeat ECreated n /\ lost st' = lost st.
Proof.
  induction n as [|n IH]; intros st Hs L; cbn zeta.
  - cbn. rewrite !app_nil_r. auto.
  - change (bus_run st (repeat (BPublish ECreated) (S n))) with (bus_run (bus_step st (BPublish ECreated)) (repeat (BPublish ECreated) n)).
    cbn [bus_step]. rewrite Hs. replace (length (channel st) <? event_channel_cap) with true by (symmetry; apply Nat.ltb_lt; lia).
    match goal with |- context [bus_run ?s _] => destruct (IH s) as (A & B & C & D & E) end; [first [exact Hs|reflexivity]|cbn [channel]; rewrite app_length; cbn [length]; lia|].
    rewrite A, B, C, D, E. cbn [channel subs published lost]. rewrite <- !app_assoc. auto.
Qed.
Lemma fills cap : cap = event_channel_cap -> exists l b, let st := bus_run bus_new l in
  subs st = [b] /\ b_dropped b = false /\ gone st = [] /\ lost st = [ERemoved].
Proof.
  intros Ecap.
  exists (([BConnect; BPoll (fun _ => Quiet) false; BAccept true; BAccept true; BDrive greedy] ++ repeat (BPublish ECreated) cap) ++ [BPublish ERemoved]), (sub_new 0 0).
  cbn zeta. unfold bus_run. rewrite !fold_left_app.
  remember (fold_left bus_step [BConnect; BPoll (fun _ => Quiet) false; BAccept true; BAccept true; BDrive greedy] bus_new) as s0 eqn:E0.
  assert (F0 : sink_at s0 = Polling /\ channel s0 = [] /\ subs s0 = [sub_new 0 0] /\ lost s0 = [] /\ gone s0 = []) by (rewrite E0; vm_compute; auto). clear E0.
  destruct F0 as (F1 & F2 & F3 & F4 & F5). destruct (publishes cap s0 F1) as (A & B & C & D & E); [rewrite F2, <- Ecap; apply Nat.le_refl|].
  assert (G : gone (bus_run s0 (repeat (BPublish ECreated) cap)) = []).
  { rewrite <- F5. clear. revert s0. induction cap as [|n IH]; intros s0; [reflexivity|].
    change (bus_run s0 (repeat (BPublish ECreated) (S n))) with (bus_run (bus_step s0 (BPublish ECreated)) (repeat (BPublish ECreated) n)). rewrite IH.
    cbn [bus_step]. destruct (sink_at s0); try destruct (_ <? _); reflexivity. }
  unfold bus_run in *. remember (fold_left bus_step (repeat (BPublish ECreated) cap) s0) as s1. cbn [fold_left bus_step]. rewrite A.
  replace (length (channel s1) <? event_channel_cap) with false by (symmetry; apply Nat.ltb_ge; rewrite B, F2; cbn [app]; rewrite repeat_length, Ecap; apply Nat.le_refl).
  cbn [subs gone lost]. rewrite C, E, F3, F4, G. auto.
Qed.
Theorem C28_full_refuted : exists l b, let st := bus_run bus_new l in
  subs st = [b] /\ b_dropped b = false /\ gone st = [] /\ lost st = [ERemoved].
Proof. exact (fills event_channel_cap eq_refl). Qed.
Print Assumptions C28_full_refuted.

(** A subscriber dropped in the middle of a line has read part of one, which the
    events subcommand prints as a line of its own: no event is spelt that way. *)
Theorem C28_whole_lines_refuted : exists l b, let st := bus_run bus_new l in
  gone st = [b] /\ exists part, events_command (b_sent b) = part ++ [10%N] /\ part <> [] /\ ~ In 10%N part /\ forall e, line e <> part ++ [10%N].
Proof.
  exists [BConnect; BPoll (fun _ => Quiet) false; BAccept true; BAccept true; BDrive greedy; BPublish ECreated; BWake;
          BPoll (fun _ => Quiet) false; BAccept true; BRecv (fun _ => [Wrote 5; WouldBlock]); BRecv greedy; BDrive greedy;
          BPoll (fun _ => Hangup) false; BAccept true; BDrive greedy].
  eexists. cbn zeta. split; [vm_compute; reflexivity|]. exists (firstn 5 (line ECreated)). split; [vm_compute; reflexivity|].
  split; [vm_compute; discriminate|]. split; [vm_compute; intuition discriminate|]. intros e; destruct e; vm_compute; discriminate.
Qed.
Print Assumptions C28_whole_lines_refuted.

(** Two subscribers, one stuck: the other is sent everything. *)
Example C28_two_subscribers :
  let stuck := fun i => if i =? 0 then [Wrote 3; WouldBlock] else repeat (Wrote 28) 64 in
  let st := bus_run bus_new [BConnect; BConnect; BPoll (fun _ => Quiet) false; BAccept true; BAccept true; BAccept true; BDrive stuck;
    BPublish ECreated; BPublish EAttached; BWake; BWake; BPoll (fun _ => Quiet) false; BAccept true; BRecv stuck; BRecv stuck; BRecv stuck; BDrive stuck] in
  bus_reachable st /\ sink_at st = Polling /\ waking st = 0 /\
  map (fun b => (b_id b, b_sent b, length (b_pending b))) (subs st) = [(0, lit "{""t", 2); (1, wire [ECreated; EAttached], 0)].
Proof. cbn zeta. split; [eexists; reflexivity|]. vm_compute. auto. Qed.

(** One that breaks half-way through a line: it is gone, the other is kept. *)
Example C28_one_breaks :
  let stuck := fun i => if i =? 0 then [Wrote 3; WouldBlock] else repeat (Wrote 28) 64 in
  let snaps := fun i => if i =? 0 then [Interrupted; Broken] else repeat (Wrote 28) 64 in
  let st := bus_run bus_new [BConnect; BConnect; BPoll (fun _ => Quiet) false; BAccept true; BAccept true; BAccept true; BDrive stuck;
    BPublish ECreated; BWake; BPoll (fun _ => Quiet) false; BAccept true; BRecv stuck; BRecv stuck; BDrive stuck;
    BPoll (fun _ => Writable) false; BAccept true] in
  bus_reachable st /\ broken (snaps 0) /\ sane (snaps 1) /\ (exists ready, sink_at st = Driving ready /\ reported (subs st) ready 0 Writable) /\
  map b_id (subs (bus_step st (BDrive snaps))) = [1] /\ map b_id (gone (bus_step st (BDrive snaps))) = [0].
Proof.
  cbn zeta. split; [eexists; reflexivity|]. split; [exists 1, []; reflexivity|].
  split; [split; intros X; cbn in X; repeat (destruct X as [X|X]; [discriminate|]); exact X|].
  split; [|vm_compute; auto]. eexists. split; [vm_compute; reflexivity|]. exists 0. eexists. split; [left; reflexivity|]. split; vm_compute; reflexivity.
Qed.
Example C28_a_text : Forall a_line [(lit "one", true); (lit "two", false)] /\
  events_command (concat (map ended [(lit "one", true); (lit "two", false)]) ++ lit "th") = lit "one" ++ [10%N] ++ lit "two" ++ [10%N] ++ lit "th" ++ [10%N].
Proof. split; [repeat constructor; vm_compute; intuition discriminate|reflexivity]. Qed.
