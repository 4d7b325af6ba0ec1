(** More about the events socket: where a subscriber joins, and one round of the
    sink. *)
From Coq Require Import List NArith ZArith Bool Arith Lia.
From Verif Require Import Model.Base Model.Server Model.EventBus Spec.EventBusSpec Proofs.EventBusProofs.
Import ListNotations.
Open Scope nat_scope.

Lemma taken_prefix st n : published st = taken st ++ channel st -> n <= length (taken st) -> skipn n (published st) = skipn n (taken st) ++ channel st.
Proof. intros E L. rewrite E, skipn_app. replace (n - length (taken st)) with 0 by lia. reflexivity. Qed.

Lemma wire_prefix a b : is_prefix a b -> is_prefix (wire a) (wire b).
Proof. intros (r & ->). rewrite wire_app. exists (wire r). reflexivity. Qed.
Lemma prefix_trans {A} (a b c : list A) : is_prefix a b -> is_prefix b c -> is_prefix a c.
Proof. intros (r & ->) (s & ->). exists (r ++ s). rewrite app_assoc. reflexivity. Qed.

Lemma since_stays st a i b : bus_inv st -> subscriber st i b -> exists b', subscriber (bus_step st a) i b' /\ b_since b' = b_since b.
Proof.
  intros I S. assert (Same : forall st', subs st' = subs st -> gone st' = gone st -> exists b', subscriber st' i b' /\ b_since b' = b_since b).
  { intros st' E1 E2. exists b. split; [|reflexivity]. unfold subscriber in *. rewrite E1, E2. exact S. }
  assert (Dr : forall ws x, b_since (drive ws x) = b_since x) by (intros ws x; unfold drive; destruct (drive_pending _ _ _ _) as [[[? ?] ?] ?]; reflexivity).
  destruct a; cbn [bus_step].
  - destruct (sink_at st); try destruct (_ <? _); apply Same; reflexivity.
  - destruct (waking st); apply Same; reflexivity.
  - apply Same; reflexivity.
  - destruct (sink_at st); try destruct shutdown; apply Same; reflexivity.
  - destruct (sink_at st); try (apply Same; reflexivity). destruct (backlog st) as [|j rest]; [unfold after_accepts; destruct woken; apply Same; reflexivity|].
    destruct ok; [|apply Same; reflexivity]. exists b. split; [|reflexivity]. destruct S as [S|S]; [left|right; exact S]. cbn [subs]. rewrite find_sub_app, S. reflexivity.
  - destruct (sink_at st); try (apply Same; reflexivity). unfold after_accepts. destruct woken; apply Same; reflexivity.
  - destruct (sink_at st); try (apply Same; reflexivity). destruct (channel st); [apply Same; reflexivity|].
    destruct S as [S|S]; [|exists b; split; [right; exact S|reflexivity]]. eexists. split; [left; cbn [subs]; rewrite find_sub_map by (intros x; apply offer_id); rewrite S; reflexivity|].
    unfold offer, enqueue. destruct (b_dropped b); [reflexivity|]. destruct (_ <=? _); [reflexivity|]. destruct (negb _); [rewrite Dr; reflexivity|reflexivity].
  - destruct (sink_at st); try (apply Same; reflexivity). pose proof (ids_subs _ I) as N.
    destruct S as [S|S]; [|exists b; split; [right; cbn [gone]; rewrite find_sub_app, S; reflexivity|reflexivity]].
    assert (M : NoDup (map b_id (drive_ready os (subs st) ready))) by (rewrite drive_ready_ids; exact N).
    pose proof (find_drive_ready i os ready (subs st) N) as F. rewrite S in F. cbn in F.
    remember (fold_left (fun b0 r => drive_one (os i) r b0) (news i (subs st) ready) b) as b' eqn:Eb. exists b'. split.
    + destruct (b_dropped b') eqn:D.
      * right. cbn [gone]. rewrite find_sub_app. rewrite (find_sub_none i (gone st)); [rewrite find_sub_filter, F, D by exact M; reflexivity|].
        intros Hin. pose proof (v_ids _ I) as V. apply find_sub_in in S as [S Si]. apply (in_map b_id) in S. rewrite Si in S.
        clear - V S Hin. induction (map b_id (gone st)) as [|x l IH]; [destruct Hin|]. cbn in V. inversion V; subst. destruct Hin as [->|Hin]; [|auto].
        apply H1. apply in_or_app. right. apply in_or_app. auto.
      * left. cbn [subs]. rewrite find_sub_filter, F, D by exact M. reflexivity.
    + rewrite Eb. generalize (news i (subs st) ready). intros rs. clear - Dr. revert b. induction rs as [|r rs IH]; intros b; [reflexivity|]. cbn. rewrite IH.
      unfold drive_one. destruct (b_dropped b); [reflexivity|]. destruct r; [reflexivity|apply Dr|reflexivity].
Qed.

Lemma subscriber_unique st i b b' : bus_inv st -> subscriber st i b -> subscriber st i b' -> b = b'.
Proof.
  intros I S S'. pose proof (v_ids _ I) as V.
  assert (X : forall x y, find_sub i (subs st) = Some x -> find_sub i (gone st) = Some y -> False).
  { intros x y Hx Hy. apply find_sub_in in Hx as [Hx Ex], Hy as [Hy Ey]. apply (in_map b_id) in Hx, Hy. rewrite Ex in Hx. rewrite Ey in Hy. clear - V Hx Hy.
    induction (map b_id (gone st)) as [|z l IH]; [destruct Hy|]. cbn in V. inversion V; subst. destruct Hy as [->|Hy]; [|auto]. apply H1. apply in_or_app. right. apply in_or_app. auto. }
  destruct S as [S|S], S' as [S'|S']; try congruence; exfalso; eauto.
Qed.

Lemma greedy_flushes n : forall past es off, off_ok es off -> length es <= n ->
  drive_pending (repeat (Wrote 28) n) (written past es off) (map line es) off = (wire (past ++ es), [], 0, true).
Proof.
  induction n as [|n IH]; intros past es off Ho L.
  - destruct es; [|cbn in L; lia]. cbn in Ho. subst. cbn. unfold written. rewrite !app_nil_r. reflexivity.
  - destruct es as [|e es]; [cbn in Ho; subst; cbn; unfold written; rewrite !app_nil_r; reflexivity|]. cbn [repeat map drive_pending]. cbn in Ho.
    pose proof (skipn_length off (line e)) as SL. pose proof (line_length e) as LL. rewrite Nat.min_r by lia.
    destruct (length (skipn off (line e)) =? 0) eqn:Z; [apply Nat.eqb_eq in Z; lia|].
    replace (length (line e) <=? off + length (skipn off (line e))) with true by (symmetry; apply Nat.leb_le; lia).
    assert (W : written past (e :: es) off ++ firstn (length (skipn off (line e))) (skipn off (line e)) = written (past ++ [e]) es 0).
    { unfold written. rewrite wire_app. cbn [wire map concat firstn]. rewrite firstn_all, firstn_app. replace (off - length (line e)) with 0 by lia. cbn [firstn].
      rewrite !app_nil_r, <- app_assoc, firstn_skipn. reflexivity. }
    rewrite W, IH; [rewrite <- app_assoc; reflexivity|destruct es; cbn; [reflexivity|apply line_pos]|cbn in L; lia].
Qed.

Lemma greedy_drive b : live_ok b -> drive (greedy 0) b = mkSub (b_id b) [] 0 (b_dropped b) (wire (b_offered b)) (b_offered b) (b_since b).
Proof. intros (past & es & Ho & Hp & Hs & Hf & Hl). unfold drive, greedy. rewrite Hp, Hs, greedy_flushes by assumption. rewrite Ho. reflexivity. Qed.

Definition settled (b : sub) (offered : list ev_kind) : sub := mkSub (b_id b) [] 0 false (wire offered) offered (b_since b).

Lemma offers_idle es : forall b, b_dropped b = false -> b_pending b = [] -> b_off b = 0 -> b_sent b = wire (b_offered b) ->
  fold_left (fun b e => offer (greedy 0) e b) es b = settled b (b_offered b ++ es).
Proof.
  induction es as [|e es IH]; intros b D P O S; cbn [fold_left].
  - rewrite app_nil_r. unfold settled. rewrite <- S. destruct b; cbn in *. subst. reflexivity.
  - assert (E : offer (greedy 0) e b = settled b (b_offered b ++ [e])).
    { unfold offer, enqueue, wants_pollout. rewrite D. cbn [b_pending set_offered]. rewrite P. cbn [negb length subscriber_queue_depth Nat.leb].
      rewrite greedy_drive.
      - unfold settled. cbn. rewrite D. reflexivity.
      - exists (b_offered b), [e]. cbn [b_offered b_pending b_sent b_off set_offered app]. rewrite serialize_line_eq, O, S. unfold written. cbn [firstn]. rewrite app_nil_r.
        repeat split; auto; [cbn; apply line_pos|cbn; lia]. }
    rewrite E, IH; try reflexivity. cbn. unfold settled. cbn. rewrite <- app_assoc. reflexivity.
Qed.

Lemma offers_busy es : forall b, b_dropped b = false -> b_pending b <> [] -> live_ok b -> length (b_pending b) + length es <= 64 ->
  let b' := fold_left (fun b e => offer (greedy 0) e b) es b in
  b_dropped b' = false /\ live_ok b' /\ b_offered b' = b_offered b ++ es /\ b_id b' = b_id b /\ b_since b' = b_since b /\ b_pending b' <> [].
Proof.
  induction es as [|e es IH]; intros b D P L Ln; cbn [fold_left]; cbn zeta.
  - rewrite app_nil_r. auto 8.
  - cbn [length] in Ln. remember (offer (greedy 0) e b) as b1 eqn:Eb.
    assert (O : b1 = mkSub (b_id b) (b_pending b ++ [line e]) (b_off b) false (b_sent b) (b_offered b ++ [e]) (b_since b)).
    { rewrite Eb. unfold offer, enqueue, wants_pollout. rewrite D. cbn [b_pending set_offered].
      replace (subscriber_queue_depth <=? length (b_pending b)) with false by (symmetry; apply Nat.leb_gt; unfold subscriber_queue_depth; lia).
      destruct (b_pending b) as [|p ps] eqn:Ep; [congruence|]. cbn [negb]. unfold set_offered. cbn [b_id b_pending b_off b_dropped b_sent b_offered b_since]. rewrite serialize_line_eq, D, ?Ep. reflexivity. }
    clear Eb. subst b1. set (b1 := mkSub _ _ _ _ _ _ _).
    assert (L1 : live_ok b1).
    { destruct L as (past & es0 & Ho & Hp & Hs & Hf & Hl). exists past, (es0 ++ [e]). cbn [b_offered b_pending b_sent b_off b1 set_offered].
      destruct es0 as [|e0 es0]; [rewrite Hp in P; cbn in P; congruence|].
      split; [rewrite Ho, app_assoc; reflexivity|]. split; [rewrite Hp, map_app; reflexivity|].
      split. { rewrite Hs. unfold written. f_equal. rewrite wire_app, firstn_app. cbn in Hf. assert (L0 : b_off b <= length (wire (e0 :: es0))) by (cbn; rewrite app_length; lia).
               replace (b_off b - length (wire (e0 :: es0))) with 0 by lia. cbn [firstn]. rewrite app_nil_r. reflexivity. }
      split; [exact Hf|]. rewrite Hp, map_length in Ln. rewrite app_length. cbn [length] in *. lia. }
    destruct (IH b1) as (G1 & G2 & G3 & G4 & G5 & G6).
    + reflexivity.
    + cbn. intros E. apply app_eq_nil in E as [_ E]. discriminate E.
    + exact L1.
    + cbn [b_pending b1 set_offered]. rewrite app_length. cbn [length]. lia.
    + split; [exact G1|]. split; [exact G2|]. split; [rewrite G3; cbn; rewrite <- app_assoc; reflexivity|]. auto.
Qed.

Lemma run_accepts n : forall st w r, sink_at st = Accepting w r -> length (backlog st) = n ->
  exists fresh, let st' := bus_run st (repeat (BAccept true) (S n)) in
    sink_at st' = (if w then Draining r else Driving r) /\ channel st' = channel st /\ taken st' = taken st /\ published st' = published st /\ subs st' = subs st ++ fresh /\
    gone st' = gone st.
Proof.
  induction n as [|n IH]; intros st w r Hs Hb.
  - exists []. cbn. rewrite Hs. destruct (backlog st); [|discriminate Hb]. unfold after_accepts. destruct w; cbn; rewrite app_nil_r; auto 8.
  - destruct (backlog st) as [|i rest] eqn:E; [discriminate Hb|]. change (bus_run st (repeat (BAccept true) (S (S n)))) with (bus_run (bus_step st (BAccept true)) (repeat (BAccept true) (S n))).
    destruct (IH (bus_step st (BAccept true)) w r) as (fresh & G).
    + cbn. rewrite Hs, E. reflexivity.
    + cbn. rewrite Hs, E. cbn. injection Hb as Hb. exact Hb.
    + exists (sub_new i (length (taken st)) :: fresh). cbn zeta in *.
      destruct G as (G1 & G2 & G3 & G4 & G5 & G7). rewrite G1, G2, G3, G4, G5, G7. clear G1 G2 G3 G4 G5 G7. split; [reflexivity|]. cbn [bus_step]. rewrite Hs, E. cbn [channel taken published subs gone]. rewrite <- app_assoc. auto 8.
Qed.

Lemma run_recvs n : forall st r, sink_at st = Draining r -> length (channel st) = n ->
  let st' := bus_run st (repeat (BRecv greedy) (S n)) in
  sink_at st' = Driving r /\ channel st' = [] /\ published st' = published st /\ gone st' = gone st /\
  subs st' = map (fun b => fold_left (fun b e => offer (greedy 0) e b) (channel st) b) (subs st).
Proof.
  induction n as [|n IH]; intros st r Hs Hc; cbn zeta.
  - cbn. rewrite Hs. destruct (channel st) eqn:E; [|discriminate Hc]. cbn. rewrite E, map_id. auto.
  - destruct (channel st) as [|e rest] eqn:E; [discriminate Hc|].
    change (bus_run st (repeat (BRecv greedy) (S (S n)))) with (bus_run (bus_step st (BRecv greedy)) (repeat (BRecv greedy) (S n))).
    destruct (IH (bus_step st (BRecv greedy)) r) as (G1 & G2 & G3 & G4 & G5).
    + cbn. rewrite Hs, E. reflexivity.
    + cbn. rewrite Hs, E. cbn. injection Hc as Hc. exact Hc.
    + cbn zeta in *. rewrite G1, G2, G3, G4, G5. cbn [bus_step]. rewrite Hs, E. cbn [channel published gone subs]. rewrite map_map. auto 8.
Qed.

Lemma run_no_recvs n : forall st r, sink_at st = Driving r -> bus_run st (repeat (BRecv greedy) n) = st.
Proof. induction n as [|n IH]; intros st r Hs; [reflexivity|]. cbn [repeat bus_run fold_left]. cbn [bus_step]. rewrite Hs. apply (IH st r Hs). Qed.

