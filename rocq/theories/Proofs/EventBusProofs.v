(** Invariants of the events socket. *)
From Coq Require Import List NArith ZArith Bool Arith Lia.
From Verif Require Import Model.Base Model.Server Model.EventBus Spec.EventBusSpec.
Import ListNotations.
Open Scope nat_scope.

Lemma serialize_line_eq e : serialize_line e = line e.
Proof. destruct e; vm_compute; reflexivity. Qed.
Lemma line_length e : 27 <= length (line e) <= 28.
Proof. destruct e; vm_compute; lia. Qed.
Lemma line_pos e : 0 < length (line e).
Proof. pose proof (line_length e). lia. Qed.

Lemma firstn_add {A} (l : list A) : forall a b, firstn a l ++ firstn b (skipn a l) = firstn (a + b) l.
Proof. induction l as [|x l IH]; intros [|a] b; cbn; try reflexivity; [destruct b; reflexivity|]. rewrite IH. reflexivity. Qed.

Lemma wire_app a b : wire (a ++ b) = wire a ++ wire b.
Proof. unfold wire. rewrite map_app, concat_app. reflexivity. Qed.

(** [past] has been written, [es] is queued, [off] bytes of its head are written. *)
Definition written (past es : list ev_kind) (off : nat) : rstr := wire past ++ firstn off (wire es).
Definition off_ok (es : list ev_kind) (off : nat) : Prop := match es with [] => off = 0 | e :: _ => off < length (line e) end.

Lemma drive_pending_ok ws : forall past es off, off_ok es off ->
  exists past' es' off' ok, drive_pending ws (written past es off) (map line es) off = (written past' es' off', map line es', off', ok) /\
    past ++ es = past' ++ es' /\ off_ok es' off' /\ length es' <= length es.
Proof.
  induction ws as [|w ws IH]; intros past es off Ho.
  - exists past, es, off, true. destruct es; cbn; auto.
  - destruct es as [|e es]; [exists past, [], off, true; cbn; auto|].
    destruct w as [k| | |].
    + cbn [drive_pending map]. destruct (Nat.min k (length (skipn off (line e))) =? 0) eqn:Z.
      { exists past, (e :: es), off, false. auto. }
      apply Nat.eqb_neq in Z. pose proof (skipn_length off (line e)) as SL. cbn in Ho.
      remember (Nat.min k (length (skipn off (line e)))) as n eqn:En.
      assert (Ln : off + n <= length (line e)) by lia.
      assert (W : written past (e :: es) off ++ firstn n (skipn off (line e)) = written past (e :: es) (off + n)).
      { unfold written. cbn [wire map concat]. change (concat (map line es)) with (wire es). rewrite !firstn_app.
        replace (off - length (line e)) with 0 by lia. replace (off + n - length (line e)) with 0 by lia. cbn [firstn]. rewrite !app_nil_r, <- app_assoc, firstn_add. reflexivity. }
      rewrite W. destruct (length (line e) <=? off + n) eqn:F.
      * apply Nat.leb_le in F. assert (E : off + n = length (line e)) by lia.
        assert (W2 : written past (e :: es) (off + n) = written (past ++ [e]) es 0).
        { unfold written. rewrite wire_app. cbn [wire map concat firstn]. rewrite E, firstn_app, firstn_all, Nat.sub_diag. cbn [firstn]. rewrite !app_nil_r. reflexivity. }
        rewrite W2. destruct (IH (past ++ [e]) es 0) as (p' & e' & o' & ok & D & A & O & L). { destruct es as [|e1 es]; cbn; [reflexivity|apply line_pos]. }
        exists p', e', o', ok. split; [exact D|]. split; [rewrite <- A, <- app_assoc; reflexivity|]. split; [exact O|cbn; lia].
      * apply Nat.leb_gt in F. destruct (IH past (e :: es) (off + n)) as (p' & e' & o' & ok & D & A & O & L). { exact F. }
        exists p', e', o', ok. auto.
    + exists past, (e :: es), off, true. auto.
    + cbn [drive_pending map]. destruct (IH past (e :: es) off Ho) as (p' & e' & o' & ok & D & A & O & L). exists p', e', o', ok. auto.
    + exists past, (e :: es), off, false. auto.
Qed.

Definition live_ok (b : sub) : Prop :=
  exists past es, b_offered b = past ++ es /\ b_pending b = map line es /\ b_sent b = written past es (b_off b) /\ off_ok es (b_off b) /\ length es <= 64.
Definition sub_ok (tk : list ev_kind) (b : sub) : Prop :=
  b_since b <= length tk /\
  is_prefix (b_sent b) (wire (b_offered b)) /\ length (b_pending b) <= 64 /\
  if b_dropped b then is_prefix (b_offered b) (skipn (b_since b) tk)
  else b_offered b = skipn (b_since b) tk /\ live_ok b.

Lemma written_prefix past es off : is_prefix (written past es off) (wire (past ++ es)).
Proof. exists (skipn off (wire es)). unfold written. rewrite wire_app, <- app_assoc, firstn_skipn. reflexivity. Qed.

Lemma drive_shape ws b : live_ok b ->
  b_id (drive ws b) = b_id b /\ b_offered (drive ws b) = b_offered b /\ b_since (drive ws b) = b_since b /\ live_ok (drive ws b) /\ length (b_pending (drive ws b)) <= length (b_pending b).
Proof.
  intros (past & es & Ho & Hp & Hs & Hf & Hl). unfold drive. rewrite Hp, Hs.
  destruct (drive_pending_ok ws past es (b_off b) Hf) as (p' & e' & o' & ok & D & A & O & L). rewrite D. cbn.
  do 3 (split; [reflexivity|]). split.
  - exists p', e'. cbn. split; [congruence|]. split; [reflexivity|]. split; [reflexivity|]. split; [exact O|lia].
  - rewrite !map_length. exact L.
Qed.
Lemma live_prefix b : live_ok b -> is_prefix (b_sent b) (wire (b_offered b)) /\ length (b_pending b) <= 64.
Proof. intros (past & es & Ho & Hp & Hs & Hf & Hl). rewrite Ho, Hp, Hs, map_length. split; [apply written_prefix|exact Hl]. Qed.

Lemma drive_ok tk ws b : b_dropped b = false -> sub_ok tk b -> sub_ok tk (drive ws b).
Proof.
  intros D (H1 & H2 & H3 & H4). rewrite D in H4. destruct H4 as [H4 H5].
  destruct (drive_shape ws b H5) as (_ & Eo & Es & L & _). destruct (live_prefix _ L) as [P Q].
  split; [rewrite Es; exact H1|]. split; [exact P|]. split; [exact Q|]. rewrite Eo, Es.
  destruct (b_dropped (drive ws b)); [exists []; rewrite app_nil_r; auto|auto].
Qed.

Lemma drop_ok tk b : sub_ok tk b -> sub_ok tk (set_dropped b).
Proof.
  intros (H1 & H2 & H3 & H4). split; [exact H1|]. split; [exact H2|]. split; [exact H3|]. cbn.
  destruct (b_dropped b); [exact H4|]. destruct H4 as [H4 _]. exists []. rewrite app_nil_r. symmetry. exact H4.
Qed.

Lemma drive_one_ok tk ws rev b : sub_ok tk b -> sub_ok tk (drive_one ws rev b).
Proof.
  intros H. unfold drive_one. destruct (b_dropped b) eqn:D; [exact H|]. destruct rev; [exact H|apply drive_ok; assumption|apply drop_ok; exact H].
Qed.

Lemma prefix_app {A} (p l m : list A) : is_prefix p l -> is_prefix p (l ++ m).
Proof. intros (r & ->). exists (r ++ m). rewrite app_assoc. reflexivity. Qed.

Lemma skipn_snoc {A} n (l : list A) x : n <= length l -> skipn n (l ++ [x]) = skipn n l ++ [x].
Proof. intros L. rewrite skipn_app. replace (n - length l) with 0 by lia. reflexivity. Qed.

Lemma offer_ok tk ws e b : sub_ok tk b -> sub_ok (tk ++ [e]) (offer ws e b).
Proof.
  intros (H1 & H2 & H3 & H4). unfold offer. destruct (b_dropped b) eqn:D.
  - split; [rewrite app_length; lia|]. split; [exact H2|]. split; [exact H3|]. rewrite D. rewrite skipn_snoc by exact H1. apply prefix_app. exact H4.
  - destruct H4 as [H4 (past & es & Ho & Hp & Hs & Hf & Hl)]. unfold enqueue. cbn [b_pending set_offered].
    assert (Of : b_offered b ++ [e] = skipn (b_since b) (tk ++ [e])) by (rewrite skipn_snoc by exact H1; congruence).
    assert (Ln : b_since b <= length (tk ++ [e])) by (rewrite app_length; lia).
    destruct (subscriber_queue_depth <=? length (b_pending b)) eqn:Q.
    + split; [exact Ln|]. split; [cbn [b_sent b_offered set_dropped set_offered]; rewrite wire_app; apply prefix_app; exact H2|]. split; [exact H3|]. cbn [b_dropped b_offered b_since set_dropped set_offered]. exists []. rewrite app_nil_r. symmetry. exact Of.
    + apply Nat.leb_gt in Q. unfold subscriber_queue_depth in Q. rewrite Hp, map_length in Q.
      set (b1 := mkSub _ _ _ _ _ _ _). assert (L1 : live_ok b1).
      { exists past, (es ++ [e]). cbn [b_offered b_pending b_sent b_off b1 set_offered]. split; [rewrite Ho, app_assoc; reflexivity|]. split; [rewrite Hp, map_app, serialize_line_eq; reflexivity|].
        split. { rewrite Hs. unfold written. f_equal. rewrite wire_app, firstn_app. destruct es as [|e0 es0]; cbn in Hf; [rewrite Hf; reflexivity|].
                 assert (L0 : b_off b <= length (wire (e0 :: es0))) by (cbn; rewrite app_length; lia).
                 replace (b_off b - length (wire (e0 :: es0))) with 0 by lia. cbn [firstn]. rewrite app_nil_r. reflexivity. }
        split; [destruct es as [|e0 es0]; cbn in Hf |- *; [rewrite Hf; apply line_pos|exact Hf]|]. rewrite app_length. cbn. lia. }
      assert (S1 : sub_ok (tk ++ [e]) b1).
      { destruct (live_prefix _ L1) as [P1 P2]. split; [exact Ln|]. split; [exact P1|]. split; [exact P2|]. cbn [b_dropped b1 set_offered]. rewrite D. split; [exact Of|exact L1]. }
      destruct (negb (wants_pollout b)); [apply drive_ok; [exact D|exact S1]|exact S1].
Qed.

Lemma change_sub_forall (P : sub -> Prop) f l : (forall b, P b -> P (f b)) -> forall i, Forall P l -> Forall P (change_sub l i f).
Proof. intros H. induction l as [|b l IH]; intros [|i] F; cbn; auto; inversion F; subst; constructor; auto. Qed.

Lemma drive_ready_forall (P : sub -> Prop) os ready : (forall ws rev b, P b -> P (drive_one ws rev b)) -> forall l, Forall P l -> Forall P (drive_ready os l ready).
Proof.
  intros H. unfold drive_ready. induction ready as [|p ready IH]; intros l F; cbn [fold_left]; [exact F|].
  apply IH. apply change_sub_forall; [intros b; apply H|exact F].
Qed.

(** Ids. *)
Lemma drive_id ws b : b_id (drive ws b) = b_id b.
Proof. unfold drive. destruct (drive_pending _ _ _ _) as [[[? ?] ?] ?]. reflexivity. Qed.
Lemma drive_one_id ws rev b : b_id (drive_one ws rev b) = b_id b.
Proof. unfold drive_one. destruct (b_dropped b); [reflexivity|]. destruct rev; [reflexivity|apply drive_id|reflexivity]. Qed.
Lemma offer_id ws e b : b_id (offer ws e b) = b_id b.
Proof. unfold offer, enqueue. destruct (b_dropped b); [reflexivity|]. destruct (_ <=? _); [reflexivity|]. destruct (negb _); [rewrite drive_id; reflexivity|reflexivity]. Qed.

Lemma change_sub_ids l f : (forall b, b_id (f b) = b_id b) -> forall i, map b_id (change_sub l i f) = map b_id l.
Proof. intros H. induction l as [|b l IH]; intros [|i]; cbn; congruence. Qed.
Lemma drive_ready_ids os ready : forall l, map b_id (drive_ready os l ready) = map b_id l.
Proof.
  unfold drive_ready. induction ready as [|p ready IH]; intros l; cbn [fold_left]; [reflexivity|].
  rewrite IH. apply change_sub_ids. intros b. apply drive_one_id.
Qed.

Record bus_inv (st : bus) : Prop := {
  v_subs : Forall (sub_ok (taken st)) (subs st);
  v_gone : Forall (sub_ok (taken st)) (gone st);
  v_gone_dropped : Forall (fun b => b_dropped b = true) (gone st);
  v_pub : published st = taken st ++ channel st;
  v_cap : length (channel st) <= event_channel_cap;
  v_ids : NoDup (map b_id (gone st) ++ map b_id (subs st) ++ backlog st);
  v_lt : forall i, In i (map b_id (gone st) ++ map b_id (subs st) ++ backlog st) -> i < next st;
  v_wake : channel st = [] \/ wake st = true \/ 0 < waking st \/ (exists r, sink_at st = Draining r) \/ (exists r, sink_at st = Accepting true r) \/ sink_at st = Stopped;
  v_live : match sink_at st with Polling | Stopped => Forall (fun b => b_dropped b = false) (subs st) | _ => True end
}.

Lemma sub_ok_more tk b e : b_dropped b = true -> sub_ok tk b -> sub_ok (tk ++ [e]) b.
Proof. intros D H. pose proof (offer_ok tk [] e b H) as G. unfold offer in G. rewrite D in G. exact G. Qed.

Lemma nodup_filter_move {A} (f : sub -> bool) (g : list A) (l : list sub) (h : sub -> A) (t : list A) :
  NoDup (g ++ map h l ++ t) -> NoDup ((g ++ map h (filter f l)) ++ map h (filter (fun b => negb (f b)) l) ++ t).
Proof.
  revert g. induction l as [|b l IH]; intros g N; cbn in *; [rewrite app_nil_r; exact N|].
  destruct (f b); cbn [negb map].
  - specialize (IH (g ++ [h b])). rewrite <- !app_assoc in IH. cbn in IH. rewrite <- app_assoc. apply IH. exact N.
  - assert (N1 : NoDup (h b :: g ++ map h l ++ t)). { apply NoDup_remove in N as [N1 N2]. constructor; assumption. }
    inversion N1; subst. specialize (IH g H2).
    apply NoDup_Add with (a := h b) (l := (g ++ map h (filter f l)) ++ map h (filter (fun b => negb (f b)) l) ++ t).
    { apply Add_app. }
    split; [exact IH|]. intros Hin. apply H1. clear - Hin. rewrite !in_app_iff, !in_map_iff in *.
    destruct Hin as [[?|(x & <- & Hx)]|[(x & <- & Hx)|?]]; auto; apply filter_In in Hx as [Hx _]; right; left; exists x; auto.
Qed.

Lemma Forall_filter {A} (P : A -> Prop) f l : Forall P l -> Forall P (filter f l).
Proof. intros H. apply Forall_forall. intros x Hx. apply filter_In in Hx as [Hx _]. rewrite Forall_forall in H. auto. Qed.
Lemma Forall_filter_self {A} f (l : list A) : Forall (fun x => f x = true) (filter f l).
Proof. apply Forall_forall. intros x Hx. apply filter_In in Hx as [_ Hx]. exact Hx. Qed.

Lemma after_accepts_inv st w r : bus_inv st -> (exists r', sink_at st = Accepting w r') -> bus_inv (after_accepts st w r).
Proof.
  intros [I1 I2 I3 I4 I5 I6 I7 I8 I9] (r' & Hs). unfold after_accepts. destruct w; constructor; cbn; auto.
  - right. right. right. left. eauto.
  - destruct I8 as [H|[H|[H|[(x & H)|[(x & H)|H]]]]]; auto; congruence.
Qed.

Lemma bus_inv_step st a : bus_inv st -> bus_inv (bus_step st a).
Proof.
  intros I. destruct a; cbn [bus_step].
  - destruct I as [I1 I2 I3 I4 I5 I6 I7 I8 I9]. destruct (sink_at st) eqn:Hs;
      try (destruct (length (channel st) <? event_channel_cap) eqn:L; [apply Nat.ltb_lt in L|];
        constructor; cbn [channel wake waking backlog next subs sink_at gone published taken lost]; try rewrite Hs; auto;
        [rewrite I4, app_assoc; reflexivity | rewrite app_length; cbn; lia | right; right; left; apply Nat.lt_0_succ]).
    constructor; cbn [channel wake waking backlog next subs sink_at gone published taken lost]; rewrite ?Hs; auto.
  - destruct (waking st) eqn:W; [exact I|]. destruct I as [I1 I2 I3 I4 I5 I6 I7 I8 I9]. constructor; cbn; auto.
  - destruct I as [I1 I2 I3 I4 I5 I6 I7 I8 I9]. constructor; cbn; auto.
    + rewrite !app_assoc. rewrite app_assoc in I6, I7. rewrite <- (app_assoc _ (map b_id (subs st))) in *.
      apply NoDup_Add with (a := next st) (l := map b_id (gone st) ++ map b_id (subs st) ++ backlog st).
      { rewrite <- (app_nil_r (map b_id (gone st) ++ map b_id (subs st) ++ backlog st)) at 1. rewrite app_assoc. apply Add_app. }
      split; [rewrite app_assoc; rewrite <- app_assoc; exact I6|]. intros Hin. specialize (I7 _ Hin). lia.
    + intros i Hin. rewrite !app_assoc in Hin. apply in_app_or in Hin as [Hin|[<-|[]]]; [|lia]. rewrite <- !app_assoc in Hin. specialize (I7 i Hin). lia.
  - destruct (sink_at st) eqn:Hs; try exact I. destruct I as [I1 I2 I3 I4 I5 I6 I7 I8 I9]. rewrite Hs in I9. destruct shutdown.
    + constructor; cbn; auto 8.
    + constructor; cbn; auto. destruct I8 as [H|[H|[H|[(r & H)|[(r & H)|H]]]]]; auto; congruence.
  - destruct (sink_at st) as [|w r| | |] eqn:Hs; try exact I. destruct (backlog st) as [|i rest] eqn:Hb; [apply after_accepts_inv; eauto|].
    destruct I as [I1 I2 I3 I4 I5 I6 I7 I8 I9]. rewrite Hb, ?Hs in *. destruct ok; constructor; cbn [channel wake waking backlog next subs sink_at gone published taken lost]; auto.
    + apply Forall_app. split; [exact I1|]. constructor; [|constructor]. split; [cbn; lia|]. split; [cbn; exists []; reflexivity|]. split; [cbn; lia|]. cbn.
      split; [rewrite skipn_all; reflexivity|]. exists [], []. cbn. repeat split; auto. lia.
    + rewrite map_app. cbn [map]. rewrite <- app_assoc. exact I6.
    + rewrite map_app. cbn [map]. rewrite <- app_assoc. exact I7.
    + rewrite app_assoc in *. apply NoDup_remove_1 in I6. exact I6.
    + intros j Hin. apply I7. rewrite app_assoc in *. apply in_app_or in Hin as [Hin|Hin]; apply in_or_app; [auto|right; right; exact Hin].
  - destruct (sink_at st) as [|w r| | |] eqn:Hs; try exact I. apply after_accepts_inv; eauto.
  - destruct (sink_at st) as [| |r| |] eqn:Hs; try exact I. destruct (channel st) as [|e rest] eqn:Hc.
    + destruct I as [I1 I2 I3 I4 I5 I6 I7 I8 I9]. constructor; cbn; rewrite ?Hc in *; auto.
    + destruct I as [I1 I2 I3 I4 I5 I6 I7 I8 I9]. rewrite Hc, ?Hs in *.
      assert (Ids : map b_id (map (fun b => offer (os (b_id b)) e b) (subs st)) = map b_id (subs st)).
      { rewrite map_map. apply map_ext. intros b. apply offer_id. }
      constructor; cbn [channel wake waking backlog next subs sink_at gone published taken lost].
      * apply Forall_map. eapply Forall_impl; [|exact I1]. intros b. apply offer_ok.
      * clear - I2 I3. induction I2; inversion I3; subst; constructor; auto using sub_ok_more.
      * exact I3.
      * rewrite I4, <- app_assoc. reflexivity.
      * cbn in I5. lia.
      * rewrite Ids. exact I6.
      * rewrite Ids. exact I7.
      * right. right. right. left. eauto.
      * exact I9.
  - destruct (sink_at st) as [| | |r|] eqn:Hs; try exact I. destruct I as [I1 I2 I3 I4 I5 I6 I7 I8 I9].
    assert (F : Forall (sub_ok (taken st)) (drive_ready os (subs st) r)) by (apply drive_ready_forall; [intros; apply drive_one_ok; assumption|exact I1]).
    pose proof (drive_ready_ids os r (subs st)) as Ids.
    constructor; cbn [channel wake waking backlog next subs sink_at gone published taken lost]; auto.
    + apply Forall_filter. exact F.
    + apply Forall_app. split; [exact I2|]. apply Forall_filter. exact F.
    + apply Forall_app. split; [exact I3|]. apply Forall_filter_self.
    + rewrite map_app. apply nodup_filter_move. rewrite Ids. exact I6.
    + intros i Hin. apply I7. rewrite <- Ids. rewrite map_app, !in_app_iff, !in_map_iff in Hin. rewrite !in_app_iff, !in_map_iff.
      destruct Hin as [[?|(x & <- & Hx)]|[(x & <- & Hx)|?]]; auto; apply filter_In in Hx as [Hx _]; right; left; exists x; auto.
    + destruct I8 as [H|[H|[H|[(x & H)|[(x & H)|H]]]]]; auto; congruence.
    + apply Forall_forall. intros b Hb. apply filter_In in Hb as [_ Hb]. apply negb_true_iff in Hb. exact Hb.
Qed.

Lemma bus_run_step st l a : bus_run st (l ++ [a]) = bus_step (bus_run st l) a.
Proof. unfold bus_run. rewrite fold_left_app. reflexivity. Qed.

Lemma bus_reachable_inv st : bus_reachable st -> bus_inv st.
Proof.
  intros (l & ->). induction l as [|a l IH] using rev_ind.
  - constructor; cbn; auto; try constructor; try lia.
  - rewrite bus_run_step. apply bus_inv_step. exact IH.
Qed.

Lemma find_sub_in i l b : find_sub i l = Some b -> In b l /\ b_id b = i.
Proof. intros H. apply find_some in H as [H E]. apply Nat.eqb_eq in E. auto. Qed.

Lemma subscriber_ok st i b : bus_reachable st -> subscriber st i b -> sub_ok (taken st) b.
Proof.
  intros R S. pose proof (bus_reachable_inv _ R) as I. destruct S as [S|S]; apply find_sub_in in S as [S _].
  - pose proof (v_subs _ I) as F. rewrite Forall_forall in F. auto.
  - pose proof (v_gone _ I) as F. rewrite Forall_forall in F. auto.
Qed.

Lemma NoDup_app_remove_l {A} (l m : list A) : NoDup (l ++ m) -> NoDup m.
Proof. induction l as [|x l IH]; cbn; intros N; [exact N|]. inversion N; auto. Qed.
Lemma NoDup_app_remove_r {A} (l m : list A) : NoDup (l ++ m) -> NoDup l.
Proof. induction l as [|x l IH]; cbn; intros N; [constructor|]. inversion N; subst. constructor; [|auto]. intros H. apply H1. apply in_or_app. auto. Qed.

(** Isolation: what happens to one subscriber does not depend on the others. *)
Lemma find_sub_app i l m : find_sub i (l ++ m) = match find_sub i l with Some b => Some b | None => find_sub i m end.
Proof. unfold find_sub. induction l as [|b l IH]; cbn; [reflexivity|]. destruct (b_id b =? i); auto. Qed.
Lemma find_sub_none i l : ~ In i (map b_id l) -> find_sub i l = None.
Proof. unfold find_sub. induction l as [|b l IH]; cbn; intros N; [reflexivity|]. destruct (Nat.eqb_spec (b_id b) i) as [E|E]; [exfalso; auto|]. apply IH. auto. Qed.
Lemma find_sub_map i l f : (forall b, b_id (f b) = b_id b) -> find_sub i (map f l) = option_map f (find_sub i l).
Proof. intros H. unfold find_sub. induction l as [|b l IH]; cbn; [reflexivity|]. rewrite H. destruct (b_id b =? i); [reflexivity|exact IH]. Qed.
Lemma find_sub_filter i l f : NoDup (map b_id l) -> find_sub i (filter f l) = match find_sub i l with Some b => if f b then Some b else None | None => None end.
Proof.
  induction l as [|b l IH]; intros N; [reflexivity|]. inversion N; subst. specialize (IH H2).
  unfold find_sub in *. cbn. destruct (Nat.eqb_spec (b_id b) i) as [E|E].
  - destruct (f b) eqn:F; cbn.
    + apply Nat.eqb_eq in E. rewrite E. reflexivity.
    + change (find_sub i (filter f l) = None). apply find_sub_none. intros Hin. apply H1. rewrite E.
      rewrite in_map_iff in *. destruct Hin as (x & Ex & Hx). apply filter_In in Hx as [Hx _]. eauto.
  - apply Nat.eqb_neq in E. destruct (f b); cbn; rewrite ?E; exact IH.
Qed.

Definition id_at (l : list sub) (p : nat) (i : nat) : bool := match nth_error l p with Some b => b_id b =? i | None => false end.
Definition news (i : nat) (l : list sub) (ready : list (nat * revent)) : list revent :=
  map snd (filter (fun p => id_at l (fst p) i) ready).

Lemma find_sub_change i l f : (forall b, b_id (f b) = b_id b) -> NoDup (map b_id l) -> forall p,
  find_sub i (change_sub l p f) = if id_at l p i then option_map f (find_sub i l) else find_sub i l.
Proof.
  intros H. unfold find_sub, id_at. induction l as [|b l IH]; intros N [|p]; try reflexivity; inversion N; subst.
  - cbn. rewrite H. destruct (Nat.eqb_spec (b_id b) i); reflexivity.
  - cbn. destruct (Nat.eqb_spec (b_id b) i) as [E|E]; [|apply IH; assumption].
    destruct (nth_error l p) as [b'|] eqn:Hp; [|reflexivity]. destruct (Nat.eqb_spec (b_id b') i) as [E'|E']; [|reflexivity].
    exfalso. apply H2. rewrite E, <- E'. apply in_map. eapply nth_error_In; exact Hp.
Qed.

Lemma id_at_ids l l' : map b_id l = map b_id l' -> forall p i, id_at l p i = id_at l' p i.
Proof.
  revert l'. induction l as [|b l IH]; intros [|b' l'] E p i; try discriminate E; [reflexivity|]. injection E as E1 E2.
  destruct p as [|p]; unfold id_at in *; cbn; [rewrite E1; reflexivity|]. apply (IH l' E2 p i).
Qed.

Lemma find_drive_ready i os ready : forall l, NoDup (map b_id l) ->
  find_sub i (drive_ready os l ready) = option_map (fun b => fold_left (fun b r => drive_one (os i) r b) (news i l ready) b) (find_sub i l).
Proof.
  unfold drive_ready. induction ready as [|[p r] ready IH]; intros l N; cbn [fold_left].
  - cbn. destruct (find_sub i l); reflexivity.
  - pose proof (change_sub_ids l (fun b => drive_one (os (b_id b)) r b) (fun b => drive_one_id _ _ b) p) as Ids.
    cbn [fst snd]. rewrite IH by (rewrite Ids; exact N). rewrite find_sub_change; [|intros b; apply drive_one_id|exact N].
    unfold news. cbn [filter fst]. rewrite (filter_ext (fun q => id_at (change_sub l p (fun b => drive_one (os (b_id b)) r b)) (fst q) i) (fun q => id_at l (fst q) i))
      by (intros q; apply id_at_ids; exact Ids).
    destruct (id_at l p i); cbn [map fold_left]; [|reflexivity].
    destruct (find_sub i l) as [b|] eqn:F; [|reflexivity]. cbn. apply find_sub_in in F as [_ F]. rewrite F. reflexivity.
Qed.

Lemma news_poll i revs l : NoDup (map b_id l) ->
  news i l (map (fun p => (p, match nth_error l p with Some b => revs (b_id b) | None => Quiet end)) (poll_set 0 l)) =
  match find_sub i l with Some b => if wants_pollout b then [revs i] else [] | None => [] end.
Proof.
  intros N. unfold news.
  assert (G : forall l0 l1, l = l0 ++ l1 ->
    map snd (filter (fun p : nat * revent => id_at l (fst p) i) (map (fun p => (p, match nth_error l p with Some b => revs (b_id b) | None => Quiet end)) (poll_set (length l0) l1))) =
    match find_sub i l1 with Some b => if wants_pollout b then [revs i] else [] | None => [] end).
  { intros l0 l1. revert l0. induction l1 as [|b l1 IH]; intros l0 E; [reflexivity|]. cbn [poll_set].
    rewrite map_app, filter_app, map_app. specialize (IH (l0 ++ [b])). rewrite app_length in IH. cbn [length] in IH. replace (length l0 + 1) with (S (length l0)) in IH by lia.
    rewrite IH by (rewrite <- app_assoc; exact E).
    assert (Hb : nth_error l (length l0) = Some b) by (rewrite E, nth_error_app2, Nat.sub_diag by lia; reflexivity).
    unfold find_sub. cbn [find]. destruct (Nat.eqb_spec (b_id b) i) as [Ei|Ei].
    - assert (Z : find (fun b0 => b_id b0 =? i) l1 = None).
      { apply find_sub_none. rewrite E, map_app in N. apply NoDup_app_remove_l in N. inversion N; subst. exact H1. }
      rewrite Z, app_nil_r. destruct (wants_pollout b); [|reflexivity]. cbn [map filter fst]. unfold id_at. rewrite Hb, <- Ei, Nat.eqb_refl. reflexivity.
    - destruct (wants_pollout b); [|reflexivity]. cbn [map filter fst]. unfold id_at at 1. rewrite Hb. apply Nat.eqb_neq in Ei. rewrite Ei. reflexivity. }
  apply (G [] l eq_refl).
Qed.

Definition phase (s : sink) : sink :=
  match s with Accepting w _ => Accepting w [] | Draining _ => Draining [] | Driving _ => Driving [] | _ => s end.
Definition ready_of (s : sink) : list (nat * revent) :=
  match s with Accepting _ r | Draining r | Driving r => r | _ => [] end.
(** The positions in the poll set are those of subscribers already there. *)
Definition in_range (st : bus) : Prop := Forall (fun p => fst p < length (subs st)) (ready_of (sink_at st)).

Record same_for (i : nat) (st st' : bus) : Prop := {
  q_channel : channel st' = channel st; q_wake : wake st' = wake st; q_waking : waking st' = waking st; q_backlog : backlog st' = backlog st;
  q_next : next st' = next st; q_phase : phase (sink_at st') = phase (sink_at st); q_pub : published st' = published st; q_taken : taken st' = taken st;
  q_lost : lost st' = lost st; q_sub : find_sub i (subs st') = find_sub i (subs st); q_gone : find_sub i (gone st') = find_sub i (gone st);
  q_news : news i (subs st') (ready_of (sink_at st')) = news i (subs st) (ready_of (sink_at st))
}.

Lemma poll_set_lt l : forall k p, In p (poll_set k l) -> p < k + length l.
Proof.
  induction l as [|b l IH]; intros k p Hin; cbn in *; [destruct Hin|]. apply in_app_or in Hin as [Hin|Hin].
  - destruct (wants_pollout b); [destruct Hin as [<-|[]]; lia|destruct Hin].
  - specialize (IH _ _ Hin). lia.
Qed.

Lemma in_range_step st a : in_range st -> in_range (bus_step st a).
Proof.
  intros R. unfold in_range in *. destruct a; cbn [bus_step].
  - destruct (sink_at st) eqn:Hs; try (destruct (_ <? _)); cbn; rewrite ?Hs in *; exact R.
  - destruct (waking st); exact R.
  - exact R.
  - destruct (sink_at st) eqn:Hs; rewrite ?Hs; try exact R. destruct shutdown; cbn; [constructor|]. apply Forall_map. apply Forall_forall. intros p Hp. cbn. apply poll_set_lt in Hp. exact Hp.
  - destruct (sink_at st) eqn:Hs; rewrite ?Hs; try exact R. destruct (backlog st).
    + unfold after_accepts. destruct woken; exact R.
    + cbn. destruct ok; [|exact R]. eapply Forall_impl; [|exact R]. intros p Hp. cbv beta in *. rewrite app_length. apply Nat.lt_lt_add_r. exact Hp.
  - destruct (sink_at st) eqn:Hs; rewrite ?Hs; try exact R. unfold after_accepts. destruct woken; exact R.
  - destruct (sink_at st) eqn:Hs; rewrite ?Hs; try exact R. destruct (channel st); cbn; [exact R|]. rewrite map_length. exact R.
  - destruct (sink_at st) eqn:Hs; rewrite ?Hs; try exact R. cbn. constructor.
Qed.

Lemma news_app i l m ready : Forall (fun p => fst p < length l) ready -> news i (l ++ m) ready = news i l ready.
Proof.
  intros F. unfold news. f_equal. induction F as [|[p r] ready H F IH]; [reflexivity|]. cbn. cbn in H.
  replace (id_at (l ++ m) p i) with (id_at l p i) by (unfold id_at; rewrite nth_error_app1 by exact H; reflexivity). rewrite IH. reflexivity.
Qed.
Lemma news_ids i l l' ready : map b_id l = map b_id l' -> news i l ready = news i l' ready.
Proof. intros E. unfold news. f_equal. apply filter_ext. intros p. apply id_at_ids. exact E. Qed.

Lemma ids_subs st : bus_inv st -> NoDup (map b_id (subs st)).
Proof. intros I. pose proof (v_ids _ I) as N. apply NoDup_app_remove_l in N. apply NoDup_app_remove_r in N. exact N. Qed.

Lemma phase_inv s s' : phase s' = phase s ->
  match s with
  | Polling => s' = Polling | Stopped => s' = Stopped
  | Accepting w _ => exists r, s' = Accepting w r | Draining _ => exists r, s' = Draining r | Driving _ => exists r, s' = Driving r
  end.
Proof. destruct s, s'; cbn; intros E; try discriminate E; try injection E as ->; eauto. Qed.

Lemma same_for_step i st st' a a' : bus_inv st -> bus_inv st' -> in_range st -> in_range st' ->
  same_for i st st' -> alike i a a' -> same_for i (bus_step st a) (bus_step st' a').
Proof.
  intros I I' R R' Q A. pose proof (ids_subs _ I) as N. pose proof (ids_subs _ I') as N'.
  pose proof (phase_inv _ _ (q_phase _ _ _ Q)) as P.
  destruct a, a'; cbn in A; try contradiction; cbn [bus_step].
  - subst. destruct Q as [Q1 Q2 Q3 Q4 Q5 Q6 Q7 Q8 Q9 Q10 Q11 Q12]. rewrite Q1, Q2, Q3, Q4, Q5, Q7, Q8, Q9.
    destruct (sink_at st) eqn:Hs; try (destruct P as (r' & P)); rewrite ?P in *; try destruct (_ <? _);
      constructor; cbn [channel wake waking backlog next subs sink_at gone published taken lost ready_of phase]; auto; congruence.
  - destruct Q as [Q1 Q2 Q3 Q4 Q5 Q6 Q7 Q8 Q9 Q10 Q11 Q12]. rewrite Q3. destruct (waking st) eqn:W; constructor; cbn [set_sink channel wake waking backlog next subs sink_at gone published taken lost ready_of phase]; auto; congruence.
  - destruct Q as [Q1 Q2 Q3 Q4 Q5 Q6 Q7 Q8 Q9 Q10 Q11 Q12]. constructor; cbn [set_sink channel wake waking backlog next subs sink_at gone published taken lost ready_of phase]; auto; congruence.
  - destruct A as [Ar ->]. destruct (sink_at st) eqn:Hs; try (destruct P as (r' & P)); rewrite P; try exact Q.
    destruct Q as [Q1 Q2 Q3 Q4 Q5 Q6 Q7 Q8 Q9 Q10 Q11 Q12].
    destruct shutdown; constructor; cbn [set_sink channel wake waking backlog next subs sink_at gone published taken lost phase ready_of]; auto; try congruence.
    rewrite !news_poll by assumption. rewrite Q10, Ar. reflexivity.
  - subst. destruct (sink_at st) eqn:Hs; try (destruct P as (r' & P)); rewrite P; try exact Q.
    destruct Q as [Q1 Q2 Q3 Q4 Q5 Q6 Q7 Q8 Q9 Q10 Q11 Q12]. rewrite Q4. unfold in_range in *. rewrite Hs, P in *. cbn [ready_of] in *. destruct (backlog st) as [|j rest] eqn:Hb.
    + unfold after_accepts. destruct woken; constructor; cbn [set_sink channel wake waking backlog next subs sink_at gone published taken lost ready_of phase]; auto; congruence.
    + destruct ok; constructor; cbn [channel wake waking backlog next subs sink_at gone published taken lost]; rewrite ?Hs, ?P; auto.
      * rewrite !find_sub_app, Q10, Q8. reflexivity.
      * cbn [ready_of]. rewrite !news_app by assumption. exact Q12.
  - destruct (sink_at st) eqn:Hs; try (destruct P as (r' & P)); rewrite P; try exact Q.
    destruct Q as [Q1 Q2 Q3 Q4 Q5 Q6 Q7 Q8 Q9 Q10 Q11 Q12]. rewrite Hs, P in *. unfold after_accepts. destruct woken; constructor; cbn [set_sink channel wake waking backlog next subs sink_at gone published taken lost ready_of phase]; auto; congruence.
  - destruct (sink_at st) eqn:Hs; try (destruct P as (r' & P)); rewrite P; try exact Q.
    destruct Q as [Q1 Q2 Q3 Q4 Q5 Q6 Q7 Q8 Q9 Q10 Q11 Q12]. rewrite Hs, P in *. rewrite Q1. destruct (channel st) as [|e rest] eqn:Hc.
    + constructor; cbn [set_sink channel wake waking backlog next subs sink_at gone published taken lost ready_of phase]; auto; congruence.
    + constructor; cbn [channel wake waking backlog next subs sink_at gone published taken lost ready_of phase]; auto; try congruence.
      * rewrite !find_sub_map by (intros b; apply offer_id). rewrite Q10. destruct (find_sub i (subs st)) as [b|] eqn:F; [|reflexivity]. cbn.
        apply find_sub_in in F as [_ F]. rewrite F, A. reflexivity.
      * cbn [ready_of] in Q12. erewrite news_ids; [|rewrite map_map; apply map_ext; intros b; apply offer_id]. rewrite Q12.
        apply news_ids. rewrite map_map. symmetry. apply map_ext. intros b. apply offer_id.
  - destruct (sink_at st) eqn:Hs; try (destruct P as (r' & P)); rewrite P; try exact Q.
    destruct Q as [Q1 Q2 Q3 Q4 Q5 Q6 Q7 Q8 Q9 Q10 Q11 Q12]. rewrite Hs, P in *. cbn [ready_of] in Q12.
    assert (F : find_sub i (drive_ready os0 (subs st') r') = find_sub i (drive_ready os (subs st) ready)).
    { rewrite !find_drive_ready by assumption. rewrite Q10, Q12, A. reflexivity. }
    assert (M : NoDup (map b_id (drive_ready os (subs st) ready))) by (rewrite drive_ready_ids; exact N).
    assert (M' : NoDup (map b_id (drive_ready os0 (subs st') r'))) by (rewrite drive_ready_ids; exact N').
    constructor; cbn [channel wake waking backlog next subs sink_at gone published taken lost ready_of phase]; auto; try congruence.
    + rewrite !find_sub_filter by assumption. rewrite F. reflexivity.
    + rewrite !find_sub_app, !find_sub_filter by assumption. rewrite F, Q11. reflexivity.
Qed.
