From Coq Require Import List NArith Bool Arith Lia.
From Verif Require Import Model.Base Model.Trie Model.Keybindings Model.Input Spec.TrieSpec Spec.KeySpec Spec.InputSpec
  Proofs.BaseLemmas Proofs.KeybindingProofs.
Import ListNotations.
Open Scope nat_scope.

(** * Slices *)
Definition slice (buf : list N) (a b : nat) : list N := firstn (b - a) (skipn a buf).

Lemma slice_nil buf a b : b <= a -> slice buf a b = [].
Proof. intros H. unfold slice. replace (b - a) with 0 by lia. reflexivity. Qed.

Lemma skipn_skipn {A} (l : list A) a b : skipn a (skipn b l) = skipn (b + a) l.
Proof.
  revert b; induction l as [|x l IH]; intros b.
  - rewrite !skipn_nil. reflexivity.
  - destruct b; [reflexivity|]. cbn [skipn Nat.add]. apply IH.
Qed.

Lemma firstn_split {A} (l : list A) a n : firstn (a + n) l = firstn a l ++ firstn n (skipn a l).
Proof.
  revert l; induction a as [|a IH]; intros [|x l]; cbn [Nat.add firstn skipn app]; try reflexivity.
  - rewrite firstn_nil. reflexivity.
  - rewrite IH. reflexivity.
Qed.

Lemma slice_split buf a b c : a <= b -> b <= c -> slice buf a c = slice buf a b ++ slice buf b c.
Proof.
  intros H1 H2. unfold slice. replace (c - a) with ((b - a) + (c - b)) by lia.
  rewrite firstn_split, skipn_skipn. replace (a + (b - a)) with b by lia. reflexivity.
Qed.

Lemma slice_full buf a n : length buf <= n -> slice buf a n = skipn a buf.
Proof. intros H. unfold slice. apply firstn_all2. rewrite skipn_length. lia. Qed.

Lemma slice_length buf a b : b <= length buf -> length (slice buf a b) = b - a.
Proof. intros H. unfold slice. rewrite firstn_length, skipn_length. lia. Qed.

Lemma slice_ext b1 b2 p a c : skipn p b1 = skipn p b2 -> p <= a -> slice b1 a c = slice b2 a c.
Proof.
  intros H Hp. unfold slice. replace a with (p + (a - p)) by lia. rewrite <- !skipn_skipn, H. reflexivity.
Qed.

Lemma slice_app_l buf rest a b : b <= length buf -> slice (buf ++ rest) a b = slice buf a b.
Proof.
  intros H. unfold slice. destruct (Nat.le_gt_cases a (length buf)) as [Ha|Ha].
  - rewrite skipn_app. replace (a - length buf) with 0 by lia. cbn [skipn].
    rewrite firstn_app, skipn_length. replace (b - a - (length buf - a)) with 0 by lia.
    cbn [firstn]. apply app_nil_r.
  - replace (b - a) with 0 by lia. reflexivity.
Qed.

(** * snip_buf *)
Fixpoint kept (buf : list N) (snips : list (nat * nat)) (cur len : nat) : list N :=
  match snips with
  | [] => slice buf cur len
  | (l, e) :: s => slice buf cur (e + 1 - l) ++ kept buf s (e + 1) len
  end.

Fixpoint increasing (snips : list (nat * nat)) (cur len : nat) : Prop :=
  match snips with
  | [] => cur <= len
  | (l, e) :: s => l <= e + 1 /\ cur <= e + 1 /\ increasing s (e + 1) len
  end.

Fixpoint chain (keep : list (nat * nat)) (p len : nat) : Prop :=
  match keep with
  | [] => p <= len
  | (s, e) :: k => p <= s /\ s <= e /\ chain k e len
  end.

Lemma increasing_le snips : forall cur len, increasing snips cur len -> cur <= len.
Proof.
  induction snips as [|[l e] s IH]; intros cur len H; cbn [increasing] in H; [assumption|].
  destruct H as (_ & H1 & H2). apply IH in H2. lia.
Qed.

Lemma chain_le keep : forall p len, chain keep p len -> p <= len.
Proof.
  induction keep as [|[s e] k IH]; intros p len H; cbn [chain] in H; [assumption|].
  destruct H as (H1 & H2 & H3). apply IH in H3. lia.
Qed.

Lemma chain_weaken keep p q len : chain keep p len -> q <= p -> chain keep q len.
Proof. destruct keep as [|[s e] k]; cbn [chain]; intuition lia. Qed.

Lemma keep_sections_spec buf snips : forall cur len, increasing snips cur len ->
  exists keep, keep_sections snips cur len = Some keep /\ chain keep cur len /\
    concat (map (fun k => slice buf (fst k) (snd k)) keep) = kept buf snips cur len.
Proof.
  induction snips as [|[l e] s IH]; intros cur len H; cbn [increasing] in H; cbn [keep_sections].
  - eexists. split; [reflexivity|]. cbn [chain map concat fst snd kept]. rewrite app_nil_r.
    split; [lia|reflexivity].
  - destruct H as (H1 & H2 & H3). destruct (Nat.ltb_spec (e + 1) l); [lia|].
    destruct (IH _ _ H3) as (keep & -> & Hc & Hk). cbn [kept].
    destruct (Nat.ltb_spec cur (e + 1 - l)).
    + eexists. split; [reflexivity|]. cbn [chain map concat fst snd]. rewrite Hk.
      split; [|reflexivity]. split; [lia|]. split; [lia|]. eapply chain_weaken; [eassumption|lia].
    + eexists. split; [reflexivity|]. rewrite slice_nil by assumption. split; [|exact Hk].
      eapply chain_weaken; [eassumption|lia].
Qed.

Lemma compact_spec orig len keep : forall buf p last_end,
  chain keep p len -> length buf = length orig -> len <= length orig -> last_end <= p ->
  skipn p buf = skipn p orig ->
  exists buf' n, compact buf keep last_end = Some (buf', n) /\ length buf' = length orig /\ n <= length orig /\
    firstn n buf' = firstn last_end buf ++ concat (map (fun k => slice orig (fst k) (snd k)) keep).
Proof.
  induction keep as [|[s e] k IH]; intros buf p le Hc Hl Hlen Hp Hs; cbn [compact chain] in *.
  - exists buf, le. cbn [map concat]. rewrite app_nil_r. repeat split; lia || assumption.
  - destruct Hc as (Hps & Hse & Hc). assert (Hel := chain_le _ _ _ Hc).
    cbn [map concat fst snd].
    destruct (Nat.eqb_spec s e) as [->|Hne].
    { rewrite slice_nil by lia. cbn [app]. apply (IH buf p le); try assumption.
      eapply chain_weaken; [eassumption|lia]. }
    destruct (Nat.eqb_spec s le) as [->|Hsl].
    + assert (p = le) by lia. subst p.
      destruct (IH buf e e) as (buf' & n & E & Hr1 & Hr2 & Hr3); try assumption; try lia.
      { replace e with (le + (e - le)) by lia. rewrite <- !skipn_skipn, Hs. reflexivity. }
      exists buf', n. split; [assumption|]. split; [assumption|]. split; [assumption|]. rewrite Hr3.
      replace e with (le + (e - le)) at 1 by lia. rewrite firstn_split, Hs, <- app_assoc. reflexivity.
    + destruct (Nat.ltb_spec e s); [lia|].
      destruct (Nat.ltb_spec (le + (e - s)) (length buf)); [|lia]. cbn [negb].
      destruct (Nat.ltb_spec (s + (e - s) - 1) (length buf)); [|lia]. cbn [negb].
      set (nb := mem_move buf s le (e - s)).
      assert (Hm1 : length (firstn le buf) = le) by (rewrite firstn_length; lia).
      assert (Hm2 : length (firstn (e - s) (skipn s buf)) = e - s) by (rewrite firstn_length, skipn_length; lia).
      assert (Hnl : length nb = length orig).
      { unfold nb, mem_move. rewrite !app_length, Hm1, Hm2, skipn_length. lia. }
      assert (Hns : skipn e nb = skipn e orig).
      { unfold nb, mem_move. rewrite app_assoc, skipn_app, app_length, Hm1, Hm2.
        rewrite skipn_all2 by (rewrite app_length; lia). cbn [app]. rewrite skipn_skipn.
        replace (le + (e - s) + (e - (le + (e - s)))) with (p + (e - p)) by lia.
        rewrite <- skipn_skipn, Hs, skipn_skipn. f_equal. lia. }
      destruct (IH nb e (le + (e - s))) as (buf' & n & E & Hr1 & Hr2 & Hr3); try assumption; try lia.
      exists buf', n. split; [assumption|]. split; [assumption|]. split; [assumption|]. rewrite Hr3, app_assoc. f_equal.
      unfold nb, mem_move. rewrite app_assoc, firstn_app, app_length, Hm1, Hm2, Nat.sub_diag.
      cbn [firstn]. rewrite app_nil_r. rewrite firstn_all2 by (rewrite app_length; lia).
      f_equal. unfold slice. f_equal. replace s with (p + (s - p)) by lia.
      rewrite <- !skipn_skipn, Hs. reflexivity.
Qed.

Lemma snip_buf_spec buf len snips : increasing snips 0 len -> len <= length buf ->
  exists buf' n, snip_buf buf len snips = Some (buf', n) /\ length buf' = length buf /\ n <= length buf /\
    firstn n buf' = kept buf snips 0 len.
Proof.
  intros Hi Hl. unfold snip_buf. destruct snips as [|x s].
  - exists buf, len. cbn [kept]. unfold slice. rewrite Nat.sub_0_r. repeat split. assumption.
  - destruct (keep_sections_spec buf _ _ _ Hi) as (keep & -> & Hc & Hk).
    destruct (compact_spec buf len keep buf 0 0) as (buf' & n & E & H1 & H2 & H3); try assumption; try lia; try reflexivity.
    exists buf', n. split; [assumption|]. split; [assumption|]. split; [assumption|]. rewrite H3, Hk. reflexivity.
Qed.

Lemma sorted_increasing rs : forall cur len, sorted_ranges rs cur len -> increasing (map as_section rs) cur len.
Proof.
  induction rs as [|[s e] rs IH]; intros cur len H; cbn [sorted_ranges] in H; [exact H|].
  destruct H as (H1 & H2 & H3). cbn [map as_section fst snd increasing].
  replace (e - 1 + 1) with e by lia. split; [lia|]. split; [lia|]. apply IH; assumption.
Qed.

Lemma sorted_le rs : forall cur len, sorted_ranges rs cur len -> cur <= len.
Proof.
  induction rs as [|[s e] rs IH]; intros cur len H; cbn [sorted_ranges] in H; [assumption|].
  destruct H as (H1 & H2 & H3). apply IH in H3. lia.
Qed.

Definition inr (rs : list (nat * nat)) (i : nat) : bool := existsb (fun r => (fst r <=? i) && (i <? snd r)) rs.

Fixpoint go (rs : list (nat * nat)) (i : nat) (l : list N) : list N :=
  match l with
  | [] => []
  | x :: l' => if inr rs i then go rs (S i) l' else x :: go rs (S i) l'
  end.

Lemma outside_go rs buf len : outside rs buf len = go rs 0 (firstn len buf).
Proof.
  unfold outside. fold (inr rs).
  assert (H : forall len i buf, map snd (filter (fun ib : nat * N => negb (inr rs (fst ib))) (combine (seq i len) buf)) =
                go rs i (firstn len buf)).
  { induction len0 as [|n IH]; intros i [|x b]; cbn [seq combine firstn go filter map fst]; try reflexivity.
    destruct (inr rs i); cbn [negb map snd]; rewrite IH; reflexivity. }
  apply H.
Qed.

Lemma go_app rs l1 : forall i l2, go rs i (l1 ++ l2) = go rs i l1 ++ go rs (i + length l1) l2.
Proof.
  induction l1 as [|x l1 IH]; intros i l2; cbn [app go length].
  - rewrite Nat.add_0_r. reflexivity.
  - rewrite IH. replace (S i + length l1) with (i + S (length l1)) by lia. destruct (inr rs i); reflexivity.
Qed.

Lemma go_none rs l : forall i, (forall j, i <= j < i + length l -> inr rs j = false) -> go rs i l = l.
Proof.
  induction l as [|x l IH]; intros i H; cbn [go]; [reflexivity|].
  rewrite H by (cbn [length]; lia). rewrite IH; [reflexivity|].
  intros j Hj. apply H. cbn [length]. lia.
Qed.

Lemma go_all rs l : forall i, (forall j, i <= j < i + length l -> inr rs j = true) -> go rs i l = [].
Proof.
  induction l as [|x l IH]; intros i H; cbn [go]; [reflexivity|].
  rewrite H by (cbn [length]; lia). apply IH.
  intros j Hj. apply H. cbn [length]. lia.
Qed.

Lemma inr_iff rs i : inr rs i = true <-> exists s e, In (s, e) rs /\ s <= i < e.
Proof.
  unfold inr. rewrite existsb_exists. split.
  - intros ([s e] & Hin & H). cbn [fst snd] in H. apply andb_true_iff in H as [H1 H2].
    apply Nat.leb_le in H1. apply Nat.ltb_lt in H2. eauto.
  - intros (s & e & Hin & H1 & H2). exists (s, e). split; [assumption|]. cbn [fst snd].
    apply andb_true_iff. split; [apply Nat.leb_le|apply Nat.ltb_lt]; assumption.
Qed.

Lemma sorted_in rs : forall cur len s e, sorted_ranges rs cur len -> In (s, e) rs -> cur <= s.
Proof.
  induction rs as [|[s0 e0] rs IH]; intros cur len s e H Hin; cbn [sorted_ranges] in H; [destruct Hin|].
  destruct H as (H1 & H2 & H3). destruct Hin as [E|Hin]; [injection E as -> ->; assumption|].
  specialize (IH _ _ _ _ H3 Hin). lia.
Qed.

Lemma kept_outside rs buf len : sorted_ranges rs 0 len -> len <= length buf ->
  kept buf (map as_section rs) 0 len = outside rs buf len.
Proof.
  intros Hs Hl. rewrite outside_go.
  assert (H : forall rs2 rs1 cur, rs = rs1 ++ rs2 -> sorted_ranges rs2 cur len ->
            (forall s e, In (s, e) rs1 -> e <= cur) ->
            kept buf (map as_section rs2) cur len = go rs cur (slice buf cur len)).
  { induction rs2 as [|[s e] rs2 IH]; intros rs1 cur E H Hb; cbn [sorted_ranges map kept as_section fst snd] in *.
    - symmetry. apply go_none. intros j Hj. apply not_true_iff_false. rewrite inr_iff.
      intros (s & e & Hin & H1 & H2). rewrite E, app_nil_r in Hin. specialize (Hb _ _ Hin). lia.
    - destruct H as (H1 & H2 & H3). assert (Hel := sorted_le _ _ _ H3).
      replace (e - 1 + 1) with e by lia. replace (e - (e - s)) with s by lia.
      rewrite (slice_split buf cur s len) by lia. rewrite (slice_split buf s e len) by lia.
      rewrite !go_app, !slice_length by lia.
      replace (cur + (s - cur)) with s by lia. replace (s + (e - s)) with e by lia.
      rewrite (go_all rs (slice buf s e)).
      2: { intros j Hj. rewrite slice_length in Hj by lia. apply inr_iff. exists s, e.
           split; [rewrite E; apply in_or_app; right; left; reflexivity|lia]. }
      rewrite (go_none rs (slice buf cur s)).
      2: { intros j Hj. rewrite slice_length in Hj by lia. apply not_true_iff_false. rewrite inr_iff.
           intros (s' & e' & Hin & Hse). rewrite E in Hin. apply in_app_or in Hin as [Hin|[Hin|Hin]].
           - specialize (Hb _ _ Hin). lia.
           - injection Hin as -> ->. lia.
           - apply (sorted_in _ _ _ _ _ H3) in Hin. lia. }
      cbn [app]. f_equal. apply (IH (rs1 ++ [(s, e)])); [rewrite <- app_assoc; assumption|assumption|].
      intros s' e' Hin. apply in_app_or in Hin as [Hin|[Hin|[]]]; [specialize (Hb _ _ Hin); lia|].
      injection Hin as -> ->. lia. }
  rewrite (H rs [] 0 eq_refl Hs) by (intros s e []). unfold slice. rewrite Nat.sub_0_r. reflexivity.
Qed.

(** * Lists of sections growing at the end *)
Lemma kept_extend buf snips : forall cur n m, increasing snips cur n -> n <= m ->
  kept buf snips cur m = kept buf snips cur n ++ slice buf n m.
Proof.
  induction snips as [|[l e] s IH]; intros cur n m H Hm; cbn [kept increasing] in *.
  - apply slice_split; assumption.
  - destruct H as (H1 & H2 & H3). rewrite (IH _ n m) by assumption. apply app_assoc.
Qed.

Lemma increasing_extend snips : forall cur n m, increasing snips cur n -> n <= m -> increasing snips cur m.
Proof.
  induction snips as [|[l e] s IH]; intros cur n m H Hm; cbn [increasing] in *; [lia|].
  destruct H as (H1 & H2 & H3). split; [assumption|]. split; [assumption|]. eapply IH; eassumption.
Qed.

Lemma increasing_snoc snips : forall cur n l e, increasing snips cur n -> n <= e + 1 -> l <= e + 1 ->
  increasing (snips ++ [(l, e)]) cur (e + 1).
Proof.
  induction snips as [|[l0 e0] s IH]; intros cur n l e H Hm Hl; cbn [increasing app] in *.
  - split; [lia|]. split; lia.
  - destruct H as (H1 & H2 & H3). split; [assumption|]. split; [assumption|]. eapply IH; eassumption.
Qed.

Lemma kept_snoc buf snips : forall cur n l e, increasing snips cur n -> n <= e + 1 -> l = e + 1 - n ->
  kept buf (snips ++ [(l, e)]) cur (e + 1) = kept buf snips cur n.
Proof.
  induction snips as [|[l0 e0] s IH]; intros cur n l e H Hm ->; cbn [kept increasing app] in *.
  - replace (e + 1 - (e + 1 - n)) with n by lia. rewrite (slice_nil buf (e + 1)) by lia. apply app_nil_r.
  - destruct H as (H1 & H2 & H3). f_equal. apply (IH _ n); [assumption|assumption|reflexivity].
Qed.

(** A section that covers everything from the start adds nothing and removes
    nothing that an all-covering prefix had not removed. *)
Lemma kept_cover buf snips : forall cur n e, increasing snips cur n -> n <= e + 1 ->
  kept buf snips cur n = [] -> kept buf (snips ++ [(e + 1, e)]) cur (e + 1) = [].
Proof.
  induction snips as [|[l0 e0] s IH]; intros cur n e H Hm Hk; cbn [kept increasing app] in *.
  - rewrite (slice_nil buf (e + 1)) by lia. rewrite slice_nil by lia. reflexivity.
  - destruct H as (H1 & H2 & H3). apply app_eq_nil in Hk as [Hk1 Hk2].
    rewrite Hk1. cbn [app]. eapply IH; eassumption.
Qed.

Lemma kept_app_l buf rest snips : forall cur n, increasing snips cur n -> n <= length buf ->
  kept (buf ++ rest) snips cur n = kept buf snips cur n.
Proof.
  induction snips as [|[l e] s IH]; intros cur n H Hn; cbn [kept increasing] in *.
  - apply slice_app_l; assumption.
  - destruct H as (H1 & H2 & H3). assert (He := increasing_le _ _ _ H3).
    rewrite slice_app_l by lia. rewrite IH by assumption. reflexivity.
Qed.

(** * The scan of one read *)
Fixpoint pass (l : list (N * binding_result)) (h : list N) : list N * list N :=
  match l with
  | [] => ([], h)
  | (x, BPartial) :: l' => pass l' (h ++ [x])
  | (x, BNoMatch) :: l' => let '(o, h') := pass l' [] in (h ++ [x] ++ o, h')
  | (x, BMatch _) :: l' => pass l' []
  end.

Definition no_detach (rs : list binding_result) : Prop := ~ In (BMatch Detach) rs.

Lemma slice_here done x rest : slice (done ++ x :: rest) (length done) (S (length done)) = [x].
Proof.
  unfold slice. rewrite skipn_app, skipn_all, Nat.sub_diag. cbn [skipn app].
  replace (S (length done) - length done) with 1 by lia. reflexivity.
Qed.

Lemma trans_cons b x bytes b' rs : transitions b (x :: bytes) = Some (b', rs) ->
  exists b1 r rs', transition b x = Some (b1, r) /\ transitions b1 bytes = Some (b', rs') /\ rs = r :: rs'.
Proof.
  cbn [transitions]. destruct (transition b x) as [[b1 r]|]; [|discriminate].
  destruct (transitions b1 bytes) as [[b2 rs']|] eqn:E; [|discriminate].
  intros [= <- <-]. exists b1, r, rs'. repeat split. assumption.
Qed.

Lemma trans_nil b b' rs : transitions b [] = Some (b', rs) -> b' = b /\ rs = [].
Proof. cbn [transitions]. intros [= <- <-]. split; reflexivity. Qed.

(** From a settled point at or after index 2, or with nothing kept so far. *)
Lemma scan_settled B rest : forall done b b' rs n snips W,
  B = done ++ rest -> transitions b rest = Some (b', rs) -> no_detach rs ->
  1 <= n <= length done -> increasing snips 0 n -> (2 <= n \/ kept B snips 0 n = []) ->
  exists n' snips',
    scan b (slice B n (length done)) (length done) rest snips W =
      Some (Scanned b' (slice B n' (length B)) snips' W) /\
    1 <= n' <= length B /\ increasing snips' 0 n' /\
    pass (combine rest rs) (slice B n (length done)) =
      (skipn (length (kept B snips 0 n)) (kept B snips' 0 n'), slice B n' (length B)) /\
    firstn (length (kept B snips 0 n)) (kept B snips' 0 n') = kept B snips 0 n.
Proof.
  induction rest as [|x rest IH]; intros done b b' rs n snips W HB Ht Hnd Hn Hinc Hok.
  - apply trans_nil in Ht as [-> ->]. rewrite app_nil_r in HB. subst done.
    exists n, snips. cbn [scan combine pass]. rewrite skipn_all, firstn_all. repeat split; try assumption; lia.
  - apply trans_cons in Ht as (b1 & r & rs' & E1 & Ht & ->).
    assert (Hnd' : no_detach rs') by (intros H; apply Hnd; right; assumption).
    assert (HB' : B = (done ++ [x]) ++ rest) by (rewrite <- app_assoc; assumption).
    assert (Hlen : length (done ++ [x]) = S (length done)) by (rewrite app_length; cbn; lia).
    assert (Hx : slice B (length done) (S (length done)) = [x]) by (rewrite HB; apply slice_here).
    assert (HBl : S (length done) <= length B) by (rewrite HB, app_length; cbn; lia).
    assert (Hpl : length (slice B n (length done)) = length done - n) by (apply slice_length; lia).
    assert (Hsp : slice B n (S (length done)) = slice B n (length done) ++ [x]).
    { rewrite <- Hx. apply slice_split; lia. }
    cbn [scan]. rewrite E1, Hpl.
    destruct r as [| |a]; cbn [combine pass].
    + (* no match *)
      destruct (Nat.ltb_spec (length done) (length done - n)); [lia|]. rewrite andb_false_r.
      destruct (IH (done ++ [x]) b1 b' rs' (S (length done)) snips W) as (n' & snips' & Hs & Hn' & Hi' & Hp & Hf); try assumption.
      { lia. }
      { eapply increasing_extend; [eassumption|lia]. }
      { left; lia. }
      rewrite Hlen, (slice_nil B (S (length done))) in Hs, Hp by lia.
      exists n', snips'. split; [assumption|]. split; [assumption|]. split; [assumption|].
      rewrite Hp.
      assert (Hke : kept B snips 0 (S (length done)) = kept B snips 0 n ++ slice B n (length done) ++ [x]).
      { rewrite (kept_extend B snips 0 n) by (assumption || lia). rewrite Hsp. reflexivity. }
      rewrite Hke in *. rewrite !app_length in *. cbn [length] in *.
      assert (Hsplit : kept B snips' 0 n' =
                (kept B snips 0 n ++ slice B n (length done) ++ [x]) ++
                skipn (length (kept B snips 0 n) + (length (slice B n (length done)) + 1)) (kept B snips' 0 n')).
      { rewrite <- Hf at 1. symmetry. apply firstn_skipn. }
      split.
      * f_equal. rewrite Hsplit at 2. rewrite <- app_assoc, skipn_app, skipn_all, Nat.sub_diag.
        cbn [app skipn]. rewrite <- app_assoc. reflexivity.
      * rewrite Hsplit, <- app_assoc, firstn_app, firstn_all, Nat.sub_diag. cbn [firstn]. apply app_nil_r.
    + (* partial *)
      destruct (IH (done ++ [x]) b1 b' rs' n snips W) as (n' & snips' & Hs & Hn' & Hi' & Hp & Hf); try assumption.
      { lia. }
      rewrite Hlen, Hsp in Hs, Hp. exists n', snips'. repeat split; assumption || lia.
    + (* match *)
      destruct a; [exfalso; apply Hnd; left; reflexivity|].
      set (sec := if length done - n + 1 <? length done then (length done - n + 1, length done)
                  else (length done + 1, length done)).
      assert (Hk : increasing (snips ++ [sec]) 0 (S (length done)) /\
                   kept B (snips ++ [sec]) 0 (S (length done)) = kept B snips 0 n).
      { unfold sec. replace (S (length done)) with (length done + 1) by lia.
        destruct (Nat.ltb_spec (length done - n + 1) (length done)) as [Hlt|Hge].
        - split; [eapply increasing_snoc; eauto; lia|]. apply kept_snoc; [assumption|lia|lia].
        - assert (Hk0 : kept B snips 0 n = []) by (destruct Hok as [Hok|Hok]; [lia|assumption]).
          split; [eapply increasing_snoc; eauto; lia|]. rewrite Hk0. eapply kept_cover; eauto. lia. }
      destruct Hk as [Hki Hkk].
      destruct (IH (done ++ [x]) b1 b' rs' (S (length done)) (snips ++ [sec]) W)
        as (n' & snips' & Hs & Hn' & Hi' & Hp & Hf); try assumption.
      { lia. }
      { left; lia. }
      rewrite Hlen, (slice_nil B (S (length done))) in Hs, Hp by lia. rewrite Hkk in Hp, Hf.
      exists n', snips'. repeat split; assumption || lia.
Qed.

(** The defect: a binding whose keys are the second and following bytes of a read. *)
Definition second_byte_binding (rs : list binding_result) : Prop :=
  exists j a rest, rs = BNoMatch :: repeat BPartial j ++ BMatch a :: rest.

(** After an ordinary first byte. *)
Lemma scan_after_first B b0 rest : forall P b b' rs W,
  B = b0 :: P ++ rest -> transitions b rest = Some (b', rs) -> no_detach rs ->
  exists n' snips' o,
    scan b P (S (length P)) rest [] W = Some (Scanned b' (slice B n' (length B)) snips' W) /\
    1 <= n' <= length B /\ increasing snips' 0 n' /\
    pass (combine rest rs) P = (o, slice B n' (length B)) /\
    ((exists j a tl, rs = repeat BPartial j ++ BMatch a :: tl) /\ kept B snips' 0 n' = o \/
     ~ (exists j a tl, rs = repeat BPartial j ++ BMatch a :: tl) /\ kept B snips' 0 n' = b0 :: o).
Proof.
  induction rest as [|x rest IH]; intros P b b' rs W HB Ht Hnd.
  - apply trans_nil in Ht as [-> ->]. rewrite app_nil_r in HB. subst B. exists 1, [], [].
    cbn [scan combine pass increasing kept length].
    assert (Hs : slice (b0 :: P) 1 (S (length P)) = P).
    { unfold slice. cbn [skipn]. apply firstn_all2. lia. }
    rewrite Hs. repeat split; try lia. right. split; [|unfold slice; reflexivity].
    intros ([|j] & a & tl & Hx); discriminate.
  - apply trans_cons in Ht as (b1 & r & rs' & E1 & Ht & ->).
    assert (Hnd' : no_detach rs') by (intros H; apply Hnd; right; assumption).
    cbn [scan]. rewrite E1.
    assert (HBl : S (S (length P)) <= length B).
    { rewrite HB. cbn [length]. rewrite app_length. cbn [length]. lia. }
    set (done := b0 :: P ++ [x]).
    assert (Hd : B = done ++ rest) by (unfold done; cbn [app]; rewrite <- app_assoc; exact HB).
    assert (Hdl : length done = S (S (length P))) by (unfold done; cbn [length]; rewrite app_length; cbn; lia).
    assert (Hk1 : slice B 0 (S (S (length P))) = b0 :: P ++ [x]).
    { rewrite Hd. rewrite <- Hdl. unfold slice. rewrite Nat.sub_0_r. cbn [skipn]. rewrite firstn_app, firstn_all, Nat.sub_diag.
      cbn [firstn]. apply app_nil_r. }
    destruct r as [| |a]; cbn [combine pass].
    + destruct (Nat.ltb_spec (S (length P)) (length P)); [lia|]. rewrite andb_false_r.
      destruct (scan_settled B rest done b1 b' rs' (S (S (length P))) [] W)
        as (n' & snips' & Hs & Hn' & Hi' & Hp & Hf); try assumption.
      { lia. } { cbn [increasing]. lia. } { left; lia. }
      rewrite Hdl, (slice_nil B (S (S (length P)))) in Hs, Hp by lia.
      cbn [kept] in Hp, Hf. rewrite Hk1 in Hp, Hf.
      exists n', snips'. eexists. split; [exact Hs|]. split; [assumption|]. split; [assumption|].
      rewrite Hp. split; [reflexivity|]. right.
      split; [intros ([|j] & a & tl & Hxx); discriminate|].
      rewrite <- (firstn_skipn (length (b0 :: P ++ [x])) (kept B snips' 0 n')) at 1. rewrite Hf.
      cbn [app]. rewrite <- app_assoc. reflexivity.
    + assert (Hpx : B = b0 :: (P ++ [x]) ++ rest) by (rewrite <- app_assoc; exact HB).
      destruct (IH (P ++ [x]) b1 b' rs' W Hpx Ht Hnd') as (n' & snips' & o & Hs & Hn' & Hi' & Hp & Hd').
      rewrite app_length in Hs. cbn [length] in Hs. replace (S (length P + 1)) with (S (S (length P))) in Hs by lia.
      exists n', snips', o. split; [assumption|]. split; [assumption|]. split; [assumption|]. split; [assumption|].
      destruct Hd' as [[(j & a & tl & ->) Hk]|[Hnx Hk]]; [left|right].
      * split; [|assumption]. exists (S j), a, tl. reflexivity.
      * split; [|assumption]. intros ([|j] & a & tl & Hxx); [discriminate|].
        injection Hxx as Hxx. apply Hnx. exists j, a, tl. assumption.
    + destruct a; [exfalso; apply Hnd; left; reflexivity|].
      destruct (Nat.ltb_spec (length P + 1) (S (length P))); [lia|]. cbn [app].
      destruct (scan_settled B rest done b1 b' rs' (S (S (length P))) [(S (length P) + 1, S (length P))] W)
        as (n' & snips' & Hs & Hn' & Hi' & Hp & Hf); try assumption.
      { lia. } { cbn [increasing]. lia. } { left; lia. }
      assert (Hke : kept B [(S (length P) + 1, S (length P))] 0 (S (S (length P))) = []).
      { cbn [kept]. rewrite (slice_nil B 0) by lia. rewrite slice_nil by lia. reflexivity. }
      rewrite Hke in Hp, Hf. cbn [length skipn firstn] in Hp, Hf.
      rewrite Hdl, (slice_nil B (S (S (length P)))) in Hs, Hp by lia.
      exists n', snips'. eexists. split; [exact Hs|]. split; [assumption|]. split; [assumption|].
      split; [exact Hp|]. left. split; [|reflexivity]. exists 0, NoOp, rs'. reflexivity.
Qed.

(** From the start of a read with [h0] held over. *)
Lemma scan_read h0 B : forall rest done b b' rs,
  B = done ++ rest -> transitions b rest = Some (b', rs) -> no_detach rs ->
  exists p snips W o,
    scan b (h0 ++ done) (length done) rest [] [] = Some (Scanned b' p snips W) /\
    pass (combine rest rs) (h0 ++ done) = (o, p) /\
    ((p = h0 ++ B /\ snips = [] /\ W = [] /\ o = []) \/
     (exists n, 1 <= n <= length B /\ p = slice B n (length B) /\ increasing snips 0 n /\ (h0 = [] -> W = []) /\
        ((done = [] /\ second_byte_binding rs /\ exists b0 o', o = h0 ++ b0 :: o' /\ W ++ kept B snips 0 n = h0 ++ o')
         \/ ~ (done = [] /\ second_byte_binding rs) /\ W ++ kept B snips 0 n = o) /\ exists lost, o = W ++ lost)).
Proof.
  induction rest as [|x rest IH]; intros done b b' rs HB Ht Hnd.
  - apply trans_nil in Ht as [-> ->]. rewrite app_nil_r in HB. subst done.
    exists (h0 ++ B), [], [], []. cbn [scan combine pass]. repeat split. left. repeat split.
  - apply trans_cons in Ht as (b1 & r & rs' & E1 & Ht & ->).
    assert (Hnd' : no_detach rs') by (intros H; apply Hnd; right; assumption).
    assert (HB' : B = (done ++ [x]) ++ rest) by (rewrite <- app_assoc; assumption).
    assert (Hlen : length (done ++ [x]) = S (length done)) by (rewrite app_length; cbn; lia).
    assert (HBl : S (length done) <= length B) by (rewrite HB, app_length; cbn; lia).
    assert (Hx : slice B (length done) (S (length done)) = [x]) by (rewrite HB; apply slice_here).
    assert (Hdone : slice B 0 (S (length done)) = done ++ [x]).
    { rewrite HB'. rewrite <- Hlen. unfold slice. rewrite Nat.sub_0_r. cbn [skipn].
      rewrite firstn_app, firstn_all, Nat.sub_diag. cbn [firstn]. apply app_nil_r. }
    cbn [scan]. rewrite E1.
    destruct r as [| |a]; cbn [combine pass].
    + (* the byte breaks whatever was pending *)
      (* the sections and the write of this step *)
      assert (Hstep : exists snips1 W1,
        (if negb (length (h0 ++ done) =? 0) && (length done <? length (h0 ++ done))
         then scan b1 [] (S (length done)) rest (if 0 <? length done then [] ++ [(length done, length done - 1)] else [])
                ([] ++ h0 ++ done)
         else scan b1 [] (S (length done)) rest [] []) = scan b1 [] (S (length done)) rest snips1 W1 /\
        increasing snips1 0 (S (length done)) /\ W1 ++ kept B snips1 0 (S (length done)) = h0 ++ done ++ [x] /\
        (h0 = [] -> W1 = []) /\ (done = [] -> snips1 = [] /\ W1 = h0) /\ (exists t, h0 ++ done = W1 ++ t)).
      { rewrite app_length. destruct h0 as [|y h0].
        - cbn [length app Nat.add]. rewrite Nat.ltb_irrefl, andb_false_r. exists [], [].
          split; [reflexivity|]. split; [cbn; lia|]. split; [cbn [kept app]; exact Hdone|].
          repeat split. exists done; reflexivity.
        - cbn [length]. destruct (Nat.eqb_spec (S (length h0) + length done) 0); [lia|].
          destruct (Nat.ltb_spec (length done) (S (length h0) + length done)); [|lia]. cbn [negb andb].
          destruct (Nat.ltb_spec 0 (length done)) as [Hpos|Hpos].
          + exists [(length done, length done - 1)], ((y :: h0) ++ done). split; [reflexivity|].
            replace (length done - 1 + 1) with (length done) by lia.
            split; [cbn [increasing]; lia|]. split; [|split; [discriminate|split; [intros ->; cbn in Hpos; lia|]]].
            * cbn [kept]. replace (length done - 1 + 1) with (length done) by lia. rewrite Nat.sub_diag.
              rewrite (slice_nil B 0 0) by lia. rewrite Hx. cbn [app]. rewrite <- app_assoc. reflexivity.
            * exists []. symmetry; apply app_nil_r.
          + assert (done = []) by (destruct done; [reflexivity|cbn in Hpos; lia]). subst done.
            exists [], (y :: h0). rewrite app_nil_r. split; [reflexivity|]. split; [cbn; lia|].
            split; [cbn [kept length] in *; rewrite Hdone; reflexivity|]. split; [discriminate|].
            split; [intros _; split; reflexivity|]. exists []. symmetry; apply app_nil_r. }
      destruct Hstep as (snips1 & W1 & Es & Hi1 & Hk1 & Hw1 & Hd1 & Ht1). rewrite Es. clear Es.
      destruct done as [|d0 done].
      * destruct (Hd1 eq_refl) as [-> ->]. cbn [length app] in *. rewrite app_nil_r in *.
        destruct (scan_after_first B x rest [] b1 b' rs' h0) as (n' & snips' & o & Hs & Hn' & Hi' & Hp & Hd'); try assumption.
        cbn [length] in Hs. rewrite Hp.
        exists (slice B n' (length B)), snips', h0, (h0 ++ [x] ++ o). split; [assumption|]. split; [reflexivity|].
        right. exists n'. split; [assumption|]. split; [reflexivity|]. split; [assumption|]. split; [assumption|].
        split; [|exists ([x] ++ o); reflexivity].
        destruct Hd' as [[(j & a & tl & ->) Hk]|[Hnx Hk]].
        -- left. split; [reflexivity|]. split; [exists j, a, tl; reflexivity|]. exists x, o.
           split; [reflexivity|]. rewrite Hk. reflexivity.
        -- right. rewrite Hk. split; [|reflexivity]. intros (_ & j & a & tl & Hxx). injection Hxx as ->.
           apply Hnx. exists j, a, tl. reflexivity.
      * destruct (scan_settled B rest ((d0 :: done) ++ [x]) b1 b' rs' (S (length (d0 :: done))) snips1 W1)
          as (n' & snips' & Hs & Hn' & Hi' & Hp & Hf); try assumption.
        { rewrite Hlen. lia. } { left; cbn; lia. }
        rewrite Hlen, (slice_nil B (S (length (d0 :: done)))) in Hs, Hp by lia. rewrite Hp.
        eexists _, snips', W1, _. split; [exact Hs|]. split; [reflexivity|]. right. exists n'.
        split; [assumption|]. split; [reflexivity|]. split; [assumption|]. split; [assumption|]. split.
        -- right. split; [intros [Hxx _]; discriminate|].
           rewrite <- (firstn_skipn (length (kept B snips1 0 (S (length (d0 :: done))))) (kept B snips' 0 n')) at 1.
           rewrite Hf, app_assoc, Hk1. rewrite <- !app_assoc. reflexivity.
        -- destruct Ht1 as [t Ht1]. rewrite Ht1, <- app_assoc. eexists. reflexivity.
    + (* still pending *)
      destruct (IH (done ++ [x]) b1 b' rs' HB' Ht Hnd') as (p & snips & W & o & Hs & Hp & Hc).
      rewrite Hlen, app_assoc in Hs. rewrite app_assoc in Hp.
      exists p, snips, W, o. split; [assumption|]. split; [assumption|].
      destruct Hc as [Hc|(n & H1 & H2 & H3 & H4 & H5 & H6)]; [left; assumption|right].
      exists n. do 4 (split; [assumption|]). split; [|assumption].
      destruct H5 as [(Hd & _)|[_ H5]]; [destruct done; discriminate|right].
      split; [|assumption]. intros (_ & j & a & tl & Hxx). discriminate.
    + (* a binding fires *)
      destruct a; [exfalso; apply Hnd; left; reflexivity|].
      rewrite app_length.
      destruct (Nat.ltb_spec (length h0 + length done + 1) (length done)); [lia|]. cbn [app].
      destruct (scan_settled B rest (done ++ [x]) b1 b' rs' (S (length done)) [(length done + 1, length done)] [])
        as (n' & snips' & Hs & Hn' & Hi' & Hp & Hf); try assumption.
      { lia. }
      { cbn [increasing]. lia. }
      { right. cbn [kept]. rewrite (slice_nil B 0) by lia. rewrite slice_nil by lia. reflexivity. }
      assert (Hke : kept B [(length done + 1, length done)] 0 (S (length done)) = []).
      { cbn [kept]. rewrite (slice_nil B 0) by lia. rewrite slice_nil by lia. reflexivity. }
      rewrite Hke in Hp, Hf. cbn [length skipn firstn] in Hp, Hf.
      rewrite Hlen, (slice_nil B (S (length done))) in Hs, Hp by lia.
      eexists _, snips', [], _. split; [exact Hs|]. split; [exact Hp|]. right. exists n'.
      split; [assumption|]. split; [reflexivity|]. split; [assumption|]. split; [reflexivity|].
      split; [right; split; [intros (_ & j & a & tl & Hxx); discriminate|reflexivity]|]. eexists; reflexivity.
Qed.

(** One read. *)
Lemma read_once_spec b h0 buf bytes b' rs :
  transitions b bytes = Some (b', rs) -> no_detach rs -> bytes <> [] -> length bytes <= length buf ->
  exists buf' w o h, read_once (mkC2s b h0 buf) bytes = Some (Continue (mkC2s b' h buf') w) /\
    length buf' = length buf /\ pass (combine bytes rs) h0 = (o, h) /\
    ((~ second_byte_binding rs /\ w = o) \/
     (second_byte_binding rs /\ exists b0 o', o = h0 ++ b0 :: o' /\ w = h0 ++ o')).
Proof.
  intros Ht Hnd Hne Hlen. unfold read_once. cbn [c_bind c_partial c_buf].
  destruct (scan_read h0 bytes bytes [] b b' rs eq_refl Ht Hnd) as (p & snips & W & o & Hs & Hp & Hc).
  cbn [length app] in Hs, Hp. rewrite app_nil_r in Hs, Hp. rewrite Hs.
  assert (Hall : snips = [] /\ W = [] /\ p = h0 ++ bytes /\ o = [] -> ~ second_byte_binding rs).
  { intros (_ & _ & -> & ->) (j & a & tl & ->). destruct bytes as [|x bytes]; [contradiction|].
    cbn [combine pass] in Hp. destruct (pass (combine bytes _) []) as [o h]. injection Hp as Hp _.
    apply app_eq_nil in Hp as [_ Hp]. discriminate. }
  assert (Hbl : length (bytes ++ skipn (length bytes) buf) = length buf).
  { rewrite app_length, skipn_length. lia. }
  assert (Hpos : 1 <= length bytes) by (destruct bytes; [contradiction|cbn; lia]).
  set (snips' := if length p =? 0 then snips
                 else snips ++ [((if length bytes <? length p then length bytes else length p), length bytes - 1)]).
  assert (Hk : increasing snips' 0 (length bytes) /\
               exists n, kept bytes snips' 0 (length bytes) = n /\
                 ((~ second_byte_binding rs /\ W ++ n = o) \/ (second_byte_binding rs /\ exists b0 o', o = h0 ++ b0 :: o' /\ W ++ n = h0 ++ o'))).
  { unfold snips'. destruct Hc as [(-> & -> & -> & ->)|(n & Hn & -> & Hi & Hw & Hd & _)].
    - rewrite app_length. destruct (Nat.eqb_spec (length h0 + length bytes) 0); [lia|]. cbn [app].
      assert (Hmin : (if length bytes <? length h0 + length bytes then length bytes else length h0 + length bytes) = length bytes).
      { destruct (Nat.ltb_spec (length bytes) (length h0 + length bytes)); lia. }
      rewrite Hmin. split; [cbn [increasing]; lia|]. eexists. split; [reflexivity|]. left.
      split; [apply Hall; repeat split|].
      cbn [kept]. rewrite (slice_nil bytes 0) by lia. rewrite slice_nil by lia. reflexivity.
    - rewrite slice_length by lia. destruct (Nat.eqb_spec (length bytes - n) 0).
      + assert (n = length bytes) by lia. subst n. split; [assumption|]. eexists. split; [reflexivity|].
        destruct Hd as [(_ & Hd & Hx)|[Hd Hx]]; [right; split; assumption|left; split; [intros Hz; apply Hd; split; [reflexivity|assumption]|assumption]].
      + assert (Hmin : (if length bytes <? length bytes - n then length bytes else length bytes - n) = length bytes - n).
        { destruct (Nat.ltb_spec (length bytes) (length bytes - n)); lia. }
        rewrite Hmin.
        assert (Hinc : increasing (snips ++ [(length bytes - n, length bytes - 1)]) 0 (length bytes - 1 + 1)).
        { eapply increasing_snoc; [eassumption|lia|lia]. }
        assert (Hkk : kept bytes (snips ++ [(length bytes - n, length bytes - 1)]) 0 (length bytes - 1 + 1) = kept bytes snips 0 n).
        { apply kept_snoc; [assumption|lia|lia]. }
        replace (length bytes - 1 + 1) with (length bytes) in Hinc, Hkk by lia.
        split; [assumption|]. eexists. split; [exact Hkk|].
        destruct Hd as [(_ & Hd & Hx)|[Hd Hx]]; [right; split; assumption|left; split; [intros Hz; apply Hd; split; [reflexivity|assumption]|assumption]]. }
  destruct Hk as [Hinc (kp & Hkp & Hres)].
  destruct (snip_buf_spec (bytes ++ skipn (length bytes) buf) (length bytes) snips') as (buf' & n & E & H1 & H2 & H3).
  { assumption. } { lia. }
  rewrite E. destruct (Nat.ltb_spec (length buf') n); [lia|].
  rewrite H3, kept_app_l by (assumption || lia). rewrite Hkp.
  exists buf', (W ++ kp), o, p. split; [reflexivity|]. split; [lia|]. split; [assumption|]. assumption.
Qed.

(** A detach. *)
Lemma scan_app b p i bytes1 bytes2 : forall snips W,
  scan b p i (bytes1 ++ bytes2) snips W =
  match scan b p i bytes1 snips W with
  | Some (Scanned b1 p1 s1 w1) => scan b1 p1 (i + length bytes1) bytes2 s1 w1
  | r => r
  end.
Proof.
  revert b p i; induction bytes1 as [|x bytes1 IH]; intros b p i snips W; cbn [app scan length].
  - rewrite Nat.add_0_r. reflexivity.
  - replace (i + S (length bytes1)) with (S i + length bytes1) by lia.
    destruct (transition b x) as [[b1 r]|]; [|reflexivity]. destruct r as [| |a].
    + destruct (negb (length p =? 0) && (i <? length p)); apply IH.
    + apply IH.
    + destruct a; [reflexivity|apply IH].
Qed.

Lemma read_detach b h0 buf bytes1 x bytes2 b1 rs1 b2 :
  transitions b bytes1 = Some (b1, rs1) -> no_detach rs1 -> transition b1 x = Some (b2, BMatch Detach) ->
  exists w o h, read_once (mkC2s b h0 buf) (bytes1 ++ x :: bytes2) = Some (Detached w) /\
    pass (combine bytes1 rs1) h0 = (o, h) /\ (exists lost, o = w ++ lost) /\ (h0 = [] -> w = []).
Proof.
  intros Ht Hnd Hx. unfold read_once. cbn [c_bind c_partial c_buf].
  destruct (scan_read h0 bytes1 bytes1 [] b b1 rs1 eq_refl Ht Hnd) as (p & snips & W & o & Hs & Hp & Hc).
  cbn [length app] in Hs, Hp. rewrite app_nil_r in Hs, Hp.
  rewrite scan_app, Hs. cbn [scan]. rewrite Hx.
  exists W, o, p. split; [reflexivity|]. split; [assumption|].
  destruct Hc as [(_ & _ & -> & _)|(n & _ & _ & _ & Hw & _ & Hl)]; [|split; assumption].
  split; [exists o; reflexivity|reflexivity].
Qed.

(** The function and the relation agree. *)
Lemma pass_passed l : forall h, let '(o, h') := pass l h in
  passed (map (fun e => (fst e, to_verdict (snd e))) l) h o h'.
Proof.
  induction l as [|[x r] l IH]; intros h; cbn [pass map fst snd].
  - constructor.
  - destruct r as [| |a]; cbn [to_verdict].
    + specialize (IH []). destruct (pass l []) as [o h']. constructor. assumption.
    + specialize (IH (h ++ [x])). destruct (pass l (h ++ [x])) as [o h']. constructor. assumption.
    + specialize (IH []). destruct (pass l []) as [o h']. constructor. assumption.
Qed.

Lemma passed_fun {A} (l : list (N * verdict A)) h o h' : passed l h o h' ->
  forall o2 h2, passed l h o2 h2 -> o2 = o /\ h2 = h'.
Proof.
  induction 1 as [h|b l h out h' H IH|b l h out h' H IH|b a l h out h' H IH]; intros o2 h2 H2; inversion H2; subst.
  - split; reflexivity.
  - apply IH; assumption.
  - match goal with Hp : passed l [] _ _ |- _ => destruct (IH _ _ Hp) as [-> ->] end. split; reflexivity.
  - apply IH; assumption.
Qed.

Lemma pass_app l1 l2 : forall h, pass (l1 ++ l2) h =
  let '(o1, h1) := pass l1 h in let '(o2, h2) := pass l2 h1 in (o1 ++ o2, h2).
Proof.
  induction l1 as [|[x r] l1 IH]; intros h; cbn [app pass].
  - destruct (pass l2 h); reflexivity.
  - destruct r as [| |a].
    + rewrite IH. destruct (pass l1 []) as [o1 h1]. destruct (pass l2 h1) as [o2 h2].
      rewrite <- !app_assoc. reflexivity.
    + apply IH.
    + apply IH.
Qed.

Lemma combine_app {A B} (l1 l2 : list A) (m1 m2 : list B) : length l1 = length m1 ->
  combine (l1 ++ l2) (m1 ++ m2) = combine l1 m1 ++ combine l2 m2.
Proof.
  revert m1; induction l1 as [|x l1 IH]; intros [|y m1] Hl; try discriminate; [reflexivity|].
  cbn [app combine]. rewrite IH by (cbn in Hl; lia). reflexivity.
Qed.

(** * Whole histories *)
Lemma map_repeat {A B} (f : A -> B) x n : map f (repeat x n) = repeat (f x) n.
Proof. induction n as [|n IH]; cbn; congruence. Qed.

Lemma second_verdicts rs : second_byte_binding rs <-> starts_second (map to_verdict rs).
Proof.
  split.
  - intros (j & a & tl & ->). exists j, a, (map to_verdict tl). cbn [map to_verdict].
    rewrite map_app, map_repeat. reflexivity.
  - intros (j & a & tl & H). destruct rs as [|r rs]; [discriminate|]. cbn [map] in H.
    injection H as Hr H. destruct r; try discriminate.
    apply map_eq_app in H as (r1 & r2 & -> & H1 & H2).
    destruct r2 as [|r2 rtl]; [discriminate|]. cbn [map] in H2. injection H2 as Ha H2.
    destruct r2 as [| |a']; try discriminate.
    assert (Hr1 : r1 = repeat BPartial j).
    { clear - H1. revert r1 H1. induction j as [|j IH]; intros [|r r1] H; try discriminate; [reflexivity|].
      cbn in H. injection H as Hr H. destruct r; try discriminate. cbn. f_equal. apply IH; assumption. }
    subst r1. exists j, a', rtl. reflexivity.
Qed.

Lemma combine_verdicts (bytes : list N) : forall rs,
  combine bytes (map to_verdict rs) = map (fun e => (fst e, to_verdict (snd e))) (combine bytes rs).
Proof. induction bytes as [|x bytes IH]; intros [|r rs]; cbn; try reflexivity. rewrite IH. reflexivity. Qed.

Lemma passed_of_pass bytes rs h o h' : pass (combine bytes rs) h = (o, h') ->
  passed (combine bytes (map to_verdict rs)) h o h'.
Proof.
  intros H. rewrite combine_verdicts. assert (Hp := pass_passed (combine bytes rs) h). rewrite H in Hp. exact Hp.
Qed.

Lemma detach_verdict rs : In (BMatch Detach) rs <-> In (Fires Detach) (map to_verdict rs).
Proof.
  split.
  - intros H. apply in_map_iff. exists (BMatch Detach). split; [reflexivity|assumption].
  - intros H. apply in_map_iff in H as (r & E & H). destruct r as [| |[|]]; try discriminate. assumption.
Qed.

Lemma reads_spec l m size : forall reads b h0 buf s,
  state_of l m b s -> Forall (good_read size) reads -> length buf = size ->
  exists vss s', Forall2 (fun r vs => length r = length vs) reads vss /\
    typed_all m s (concat reads) (concat vss) s' /\
    (~ In (Fires Detach) (concat vss) ->
     exists b' buf' w h, read_all_input (mkC2s b h0 buf) reads = Some (Continue (mkC2s b' h buf') w) /\
       state_of l m b' s' /\ length buf' = size /\ delivered (combine reads vss) h0 w h).
Proof.
  induction reads as [|r reads IH]; intros b h0 buf s Hst Hr Hb.
  - exists [], s. cbn. split; [constructor|]. split; [constructor|]. intros _.
    exists b, buf, [], h0. split; [reflexivity|]. split; [assumption|]. split; [assumption|]. constructor.
  - inversion Hr as [|? ? (Hne & Hl & Hby) Hrs]; subst.
    destruct (transitions_spec l m r Hby b s Hst) as (b1 & rs & s1 & E1 & Hst1 & Ht1).
    assert (Hlen := transitions_length _ _ _ _ E1).
    (* the state of the buffer does not matter for the verdicts *)
    destruct (in_dec (fun x y : binding_result => ltac:(decide equality; decide equality) : {x = y} + {x <> y})
                (BMatch Detach) rs) as [Hd|Hd].
    + destruct (IH b1 [] buf s1 Hst1 Hrs eq_refl) as (vss & s2 & Hf & Ht2 & _).
      exists (map to_verdict rs :: vss), s2. split; [constructor; [rewrite map_length; congruence|assumption]|].
      cbn [concat]. split.
      * clear - Ht1 Ht2. induction Ht1; [exact Ht2|]. cbn [app]. econstructor; [eassumption|]. apply IHHt1; assumption.
      * intros Hn. exfalso. apply Hn. apply in_or_app. left. apply detach_verdict. assumption.
    + destruct (read_once_spec b h0 buf r b1 rs E1 Hd Hne Hl) as (buf1 & w1 & o & h & Ero & Hbl & Hp & Hw).
      destruct (IH b1 h buf1 s1 Hst1 Hrs Hbl) as (vss & s2 & Hf & Ht2 & Hrest).
      exists (map to_verdict rs :: vss), s2. split; [constructor; [rewrite map_length; congruence|assumption]|].
      cbn [concat]. split.
      * clear - Ht1 Ht2. induction Ht1; [exact Ht2|]. cbn [app]. econstructor; [eassumption|]. apply IHHt1; assumption.
      * intros Hn. destruct Hrest as (b2 & buf2 & w2 & h2 & Er & Hst2 & Hb2 & Hdel).
        { intros Hx; apply Hn. apply in_or_app. right. assumption. }
        exists b2, buf2, (w1 ++ w2), h2. cbn [read_all_input]. rewrite Ero, Er.
        split; [reflexivity|]. split; [assumption|]. split; [assumption|]. cbn [combine].
        apply passed_of_pass in Hp.
        destruct Hw as [[Hns ->]|(Hs & b0 & o' & -> & ->)].
        -- eapply d_read; [eassumption| |eassumption]. rewrite <- second_verdicts. assumption.
        -- eapply d_loses; [eassumption| |eassumption]. rewrite <- second_verdicts. assumption.
Qed.

Lemma app_inj_len {A} (a : list A) : forall b x y, length a = length b -> a ++ x = b ++ y -> a = b /\ x = y.
Proof.
  induction a as [|u a IH]; intros [|v b] x y Hl E; try discriminate; [split; [reflexivity|exact E]|].
  cbn [app] in E. injection E as -> E. destruct (IH b x y) as [-> ->]; [cbn in Hl; lia|assumption|split; reflexivity].
Qed.

(** The verdicts are determined by the keymap and the bytes. *)
Lemma chord_of_fun {A} (m : keymap A) x c c' : chord_of m x c -> chord_of m x c' -> c = c'.
Proof.
  intros (l1 & l2 & E1 & H1 & N1) (l3 & l4 & E2 & H2 & N2). rewrite E1 in E2. clear E1. revert l3 E2.
  induction l1 as [|y l1 IH]; intros [|z l3] E; cbn [app] in E.
  - congruence.
  - injection E as E1 E2. exfalso. apply (N1 c'); [rewrite E2; apply in_or_app; right; left; reflexivity|assumption].
  - injection E as E1 E2. exfalso. apply (N2 c); [rewrite <- E2; apply in_or_app; right; left; reflexivity|assumption].
  - injection E as _ E. eapply IH; eassumption.
Qed.

Lemma bound_inserted {S V} (h : list (list S * V)) s a : bound h s a -> inserted h s.
Proof. intros (h1 & h2 & -> & _). exists a. apply in_or_app; right; left; reflexivity. Qed.

Lemma prefix_refl {S} (s : list S) : prefix s s.
Proof. exists []. symmetry; apply app_nil_r. Qed.

Lemma typed_fun {A} (m : keymap A) s x v1 s1 v2 s2 :
  typed m s x v1 s1 -> typed m s x v2 s2 -> v1 = v2 /\ s1 = s2.
Proof.
  intros H1 H2. destruct H1 as [Hn|c a Hc Hb|c Hc Hi Hq|c Hc Hq]; destruct H2 as [Hn'|c' a' Hc' Hb'|c' Hc' Hi' Hq'|c' Hc' Hq'];
    try (exfalso; eapply Hn; eassumption); try (exfalso; eapply Hn'; eassumption); try (split; reflexivity);
    assert (Hcc := chord_of_fun _ _ _ _ Hc Hc'); subst c'.
  - rewrite (bound_fun _ _ _ _ Hb Hb'). split; reflexivity.
  - exfalso. apply Hi'. eapply bound_inserted; eassumption.
  - exfalso. apply Hq'. exists (s ++ [c]). split; [eapply bound_inserted; eassumption|apply prefix_refl].
  - exfalso. apply Hi. eapply bound_inserted; eassumption.
  - split; reflexivity.
  - exfalso; apply Hq'; assumption.
  - exfalso. apply Hq. exists (s ++ [c]). split; [eapply bound_inserted; eassumption|apply prefix_refl].
  - exfalso; apply Hq; assumption.
Qed.

Lemma typed_all_fun {A} (m : keymap A) s bs vs s' : typed_all m s bs vs s' ->
  forall vs2 s2, typed_all m s bs vs2 s2 -> vs2 = vs /\ s2 = s'.
Proof.
  induction 1 as [s|s b v s1 bs vs s2 H H' IH]; intros vs2 s3 H3; inversion H3; subst; [split; reflexivity|].
  match goal with Ht : typed m s b _ _ |- _ => destruct (typed_fun _ _ _ _ _ _ _ H Ht) as [-> ->] end.
  match goal with Ht : typed_all m _ bs _ _ |- _ => destruct (IH _ _ Ht) as [-> ->] end. split; reflexivity.
Qed.

Lemma split_fun {A} (reads : list (list N)) : forall (vss vss2 : list (list A)),
  Forall2 (fun r vs => length r = length vs) reads vss -> Forall2 (fun r vs => length r = length vs) reads vss2 ->
  concat vss = concat vss2 -> vss = vss2.
Proof.
  induction reads as [|r reads IH]; intros vss vss2 H1 H2 E; inversion H1; inversion H2; subst; [reflexivity|].
  cbn [concat] in E.
  match goal with |- ?a :: ?x = ?b :: ?y => assert (Hl : length a = length b) by congruence end.
  assert (E' := app_inj_len _ _ _ _ Hl E). destruct E' as [-> E']. f_equal. apply IH; assumption.
Qed.

Lemma read_all_app s reads1 reads2 : read_all_input s (reads1 ++ reads2) =
  match read_all_input s reads1 with
  | Some (Continue s1 w1) =>
      match read_all_input s1 reads2 with
      | None => None
      | Some (Detached w2) => Some (Detached (w1 ++ w2))
      | Some (Continue s2 w2) => Some (Continue s2 (w1 ++ w2))
      end
  | r => r
  end.
Proof.
  revert s; induction reads1 as [|r reads1 IH]; intros s; cbn [app read_all_input].
  - destruct (read_all_input s reads2) as [[|]|]; reflexivity.
  - destruct (read_once s r) as [[s' w|w]|]; [|reflexivity|reflexivity].
    rewrite IH. destruct (read_all_input s' reads1) as [[s1 w1|w1]|]; [|reflexivity|reflexivity].
    destruct (read_all_input s1 reads2) as [[s2 w2|w2]|]; [rewrite app_assoc; reflexivity|rewrite app_assoc; reflexivity|reflexivity].
Qed.

Lemma typed_all_join {A} (m : keymap A) s bs1 vs1 s1 bs2 vs2 s2 :
  typed_all m s bs1 vs1 s1 -> typed_all m s1 bs2 vs2 s2 -> typed_all m s (bs1 ++ bs2) (vs1 ++ vs2) s2.
Proof.
  intros H1 H2. induction H1; [exact H2|]. cbn [app]. econstructor; [eassumption|]. apply IHtyped_all; assumption.
Qed.

Lemma reads_detach l m size b buf reads bytes1 x bytes2 later vss vs1 s1 s2 :
  state_of l m b [] -> length buf = size ->
  Forall (good_read size) reads -> byte_stream bytes1 -> (x < 256)%N ->
  Forall2 (fun r vs => length r = length vs) reads vss -> length bytes1 = length vs1 ->
  typed_all m [] (concat reads ++ bytes1) (concat vss ++ vs1) s1 ->
  ~ In (Fires Detach) (concat vss ++ vs1) -> typed m s1 x (Fires Detach) s2 ->
  exists w w' o h h', read_all_input (mkC2s b [] buf) (reads ++ (bytes1 ++ x :: bytes2) :: later) = Some (Detached (w ++ w')) /\
    delivered (combine reads vss) [] w h /\ passed (combine bytes1 vs1) h o h' /\
    (exists lost, o = w' ++ lost) /\ (h = [] -> w' = []).
Proof.
  intros Hst Hb Hr Hb1 Hx Hf Hl1 Ht Hnd Hfx.
  destruct (reads_spec l m size reads b [] buf [] Hst Hr Hb) as (vss' & sm & Hf' & Ht' & Hrest).
  destruct (typed_all_app m (concat reads) [] bytes1 _ _ Ht) as (va & vb & sm2 & Ev & Hla & Hta & Htb).
  assert (Hlen : length va = length (concat vss)).
  { rewrite Hla. clear - Hf. induction Hf; [reflexivity|]. cbn [concat]. rewrite !app_length. congruence. }
  destruct (app_inj_len _ _ _ _ Hlen (eq_sym Ev)) as [-> ->].
  destruct (typed_all_fun _ _ _ _ _ Hta _ _ Ht') as [Ec ->].
  assert (vss' = vss) by (eapply split_fun; eassumption). subst vss'.
  destruct Hrest as (b1 & buf1 & w & h & Er & Hst1 & Hb1' & Hdel).
  { intros H; apply Hnd. apply in_or_app; left; assumption. }
  destruct (transitions_spec l m bytes1 Hb1 b1 sm2 Hst1) as (b2 & rs & s1' & E1 & Hst2 & Ht1).
  destruct (typed_all_fun _ _ _ _ _ Htb _ _ Ht1) as [<- ->].
  destruct (transition_spec l m b2 s1 x Hst2 Hx) as (b3 & r & s3 & E3 & _ & Htx).
  destruct (typed_fun _ _ _ _ _ _ _ Htx Hfx) as [Hr3 _]. destruct r as [| |[|]]; try discriminate.
  assert (Hd : no_detach rs).
  { intros H. apply Hnd. apply in_or_app; right. apply detach_verdict; assumption. }
  destruct (read_detach b1 h buf1 bytes1 x bytes2 b2 rs b3 E1 Hd E3) as (w' & o & h' & Ero & Hp & Hlost & Hz).
  exists w, w', o, h, h'. rewrite read_all_app, Er. cbn [read_all_input]. rewrite Ero.
  split; [reflexivity|]. split; [assumption|]. split; [apply passed_of_pass; assumption|]. split; assumption.
Qed.

(** When nothing fires, the reads do not matter. *)
Lemma passed_app {A} (l1 l2 : list (N * verdict A)) : forall h o1 h1 o2 h2,
  passed l1 h o1 h1 -> passed l2 h1 o2 h2 -> passed (l1 ++ l2) h (o1 ++ o2) h2.
Proof.
  intros h o1 h1 o2 h2 H H2. induction H; cbn [app]; [exact H2| | |].
  - constructor. apply IHpassed; assumption.
  - rewrite <- !app_assoc. constructor. apply IHpassed; assumption.
  - constructor. apply IHpassed; assumption.
Qed.

Lemma delivered_passed {A} (reads : list (list N)) : forall (vss : list (list (verdict A))) h w h',
  Forall2 (fun r vs => length r = length vs) reads vss ->
  Forall (fun vs => ~ starts_second vs) vss -> delivered (combine reads vss) h w h' ->
  passed (combine (concat reads) (concat vss)) h w h'.
Proof.
  induction reads as [|r reads IH]; intros vss h w h' Hf Hn Hd; inversion Hf; subst; cbn [combine concat] in *.
  - inversion Hd; subst. constructor.
  - inversion Hn; subst. rewrite combine_app by assumption. inversion Hd; subst; [|contradiction].
    eapply passed_app; [eassumption|]. apply IH; assumption.
Qed.

Lemma quiet_lossless {A} (l : list (N * verdict A)) h o h' : passed l h o h' ->
  (forall a, ~ In (Fires a) (map snd l)) -> o ++ h' = h ++ map fst l.
Proof.
  induction 1 as [h|b l h out h' H IH|b l h out h' H IH|b a l h out h' H IH]; intros Hq; cbn [map fst snd] in *.
  - rewrite app_nil_r. reflexivity.
  - rewrite IH; [rewrite <- app_assoc; reflexivity|]. intros a Ha; apply (Hq a); right; assumption.
  - rewrite <- !app_assoc. cbn [app]. do 2 f_equal. apply IH. intros a Ha; apply (Hq a); right; assumption.
  - exfalso. apply (Hq a). left; reflexivity.
Qed.
