(** C22: sessions with a time to live are reaped when it is over. *)
From Coq Require Import List NArith ZArith Bool Arith Lia.
From Verif Require Import Model.Base Model.Protocol Model.Names Model.Server Model.Duration Spec.ServerSpec Spec.ReaperSpec Spec.UnicodeSpec Spec.ServerExamples
  Proofs.BaseLemmas Proofs.ServerProofs Proofs.ServerEvents Proofs.ServerMoves Proofs.ServerGossip Proofs.ServerReaper.
Import ListNotations.
Open Scope nat_scope.

Lemma fired_reaps st k inst n s : listed st n s -> ~ listed (step st (AFire k inst)) n s ->
  exists r, nth_error (heap st) k = Some r /\ is_top (heap st) r = true /\ (r_at r <= inst)%N /\ gen_of st (r_name r) = r_gen r /\ locked st = None /\ r_name r = n.
Proof.
  intros L N. unfold listed in *. destruct (step_tells st (AFire k inst)) as (es & _ & T). remember (AFire k inst) as a. remember (table (step st a)) as t.
  destruct T; try discriminate Heqa.
  - destruct (N L).
  - injection Heqa as -> ->. exists r. do 5 (split; [assumption|]). destruct (str_eq_dec (r_name r) n) as [E|D]; [exact E|].
    exfalso. apply N. rewrite lookup_remove_neq; [exact L|]. congruence.
Qed.

(** When the reaper removes a session, it acts for some session created under that
    name with a TTL that is over, the newest such session it has heard of; it
    signals the session it removes. *)
Theorem C22_reaped_partial : forall st k inst n s,
  reachable st -> listed st n s -> let st' := step st (AFire k inst) in ~ listed st' n s ->
  (exists s0 d, ttl_session st n s0 d /\ (d <= inst)%N /\
    forall s1 d1, ttl_session st n s1 d1 -> ~ in_mail st s1 -> s1 <= s0) /\
  signalled st' = signalled st ++ [s] /\ (forall m s1, m <> n -> (listed st' m s1 <-> listed st m s1)).
Proof.
  intros st k inst n s R L st' N. destruct (fired_reaps st k inst n s L N) as (r & Hk & Ht & Hi & Hg & Hl & Hn).
  pose proof (reachable_rinv _ R) as I. assert (Hin : In r (heap st)) by (eapply nth_error_In; exact Hk).
  split.
  - exists (r_sid r), (r_at r). rewrite <- Hn. split; [apply (r_heap _ I r Hin)|]. split; [exact Hi|]. apply (r_latest _ I r Hin). symmetry. exact Hg.
  - destruct (fire_effect st k inst r Hk Ht Hi Hl) as (_ & _ & _ & _ & _ & _ & F). cbn zeta in F. fold st' in F.
    rewrite Hg, Nat.eqb_refl, Hn, L in F. destruct F as [F1 F2]. split; [exact F2|]. intros m s1 D. unfold listed. rewrite F1, lookup_remove_neq by assumption. tauto.
Qed.
Print Assumptions C22_reaped_partial.

(** So a name never used with a TTL is never reaped ... *)
Theorem C22_no_ttl_partial : forall st k inst n s,
  reachable st -> listed st n s -> (forall s0 d, ~ ttl_session st n s0 d) -> listed (step st (AFire k inst)) n s.
Proof.
  intros st k inst n s R L NT. destruct (lookup n (table (step st (AFire k inst)))) as [s1|] eqn:E.
  - destruct (Nat.eq_dec s1 s) as [->|D]; [exact E|]. exfalso.
    assert (N : ~ listed (step st (AFire k inst)) n s) by (unfold listed; congruence).
    destruct (C22_reaped_partial st k inst n s R L N) as ((s0 & d & T & _) & _). exact (NT _ _ T).
  - exfalso. assert (N : ~ listed (step st (AFire k inst)) n s) by (unfold listed; congruence).
    destruct (C22_reaped_partial st k inst n s R L N) as ((s0 & d & T & _) & _). exact (NT _ _ T).
Qed.
Print Assumptions C22_no_ttl_partial.

(** ... and the newest session with a TTL of its name is not reaped before its own
    deadline, once the reaper has read of it. *)
Theorem C22_not_early_partial : forall st k inst n s d,
  reachable st -> listed st n s -> ttl_session st n s d -> ~ in_mail st s ->
  (forall s1 d1, ttl_session st n s1 d1 -> s1 <= s) ->
  ~ listed (step st (AFire k inst)) n s -> (d <= inst)%N.
Proof.
  intros st k inst n s d R L T NM Newest N. destruct (C22_reaped_partial st k inst n s R L N) as ((s0 & d0 & T0 & Hi & Max) & _).
  assert (E : s0 = s) by (apply Nat.le_antisymm; [eapply Newest; exact T0|eapply Max; eassumption]). subst s0.
  destruct T as (x & Hx & _ & Hd), T0 as (x0 & Hx0 & _ & Hd0). congruence.
Qed.
Print Assumptions C22_not_early_partial.

(** Every session created with a TTL is brought to the reaper's attention, and
    the reaper keeps it in mind until it acts on it, which it does not before its
    deadline. *)
Theorem C22_told : forall st a n s d,
  ttl_session (step st a) n s d -> ~ (exists n0 d0, ttl_session st n0 s d0) -> pending (step st a) s.
Proof.
  intros st a n s d T N. destruct (back_ttl st a n s d T) as [H|(_ & c & ok & now & inst & h & pid & -> & Hc & Es & En & ttl & Ht & Ed & Hc')].
  - exfalso. eauto.
  - left. subst s. revert Hc'. cbn [step]. unfold attach_spawn. rewrite Hc, Ht. destruct ok; cbn [negb]; [|rewrite goto_same; discriminate].
    destruct (_ <? _)%N; [rewrite goto_same; discriminate|]. destruct (_ <? _); [|congruence]. intros _.
    do 2 eexists. cbn. apply in_or_app. right. left. reflexivity.
Qed.
Print Assumptions C22_told.

Theorem C22_kept : forall st a s,
  reachable st -> pending st s -> pending (step st a) s \/ exists k inst r, a = AFire k inst /\ r_sid r = s /\ In r (heap st) /\ (r_at r <= inst)%N /\ ttl_session st (r_name r) s (r_at r).
Proof.
  intros st a s R P. pose proof (reachable_rinv _ R) as I. pose proof (step_reaps st a) as S.
  destruct S as [a st' (E1 & E2 & E3) B|c now inst h pid ttl st' Hc Httl E1 E2 E3 New B|n t s0 rest st' Hm E1 E2 E3 Es|k inst r st' Hr Htop Hi E1 E2 E3 Es].
  - left. unfold pending, in_mail in *. rewrite E1, E2. exact P.
  - left. unfold pending, in_mail in *. rewrite E1, E2. destruct P as [(n & t & P)|P]; [left; exists n, t; apply in_or_app; auto|auto].
  - left. unfold pending, in_mail in *. rewrite E1, E2. destruct P as [(n1 & t1 & P)|(r & P & Q)]; [|right; exists r; split; [right; exact P|exact Q]].
    rewrite Hm in P. destruct P as [P|P]; [|left; eauto]. injection P as -> -> ->. right. eexists. split; [left; reflexivity|reflexivity].
  - destruct P as [P|(r1 & Hin & Q)]; [left; left; unfold in_mail in *; rewrite E1; exact P|].
    assert (D : {r1 = r} + {r1 <> r}) by (clear; decide equality; solve [apply Nat.eq_dec | apply N.eq_dec | apply str_eq_dec]).
    destruct D as [->|D].
    + right. exists k, inst, r. do 4 (split; [auto|]). rewrite <- Q. apply (r_heap _ I). exact Hin.
    + left. right. exists r1. rewrite E2. split; [eapply remove_nth_other; eassumption|exact Q].
Qed.
Print Assumptions C22_kept.

(** The deadline of a session asked for with a TTL is that many seconds after its
    creation, as long as the machine's clock can say that time ... *)
Theorem C22_ttl_taken : forall st c h pid ttl now inst,
  handlers st c = HSpawn h pid -> h_ttl_secs h = Some ttl -> length (mailbox st) < 10 ->
  let s := length (sessions st) in let st' := step st (ASpawn c true now inst) in
  ((inst / 1000 + ttl < 2 ^ 63)%N -> ttl_session st' (h_name h) s (inst + 1000 * ttl) /\ in_mail st' s /\ handlers st' c = HInsert h s) /\
  ((2 ^ 63 <= inst / 1000 + ttl)%N -> sessions st' = sessions st /\ mailbox st' = mailbox st /\ handlers st' c = HDone).
Proof.
  intros st c h pid ttl now inst Hc Ht Hm. cbn zeta. cbn [step]. unfold attach_spawn. rewrite Hc, Ht. cbn [negb].
  change (2 ^ 63)%N with (instant_max + 1)%N. split; intros Hi.
  - destruct (N.ltb_spec instant_max (inst / 1000 + ttl)) as [?|_]; [lia|]. destruct (Nat.ltb_spec (length (mailbox st)) 10) as [_|?]; [|lia].
    split; [|split; [|apply goto_same]].
    + eexists. split; [unfold session_at; cbn; rewrite nth_error_app2, Nat.sub_diag by lia; reflexivity|split; reflexivity].
    + do 2 eexists. cbn. apply in_or_app. right. left. reflexivity.
  - destruct (N.ltb_spec instant_max (inst / 1000 + ttl)) as [_|?]; [|lia]. split; [reflexivity|]. split; [reflexivity|apply goto_same].
Qed.
Print Assumptions C22_ttl_taken.

(** Once the deadline of such a session has passed and the table is free, the
    reaper by itself gets to remove it and signal its shell. *)
Theorem C22_catches_up_partial : forall st n s d inst,
  reachable st -> listed st n s -> ttl_session st n s d -> pending st s ->
  (forall s1 d1, ttl_session st n s1 d1 -> s1 <= s) ->
  locked st = None -> (d <= inst)%N ->
  exists l, reaper_only inst l /\ ~ listed (run st l) n s /\ In s (signalled (run st l)).
Proof.
  intros st n s d inst R L T P Newest Lk Hi.
  (* first the messages are read *)
  assert (Drain : forall m st, length (mailbox st) = m -> exists l, reaper_only inst l /\ mailbox (run st l) = [] /\ table (run st l) = table st /\
            sessions (run st l) = sessions st /\ locked (run st l) = locked st /\ signalled (run st l) = signalled st /\ (pending st s -> pending (run st l) s)).
  { clear. induction m as [|m IH]; intros st Hm.
    - exists []. split; [constructor|]. destruct (mailbox st) eqn:E; [|discriminate Hm]. auto 8.
    - destruct (mailbox st) as [|[[n t] s0] rest] eqn:E; [discriminate Hm|].
      assert (F : step st ARegister = with_reaper st rest (mkReapable n (S (gen_of st n)) t s0 :: heap st) (insert n (S (gen_of st n)) (gens st))).
      { cbn [step]. unfold reaper_register. rewrite E. reflexivity. }
      destruct (IH (step st ARegister)) as (l & Ho & M & Tb & Ss & Lk & Sg & Pn). { rewrite F. cbn. injection Hm as Hm. exact Hm. }
      exists (ARegister :: l). split; [constructor; auto|]. change (run st (ARegister :: l)) with (run (step st ARegister) l).
      rewrite M, Tb, Ss, Lk, Sg. rewrite F at 1 2 3 4. repeat split; auto. intros P. apply Pn. rewrite F. unfold pending, in_mail in *. cbn [mailbox heap with_reaper]. rewrite E in P.
      destruct P as [(n1 & t1 & [P|P])|(r & P & Q)]; [injection P as -> -> ->; right; eexists; split; [left; reflexivity|reflexivity]|left; eauto|right; exists r; split; [right; exact P|exact Q]]. }
  destruct (Drain _ st eq_refl) as (l1 & Ho1 & M & Tb & Ss & Lk1 & Sg & Pn). specialize (Pn P).
  assert (R1 : reachable (run st l1)). { destruct R as (d0 & l0 & ->). exists d0, (l0 ++ l1). unfold run. rewrite fold_left_app. reflexivity. }
  assert (H : forall m st, reachable st -> length (heap st) = m -> listed st n s -> ttl_session st n s d -> (exists r, In r (heap st) /\ r_sid r = s) ->
     (forall s1 d1, ttl_session st n s1 d1 -> s1 <= s) -> locked st = None -> exists l, reaper_only inst l /\ ~ listed (run st l) n s /\ In s (signalled (run st l))).
  { clear - Hi. induction m as [|m IH]; intros st R Hm L T (r & Hr & Hs) Newest Lk.
    - destruct (heap st); [destruct Hr|discriminate Hm].
    - pose proof (reachable_rinv _ R) as I. destruct (top_exists (heap st)) as (k & r' & Hk & Ht). { intros E. rewrite E in Hr. destruct Hr. }
      assert (Tr : r_name r = n /\ r_at r = d).
      { destruct (r_heap _ I r Hr) as (x & Hx & Hn & Hd). destruct T as (y & Hy & Hn' & Hd'). rewrite Hs in Hx. split; congruence. }
      destruct Tr as [En Ea].
      assert (Cur : gen_of st n = r_gen r).
      { pose proof (r_gen_le _ I r Hr) as G. rewrite En in G. destruct (Nat.eq_dec (gen_of st n) (r_gen r)) as [E|D]; [exact E|]. exfalso.
        destruct (r_newer _ I r Hr) as (s1 & d1 & T1 & L1). { rewrite En. lia. }
        rewrite En in T1. apply Newest in T1. rewrite Hs in L1. exact (Nat.lt_irrefl _ (Nat.lt_le_trans _ _ _ L1 T1)). }
      assert (Due : (r_at r' <= inst)%N).
      { unfold is_top in Ht. rewrite forallb_forall in Ht. specialize (Ht r Hr). apply N.leb_le in Ht. rewrite Ea in Ht. exact (N.le_trans _ _ _ Ht Hi). }
      destruct (fire_effect st k inst r' Hk Ht Due Lk) as (F1 & F2 & F3 & F4 & F5 & F6 & F7). cbn zeta in *.
      remember (step st (AFire k inst)) as st1 eqn:E1.
      destruct (lookup n (table st1)) as [s2|] eqn:E2.
      + assert (K : table st1 = table st \/ table st1 = remove (r_name r') (table st) /\ r_name r' <> n).
        { destruct (gen_of st (r_name r') =? r_gen r'); [|tauto]. destruct (lookup (r_name r') (table st)); [|tauto]. destruct F7 as [F7 _].
          right. split; [exact F7|]. intros E. rewrite F7, E, lookup_remove_eq in E2. discriminate E2. }
        assert (L1 : listed st1 n s). { unfold listed in *. destruct K as [->|[-> D]]; [exact L|]. rewrite lookup_remove_neq; [exact L|congruence]. }
        assert (D : r <> r').
        { intros <-. rewrite En, Cur, Nat.eqb_refl in F7. unfold listed in L. rewrite L in F7. destruct F7 as [F7 _]. rewrite F7, lookup_remove_eq in E2. discriminate E2. }
        destruct (IH st1) as (l & Ho & Hn & Hsig).
        * rewrite E1. apply reachable_step. exact R.
        * rewrite F2. rewrite (remove_nth_length k (heap st) r' Hk) in Hm. injection Hm as Hm. exact Hm.
        * exact L1.
        * unfold ttl_session, session_at. rewrite F4. exact T.
        * exists r. rewrite F2. split; [eapply remove_nth_other; eassumption|exact Hs].
        * intros s1 d1. unfold ttl_session, session_at. rewrite F4. apply Newest.
        * exact F1.
        * exists (AFire k inst :: l). split; [constructor; eauto|]. change (run st (AFire k inst :: l)) with (run (step st (AFire k inst)) l). rewrite <- E1. auto.
      + exists [AFire k inst]. split; [constructor; [eauto|constructor]|]. change (run st [AFire k inst]) with (step st (AFire k inst)). rewrite <- E1.
        split; [unfold listed; congruence|]. unfold listed in L.
        destruct (gen_of st (r_name r') =? r_gen r'); [|destruct F7 as [F7 _]; rewrite F7 in E2; congruence].
        destruct (lookup (r_name r') (table st)) as [s3|] eqn:E3; [|destruct F7 as [F7 _]; rewrite F7 in E2; congruence].
        destruct F7 as [F7 F8]. destruct (str_eq_dec n (r_name r')) as [E|D]; [|rewrite F7, lookup_remove_neq in E2 by exact D; congruence].
        rewrite F8. apply in_or_app. right. left. congruence. }
  destruct (H _ (run st l1) R1 eq_refl) as (l2 & Ho2 & G1 & G2).
  - unfold listed. rewrite Tb. exact L.
  - unfold ttl_session, session_at. rewrite Ss. exact T.
  - destruct Pn as [(n1 & t1 & Q)|Q]; [rewrite M in Q; destruct Q|exact Q].
  - intros s1 d1. unfold ttl_session, session_at. rewrite Ss. apply Newest.
  - rewrite Lk1. exact Lk.
  - exists (l1 ++ l2). split; [apply Forall_app; auto|]. unfold run in *. rewrite fold_left_app. auto.
Qed.
Print Assumptions C22_catches_up_partial.

Example C22_nonvacuous :
  let st := run fresh (creates 1 work (Some 5%N) ++ creates 2 play (Some 3%N) ++ creates 3 (lit "free") None ++ [ARegister; ARegister]) in
  map s_deadline (sessions st) = [Some 6000%N; Some 4000%N; None] /\ locked st = None /\
  map fst (table (step st (AFire 0 3999))) = [lit "free"; play; work] /\
  map fst (table (step st (AFire 0 4000))) = [lit "free"; work] /\
  map fst (table (run st [AFire 0 4000; AFire 0 6000])) = [lit "free"] /\ signalled (run st [AFire 0 4000; AFire 0 6000]) = [1; 0].
Proof. vm_compute. auto 8. Qed.

(** But the reaper goes by name.  A session without a TTL is reaped if its name was
    used with one before ... *)
Definition second_life : list action :=
  creates 1 work (Some 5%N) ++ [ARegister; asks 2 (QKill [work]); AKill 2 []] ++ creates 3 work None.
Theorem C22_without_ttl_refuted : exists l,
  let st := run fresh l in let st' := step st (AFire 0 6000) in
  listed st work 1 /\ option_map s_deadline (session_at st 1) = Some None /\ connected st 3 1 /\
  ~ listed st' work 1 /\ signalled st' = [0; 1].
Proof.
  exists second_life. cbn zeta. split; [vm_compute; reflexivity|]. split; [vm_compute; reflexivity|]. split; [exists 3, (hdr work None); vm_compute; reflexivity|].
  split; [vm_compute; discriminate|vm_compute; reflexivity].
Qed.
Print Assumptions C22_without_ttl_refuted.

(** ... one with a TTL may be reaped at the deadline of its predecessor, if the
    reaper has not read of it by then ... *)
Definition unread : list action :=
  creates 1 work (Some 5%N) ++ [ARegister; asks 2 (QKill [work]); AKill 2 []] ++ creates 3 work (Some 100%N).
Theorem C22_early_refuted : exists l,
  let st := run fresh l in let st' := step st (AFire 0 6000) in
  listed st work 1 /\ ttl_session st work 1 101000 /\ ~ listed st' work 1 /\ signalled st' = [0; 1].
Proof.
  exists unread. cbn zeta. split; [vm_compute; reflexivity|]. split; [eexists; split; [vm_compute; reflexivity|split; reflexivity]|].
  split; [vm_compute; discriminate|vm_compute; reflexivity].
Qed.
Print Assumptions C22_early_refuted.

(** ... and one whose deadline passes before it is in the table is never reaped. *)
Definition too_soon : list action :=
  [asks 1 (QAttach (hdr work (Some 0%N))); AAttach 1 true 10; ASpawn 1 true 11 1000; ARegister; AFire 0 1000; AInsert 1; AFetch 1; AReply 1 true true; AStart 1 true].
Lemma too_soon_facts : let st := run fresh too_soon in
  lookup work (table st) = Some 0 /\ option_map (fun x => (s_name x, s_deadline x)) (session_at st 0) = Some (work, Some 1000%N) /\ mailbox st = [] /\ heap st = [].
Proof. vm_compute. auto. Qed.
Lemma idle_reaper st l inst : mailbox st = [] -> heap st = [] -> reaper_only inst l -> run st l = st.
Proof.
  intros M H F. induction F as [|a l [->|(k & ->)] F IH]; [reflexivity| |].
  - change (run st (ARegister :: l)) with (run (step st ARegister) l). replace (step st ARegister) with st; [exact IH|]. cbn [step]. unfold reaper_register. rewrite M. reflexivity.
  - change (run st (AFire k inst :: l)) with (run (step st (AFire k inst)) l). replace (step st (AFire k inst)) with st; [exact IH|]. cbn [step]. unfold reaper_fire. rewrite H. destruct k; reflexivity.
Qed.
Theorem C22_never_refuted : exists l,
  let st := run fresh l in
  ttl_session st work 0 1000 /\ forall inst l', reaper_only inst l' -> listed (run st l') work 0.
Proof.
  exists too_soon. destruct too_soon_facts as (F1 & F2 & F3 & F4). cbn zeta in *. remember (run fresh too_soon) as st eqn:E. clear E.
  split.
  - destruct (session_at st 0) as [x|] eqn:Hx; [|discriminate F2]. injection F2 as F2 F5. exists x. auto.
  - intros inst l' H. rewrite (idle_reaper st l' inst F3 F4 H). exact F1.
Qed.
Print Assumptions C22_never_refuted.

(** A TTL beyond that ends the connection: nothing is created and the client is
    told nothing.  The command line does take such TTLs. *)
Theorem C22_too_long_refuted : exists ttl, parse ascii_only Release (lit "110000000000000d") = Secs ttl /\
  let st := run fresh (creates 1 work (Some ttl)) in
  handlers st 1 = HDone /\ sessions st = [] /\ table st = [] /\ replies st = [].
Proof. exists 9504000000000000000%N. split; vm_compute; auto. Qed.
Print Assumptions C22_too_long_refuted.
