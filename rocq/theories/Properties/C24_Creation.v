(** C24: concurrent creation of one name. *)
From Coq Require Import List NArith ZArith Bool Arith Lia.
From Verif Require Import Model.Base Model.Protocol Model.Names Model.Server Spec.ServerSpec Spec.ServerExamples
  Proofs.BaseLemmas Proofs.ServerProofs Proofs.ServerEvents Proofs.ServerMoves Proofs.ServerGossip.
Import ListNotations.
Open Scope nat_scope.

(** An attach request goes on to create a shell only if, at the moment it looked,
    the name had no session, or one whose shell has exited or whose output thread
    has ended. *)
Theorem C24_create_only_if_needed : forall st a c h pid,
  handlers st c <> HSpawn h pid -> handlers (step st a) c = HSpawn h pid ->
  (forall s, ~ listed st (h_name h) s) \/
  exists s x, listed st (h_name h) s /\ session_at st s = Some x /\ (~ shell_running st s \/ is_live (s_thread x) = false).
Proof.
  intros st a c h pid N H. destruct (step_moves st a c) as [M|M]; [congruence|]. rewrite H in M. clear H.
  remember (HSpawn h pid) as h' eqn:Eh. destruct M; try discriminate Eh. injection Eh as -> ->.
  destruct H2 as [L|(s & x & L & Hx & Hi & [T|[[v He] Hf]])].
  - left. intros s L'. unfold listed in L'. congruence.
  - right. exists s, x. repeat split; auto. right. rewrite T. reflexivity.
  - right. exists s, x. repeat split; auto. left. intros (y & Hy & Hy'). congruence.
Qed.
Print Assumptions C24_create_only_if_needed.

(** A request that is not interleaved with another for the same name creates
    exactly one shell, lists it under the name, says so, and connects its client
    to it. *)
Theorem C24_alone_partial : forall st c pid h now inst,
  reachable st -> locked st = None -> handlers st c = HAccepted pid (QAttach h) -> daemon_rejects (h_name h) = false -> h_ttl_secs h = None ->
  (forall s, ~ listed st (h_name h) s) ->
  let s := length (sessions st) in
  let st' := run st [AAttach c true now; ASpawn c true now inst; AInsert c; AFetch c; AReply c true true; AStart c true] in
  listed st' (h_name h) s /\ shell_running st' s /\ connected st' c s /\ length (sessions st') = S (length (sessions st)) /\
  replies st' = replies st ++ [(c, RAttach (Created []))] /\ locked st' = None /\
  (forall n, n <> h_name h -> lookup n (table st') = lookup n (table st)) /\
  (forall s', s' < length (sessions st) -> session_at st' s' = session_at st s').
Proof.
  intros st c pid h now inst R Hl Hc Hr Ht Hn. cbn zeta. cbn [run fold_left step]. set (s := length (sessions st)).
  assert (L : lookup (h_name h) (table st) = None).
  { destruct (lookup (h_name h) (table st)) eqn:E; [|reflexivity]. exfalso. exact (Hn _ E). }
  remember (attach_select st c true now) as st1 eqn:E1. unfold attach_select in E1. rewrite Hc, Hr, Hl, L in E1. cbn [negb] in E1.
  assert (H1 : handlers st1 c = HSpawn h pid) by (rewrite E1; apply goto_same).
  assert (W1 : sessions st1 = sessions st /\ table st1 = table st /\ locked st1 = locked st /\ replies st1 = replies st) by (rewrite E1; auto). clear E1.
  destruct W1 as (S1 & T1 & L1 & R1).
  remember (attach_spawn st1 c true now inst) as st2 eqn:E2. unfold attach_spawn in E2. rewrite H1, Ht in E2. cbn [negb] in E2.
  set (x := mkSession (h_name h) c now None TWaiting None (Some c) None (Some now) None (Some (h_name_template h, pid)) [] [] None) in *.
  assert (H2 : handlers st2 c = HInsert h s) by (rewrite E2, S1; apply goto_same).
  assert (W2 : sessions st2 = sessions st ++ [x] /\ table st2 = table st /\ locked st2 = None /\ replies st2 = replies st)
    by (rewrite E2; cbn; rewrite S1; repeat split; congruence). clear E2 S1 T1 L1 R1 H1 st1. destruct W2 as (S2 & T2 & L2 & R2).
  remember (attach_insert st2 c) as st3 eqn:E3. unfold attach_insert in E3. rewrite H2, L2, T2, L in E3.
  assert (H3 : handlers st3 c = HFetch h s) by (rewrite E3; apply goto_same).
  assert (W3 : sessions st3 = sessions st ++ [x] /\ table st3 = insert (h_name h) s (table st) /\ locked st3 = None /\ replies st3 = replies st)
    by (rewrite E3; cbn; rewrite T2; auto). clear E3 S2 T2 L2 R2 H2 st2. destruct W3 as (S3 & T3 & L3 & R3).
  assert (X3 : session_at st3 s = Some x) by (unfold session_at; rewrite S3, nth_app_new; unfold s; rewrite Nat.eqb_refl; reflexivity).
  remember (attach_fetch st3 c) as st4 eqn:E4. unfold attach_fetch in E4. rewrite H3, L3, T3, lookup_insert_eq, X3 in E4. change (s_inner x) with (@None conn) in E4. cbn iota in E4.
  assert (H4 : handlers st4 c = HReply h s true) by (rewrite E4; apply goto_same).
  assert (X4 : session_at st4 s = Some (set_inner x (Some c))) by (rewrite E4; at_simp; rewrite Nat.eqb_refl, X3; reflexivity).
  assert (W4 : (forall s', s' <> s -> session_at st4 s' = session_at st3 s') /\ length (sessions st4) = S (length (sessions st)) /\
               table st4 = table st3 /\ locked st4 = None /\ replies st4 = replies st).
  { rewrite E4. split; [intros s' N; at_simp; apply Nat.eqb_neq in N; rewrite N; reflexivity|]. cbn. rewrite change_length, S3, app_length. cbn. rewrite Nat.add_1_r. auto. }
  clear E4. destruct W4 as (S4 & G4 & T4 & L4 & R4).
  remember (attach_reply st4 c true true) as st5 eqn:E5. unfold attach_reply in E5. rewrite H4, X4 in E5. change (s_stream (set_inner x (Some c))) with (Some c) in E5. cbn [negb] in E5.
  assert (H5 : handlers st5 c = HStart h s) by (rewrite E5; apply goto_same).
  assert (W5 : sessions st5 = sessions st4 /\ table st5 = table st4 /\ locked st5 = None /\ replies st5 = replies st ++ [(c, RAttach (Created []))])
    by (rewrite E5; cbn; rewrite R4; auto). clear E5. destruct W5 as (S5 & T5 & L5 & R5).
  assert (X5 : session_at st5 s = Some (set_inner x (Some c))) by (unfold session_at; rewrite S5; exact X4).
  unfold attach_start. rewrite H5, X5. change (s_stream (set_inner x (Some c))) with (Some c). cbn [is_live s_thread set_inner x andb].
  assert (TT : table st5 = insert (h_name h) s (table st)) by (rewrite T5, T4; exact T3).
  split; [change (lookup (h_name h) (table st5) = Some s); rewrite TT; apply lookup_insert_eq|].
  split; [eexists; split; [at_simp; rewrite Nat.eqb_refl, X5; reflexivity|reflexivity]|].
  split; [exists c, h; apply goto_same|].
  split; [cbn; rewrite !change_length, S5; exact G4|].
  split; [exact R5|]. split; [exact L5|].
  split; [intros n N; change (lookup n (table st5) = lookup n (table st)); rewrite TT; apply lookup_insert_neq; assumption|].
  intros s' Lt. at_simp. assert (N : s' <> s) by (unfold s; lia). pose proof N as N'. apply Nat.eqb_neq in N'. rewrite N'.
  unfold session_at at 1. rewrite S5. fold (session_at st4 s'). rewrite S4 by exact N. unfold session_at. rewrite S3. apply nth_error_app1. exact Lt.
Qed.
Print Assumptions C24_alone_partial.

Example C24_nonvacuous :
  let st := run fresh (creates 1 play None ++ [asks 2 (QAttach (hdr work None))]) in
  locked st = None /\ lookup work (table st) = None /\ handlers st 2 = HAccepted 42 (QAttach (hdr work None)) /\ daemon_rejects work = false.
Proof. vm_compute. auto. Qed.

(** Two clients that ask for the same fresh name at the same time create two
    shells; both run, and one of them is in no table, so that nothing can ever
    attach to it, list it or kill it. *)
Definition both_spawn : list action :=
  [asks 1 (QAttach (hdr work None)); asks 2 (QAttach (hdr work None)); AAttach 1 true 10; AAttach 2 true 10; ASpawn 1 true 11 1000; ASpawn 2 true 12 1000].
Theorem C24_one_shell_refuted : exists l,
  let st := run fresh l in
  map s_name (sessions st) = [work; work] /\ map s_exit (sessions st) = [None; None] /\
  table st = [(work, 1)] /\ (forall c, attached_session (handlers st c) <> Some 0) /\ signalled st = [].
Proof.
  exists (both_spawn ++ [AInsert 1; AInsert 2]). cbn zeta. do 3 (split; [vm_compute; reflexivity|]). split; [|vm_compute; reflexivity].
  intros c. destruct c as [|[|[|c]]]; vm_compute; discriminate.
Qed.
Print Assumptions C24_one_shell_refuted.

(** And the daemon can get stuck for good: the first of two creators inserts its
    session, the second replaces it and starts streaming, the first fetches the
    second's session under the table lock and waits for the second to let go of
    it; the second, when its client leaves, waits for the table lock. *)
Record stuck (st : server) : Prop := {
  k_reach : reachable st;
  k_wait : exists h, handlers st 1 = HWaitInner h 1;
  k_hold : exists h d, handlers st 2 = HUnwind h 1 d
}.

Lemma stuck_locked st : stuck st -> locked st = Some 1.
Proof. intros [R [h H] _]. apply (i_lock _ (reachable_inv _ R)). rewrite H. reflexivity. Qed.

Lemma stuck_step st a : stuck st -> stuck (step st a).
Proof.
  intros K. pose proof (stuck_locked _ K) as L. destruct K as [R [h1 H1] (h2 & d & H2)]. constructor.
  - apply reachable_step. exact R.
  - destruct (step_moves st a 1) as [M|M]; [rewrite M; eauto|]. exfalso.
    inversion M; subst; try congruence.
    match goal with E : handlers st 1 = HWaitInner _ ?s, X : session_at st ?s = Some ?x, Y : s_inner ?x = None |- _ =>
      rewrite H1 in E; injection E as <- <-;
      assert (Z : s_inner x = Some 2) by (apply (i_inner _ (reachable_inv _ R) 1 x 2 X); rewrite H2; reflexivity) end.
    congruence.
  - destruct (step_moves st a 2) as [M|M]; [rewrite M; eauto|]. exfalso. inversion M; subst; congruence.
Qed.

Lemma stuck_run l : forall st, stuck st -> stuck (run st l).
Proof. induction l as [|a l IH]; intros st K; [exact K|]. cbn. apply IH. apply stuck_step. exact K. Qed.

Definition deadlock : list action :=
  both_spawn ++ [AInsert 1; AInsert 2; AFetch 2; AReply 2 true true; AStart 2 true; AFetch 1; AEnd 2 false true true].
Lemma deadlock_facts :
  match handlers (run fresh deadlock) 1 with HWaitInner _ s => Some s | _ => None end = Some 1 /\
  match handlers (run fresh deadlock) 2 with HUnwind _ s d => Some (s, d) | _ => None end = Some (1, false).
Proof. vm_compute. auto. Qed.

Lemma fresh_reachable l : reachable (run fresh l).
Proof. exists [], l. reflexivity. Qed.
Lemma deadlock_stuck : stuck (run fresh deadlock).
Proof.
  pose proof (fresh_reachable deadlock) as R. destruct deadlock_facts as [F1 F2]. remember (run fresh deadlock) as st eqn:E. clear E.
  constructor; [exact R| |].
  - destruct (handlers st 1); try discriminate F1. injection F1 as ->. eauto.
  - destruct (handlers st 2); try discriminate F2. injection F2 as -> ->. eauto.
Qed.

Definition needs_table (r : reply) : Prop :=
  match r with RList _ | RKill _ | RDetach _ _ => True | _ => False end.

Lemma stuck_quiet : forall st, stuck st -> forall a, table (step st a) = table st /\
     forall c r, needs_table r -> In (c, r) (replies (step st a)) -> In (c, r) (replies st).
Proof.
  intros st' K' a. pose proof (stuck_locked _ K') as L. split.
  - destruct (step_tells st' a) as (es & _ & T). destruct T; congruence.
  - intros c r Nd Hin. destruct (step_says st' a) as [Er|(c1 & r1 & Er & Sy)]; [rewrite Er in Hin; exact Hin|].
    rewrite Er in Hin. apply in_app_or in Hin as [Hin|[Hin|[]]]; [exact Hin|]. injection Hin as -> ->. exfalso. clear Er.
    destruct Sy; try exact Nd; try congruence.
    assert (W : locked st' = Some c) by (apply (i_lock _ (reachable_inv _ (k_reach _ K'))); rewrite H; reflexivity).
    rewrite W in L. injection L as ->. destruct (k_wait _ K') as [h Hw]. congruence.
Qed.
Lemma stuck_quiet_run : forall st, stuck st -> forall l, locked (run st l) = Some 1 /\ table (run st l) = table st /\
  forall c r, needs_table r -> In (c, r) (replies (run st l)) -> In (c, r) (replies st).
Proof.
  intros st K l. split; [apply stuck_locked, stuck_run, K|]. induction l as [|a l0 IH] using rev_ind; [split; auto|]. rewrite run_step.
  destruct IH as [I1 I2]. destruct (stuck_quiet _ (stuck_run l0 _ K) a) as [G1 G2]. split; [congruence|]. intros c r Nd Hin. eauto.
Qed.

Theorem C24_never_stuck_refuted : exists l,
  let st := run fresh l in
  forall l', locked (run st l') = Some 1 /\ table (run st l') = table st /\
    forall c r, needs_table r -> In (c, r) (replies (run st l')) -> In (c, r) (replies st).
Proof. exact (ex_intro _ deadlock (stuck_quiet_run _ deadlock_stuck)). Qed.
Print Assumptions C24_never_stuck_refuted.

(** It takes no two creators: an attach to the new session between its insertion
    and its creator's fetching it is enough. *)
Definition quick_second : list action :=
  [asks 2 (QAttach (hdr work None)); AAttach 2 true 10; ASpawn 2 true 11 1000; AInsert 2] ++ reattaches 1 work ++ [AFetch 2].
Theorem C24_quick_second_refuted : exists l,
  let st := run fresh l in
  locked st = Some 2 /\ connected st 1 0 /\ (forall r, ~ In (2, r) (replies st)) /\
  forall c pid, handlers st c = HAccepted pid QList -> step st (AList c) = st.
Proof.
  exists quick_second. cbn zeta.
  assert (F : locked (run fresh quick_second) = Some 2 /\ map fst (replies (run fresh quick_second)) = [1] /\
              match handlers (run fresh quick_second) 1 with HStream _ s k => Some (s, k) | _ => None end = Some (0, 1)) by (vm_compute; auto).
  destruct F as (F1 & F2 & F3). remember (run fresh quick_second) as st eqn:E. clear E.
  split; [exact F1|]. split. { destruct (handlers st 1) eqn:Hc; try discriminate F3. injection F3 as -> ->. exists 1, h. exact Hc. }
  split. { intros r H. apply (in_map fst) in H. change (In 2 (map fst (replies st))) in H. assert (H' : In 2 [1]) by (rewrite <- F2; exact H). destruct H' as [H'|[]]. discriminate H'. }
  intros c pid Hc. cbn [step]. unfold handle_list. rewrite Hc, F1. reflexivity.
Qed.
Print Assumptions C24_quick_second_refuted.
