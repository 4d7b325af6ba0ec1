(** Invariants of the TTL reaper's queue. *)
From Coq Require Import List NArith ZArith Bool Arith Lia.
From Verif Require Import Model.Base Model.Protocol Model.Names Model.Server Spec.ServerSpec Spec.ReaperSpec
  Proofs.BaseLemmas Proofs.ServerProofs Proofs.ServerEvents Proofs.ServerMoves Proofs.ServerGossip.
Import ListNotations.
Open Scope nat_scope.

Record rinv (st : server) : Prop := {
  r_mail : forall n t s, In (n, t, s) (mailbox st) -> ttl_session st n s t;
  r_heap : forall r, In r (heap st) -> ttl_session st (r_name r) (r_sid r) (r_at r);
  r_reg : forall m n s d, In m (mailbox st) -> ttl_session st n s d -> ~ in_mail st s -> s < snd m;
  r_sorted : forall m1 p q l, mailbox st = m1 ++ p :: l -> In q l -> snd p < snd q;
  r_before : forall r, In r (heap st) -> ~ in_mail st (r_sid r);
  r_gen_le : forall r, In r (heap st) -> r_gen r <= gen_of st (r_name r);
  r_latest : forall r, In r (heap st) -> r_gen r = gen_of st (r_name r) ->
     forall s d, ttl_session st (r_name r) s d -> ~ in_mail st s -> s <= r_sid r;
  r_newer : forall r, In r (heap st) -> r_gen r < gen_of st (r_name r) -> exists s d, ttl_session st (r_name r) s d /\ r_sid r < s
}.

(** Steps that leave the reaper's state alone keep names and deadlines. *)
Lemma keep_ttl st a n s d : ttl_session st n s d -> ttl_session (step st a) n s d.
Proof.
  intros (x & Hx & Hn & Hd). destruct (step_alters st a s x Hx) as [H|(x' & H & A)]; [exists x; auto|]. exists x'. split; [exact H|].
  destruct A; cbn; auto. destruct (s_exit x); auto.
Qed.

Lemma back_ttl st a n s d : ttl_session (step st a) n s d ->
  ttl_session st n s d \/ session_at st s = None /\ exists c ok now inst h pid, a = ASpawn c ok now inst /\ handlers st c = HSpawn h pid /\
     s = length (sessions st) /\ n = h_name h /\ exists ttl, h_ttl_secs h = Some ttl /\ d = (inst + 1000 * ttl)%N /\ handlers (step st a) c = HInsert h s.
Proof.
  intros (x & Hx & Hn & Hd). destruct (session_at st s) as [x0|] eqn:H0.
  - left. exists x0. split; [exact H0|]. destruct (step_alters st a s x0 H0) as [H|(x' & H & A)]; rewrite Hx in H; injection H as <-; [auto|].
    destruct A; cbn in *; auto. match goal with H : context [match s_exit ?y with _ => _ end] |- _ => destruct (s_exit y) end; auto.
  - right. split; [reflexivity|]. destruct (step_new_session st a s x H0 Hx) as (c & ok & now & inst & h & pid & d' & -> & Hc & Es & Hc' & Ex & Ed).
    exists c, ok, now, inst, h, pid. split; [reflexivity|]. split; [exact Hc|]. split; [exact Es|]. subst x. cbn in Hn, Hd. split; [congruence|].
    rewrite Ed in Hd. destruct (h_ttl_secs h) as [ttl|]; [|discriminate Hd]. injection Hd as <-. exists ttl. auto.
Qed.

Definition reaper_same (st st' : server) : Prop := mailbox st' = mailbox st /\ heap st' = heap st /\ gens st' = gens st.

(** How a step can change the reaper's state. *)
Inductive reaps (st : server) : action -> server -> Prop :=
| rp_same a st' : reaper_same st st' -> (forall n s d, ttl_session st' n s d -> ttl_session st n s d) -> reaps st a st'
| rp_spawn c now inst h pid ttl st' : handlers st c = HSpawn h pid -> h_ttl_secs h = Some ttl ->
    mailbox st' = mailbox st ++ [(h_name h, (inst + 1000 * ttl)%N, length (sessions st))] -> heap st' = heap st -> gens st' = gens st ->
    ttl_session st' (h_name h) (length (sessions st)) (inst + 1000 * ttl)%N ->
    (forall n s d, ttl_session st' n s d -> ttl_session st n s d \/ s = length (sessions st)) ->
    reaps st (ASpawn c true now inst) st'
| rp_register n t s rest st' : mailbox st = (n, t, s) :: rest -> mailbox st' = rest ->
    heap st' = mkReapable n (S (gen_of st n)) t s :: heap st -> gens st' = insert n (S (gen_of st n)) (gens st) -> sessions st' = sessions st ->
    reaps st ARegister st'
| rp_fire k inst r st' : nth_error (heap st) k = Some r -> is_top (heap st) r = true -> (r_at r <= inst)%N ->
    mailbox st' = mailbox st -> heap st' = remove_nth k (heap st) -> gens st' = gens st -> sessions st' = sessions st ->
    reaps st (AFire k inst) st'.

Lemma same_reaps st a st' : reaper_same st st' -> st' = step st a -> (forall c ok now inst, a <> ASpawn c ok now inst) -> reaps st a st'.
Proof.
  intros S -> N. apply rp_same; [exact S|]. intros n s d T. destruct (back_ttl st a n s d T) as [H|(_ & c & ok & now & inst & h & pid & E & _)]; [exact H|].
  destruct (N _ _ _ _ E).
Qed.

Lemma step_reaps st a : reaps st a (step st a).
Proof.
  destruct a; try (apply same_reaps; [|reflexivity|discriminate]; cbn [step];
    unfold reaper_same, connect, attach_select, attach_insert, attach_fetch, attach_wake, attach_reply, attach_start, attach_end, shell_exit, thread_end, thread_drop_client,
    attach_unwind, attach_leave, detach_begin, detach_next, detach_finish, message_begin, message_send, handle_list, handle_log_level,
    handle_get_vars, modify_collect, modify_send, thread_switch; al_split; auto; fail).
  - (* ASpawn *)
    assert (Same : step st (ASpawn c ok now inst) = st \/ handlers (step st (ASpawn c ok now inst)) c = HDone /\ sessions (step st (ASpawn c ok now inst)) = sessions st -> reaper_same st (step st (ASpawn c ok now inst)) -> reaps st (ASpawn c ok now inst) (step st (ASpawn c ok now inst))).
    { intros Q S. apply rp_same; [exact S|]. intros n s d (x & Hx & T). exists x. split; [|exact T]. unfold session_at in *. destruct Q as [Q|[_ Q]]; rewrite Q in Hx; exact Hx. }
    pose proof (back_ttl st (ASpawn c ok now inst)) as B.
    revert Same B. cbn [step]. unfold attach_spawn. destruct (handlers st c) eqn:Hc; try (intros Same _; apply Same; unfold reaper_same; auto; fail).
    destruct ok; cbn [negb]; [|intros Same _; apply Same; [right; split; [apply goto_same|reflexivity]|unfold reaper_same; auto]].
    destruct (h_ttl_secs h) as [ttl|] eqn:Ht.
    + destruct (_ <? _)%N; [intros Same _; apply Same; [right; split; [apply goto_same|reflexivity]|unfold reaper_same; auto]|].
      destruct (_ <? _); [|intros Same _; apply Same; unfold reaper_same; auto].
      intros _ B. eapply rp_spawn; try eassumption; try reflexivity.
      * eexists. split; [unfold session_at; cbn [sessions goto with_handlers with_sessions with_reaper]; rewrite nth_app_new, Nat.eqb_refl; reflexivity|]. auto.
      * intros n s d T. destruct (B n s d T) as [H|(_ & c' & ok' & now' & inst' & h' & pid' & E & Hc' & Es & _)]; auto.
    + intros _ B. apply rp_same; [unfold reaper_same; auto|]. intros n s d T. destruct (B n s d T) as [H|(_ & c' & ok' & now' & inst' & h' & pid' & E & Hc' & Es & En & ttl & Ht' & _)]; [exact H|].
      injection E as <- <- <- <-. rewrite Hc in Hc'. injection Hc' as <- <-. congruence.
  - apply same_reaps; [|reflexivity|discriminate]. cbn [step]. destruct (handle_kill_shape st c kill_ok) as [->|(pid & names & Hc & Hl & [(sg & _ & ->)|(sg & nf & rm & Hk & ->)])]; [unfold reaper_same; auto|unfold reaper_same; auto|].
    destruct (remove_one_frame rm (with_signalled st sg)) as (t & ev & -> & _). unfold reaper_same; auto.
  - apply same_reaps; [|reflexivity|discriminate]. cbn [step]. unfold modify_begin, reaper_same. destruct (handlers st c); auto. destruct q; auto.
  - destruct (mailbox st) as [|[[n t] s] rest] eqn:Hm.
    + apply same_reaps; [|reflexivity|discriminate]. cbn [step]. unfold reaper_register. rewrite Hm. unfold reaper_same. auto.
    + eapply rp_register; [exact Hm|..]; cbn [step]; unfold reaper_register; rewrite Hm; reflexivity.
  - destruct (nth_error (heap st) k) as [r|] eqn:Hr; [|apply same_reaps; [|reflexivity|discriminate]; cbn [step]; unfold reaper_fire; rewrite Hr; unfold reaper_same; auto].
    destruct (is_top (heap st) r) eqn:Ht; [|apply same_reaps; [|reflexivity|discriminate]; cbn [step]; unfold reaper_fire; rewrite Hr, Ht; unfold reaper_same; auto].
    destruct (r_at r <=? inst)%N eqn:Hi; [|apply same_reaps; [|reflexivity|discriminate]; cbn [step]; unfold reaper_fire; rewrite Hr, Ht, Hi; unfold reaper_same; auto].
    apply N.leb_le in Hi as Hi'.
    assert (Q : step st (AFire k inst) = st \/ (mailbox (step st (AFire k inst)) = mailbox st /\ heap (step st (AFire k inst)) = remove_nth k (heap st) /\ gens (step st (AFire k inst)) = gens st /\ sessions (step st (AFire k inst)) = sessions st)).
    { cbn [step]. unfold reaper_fire. rewrite Hr, Ht, Hi. cbn [andb]. al_split; auto. }
    destruct Q as [Q|(Q1 & Q2 & Q3 & Q4)]; [apply same_reaps; [rewrite Q; unfold reaper_same; auto|reflexivity|discriminate]|].
    eapply rp_fire; eassumption.
Qed.

Lemma in_remove_nth {A} k (l : list A) x : In x (remove_nth k l) -> In x l.
Proof. revert k; induction l as [|y l IH]; intros [|k]; cbn; auto. intros [->|H]; eauto. Qed.

Lemma gen_of_gens st st' n : gens st' = gens st -> gen_of st' n = gen_of st n.
Proof. intros E. unfold gen_of. rewrite E. reflexivity. Qed.

Lemma rinv_step st a : rinv st -> rinv (step st a).
Proof.
  intros I. pose proof (fun n s d => keep_ttl st a n s d) as K. pose proof (step_reaps st a) as P. revert K P. generalize (step st a). intros st' K P.
  destruct P as [a st' (E1 & E2 & E3) B|c now inst h pid ttl st' Hc Httl E1 E2 E3 New B|n t s rest st' Hm E1 E2 E3 Es|k inst r st' Hr Htop Hi E1 E2 E3 Es].
  - destruct I as [I1 I2 I3 I4 I5 I6 I7 I8]. unfold in_mail in *. constructor; unfold in_mail; rewrite ?E1, ?E2; intros.
    + apply K. eauto.
    + apply K. eauto.
    + eapply I3; eauto.
    + eauto.
    + auto.
    + rewrite (gen_of_gens _ _ _ E3). auto.
    + rewrite (gen_of_gens _ _ _ E3) in *. eapply I7; eauto.
    + rewrite (gen_of_gens _ _ _ E3) in *. destruct (I8 r H H0) as (s & d & T & L). eauto.
  - assert (Lt : forall n s d, ttl_session st n s d -> s < length (sessions st)) by (intros n s d (x & Hx & _); eapply at_some_lt; exact Hx).
    assert (Mail : forall s, in_mail st' s <-> in_mail st s \/ s = length (sessions st)).
    { intros s. unfold in_mail. rewrite E1. split.
      - intros (n & t & Hin). apply in_app_or in Hin as [Hin|[Hin|[]]]; [left; eauto|injection Hin as <- <- <-; auto].
      - intros [(n & t & Hin) | -> ]; [exists n, t; apply in_or_app; auto|do 2 eexists; apply in_or_app; right; left; reflexivity]. }
    destruct I as [I1 I2 I3 I4 I5 I6 I7 I8]. constructor; rewrite ?E1, ?E2; intros.
    + apply in_app_or in H as [H|[H|[]]]; [apply K; eauto|injection H as <- <- <-; exact New].
    + apply K. eauto.
    + destruct (B _ _ _ H0) as [T|Q]; [|exfalso; apply H1; apply Mail; auto].
      apply in_app_or in H as [H|[<-|[]]]; [eapply I3; eauto; intros Q; apply H1; apply Mail; auto|cbn; eauto].
    + assert (G : forall s, (exists p, In p (mailbox st) /\ snd p = s) -> s < length (sessions st)).
      { intros s (p0 & Hp & <-). destruct p0 as [[n0 t0] s0]. destruct (I1 _ _ _ Hp) as (x & Hx & _). eapply at_some_lt; exact Hx. }
      destruct l as [|q0 l] using rev_ind; [destruct H0|]. clear IHl. rewrite app_comm_cons, app_assoc in H. apply app_inj_tail in H as [H <-].
      apply in_app_or in H0 as [H0|[<-|[]]]; [eapply I4; eauto|]. cbn. apply G. exists p. split; [rewrite H; apply in_or_app; right; left; reflexivity|reflexivity].
    + intros Q. apply Mail in Q as [Q|Q]; [eapply I5; eauto|]. destruct (I2 r H) as (x & Hx & _). apply at_some_lt in Hx. rewrite Q in Hx. revert Hx. apply Nat.lt_irrefl.
    + rewrite (gen_of_gens _ _ _ E3). auto.
    + rewrite (gen_of_gens _ _ _ E3) in *. destruct (B _ _ _ H1) as [T|Q]; [|exfalso; apply H2; apply Mail; auto].
      eapply I7; eauto. intros Q. apply H2. apply Mail. auto.
    + rewrite (gen_of_gens _ _ _ E3) in *. destruct (I8 r H H0) as (s & d & T & L). eauto.
  - assert (B : forall n s d, ttl_session st' n s d -> ttl_session st n s d) by (unfold ttl_session, session_at; rewrite Es; auto).
    assert (Gn : forall m, gen_of st' m = if str_eqb m n then S (gen_of st n) else gen_of st m).
    { intros m. unfold gen_of at 1. rewrite E3. destruct (str_eqb m n) eqn:E.
      - apply str_eqb_eq in E as ->. rewrite lookup_insert_eq. reflexivity.
      - rewrite lookup_insert_neq; [reflexivity|]. intros ->. rewrite str_eqb_refl in E. discriminate E. }
    destruct I as [I1 I2 I3 I4 I5 I6 I7 I8]. rewrite Hm in *.
    assert (Lt : forall q, In q rest -> s < snd q) by (intros q Hq; exact (I4 [] (n, t, s) q rest eq_refl Hq)).
    assert (Mail : forall s1, in_mail st' s1 -> in_mail st s1) by (intros s1 (n1 & t1 & H1); exists n1, t1; rewrite Hm; right; rewrite <- E1; exact H1).
    assert (Gone : ~ in_mail st' s) by (intros (n1 & t1 & H1); rewrite E1 in H1; apply Lt in H1; cbn in H1; lia).
    assert (Unm : forall s1, ~ in_mail st' s1 -> in_mail st s1 -> s1 = s).
    { intros s1 N (n1 & t1 & H1). rewrite Hm in H1. destruct H1 as [H1|H1]; [injection H1 as _ _ <-; reflexivity|]. exfalso. apply N. exists n1, t1. rewrite E1. exact H1. }
    assert (T0 : ttl_session st n s t) by (apply I1; left; reflexivity).
    assert (Reg : forall n1 s1 d, ttl_session st n1 s1 d -> ~ in_mail st' s1 -> s1 <= s).
    { intros n1 s1 d T N. destruct (Nat.eq_dec s1 s) as [->|D]; [apply Nat.le_refl|].
      apply Nat.lt_le_incl. apply (I3 (n, t, s) n1 s1 d); [left; reflexivity|exact T|]. intros Q. apply D. auto. }
    constructor; rewrite ?E1, ?E2; intros.
    + apply K. apply I1. right. assumption.
    + destruct H as [<-|H]; [apply K; exact T0|apply K; auto].
    + specialize (Lt m H). specialize (Reg _ _ _ (B _ _ _ H0) H1). change sid with nat in *. lia.
    + eapply (I4 ((n, t, s) :: m1)); [rewrite H; reflexivity|exact H0].
    + destruct H as [<-|H]; [exact Gone|]. intros Q. apply (I5 r H). auto.
    + rewrite Gn. destruct H as [<-|H]; [cbn [r_name r_gen]; rewrite str_eqb_refl; apply Nat.le_refl|].
      specialize (I6 r H). destruct (str_eqb (r_name r) n) eqn:E; [apply str_eqb_eq in E; rewrite E in I6; lia|exact I6].
    + rewrite Gn in H0. destruct H as [<-|H]; [cbn; eapply Reg; eauto|].
      destruct (str_eqb (r_name r) n) eqn:E; [apply str_eqb_eq in E; specialize (I6 r H); rewrite E in I6; lia|].
      apply (I7 r H H0 s0 d (B _ _ _ H1)). intros Q. assert (s0 = s) by auto. subst s0. apply B in H1. destruct H1 as (x1 & Hx1 & Hn1 & _), T0 as (x2 & Hx2 & Hn2 & _).
      assert (r_name r = n) by congruence. rewrite H1, str_eqb_refl in E. discriminate E.
    + rewrite Gn in H0. destruct H as [<-|H]; [cbn [r_name r_gen] in H0; rewrite str_eqb_refl in H0; lia|].
      destruct (str_eqb (r_name r) n) eqn:E.
      * apply str_eqb_eq in E. exists s, t. rewrite E. split; [apply K; exact T0|]. apply (I3 (n, t, s) _ _ _ (or_introl eq_refl) (I2 r H)). auto.
      * destruct (I8 r H H0) as (s1 & d & T & L). eauto.
  - assert (B : forall n s d, ttl_session st' n s d -> ttl_session st n s d) by (unfold ttl_session, session_at; rewrite Es; auto).
    assert (Mail : forall s, in_mail st' s <-> in_mail st s) by (intros s; unfold in_mail; rewrite E1; tauto).
    destruct I as [I1 I2 I3 I4 I5 I6 I7 I8]. constructor; rewrite ?E1, ?E2; intros; repeat match goal with H : In _ (remove_nth _ _) |- _ => apply in_remove_nth in H end.
    + apply K. eauto.
    + apply K. eauto.
    + eapply I3; eauto. rewrite <- Mail. assumption.
    + eauto.
    + rewrite Mail. auto.
    + rewrite (gen_of_gens _ _ _ E3). auto.
    + rewrite (gen_of_gens _ _ _ E3) in *. eapply I7; eauto. rewrite <- Mail. assumption.
    + rewrite (gen_of_gens _ _ _ E3) in *. destruct (I8 _ H H0) as (s & d & T & L). eauto.
Qed.

Lemma reachable_rinv st : reachable st -> rinv st.
Proof.
  intros (d & l & ->). induction l as [|a l IH] using rev_ind.
  - constructor; cbn; try contradiction. intros [|? ?]; discriminate.
  - rewrite run_step. apply rinv_step. exact IH.
Qed.

Lemma fire_effect st k inst r : nth_error (heap st) k = Some r -> is_top (heap st) r = true -> (r_at r <= inst)%N -> locked st = None ->
  let st' := step st (AFire k inst) in
  locked st' = None /\ heap st' = remove_nth k (heap st) /\ gens st' = gens st /\ sessions st' = sessions st /\ handlers st' = handlers st /\ mailbox st' = mailbox st /\
  (if gen_of st (r_name r) =? r_gen r then
     match lookup (r_name r) (table st) with
     | None => table st' = table st /\ signalled st' = signalled st
     | Some s => table st' = remove (r_name r) (table st) /\ signalled st' = signalled st ++ [s]
     end
   else table st' = table st /\ signalled st' = signalled st).
Proof.
  intros Hk Ht Hi Hl. cbn zeta. cbn [step]. unfold reaper_fire. rewrite Hk, Ht. apply N.leb_le in Hi. rewrite Hi. cbn [andb]. rewrite Hl.
  destruct (gen_of st (r_name r) =? r_gen r); cbn [negb]; [|repeat split; auto].
  destruct (lookup (r_name r) (table st)); repeat split; auto.
Qed.

Lemma top_exists hp : hp <> [] -> exists k r, nth_error hp k = Some r /\ is_top hp r = true.
Proof.
  induction hp as [|r hp IH]; [congruence|]. intros _. destruct hp as [|r2 hp].
  - exists 0, r. cbn. rewrite N.leb_refl. auto.
  - destruct IH as (k & r' & Hk & Ht); [discriminate|]. unfold is_top in *. destruct (N.le_gt_cases (r_at r) (r_at r')) as [L|L].
    + exists 0, r. split; [reflexivity|]. rewrite forallb_forall in *. intros q [<-|Hq]; [apply N.leb_refl|]. apply N.leb_le.
      specialize (Ht q Hq). apply N.leb_le in Ht. exact (N.le_trans _ _ _ L Ht).
    + exists (S k), r'. split; [exact Hk|]. cbn [forallb]. apply andb_true_intro. split; [apply N.leb_le; apply N.lt_le_incl; exact L|exact Ht].
Qed.

Lemma remove_nth_other {A} k (l : list A) x y : nth_error l k = Some y -> In x l -> x <> y -> In x (remove_nth k l).
Proof. revert k; induction l as [|z l IH]; intros [|k] H Hin N; cbn in *; try discriminate; [injection H as ->; destruct Hin; congruence|]. destruct Hin as [->|Hin]; [auto|right; eauto]. Qed.
Lemma remove_nth_length {A} k (l : list A) y : nth_error l k = Some y -> length l = S (length (remove_nth k l)).
Proof. revert k; induction l as [|z l IH]; intros [|k] H; cbn in *; try discriminate; auto. Qed.
