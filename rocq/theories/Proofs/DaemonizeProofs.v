(** Proofs about starting daemons. *)
From Coq Require Import List NArith ZArith Bool Arith Lia.
From Verif Require Import Model.Daemonize Spec.DaemonizeSpec.
Import ListNotations.
Open Scope nat_scope.

Lemma procs_set st p x q : procs (set_proc st p x) q = if q =? p then x else procs st q.
Proof. reflexivity. Qed.
Lemma procs_set_same st p x : procs (set_proc st p x) p = x.
Proof. cbn. rewrite Nat.eqb_refl. reflexivity. Qed.
Lemma procs_set_other st p x q : q <> p -> procs (set_proc st p x) q = procs st q.
Proof. intros N. cbn. apply Nat.eqb_neq in N. rewrite N. reflexivity. Qed.

Lemma exec_all_snoc st l a : exec_all st (l ++ [a]) = exec (exec_all st l) a.
Proof. unfold exec_all. rewrite fold_left_app. reflexivity. Qed.
Lemma exec_all_cons st l a : exec_all st (a :: l) = exec_all (exec st a) l.
Proof. reflexivity. Qed.
Lemma exec_all_app st l m : exec_all st (l ++ m) = exec_all (exec_all st l) m.
Proof. unfold exec_all. apply fold_left_app. Qed.

(** Process ids from [next] on are free. *)
Definition ids_ok (st : world) : Prop := forall p, next st <= p -> procs st p = Absent.
Lemma ids_ok_set st p x : ids_ok st -> procs st p <> Absent -> ids_ok (set_proc st p x).
Proof. intros I H q Hq. cbn in *. destruct (Nat.eqb_spec q p) as [->|]; [exfalso; apply H; apply I; exact Hq|apply I; exact Hq]. Qed.
Lemma ids_ok_files st c e f i : ids_ok st -> ids_ok (mkWorld (procs st) (next st) c e f i).
Proof. intros I q Hq. apply I. exact Hq. Qed.
Lemma ids_ok_spawn st x : ids_ok st -> ids_ok (spawn st x).
Proof. intros I q Hq. cbn in *. destruct (Nat.eqb_spec q (next st)) as [->|]; [lia|apply I; lia]. Qed.
Lemma ids_ok_exec st a : ids_ok st -> ids_ok (exec st a).
Proof.
  intros I. destruct a; cbn [exec]; try (apply ids_ok_spawn; exact I).
  - unfold turn. destruct (procs st p) eqn:H; try exact I;
      repeat match goal with |- ids_ok (match ?e with _ => _ end) => destruct e
                           | |- ids_ok (if ?e then _ else _) => destruct e end;
      try exact I; try apply ids_ok_spawn; apply ids_ok_set; try (cbn; rewrite H; discriminate); try exact I; try (apply ids_ok_files; exact I).
  - destruct (procs st p) eqn:H; try exact I; apply ids_ok_set; try (rewrite H; discriminate); exact I.
  - destruct (procs st p) eqn:H; try exact I; apply ids_ok_set; try (rewrite H; discriminate); exact I.
Qed.

(** While [d] listens on the control socket, nobody else has bound it and nobody is
    about to remove it. *)
Record undisturbed (d : nat) (st : world) : Prop := {
  un_reaches : reaches st d;
  un_others : forall p, p <> d -> ~ bound (procs st p) /\ ~ removing (procs st p);
  un_ids : ids_ok st
}.
Lemma undisturbed_set d st p x : undisturbed d st -> p <> d -> procs st p <> Absent -> ~ bound x -> ~ removing x -> undisturbed d (set_proc st p x).
Proof.
  intros [[R1 R2] O I] N H B R. constructor.
  - split; [exact R1|]. rewrite procs_set_other by congruence. exact R2.
  - intros q Hq. rewrite procs_set. destruct (q =? p); [auto|apply O; exact Hq].
  - apply ids_ok_set; assumption.
Qed.
Lemma undisturbed_files d st e f i : undisturbed d st -> undisturbed d (mkWorld (procs st) (next st) (control st) e f i).
Proof. intros [R O I]. constructor; [exact R|exact O|apply ids_ok_files; exact I]. Qed.
Lemma undisturbed_spawn d st x : undisturbed d st -> ~ bound x -> ~ removing x -> undisturbed d (spawn st x).
Proof.
  intros [[R1 R2] O I] B R. assert (D : d <> next st) by (intros ->; rewrite (I (next st)) in R2 by lia; discriminate R2). constructor.
  - split; [exact R1|]. cbn. apply Nat.eqb_neq in D. rewrite D. exact R2.
  - intros q Hq. cbn. destruct (q =? next st); [auto|apply O; exact Hq].
  - apply ids_ok_spawn. exact I.
Qed.
Lemma undisturbed_connect d st : undisturbed d st -> connect st = Connected.
Proof. intros [[R1 R2] _ _]. unfold connect. rewrite R1, R2. reflexivity. Qed.
Lemma undisturbed_exec d st a : undisturbed d st -> (forall p, a = Term p \/ a = Kill p -> p <> d) -> (a = Go d -> serving st d) -> undisturbed d (exec st a).
Proof.
  intros U H Hs. pose proof (undisturbed_connect d st U) as C. pose proof (un_reaches _ _ U) as [R1 R2]. destruct a; cbn [exec].
  - apply undisturbed_spawn; [exact U| |]; intros [].
  - apply undisturbed_spawn; [exact U| |]; intros [].
  - destruct (Nat.eq_dec p d) as [->|N].
    + destruct (Hs eq_refl) as (auto & E). unfold turn. rewrite E. exact U.
    + destruct (un_others _ _ U p N) as [B R]. unfold turn. rewrite C. destruct (procs st p) eqn:E; cbn in B, R; try exact U; try (exfalso; tauto); try rewrite R1;
        repeat match goal with |- undisturbed d (match ?e with _ => _ end) => destruct e
                             | |- undisturbed d (if ?e then _ else _) => destruct e end;
        repeat first [apply undisturbed_spawn|apply undisturbed_set|apply undisturbed_files|rewrite <- R1; apply undisturbed_files]; try exact U; try exact N; cbn; rewrite ?E; try discriminate; try tauto;
        repeat match goal with |- context [match ?e with _ => _ end] => destruct e end; unfold after_events_error; repeat match goal with |- context [if ?e then _ else _] => destruct e end; cbn; tauto.
  - assert (N : p <> d) by (apply H; auto). destruct (un_others _ _ U p N) as [B R]. destruct (procs st p) eqn:E; cbn in B, R; try exact U; try (exfalso; tauto);
      apply undisturbed_set; auto; rewrite ?E; try discriminate; cbn; tauto.
  - assert (N : p <> d) by (apply H; auto). destruct (un_others _ _ U p N) as [B R]. destruct (procs st p) eqn:E; cbn in B, R; try exact U; try (exfalso; tauto);
      apply undisturbed_set; auto; rewrite ?E; try discriminate; cbn; tauto.
Qed.

(** Histories without refused connections. *)
Record single (st : world) : Prop := {
  si_ids : ids_ok st;
  si_remove : forall p, ~ removing (procs st p);
  si_bound : forall p, bound (procs st p) -> control st = Some p /\ exists auto, procs st p = DListen auto \/ procs st p = DServe auto;
  si_control : forall p, control st = Some p -> bound (procs st p);
  si_done : forall c, procs st c = CDone -> exists d, reaches st d
}.
Lemma reaches_set st p x d : reaches st d -> (p = d -> listening x = true) -> reaches (set_proc st p x) d.
Proof. intros [R1 R2] H. split; [exact R1|]. rewrite procs_set. destruct (Nat.eqb_spec d p) as [->|]; auto. Qed.
Lemma single_move st p x : single st -> procs st p <> Absent -> ~ bound (procs st p) -> ~ bound x -> ~ removing x -> (x = CDone -> exists d, reaches st d) -> single (set_proc st p x).
Proof.
  intros [I R B C D] H Nb Nx Rx Dx. constructor.
  - apply ids_ok_set; assumption.
  - intros q. rewrite procs_set. destruct (q =? p); auto.
  - intros q. rewrite procs_set. destruct (q =? p); [tauto|apply B].
  - intros q Hq. cbn [control set_proc] in Hq. rewrite procs_set. destruct (Nat.eqb_spec q p) as [->|]; [exfalso; auto|apply C; exact Hq].
  - intros c Hc. assert (E : exists d, reaches st d). { rewrite procs_set in Hc. destruct (c =? p); [auto|eauto]. } destruct E as (d & E). exists d. apply reaches_set; [exact E|].
    intros ->. destruct E as [E1 _]. exfalso. apply Nb. apply C. exact E1.
Qed.
Lemma single_files st e f i : single st -> single (mkWorld (procs st) (next st) (control st) e f i).
Proof. intros [I R B C D]. constructor; try assumption. Qed.
Lemma single_spawn st x : single st -> ~ bound x -> ~ removing x -> x <> CDone -> single (spawn st x).
Proof.
  intros [I R B C D] Nx Rx Dx. assert (A : procs st (next st) = Absent) by (apply I; lia). constructor.
  - apply ids_ok_spawn. exact I.
  - intros q. cbn. destruct (q =? next st); auto.
  - intros q. cbn. destruct (q =? next st); [tauto|apply B].
  - intros q Hq. cbn in *. destruct (Nat.eqb_spec q (next st)) as [->|]; [exfalso; specialize (C _ Hq); rewrite A in C; exact C|apply C; exact Hq].
  - intros c Hc. cbn in Hc. assert (E : exists d, reaches st d) by (destruct (c =? next st); [congruence|eauto]). destruct E as (d & E1 & E2). exists d. split; [exact E1|]. cbn.
    destruct (Nat.eqb_spec d (next st)) as [->|]; [rewrite A in E2; discriminate E2|exact E2].
Qed.
Lemma connected_reaches st : connect st = Connected -> exists d, reaches st d.
Proof. unfold connect. destruct (control st) as [o|] eqn:E; [|discriminate]. destruct (listening (procs st o)) eqn:L; [|discriminate]. intros _. exists o. split; assumption. Qed.
Lemma single_exec st a : single st -> ~ meets_refusal st a -> ~ takes_down st a -> single (exec st a).
Proof.
  intros S NR NT. destruct a; cbn [exec].
  - apply single_spawn; [exact S|tauto|tauto|discriminate].
  - apply single_spawn; [exact S|cbn; tauto|cbn; tauto|discriminate].
  - cbn [meets_refusal] in NR. unfold turn. destruct (procs st p) eqn:E; try exact S;
      try (exfalso; apply (si_remove _ S p); rewrite E; exact I);
      try (exfalso; destruct (si_bound _ S p) as (_ & auto' & [X|X]); [rewrite E; exact I|rewrite E in X; discriminate X|rewrite E in X; discriminate X]).
    + destruct (connect st) eqn:C; [|exfalso; auto|]; (apply single_move; [exact S|rewrite E; discriminate|rewrite E; cbn; tauto|cbn; tauto|cbn; tauto|]); [intros _; apply connected_reaches; exact C|discriminate].
    + apply single_spawn; [|cbn; tauto|cbn; tauto|discriminate]. apply single_move; [exact S|rewrite E; discriminate|rewrite E; cbn; tauto|cbn; tauto|cbn; tauto|discriminate].
    + destruct tries as [[|n]|].
      * apply single_move; [exact S|rewrite E; discriminate|rewrite E; cbn; tauto|cbn; tauto|cbn; tauto|discriminate].
      * destruct (connect st) eqn:C; (apply single_move; [exact S|rewrite E; discriminate|rewrite E; cbn; tauto|cbn; tauto|cbn; tauto|]); [intros _; apply connected_reaches; exact C|discriminate|discriminate].
      * destruct (connect st) eqn:C; (apply single_move; [exact S|rewrite E; discriminate|rewrite E; cbn; tauto|cbn; tauto|cbn; tauto|]); [intros _; apply connected_reaches; exact C|discriminate|discriminate].
    + destruct (pid_file st) eqn:P; apply single_move; try (apply single_files); try exact S; cbn; rewrite ?E; try discriminate; cbn; tauto.
    + destruct (held st inode); apply single_move; try exact S; cbn; rewrite ?E; try discriminate; cbn; tauto.
    + apply single_move; try exact S; cbn; rewrite ?E; try discriminate; cbn; tauto.
    + apply single_move; try exact S; cbn; rewrite ?E; try discriminate; destruct (events st); cbn; try discriminate; tauto.
    + unfold after_events_error. destruct (events st); [|destruct auto]; apply single_move; try (apply single_files); try exact S; cbn; rewrite ?E; try discriminate; cbn; tauto.
    + unfold after_events_error. destruct (events st); [destruct auto|]; apply single_move; try (apply single_files); try exact S; cbn; rewrite ?E; try discriminate; cbn; tauto.
    + destruct (connect st) eqn:C; [|exfalso; auto|]; apply single_move; try exact S; cbn; rewrite ?E; try discriminate; cbn; tauto.
    + (* bind *) destruct (control st) as [o|] eqn:Ec; [apply single_move; try exact S; cbn; rewrite ?E; try discriminate; cbn; tauto|].
      destruct S as [Si Sr Sb Sc Sd]. constructor.
      * apply ids_ok_set; [apply ids_ok_files; exact Si|cbn; rewrite E; discriminate].
      * intros q. rewrite procs_set. destruct (q =? p); [cbn; tauto|apply Sr].
      * intros q. rewrite procs_set. destruct (Nat.eqb_spec q p) as [->|].
        -- intros _. split; [reflexivity|]. exists auto. left. reflexivity.
        -- intros H. exfalso. cbn in H. destruct (Sb _ H) as [X _]. rewrite Ec in X; discriminate X.
      * intros q Hq. cbn in Hq. injection Hq as <-. rewrite procs_set_same. exact I.
      * intros c Hc. rewrite procs_set in Hc. destruct (c =? p); [discriminate Hc|]. cbn in Hc. destruct (Sd _ Hc) as (d & X & _). congruence.
    + (* listen *) destruct (si_bound _ S p) as [Ec _]; [rewrite E; exact I|]. destruct S as [Si Sr Sb Sc Sd]. constructor.
      * apply ids_ok_set; [exact Si|rewrite E; discriminate].
      * intros q. rewrite procs_set. destruct (q =? p); [cbn; tauto|apply Sr].
      * intros q. rewrite procs_set. destruct (Nat.eqb_spec q p) as [->|]; [intros _; split; [exact Ec|eauto]|apply Sb].
      * intros q Hq. cbn in Hq. rewrite procs_set. destruct (q =? p); [exact I|apply Sc; exact Hq].
      * intros c Hc. exists p. split; [exact Ec|]. rewrite procs_set_same. reflexivity.
    + destruct auto; apply single_move; try (apply single_files); try exact S; cbn; rewrite ?E; try discriminate; cbn; tauto.
    + apply single_move; try (apply single_files); try exact S; cbn; rewrite ?E; try discriminate; cbn; tauto.
  - cbn [takes_down] in NT. destruct (procs st p) eqn:E; cbn in NT; try exact S; try (exfalso; tauto); apply single_move; try exact S; rewrite ?E; try discriminate; cbn; tauto.
  - cbn [takes_down] in NT. destruct (procs st p) eqn:E; cbn in NT; try exact S; try (exfalso; tauto); apply single_move; try exact S; rewrite ?E; try discriminate; cbn; tauto.
Qed.
Lemma single_run l : forall st, single st -> always (fun st a => ~ meets_refusal st a /\ ~ takes_down st a) st l -> single (exec_all st l).
Proof. induction l as [|a l IH]; intros st S A; [exact S|]. destruct A as [[A1 A2] A3]. apply (IH (exec st a)); [apply single_exec; assumption|exact A3]. Qed.

(** A client by itself. *)
Section Alone.
  Variables (st0 : world) (c : nat).
  Record F (st : world) (x y : proc) (ctl ev pid : option nat) (nx : nat) : Prop := {
    f_c : procs st c = x;
    f_d : procs st (S c) = y;
    f_old : forall q, q <> c -> q <> S c -> procs st q = procs st0 q;
    f_control : control st = ctl; f_events : events st = ev; f_pid : pid_file st = pid; f_next : next st = nx
  }.
  Lemma F_c st x y ctl ev pid nx x' : F st x y ctl ev pid nx -> F (set_proc st c x') x' y ctl ev pid nx.
  Proof.
    intros [H1 H2 H3 H4 H5 H6 H7]. constructor; try assumption; [apply procs_set_same|rewrite procs_set_other by lia; exact H2|].
    intros q N1 N2. rewrite procs_set_other by exact N1. apply H3; assumption.
  Qed.
  Lemma F_d st x y ctl ev pid nx y' : F st x y ctl ev pid nx -> F (set_proc st (S c) y') x y' ctl ev pid nx.
  Proof.
    intros [H1 H2 H3 H4 H5 H6 H7]. constructor; try assumption; [rewrite procs_set_other by lia; exact H1|apply procs_set_same|].
    intros q N1 N2. rewrite procs_set_other by exact N2. apply H3; assumption.
  Qed.
  Lemma F_control st x y ctl ev pid nx k : F st x y ctl ev pid nx -> F (set_control st k) x y k ev pid nx.
  Proof. intros [H1 H2 H3 H4 H5 H6 H7]. constructor; assumption || reflexivity. Qed.
  Lemma F_events st x y ctl ev pid nx k : F st x y ctl ev pid nx -> F (set_events st k) x y ctl k pid nx.
  Proof. intros [H1 H2 H3 H4 H5 H6 H7]. constructor; assumption || reflexivity. Qed.
  Lemma F_pid st x y ctl ev pid nx k i : F st x y ctl ev pid nx -> F (mkWorld (procs st) (next st) (control st) (events st) k i) x y ctl ev k nx.
  Proof. intros [H1 H2 H3 H4 H5 H6 H7]. constructor; assumption || reflexivity. Qed.
  Lemma F_spawn st x ctl ev pid y : F st x Absent ctl ev pid (S c) -> F (spawn st y) x y ctl ev pid (S (S c)).
  Proof.
    intros [H1 H2 H3 H4 H5 H6 H7]. constructor; cbn; rewrite ?H7; try assumption; try reflexivity.
    - replace (c =? S c) with false by (symmetry; apply Nat.eqb_neq; lia). exact H1.
    - rewrite Nat.eqb_refl. reflexivity.
    - intros q N1 N2. apply Nat.eqb_neq in N2. rewrite N2. apply H3; [exact N1|apply Nat.eqb_neq; exact N2].
  Qed.
  Hypothesis rest : forall q, at_rest (procs st0 q).
  Lemma F_held st x y ctl ev pid nx i : F st x y ctl ev pid nx -> (forall j, x <> DLocked j) -> (forall j, y <> DLocked j) -> held st i = false.
  Proof.
    intros H Nx Ny. unfold held. destruct (existsb _ _) eqn:E; [|reflexivity]. apply existsb_exists in E as (q & _ & E). exfalso.
    destruct (procs st q) eqn:P; try discriminate E. destruct (Nat.eq_dec q c) as [->|N1]; [rewrite (f_c _ _ _ _ _ _ _ H) in P; exact (Nx _ P)|].
    destruct (Nat.eq_dec q (S c)) as [->|N2]; [rewrite (f_d _ _ _ _ _ _ _ H) in P; exact (Ny _ P)|]. pose proof (rest q) as R. rewrite (f_old _ _ _ _ _ _ _ H q N1 N2) in P. rewrite P in R. exact R.
  Qed.

  Lemma go_d st : exec st (Go (S c)) = turn st (S c). Proof. reflexivity. Qed.
  Lemma idle_d st n : (procs st (S c) = Absent \/ exists auto, procs st (S c) = DServe auto) -> exec_all st (repeat (Go (S c)) n) = st.
  Proof.
    intros H. induction n as [|n IH]; [reflexivity|]. cbn [repeat]. rewrite exec_all_cons. cbn [exec]. unfold turn. destruct H as [H|(auto & H)]; rewrite H; exact IH.
  Qed.
  Ltac D H := rewrite exec_all_cons, go_d; unfold turn at 1; rewrite (f_d _ _ _ _ _ _ _ H).
  Lemma daemon_up st x ev pid : F st x DOpen None ev pid (S (S c)) -> (forall j, x <> DLocked j) ->
    exists st' pid', exec_all st (repeat (Go (S c)) 10) = st' /\ F st' x (DServe true) (Some (S c)) (Some (S c)) (Some pid') (S (S c)).
  Proof.
    intros H Nx. cbn [repeat].
    assert (H1 : exists st1 i, turn st (S c) = st1 /\ F st1 x (DFlock i) None ev (Some i) (S (S c))).
    { unfold turn. rewrite (f_d _ _ _ _ _ _ _ H), (f_pid _ _ _ _ _ _ _ H). destruct pid as [i|]; eexists _, _; (split; [reflexivity|]); apply (F_d _ _ DOpen _ _ _ _ (DFlock _)).
      - exact H.
      - apply F_pid with (pid := None). exact H. }
    destruct H1 as (st1 & i & E1 & H1). rewrite exec_all_cons, go_d, E1. clear E1 H st.
    D H1. rewrite (F_held st1 _ _ _ _ _ _ i H1) by (auto; intros; discriminate). apply (F_d _ _ _ _ _ _ _ (DLocked i)) in H1. remember (set_proc st1 (S c) (DLocked i)) as st2. clear Heqst2 st1.
    D H1. apply (F_d _ _ _ _ _ _ _ (DEventsCheck true)) in H1. remember (set_proc st2 (S c) (DEventsCheck true)) as st3. clear Heqst3 st2.
    D H1. rewrite (f_events _ _ _ _ _ _ _ H1). destruct ev as [o|].
    - apply (F_d _ _ _ _ _ _ _ (DEventsRemove true)) in H1. remember (set_proc st3 (S c) (DEventsRemove true)) as st4. clear Heqst4 st3.
      D H1. rewrite (f_events _ _ _ _ _ _ _ H1). apply F_events with (k := None) in H1. apply (F_d _ _ _ _ _ _ _ (DEventsBind true)) in H1.
      remember (set_proc (set_events st4 None) (S c) (DEventsBind true)) as st5. clear Heqst5 st4.
      D H1. rewrite (f_events _ _ _ _ _ _ _ H1). apply F_events with (k := Some (S c)) in H1. apply (F_d _ _ _ _ _ _ _ (DProbe true)) in H1.
      remember (set_proc (set_events st5 (Some (S c))) (S c) (DProbe true)) as st6. clear Heqst6 st5.
      D H1. unfold connect. rewrite (f_control _ _ _ _ _ _ _ H1). apply (F_d _ _ _ _ _ _ _ (DBind true)) in H1. remember (set_proc st6 (S c) (DBind true)) as st7. clear Heqst7 st6.
      D H1. rewrite (f_control _ _ _ _ _ _ _ H1). apply F_control with (k := Some (S c)) in H1. apply (F_d _ _ _ _ _ _ _ (DListen true)) in H1.
      remember (set_proc (set_control st7 (Some (S c))) (S c) (DListen true)) as st8. clear Heqst8 st7.
      D H1. apply (F_d _ _ _ _ _ _ _ (DServe true)) in H1. remember (set_proc st8 (S c) (DServe true)) as st9. clear Heqst9 st8.
      exists st9, i. split; [|exact H1]. apply (idle_d st9 1). right. exists true. exact (f_d _ _ _ _ _ _ _ H1).
    - apply (F_d _ _ _ _ _ _ _ (DEventsBind true)) in H1. remember (set_proc st3 (S c) (DEventsBind true)) as st5. clear Heqst5 st3.
      D H1. rewrite (f_events _ _ _ _ _ _ _ H1). apply F_events with (k := Some (S c)) in H1. apply (F_d _ _ _ _ _ _ _ (DProbe true)) in H1.
      remember (set_proc (set_events st5 (Some (S c))) (S c) (DProbe true)) as st6. clear Heqst6 st5.
      D H1. unfold connect. rewrite (f_control _ _ _ _ _ _ _ H1). apply (F_d _ _ _ _ _ _ _ (DBind true)) in H1. remember (set_proc st6 (S c) (DBind true)) as st7. clear Heqst7 st6.
      D H1. rewrite (f_control _ _ _ _ _ _ _ H1). apply F_control with (k := Some (S c)) in H1. apply (F_d _ _ _ _ _ _ _ (DListen true)) in H1.
      remember (set_proc (set_control st7 (Some (S c))) (S c) (DListen true)) as st8. clear Heqst8 st7.
      D H1. apply (F_d _ _ _ _ _ _ _ (DServe true)) in H1. remember (set_proc st8 (S c) (DServe true)) as st9. clear Heqst9 st8.
      exists st9, i. split; [|exact H1]. apply (idle_d st9 2). right. exists true. exact (f_d _ _ _ _ _ _ _ H1).
  Qed.
End Alone.

Lemma go_c st p : exec st (Go p) = turn st p. Proof. reflexivity. Qed.
Lemma launch_eq patient st c : c = next st ->
  launch patient st = exec_all (turn (turn (turn (spawn st (CProbe patient)) c) c) c) (repeat (Go (S c)) 10 ++ [Go c]).
Proof. intros ->. unfold launch. remember (repeat (Go (S (next st))) 10) as D10. cbn [repeat app]. rewrite !exec_all_cons. reflexivity. Qed.

Lemma turn_probe st c patient : procs st c = CProbe patient ->
  turn st c = match connect st with Connected => set_proc st c CDone | Refused => set_proc st c (CUnlink patient) | NotFound => set_proc st c (CSpawn patient) end.
Proof. intros H. unfold turn. rewrite H. reflexivity. Qed.
Lemma turn_unlink st c patient : procs st c = CUnlink patient ->
  turn st c = match control st with None => set_proc st c CFailed | Some _ => set_proc (set_control st None) c (CSpawn patient) end.
Proof. intros H. unfold turn. rewrite H. reflexivity. Qed.
Lemma turn_spawn st c patient : procs st c = CSpawn patient ->
  turn st c = spawn (set_proc st c (CPoll (if patient then None else Some 9) 10)) DOpen.
Proof. intros H. unfold turn. rewrite H. reflexivity. Qed.
Lemma turn_poll_up st c n ms : procs st c = CPoll n ms -> n <> Some 0 -> connect st = Connected -> turn st c = set_proc st c CDone.
Proof. intros H N C. unfold turn. rewrite H, C. destruct n as [[|n]|]; congruence. Qed.
Lemma turn_poll_down st c n ms : procs st c = CPoll n ms -> n <> Some 0 -> connect st <> Connected ->
  exists m ms', turn st c = set_proc st c (CPoll m ms') /\ m = match n with Some k => Some (k - 1) | None => None end.
Proof. intros H N C. unfold turn. rewrite H. destruct n as [[|n]|]; [congruence| |]; destruct (connect st); try congruence; eexists _, _; split; reflexivity. Qed.
Lemma turn_done st c : procs st c = CDone -> turn st c = st.
Proof. intros H. unfold turn. rewrite H. reflexivity. Qed.

Section Launched.
  Variables (st0 : world) (c : nat).
  Hypothesis rest : forall q, at_rest (procs st0 q).
  Lemma finish st ev pid n ms : F st0 c st (CPoll n ms) DOpen None ev pid (S (S c)) -> n <> Some 0 ->
    exists pid', F st0 c (exec_all st (repeat (Go (S c)) 10 ++ [Go c])) CDone (DServe true) (Some (S c)) (Some (S c)) (Some pid') (S (S c)).
  Proof.
    intros H N. destruct (daemon_up st0 c rest st _ _ _ H) as (st5 & pid' & E5 & H5); [intros j; discriminate|].
    rewrite exec_all_app, E5. exists pid'.
    assert (K : connect st5 = Connected) by (unfold connect; rewrite (f_control _ _ _ _ _ _ _ _ _ H5), (f_d _ _ _ _ _ _ _ _ _ H5); reflexivity).
    rewrite exec_all_cons, go_c. rewrite (turn_poll_up _ _ _ _ (f_c _ _ _ _ _ _ _ _ _ H5) N K). apply (F_c st0 c) with (x' := CDone) in H5. exact H5.
  Qed.
  Lemma spawned st ev pid patient : F st0 c st (CSpawn patient) Absent None ev pid (S c) ->
    F st0 c (turn st c) (CPoll (if patient then None else Some 9) 10) DOpen None ev pid (S (S c)).
  Proof.
    intros H. rewrite (turn_spawn _ _ _ (f_c _ _ _ _ _ _ _ _ _ H)). apply F_spawn. eapply (F_c st0 c). exact H.
  Qed.
  Lemma polled st ev pid n ms : F st0 c st (CPoll n ms) DOpen None ev pid (S (S c)) -> n <> Some 0 ->
    exists ms', F st0 c (turn st c) (CPoll (match n with Some k => Some (k - 1) | None => None end) ms') DOpen None ev pid (S (S c)).
  Proof.
    intros H N. assert (K0 : connect st <> Connected) by (unfold connect; rewrite (f_control _ _ _ _ _ _ _ _ _ H); discriminate).
    destruct (turn_poll_down _ _ _ _ (f_c _ _ _ _ _ _ _ _ _ H) N K0) as (m & ms' & E & Em). rewrite E. subst m. exists ms'. eapply (F_c st0 c). exact H.
  Qed.
End Launched.

Lemma launch_cases patient st : quiet st ->
  let c := next st in let st' := launch patient st in
  (exists d, reaches st d /\ F st c st' CDone Absent (control st) (events st) (pid_file st) (S c)) \/
  ((forall d, ~ reaches st d) /\ exists pid, F st c st' CDone (DServe true) (Some (S c)) (Some (S c)) (Some pid) (S (S c))).
Proof.
  intros (Q1 & Q2 & Q3). cbn zeta. remember (next st) as c eqn:Hc. rewrite (launch_eq patient st c Hc).
  assert (H : F st c (spawn st (CProbe patient)) (CProbe patient) Absent (control st) (events st) (pid_file st) (S c)).
  { subst c. constructor; cbn; try reflexivity.
    - rewrite Nat.eqb_refl. reflexivity.
    - replace (match next st with 0 => false | S m' => next st =? m' end) with false by (symmetry; destruct (next st) as [|k]; [reflexivity|apply Nat.eqb_neq; lia]).
      apply Q2. lia.
    - intros q N1 N2. apply Nat.eqb_neq in N1. rewrite N1. reflexivity. }
  remember (spawn st (CProbe patient)) as st1. clear Heqst1.
  assert (C : connect st1 = connect st).
  { unfold connect. rewrite (f_control _ _ _ _ _ _ _ _ _ H). destruct (control st) as [o|] eqn:E; [|reflexivity]. pose proof (Q3 o eq_refl) as L.
    rewrite (f_old _ _ _ _ _ _ _ _ _ H o) by lia. reflexivity. }
  rewrite (turn_probe _ _ _ (f_c _ _ _ _ _ _ _ _ _ H)), C. destruct (connect st) eqn:Ec.
  - left. destruct (connected_reaches st Ec) as (d & R). exists d. split; [exact R|]. apply (F_c st c) with (x' := CDone) in H. remember (set_proc st1 c CDone) as st2. clear Heqst2.
    pose proof (turn_done _ _ (f_c _ _ _ _ _ _ _ _ _ H)) as E. rewrite !E, exec_all_app, (idle_d c) by (left; exact (f_d _ _ _ _ _ _ _ _ _ H)).
    rewrite exec_all_cons, go_c, E. exact H.
  - right. split; [intros d [R1 R2]; unfold connect in Ec; rewrite R1, R2 in Ec; discriminate Ec|].
    apply (F_c st c) with (x' := CUnlink patient) in H. remember (set_proc st1 c (CUnlink patient)) as st2. clear Heqst2.
    rewrite (turn_unlink _ _ _ (f_c _ _ _ _ _ _ _ _ _ H)), (f_control _ _ _ _ _ _ _ _ _ H).
    destruct (control st) as [o|] eqn:Eo; [|unfold connect in Ec; rewrite Eo in Ec; discriminate Ec].
    apply F_control with (k := None) in H. apply (F_c st c) with (x' := CSpawn patient) in H. remember (set_proc (set_control st2 None) c (CSpawn patient)) as st3. clear Heqst3.
    eapply finish; [exact Q1|eapply spawned; exact H|destruct patient; discriminate].
  - right. split; [intros d [R1 R2]; unfold connect in Ec; rewrite R1, R2 in Ec; discriminate Ec|].
    assert (Eo : control st = None) by (unfold connect in Ec; destruct (control st) as [o|]; [destruct (listening (procs st o)); discriminate Ec|reflexivity]). rewrite Eo in H.
    apply (F_c st c) with (x' := CSpawn patient) in H. remember (set_proc st1 c (CSpawn patient)) as st3. clear Heqst3.
    pose proof (spawned _ _ _ _ _ _ H) as H2. destruct (polled _ _ _ _ _ _ _ H2) as (ms & H3); [destruct patient; discriminate|].
    eapply finish; [exact Q1|exact H3|destruct patient; cbn; discriminate].
Qed.

Lemma launch_quiet patient st : quiet st -> quiet (launch patient st).
Proof.
  intros Q. pose proof (launch_cases patient st Q) as [(d & R & H)|(_ & pid & H)]; destruct Q as (Q1 & Q2 & Q3).
  - split; [|split].
    + intros p. destruct (Nat.eq_dec p (next st)) as [->|N1]; [rewrite (f_c _ _ _ _ _ _ _ _ _ H); exact I|].
      destruct (Nat.eq_dec p (S (next st))) as [->|N2]; [rewrite (f_d _ _ _ _ _ _ _ _ _ H); exact I|]. rewrite (f_old _ _ _ _ _ _ _ _ _ H p N1 N2). apply Q1.
    + intros p Hp. rewrite (f_next _ _ _ _ _ _ _ _ _ H) in Hp. destruct (Nat.eq_dec p (S (next st))) as [->|N2]; [exact (f_d _ _ _ _ _ _ _ _ _ H)|].
      rewrite (f_old _ _ _ _ _ _ _ _ _ H p) by lia. apply Q2. lia.
    + intros o Ho. rewrite (f_next _ _ _ _ _ _ _ _ _ H). rewrite (f_control _ _ _ _ _ _ _ _ _ H) in Ho. apply Q3 in Ho. lia.
  - split; [|split].
    + intros p. destruct (Nat.eq_dec p (next st)) as [->|N1]; [rewrite (f_c _ _ _ _ _ _ _ _ _ H); exact I|].
      destruct (Nat.eq_dec p (S (next st))) as [->|N2]; [rewrite (f_d _ _ _ _ _ _ _ _ _ H); exact I|]. rewrite (f_old _ _ _ _ _ _ _ _ _ H p N1 N2). apply Q1.
    + intros p Hp. rewrite (f_next _ _ _ _ _ _ _ _ _ H) in Hp. rewrite (f_old _ _ _ _ _ _ _ _ _ H p) by lia. apply Q2. lia.
    + intros o Ho. rewrite (f_next _ _ _ _ _ _ _ _ _ H). rewrite (f_control _ _ _ _ _ _ _ _ _ H) in Ho. injection Ho as <-. lia.
Qed.

(** Stopping a daemon. *)
Lemma turn_clean1 st d auto : procs st d = DCleanControl auto -> turn st d = set_proc (set_control st None) d (DCleanEvents auto).
Proof. intros H. unfold turn. rewrite H. reflexivity. Qed.
Lemma turn_clean2 st d auto : procs st d = DCleanEvents auto -> turn st d = set_proc (set_events st None) d (if auto then DCleanPid auto else DExited).
Proof. intros H. unfold turn. rewrite H. reflexivity. Qed.
Lemma turn_clean3 st d auto : procs st d = DCleanPid auto -> turn st d = set_proc (set_pid st None) d DExited.
Proof. intros H. unfold turn. rewrite H. reflexivity. Qed.
Lemma turn_exited st d : procs st d = DExited -> turn st d = st.
Proof. intros H. unfold turn. rewrite H. reflexivity. Qed.
Lemma term_serve st d auto : procs st d = DServe auto -> exec st (Term d) = set_proc st d (DCleanControl auto).
Proof. intros H. unfold exec. rewrite H. reflexivity. Qed.
Lemma stop_effect st d auto : procs st d = DServe auto ->
  let st' := exec_all st [Term d; Go d; Go d; Go d] in
  procs st' d = DExited /\ (forall q, q <> d -> procs st' q = procs st q) /\ control st' = None /\ events st' = None /\ pid_file st' = (if auto then None else pid_file st) /\ next st' = next st.
Proof.
  intros H. cbn zeta. rewrite !exec_all_cons, !go_c, (term_serve _ _ _ H).
  rewrite (turn_clean1 (set_proc st d (DCleanControl auto)) _ auto) by apply procs_set_same.
  rewrite (turn_clean2 (set_proc _ d (DCleanEvents auto)) _ auto) by apply procs_set_same. change (exec_all ?s []) with s.
  assert (O : forall s q x, q <> d -> procs (set_proc s d x) q = procs s q) by (intros; apply procs_set_other; assumption).
  destruct auto.
  - rewrite (turn_clean3 _ _ true) by apply procs_set_same. split; [apply procs_set_same|]. split; [|auto].
    intros q N. rewrite O by exact N. change (procs (set_pid ?s _)) with (procs s). rewrite O by exact N. change (procs (set_events ?s _)) with (procs s). rewrite O by exact N.
    change (procs (set_control ?s _)) with (procs s). rewrite O by exact N. reflexivity.
  - rewrite turn_exited by apply procs_set_same. split; [apply procs_set_same|]. split; [|auto].
    intros q N. rewrite O by exact N. change (procs (set_events ?s _)) with (procs s). rewrite O by exact N.
    change (procs (set_control ?s _)) with (procs s). rewrite O by exact N. reflexivity.
Qed.
Lemma at_rest_idle st p n : at_rest (procs st p) -> exec_all st (repeat (Go p) n) = st.
Proof. intros H. induction n as [|n IH]; [reflexivity|]. cbn [repeat]. rewrite exec_all_cons. cbn [exec]. unfold turn. destruct (procs st p); cbn in H; try contradiction; exact IH. Qed.
Lemma happen_quiet st b : quiet st -> quiet (happen st b).
Proof.
  intros Q. destruct b; cbn [happen]; [apply launch_quiet; exact Q| |].
  - destruct Q as (Q1 & Q2 & Q3). cbn [exec]. destruct (procs st p) eqn:E; try (split; auto); try (pose proof (Q1 p) as X; rewrite E in X; contradiction).
    + intros q. rewrite procs_set. destruct (q =? p); [exact I|apply Q1].
    + split; [|exact Q3]. intros q Hq. cbn [next set_proc] in Hq. rewrite procs_set. destruct (Nat.eqb_spec q p) as [->|]; [rewrite Q2 in E by exact Hq; discriminate E|apply Q2; exact Hq].
  - destruct (procs st p) eqn:E; try (destruct Q as (Q1 & _); pose proof (Q1 p) as X; rewrite E in X; contradiction);
      try (rewrite exec_all_cons; cbn [exec]; rewrite E; change [Go p; Go p; Go p] with (repeat (Go p) 3); rewrite at_rest_idle by (rewrite E; exact I); exact Q).
    destruct (stop_effect st p auto E) as (S1 & S2 & S3 & S4 & S5 & S6). destruct Q as (Q1 & Q2 & Q3). split; [|split].
    + intros q. destruct (Nat.eq_dec q p) as [->|N]; [rewrite S1; exact I|rewrite S2 by exact N; apply Q1].
    + intros q Hq. rewrite S6 in Hq. destruct (Nat.eq_dec q p) as [->|N]; [rewrite Q2 in E by exact Hq; discriminate E|rewrite S2 by exact N; apply Q2; exact Hq].
    + intros o Ho. rewrite S3 in Ho. discriminate Ho.
Qed.
Lemma boot_quiet c e p : quiet (boot c e p).
Proof. split; [intros q; exact I|]. split; [reflexivity|]. intros o Ho. cbn in *. rewrite Ho. cbn. lia. Qed.

Lemma client_done st a c : procs st c <> CDone -> procs (exec st a) c = CDone -> a = Go c /\ connect st = Connected /\ exec st a = set_proc st c CDone.
Proof.
  intros N D.
  assert (K : forall s p x, procs (set_proc s p x) c = CDone -> procs s = procs st -> c = p /\ x = CDone).
  { intros s p x H E. rewrite procs_set in H. destruct (Nat.eqb_spec c p) as [->|]; [auto|]. rewrite E in H. contradiction. }
  assert (K2 : forall x, procs (spawn st x) c = CDone -> x = CDone).
  { intros x H. cbn in H. destruct (c =? next st); [exact H|contradiction]. }
  destruct a; cbn [exec] in *.
  - apply K2 in D. discriminate D.
  - apply K2 in D. discriminate D.
  - assert (T : forall x s, turn st p = set_proc s p x -> procs s = procs st -> c = p /\ x = CDone) by (intros x s E1 E2; rewrite E1 in D; apply K in D; assumption).
    unfold turn in *. destruct (procs st p) eqn:E; try contradiction.
    + destruct (connect st) eqn:C; destruct (T _ _ eq_refl eq_refl) as [-> X]; try discriminate X. auto.
    + destruct (control st); destruct (T _ _ eq_refl eq_refl) as [-> X]; discriminate X.
    + exfalso. cbn in D. destruct (c =? next st); [discriminate D|]. destruct (c =? p); [discriminate D|contradiction].
    + destruct tries as [[|n]|].
      * destruct (T _ _ eq_refl eq_refl) as [-> X]. discriminate X.
      * destruct (connect st) eqn:C; destruct (T _ _ eq_refl eq_refl) as [-> X]; try discriminate X. auto.
      * destruct (connect st) eqn:C; destruct (T _ _ eq_refl eq_refl) as [-> X]; try discriminate X. auto.
    + destruct (pid_file st); destruct (T _ _ eq_refl eq_refl) as [-> X]; discriminate X.
    + destruct (held st inode); destruct (T _ _ eq_refl eq_refl) as [-> X]; discriminate X.
    + destruct (T _ _ eq_refl eq_refl) as [-> X]; discriminate X.
    + destruct (T _ _ eq_refl eq_refl) as [-> X]; destruct (events st); discriminate X.
    + destruct (events st); destruct (T _ _ eq_refl eq_refl) as [-> X]; unfold after_events_error in *; destruct auto; discriminate X.
    + destruct (events st); destruct (T _ _ eq_refl eq_refl) as [-> X]; unfold after_events_error in *; destruct auto; discriminate X.
    + destruct (T _ _ eq_refl eq_refl) as [-> X]; destruct (connect st); discriminate X.
    + destruct (control st); destruct (T _ _ eq_refl eq_refl) as [-> X]; discriminate X.
    + destruct (control st); destruct (T _ _ eq_refl eq_refl) as [-> X]; discriminate X.
    + destruct (T _ _ eq_refl eq_refl) as [-> X]; discriminate X.
    + destruct (T _ _ eq_refl eq_refl) as [-> X]; discriminate X.
    + destruct (T _ _ eq_refl eq_refl) as [-> X]; destruct auto; discriminate X.
    + destruct (T _ _ eq_refl eq_refl) as [-> X]; discriminate X.
    + destruct (T _ _ eq_refl eq_refl) as [-> X]; destruct auto; discriminate X.
    + destruct (T _ _ eq_refl eq_refl) as [-> X]; discriminate X.
  - destruct (procs st p) eqn:E; try contradiction; apply K in D; try reflexivity; destruct D as [_ X]; discriminate X.
  - destruct (procs st p) eqn:E; try contradiction; apply K in D; try reflexivity; destruct D as [_ X]; discriminate X.
Qed.

Lemma repeat_snoc_go c n : repeat (Go c) (S n) = repeat (Go c) n ++ [Go c].
Proof. induction n as [|n IH]; [reflexivity|]. cbn [repeat app]. f_equal. exact IH. Qed.
Lemma poll_limited st c k ms : procs st c = CPoll (Some k) ms -> connect st <> Connected -> k <> 0 -> turn st c = set_proc st c (CPoll (Some (k - 1)) (2 * ms)).
Proof. intros H N K. unfold turn. rewrite H. destruct k as [|k]; [congruence|]. destruct (connect st); [congruence|reflexivity|reflexivity]. Qed.
Lemma poll_out st c ms : procs st c = CPoll (Some 0) ms -> procs (turn st c) c = CFailed.
Proof. intros H. unfold turn. rewrite H. apply procs_set_same. Qed.
Lemma poll_patient st c ms : procs st c = CPoll None ms -> connect st <> Connected -> turn st c = set_proc st c (CPoll None (if 2000 <? 2 * ms then 2000 else 2 * ms)).
Proof. intros H N. unfold turn. rewrite H. destruct (connect st); [congruence|reflexivity|reflexivity]. Qed.
Lemma min_double_cap cap n : 10 <= cap -> (if cap <? 2 * Nat.min (10 * 2 ^ n) cap then cap else 2 * Nat.min (10 * 2 ^ n) cap) = Nat.min (10 * 2 ^ S n) cap.
Proof.
  intros L. rewrite Nat.pow_succ_r'. destruct (Nat.ltb_spec cap (2 * Nat.min (10 * 2 ^ n) cap)); lia.
Qed.
Lemma min_double n : (if 2000 <? 2 * Nat.min (10 * 2 ^ n) 2000 then 2000 else 2 * Nat.min (10 * 2 ^ n) 2000) = Nat.min (10 * 2 ^ S n) 2000.
Proof. apply min_double_cap. lia. Qed.
Lemma single_boot e f : single (boot None e f).
Proof. constructor; cbn; try (intros; discriminate); try tauto. intros q Hq. reflexivity. Qed.

Lemma serving_exec st a d : serving st d -> (forall p, a = Term p \/ a = Kill p -> p <> d) -> ids_ok st -> serving (exec st a) d.
Proof.
  intros (auto & E) K I0. exists auto.
  assert (Sp : forall s x, procs s = procs st -> next s = next st -> procs (spawn s x) d = DServe auto).
  { intros s x H1 H2. cbn. rewrite H2, H1. destruct (Nat.eqb_spec d (next st)) as [->|]; [rewrite I0 in E by lia; discriminate E|exact E]. }
  destruct a; cbn [exec]; try (apply Sp; reflexivity).
  - destruct (Nat.eq_dec p d) as [->|N]; [unfold turn; rewrite E; exact E|].
    assert (O : forall s x, procs s = procs st -> procs (set_proc s p x) d = DServe auto) by (intros s x H; rewrite procs_set_other by congruence; rewrite H; exact E).
    unfold turn. destruct (procs st p) eqn:P; try exact E;
      repeat match goal with |- procs (match ?e with _ => _ end) d = _ => destruct e
                           | |- procs (if ?e then _ else _) d = _ => destruct e end; try exact E; try (apply O; reflexivity).
    cbn. destruct (Nat.eqb_spec d (next st)) as [->|]; [rewrite I0 in E by lia; discriminate E|]. destruct (Nat.eqb_spec d p); [congruence|exact E].
  - assert (N : p <> d) by (apply K; auto). destruct (procs st p); try exact E; rewrite procs_set_other by congruence; exact E.
  - assert (N : p <> d) by (apply K; auto). destruct (procs st p); try exact E; rewrite procs_set_other by congruence; exact E.
Qed.

(** A daemon by itself, started by hand. *)
Record D (st0 : world) (p : nat) (st : world) (x : proc) (ev : option nat) : Prop := {
  d_p : procs st p = x;
  d_old : forall q, q <> p -> procs st q = procs st0 q;
  d_control : control st = control st0; d_events : events st = ev; d_pid : pid_file st = pid_file st0
}.
Lemma D_set st0 p st x ev y : D st0 p st x ev -> D st0 p (set_proc st p y) y ev.
Proof. intros [H1 H2 H3 H4 H5]. constructor; try assumption; [apply procs_set_same|]. intros q N. rewrite procs_set_other by exact N. apply H2. exact N. Qed.
Lemma D_events st0 p st x ev k : D st0 p st x ev -> D st0 p (set_events st k) x k.
Proof. intros [H1 H2 H3 H4 H5]. constructor; assumption || reflexivity. Qed.
Lemma second_by_hand st d : serving st d -> control st = Some d /\ d < next st ->
  let st' := exec_all st (NewDaemon :: repeat (Go (next st)) 6) in
  procs st' (next st) = DExited /\ (forall p, p <> next st -> procs st' p = procs st p) /\
  control st' = control st /\ pid_file st' = pid_file st /\ events st' = None.
Proof.
  intros (auto & Hd) [Rc Ld]. cbn zeta. remember (next st) as p eqn:Hp. cbn [repeat]. rewrite !exec_all_cons. cbn [exec].
  assert (H : D st p (spawn st (DEventsCheck false)) (DEventsCheck false) (events st)).
  { subst p. constructor; try reflexivity; [cbn; rewrite Nat.eqb_refl; reflexivity|]. intros q N. cbn. apply Nat.eqb_neq in N. rewrite N. reflexivity. }
  remember (spawn st (DEventsCheck false)) as s0 eqn:E. clear E.
  assert (Cn : forall s x ev, D st p s x ev -> connect s = Connected).
  { intros s x ev HD. unfold connect. rewrite (d_control _ _ _ _ _ HD), Rc. rewrite (d_old _ _ _ _ _ HD) by lia. rewrite Hd. reflexivity. }
  assert (Fin : forall s, D st p s (DEventsBind false) None ->
     let s' := turn (turn (turn (turn s p) p) p) p in D st p s' DExited None).
  { intros s HD. cbn zeta.
    assert (H1 : D st p (turn s p) (DProbe false) (Some p)).
    { unfold turn. rewrite (d_p _ _ _ _ _ HD), (d_events _ _ _ _ _ HD). eapply D_set. eapply D_events. exact HD. }
    remember (turn s p) as s1 eqn:E1. clear E1.
    assert (H2 : D st p (turn s1 p) (DBind false) (Some p)).
    { unfold turn. rewrite (d_p _ _ _ _ _ H1), (Cn _ _ _ H1). eapply D_set. exact H1. }
    remember (turn s1 p) as s2 eqn:E2. clear E2.
    assert (H3 : D st p (turn s2 p) (DDropEvents false) (Some p)).
    { unfold turn. rewrite (d_p _ _ _ _ _ H2), (d_control _ _ _ _ _ H2), Rc. eapply D_set. exact H2. }
    remember (turn s2 p) as s3 eqn:E3. clear E3.
    unfold turn. rewrite (d_p _ _ _ _ _ H3). eapply D_set. eapply D_events. exact H3. }
  assert (End : forall s, D st p s DExited None -> procs s p = DExited /\ (forall q, q <> p -> procs s q = procs st q) /\ control s = control st /\ pid_file s = pid_file st /\ events s = None).
  { intros s [A B C X Y]. auto. }
  destruct (events st) as [o|] eqn:Ee.
  - assert (H1 : D st p (turn s0 p) (DEventsRemove false) (Some o)).
    { unfold turn. rewrite (d_p _ _ _ _ _ H), (d_events _ _ _ _ _ H). eapply D_set. exact H. }
    remember (turn s0 p) as s1 eqn:E1. clear E1.
    assert (H2 : D st p (turn s1 p) (DEventsBind false) None).
    { unfold turn. rewrite (d_p _ _ _ _ _ H1), (d_events _ _ _ _ _ H1). eapply D_set. eapply D_events. exact H1. }
    remember (turn s1 p) as s2 eqn:E2. clear E2. apply Fin in H2. apply End. exact H2.
  - assert (H1 : D st p (turn s0 p) (DEventsBind false) None).
    { unfold turn. rewrite (d_p _ _ _ _ _ H), (d_events _ _ _ _ _ H). eapply D_set. exact H. }
    remember (turn s0 p) as s1 eqn:E1. clear E1. apply Fin in H1. cbn zeta in H1. remember (turn (turn (turn (turn s1 p) p) p) p) as s5 eqn:E5. clear E5.
    apply End. assert (T : turn s5 p = s5) by (apply turn_exited; exact (d_p _ _ _ _ _ H1)).
    change (D st p (turn s5 p) DExited None). rewrite T. exact H1.
Qed.

Lemma twice st d auto n : procs st d = DServe auto -> n <= 2 ->
  let st' := exec_all st ([Term d] ++ repeat (Go d) n ++ [Term d]) in (procs st' d = Dead \/ procs st' d = DExited) /\ ~ reaches st' d.
Proof.
  intros H L. cbn zeta.
  assert (G : forall s, (exists x, (x = DCleanControl auto \/ x = DCleanEvents auto \/ x = DCleanPid auto \/ x = DExited) /\ procs s d = x) ->
     (procs (exec s (Term d)) d = Dead \/ procs (exec s (Term d)) d = DExited) /\ ~ reaches (exec s (Term d)) d).
  { intros s (x & Hx & E). cbn [exec]. destruct Hx as [->|[->|[->| ->]]]; rewrite E; (split; [rewrite ?procs_set_same; auto|]);
      intros [_ R]; rewrite ?procs_set_same in R; rewrite ?E in R; discriminate R. }
  change ([Term d] ++ repeat (Go d) n ++ [Term d]) with (Term d :: repeat (Go d) n ++ [Term d]). rewrite exec_all_cons, (term_serve _ _ _ H), exec_all_snoc. apply G.
  destruct n as [|[|[|n]]]; [| | |lia]; cbn [repeat]; rewrite ?exec_all_cons, ?go_c; change (exec_all ?s []) with s.
  - exists (DCleanControl auto). split; [auto|apply procs_set_same].
  - rewrite (turn_clean1 (set_proc st d (DCleanControl auto)) _ auto) by apply procs_set_same. exists (DCleanEvents auto). split; [auto|apply procs_set_same].
  - rewrite (turn_clean1 (set_proc st d (DCleanControl auto)) _ auto) by apply procs_set_same. rewrite (turn_clean2 (set_proc _ d (DCleanEvents auto)) _ auto) by apply procs_set_same.
    eexists. split; [|apply procs_set_same]. destruct auto; auto.
Qed.

(** A daemon run by hand with nobody else about. *)
Record H (st0 : world) (p : nat) (st : world) (x : proc) (ctl ev : option nat) : Prop := {
  h_p : procs st p = x; h_old : forall q, q <> p -> procs st q = procs st0 q;
  h_control : control st = ctl; h_events : events st = ev; h_pid : pid_file st = pid_file st0; h_next : next st = S (next st0) }.
Lemma H_set st0 p st x x' c e : H st0 p st x c e -> H st0 p (set_proc st p x') x' c e.
Proof.
  intros [A B C D K L]. constructor; try assumption; [apply procs_set_same|]. intros q N. rewrite procs_set_other by exact N. apply B. exact N.
Qed.
Lemma H_control st0 p st x c e k : H st0 p st x c e -> H st0 p (set_control st k) x k e.
Proof. intros [A B C D K L]. constructor; assumption || reflexivity. Qed.
Lemma H_events st0 p st x c e k : H st0 p st x c e -> H st0 p (set_events st k) x c k.
Proof. intros [A B C D K L]. constructor; assumption || reflexivity. Qed.

Lemma first_by_hand st : quiet st -> (forall d, ~ reaches st d) ->
  exists n, H st (next st) (exec_all st (NewDaemon :: repeat (Go (next st)) n)) (DServe false) (Some (next st)) (Some (next st)) /\ n <= 7.
Proof.
  intros (Q1 & Q2 & Q3) R. remember (next st) as p eqn:Hp.
  assert (H0 : H st p (exec st NewDaemon) (DEventsCheck false) (control st) (events st)).
  { cbn [exec]. subst p. constructor; try reflexivity; [cbn; rewrite Nat.eqb_refl; reflexivity|].
    intros q N. cbn. apply Nat.eqb_neq in N. rewrite N. reflexivity. }
  assert (Go1 : forall s n, exec_all s (repeat (Go p) (S n)) = exec_all (turn s p) (repeat (Go p) n)) by (intros; reflexivity).
  assert (Lst : forall s c e, H st p s (DBind false) None e -> c = e -> H st p (exec_all s (repeat (Go p) 2)) (DServe false) (Some p) e).
  { intros s c e HB _. rewrite Go1.
    assert (H1 : H st p (turn s p) (DListen false) (Some p) e).
    { unfold turn. rewrite (h_p _ _ _ _ _ _ HB), (h_control _ _ _ _ _ _ HB). eapply H_set, H_control. exact HB. }
    remember (turn s p) as s1 eqn:E. clear E. rewrite Go1. cbn [repeat exec_all fold_left].
    unfold turn. rewrite (h_p _ _ _ _ _ _ H1). eapply H_set. exact H1. }
  assert (Prb : forall s, H st p s (DEventsBind false) (control st) None ->
     exists n, H st p (exec_all s (repeat (Go p) n)) (DServe false) (Some p) (Some p) /\ n <= 5).
  { intros s HB.
    assert (H1 : H st p (turn s p) (DProbe false) (control st) (Some p)).
    { unfold turn. rewrite (h_p _ _ _ _ _ _ HB), (h_events _ _ _ _ _ _ HB). eapply H_set, H_events. exact HB. }
    remember (turn s p) as s1 eqn:E.
    assert (Cn : connect s1 = match control st with Some _ => Refused | None => NotFound end).
    { unfold connect. rewrite (h_control _ _ _ _ _ _ H1). destruct (control st) as [o|] eqn:Ec; [|reflexivity].
      assert (L : o < p) by (apply Q3; reflexivity). rewrite (h_old _ _ _ _ _ _ H1) by lia.
      destruct (listening (procs st o)) eqn:El; [|reflexivity]. exfalso. apply (R o). split; assumption. }
    destruct (control st) as [o|] eqn:Ec.
    - assert (H2 : H st p (turn s1 p) (DUnlink false) (Some o) (Some p)).
      { unfold turn at 1. rewrite (h_p _ _ _ _ _ _ H1), Cn. eapply H_set. exact H1. }
      remember (turn s1 p) as s2 eqn:E2.
      assert (H3 : H st p (turn s2 p) (DBind false) None (Some p)).
      { unfold turn at 1. rewrite (h_p _ _ _ _ _ _ H2), (h_control _ _ _ _ _ _ H2). eapply H_set, H_control. exact H2. }
      exists 5. split; [|lia]. rewrite Go1, <- E, Go1, <- E2, Go1. eapply Lst; [exact H3|reflexivity].
    - assert (H2 : H st p (turn s1 p) (DBind false) None (Some p)).
      { unfold turn at 1. rewrite (h_p _ _ _ _ _ _ H1), Cn. eapply H_set. exact H1. }
      exists 4. split; [|lia]. rewrite Go1, <- E, Go1. eapply Lst; [exact H2|reflexivity]. }
  remember (exec st NewDaemon) as s0 eqn:E0.
  destruct (events st) as [o|] eqn:Ee.
  - assert (H1 : H st p (turn s0 p) (DEventsRemove false) (control st) (Some o)).
    { unfold turn at 1. rewrite (h_p _ _ _ _ _ _ H0), (h_events _ _ _ _ _ _ H0). eapply H_set. exact H0. }
    remember (turn s0 p) as s1 eqn:E1.
    assert (H2 : H st p (turn s1 p) (DEventsBind false) (control st) None).
    { unfold turn at 1. rewrite (h_p _ _ _ _ _ _ H1), (h_events _ _ _ _ _ _ H1). eapply H_set, H_events. exact H1. }
    destruct (Prb _ H2) as (n & X & L). exists (S (S n)). split; [|lia]. rewrite exec_all_cons, <- E0, Go1, <- E1, Go1. exact X.
  - assert (H1 : H st p (turn s0 p) (DEventsBind false) (control st) None).
    { unfold turn at 1. rewrite (h_p _ _ _ _ _ _ H0), (h_events _ _ _ _ _ _ H0). eapply H_set. exact H0. }
    destruct (Prb _ H1) as (n & X & L). exists (S n). split; [|lia]. rewrite exec_all_cons, <- E0, Go1. exact X.
Qed.

Lemma first_by_hand_7 st : quiet st -> (forall d, ~ reaches st d) ->
  H st (next st) (exec_all st (NewDaemon :: repeat (Go (next st)) 7)) (DServe false) (Some (next st)) (Some (next st)).
Proof.
  intros Q R. destruct (first_by_hand st Q R) as (n & X & L). replace 7 with (n + (7 - n)) by lia. rewrite repeat_app, app_comm_cons, exec_all_app.
  rewrite at_rest_idle; [exact X|]. rewrite (h_p _ _ _ _ _ _ X). exact I.
Qed.
