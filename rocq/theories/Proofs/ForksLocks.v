(** Who holds the lock of the pid file, and who gets killed, for C68. *)
From Coq Require Import List NArith ZArith Bool Arith Lia String.
From Verif Require Import Model.Base Model.Json Model.Forks Proofs.ForksProofs.
Import ListNotations.
Open Scope nat_scope.

Record kept (st : world) : Prop := {
  k_opener : forall q y k i d, procs st q = Some y -> pid_fd y = Some (k, i, d) -> d = q \/ (forked y /\ d = parent y);
  k_same : forall q q' y y' k k' i i' d, procs st q = Some y -> procs st q' = Some y' -> pid_fd y = Some (k, i, d) -> pid_fd y' = Some (k', i', d) -> i = i';
  k_held : forall i d, locks st i = Some d -> exists q y k, procs st q = Some y /\ live y = true /\ pid_fd y = Some (k, i, d)
}.

(** A process changes, without closing the pid file; or closes it, or ends, when it has no lock. *)
Lemma kept_set st st' p x x' : kept st -> procs st p = Some x -> (forall q, procs st' q = upd (procs st) p (Some x') q) ->
  born x' = born x -> parent x' = parent x -> pid_fd x' = pid_fd x \/ pid_fd x' = None ->
  (forall i d, locks st' i = Some d -> locks st i = Some d \/ exists k, pid_fd x' = Some (k, i, d) /\ live x' = true) ->
  (forall i d k, locks st' i = Some d -> pid_fd x = Some (k, i, d) ->
     (pid_fd x' = Some (k, i, d) /\ live x' = true) \/ (exists q y k', q <> p /\ procs st q = Some y /\ live y = true /\ pid_fd y = Some (k', i, d))) -> kept st'.
Proof.
  intros K P E B Pa Fd L H. assert (Pre : forall q y k i d, procs st' q = Some y -> pid_fd y = Some (k, i, d) -> exists y', procs st q = Some y' /\ pid_fd y' = Some (k, i, d) /\ born y' = born y /\ parent y' = parent y).
  { intros q y k i d Q F. rewrite E in Q. unfold upd in Q. destruct (q =? p) eqn:D; [|eauto]. apply Nat.eqb_eq in D. injection Q as <-. subst q. exists x.
    destruct Fd as [Fd|Fd]; [rewrite <- Fd; auto|congruence]. }
  constructor.
  - intros q y k i d Q F. destruct (Pre q y k i d Q F) as (y' & Q' & F' & B' & P'). destruct (k_opener _ K q y' k i d Q' F') as [O|[O1 O2]]; [auto|right]. unfold forked in *. rewrite B', P' in *. auto.
  - intros q q' y y' k k' i i' d Q Q' F F'. destruct (Pre _ _ _ _ _ Q F) as (z & Z & Fz & _), (Pre _ _ _ _ _ Q' F') as (z' & Z' & Fz' & _). exact (k_same _ K _ _ _ _ _ _ _ _ _ Z Z' Fz Fz').
  - intros i d Lk. destruct (L i d Lk) as [L0|(k & F1 & F2)].
    + destruct (k_held _ K i d L0) as (q & y & k & Q & Lv & F). destruct (Nat.eq_dec q p) as [->|N].
      * rewrite P in Q. injection Q as <-. destruct (H i d k Lk F) as [[F1 F2]|(q & y & k' & N & Q & Lq & Fq)].
        -- exists p, x', k. rewrite E. unfold upd. rewrite Nat.eqb_refl. auto.
        -- exists q, y, k'. rewrite E. unfold upd. apply Nat.eqb_neq in N. rewrite N. auto.
      * exists q, y, k. rewrite E. unfold upd. apply Nat.eqb_neq in N. rewrite N. auto.
    + exists p, x', k. rewrite E. unfold upd. rewrite Nat.eqb_refl. auto.
Qed.

Lemma kept_quiet st st1 p x x' : kept st -> procs st p = Some x -> procs st1 = procs st -> locks st1 = locks st ->
  born x' = born x -> parent x' = parent x -> pid_fd x' = pid_fd x -> live x' = true -> kept (put st1 p x').
Proof.
  intros K P E1 E2 B Pa F Lv. apply (kept_set st _ p x x' K P); auto.
  - intros q. cbn. rewrite E1. reflexivity.
  - intros i d. cbn. rewrite E2. auto.
  - intros i d k _ Fx. left. rewrite F. auto.
Qed.

Lemma unlock_left st i d j e : locks (unlock st i d) j = Some e -> locks st j = Some e /\ (j, e) <> (i, d).
Proof.
  unfold unlock. destruct (locks st i) as [f|] eqn:L.
  - destruct (f =? d) eqn:D.
    + cbn. unfold upd. destruct (j =? i) eqn:J; [discriminate|]. apply Nat.eqb_neq in J. intros H. split; [exact H|congruence].
    + intros H. split; [exact H|]. apply Nat.eqb_neq in D. intros [= -> ->]. congruence.
  - intros H. split; [exact H|]. intros [= -> ->]. congruence.
Qed.

Lemma kept_unlock st p x x' k i d : kept st -> procs st p = Some x -> pid_fd x = Some (k, i, d) ->
  born x' = born x -> parent x' = parent x -> pid_fd x' = pid_fd x \/ pid_fd x' = None -> kept (put (unlock st i d) p x').
Proof.
  intros K P F B Pa Fd. apply (kept_set st _ p x x' K P); auto.
  - intros q. cbn. destruct (unlock_same st i d) as (E & _). rewrite E. reflexivity.
  - intros j e H. left. exact (proj1 (unlock_left _ _ _ _ _ H)).
  - intros j e k' H F'. exfalso. apply (proj2 (unlock_left _ _ _ _ _ H)). congruence.
Qed.

Lemma shared_out st p d : shared st p d = true -> exists q y k i, q <> p /\ procs st q = Some y /\ live y = true /\ pid_fd y = Some (k, i, d).
Proof.
  unfold shared. intros H. apply existsb_exists in H as (q & _ & H). apply andb_true_iff in H as [N H]. apply negb_true_iff, Nat.eqb_neq in N.
  destruct (procs st q) as [y|] eqn:Q; [|discriminate]. apply andb_true_iff in H as [Lv H]. destruct (pid_fd y) as [[[k i] e]|] eqn:F; [|discriminate].
  apply Nat.eqb_eq in H. subst e. exists q, y, k, i. auto.
Qed.

Lemma kept_finish st p x a : kept st -> procs st p = Some x -> kept (finish st p x a).
Proof.
  intros K P. unfold finish. destruct (pid_fd x) as [[[k i] d]|] eqn:F.
  - destruct (shared st p d) eqn:S.
    + apply (kept_set st _ p x (go x a) K P); auto.
      intros j e k' _ F'. right. destruct (shared_out _ _ _ S) as (q & y & k2 & i2 & N & Q & Lv & Fq). rewrite F in F'. injection F' as -> -> ->.
      assert (i2 = j) by exact (k_same _ K _ _ _ _ _ _ _ _ _ Q P Fq F). subst i2. exists q, y, k2. auto.
    + apply (kept_unlock st p x _ k i d K P F); auto.
  - apply (kept_set st _ p x (go x a) K P); auto. intros j e k' _ F'. congruence.
Qed.

Lemma kept_fork st p x pa b ca : inv st -> kept st -> procs st p = Some x -> live (go x pa) = true -> (match b with Started _ => False | _ => True end) ->
  (forall k i d, pid_fd x = Some (k, i, d) -> d = p) -> kept (fork st p x pa b ca).
Proof.
  intros I K P Lv B D. assert (K1 : kept (put st p (go x pa))) by (apply (kept_quiet st st p x); auto).
  set (st1 := put st p (go x pa)) in *. assert (P1 : procs st1 p = Some (go x pa)) by (cbn; unfold upd; rewrite Nat.eqb_refl; reflexivity).
  assert (E : forall q y, procs (fork st p x pa b ca) q = Some y -> (q = next st /\ y = child_of p x b ca) \/ (q <> next st /\ procs st1 q = Some y)).
  { intros q y Q. cbn in Q. cbn. unfold upd in *. destruct (q =? next st) eqn:N; [apply Nat.eqb_eq in N; injection Q as <-; auto|]. apply Nat.eqb_neq in N. auto. }
  constructor.
  - intros q y k i d Q F. destruct (E q y Q) as [[-> ->]|[_ Q1]]; [|exact (k_opener _ K1 q y k i d Q1 F)]. right. cbn in F. rewrite (D _ _ _ F). split; [exact B|reflexivity].
  - intros q q' y y' k k' i i' d Q Q' F F'. destruct (E _ _ Q) as [[-> ->]|[_ Q1]], (E _ _ Q') as [[-> ->]|[_ Q1']]; cbn in F, F'; [congruence| | |].
    + exact (k_same _ K1 _ _ _ _ _ _ _ _ _ P1 Q1' F F').
    + exact (k_same _ K1 _ _ _ _ _ _ _ _ _ Q1 P1 F F').
    + exact (k_same _ K1 _ _ _ _ _ _ _ _ _ Q1 Q1' F F').
  - intros i d L. destruct (k_held _ K1 i d L) as (q & y & k & Q & Lq & F). exists q, y, k. split; [|auto]. cbn in Q |- *. unfold upd in *. destruct (q =? next st) eqn:N; [|exact Q].
    apply Nat.eqb_eq in N. subst q. exfalso. destruct (next st =? p) eqn:N; [apply Nat.eqb_eq in N; destruct (i_in _ I _ _ P); lia|]. destruct (i_in _ I _ _ Q). lia.
Qed.

Ltac ql K P := apply (kept_quiet _ _ _ _ _ K P); try reflexivity.

Lemma kept_turn st p ok n : inv st -> kept st -> kept (turn st p ok n).
Proof.
  intros I K. unfold turn. destruct (procs st p) as [x|] eqn:P; [|exact K]. pose proof (i_fine _ I _ _ P) as F.
  destruct (at_ x) as [auto| | | |c| | | | | | | | |rest| |null t|null| | |a| |e|] eqn:A; try exact K.
  - ql K P. destruct auto; reflexivity.
  - destruct (log_held x); [exact K|]. ql K P.
  - destruct ok; ql K P.
  - destruct ok; [|ql K P]. apply kept_fork; auto. intros k i d E. unfold fine in F. rewrite A in F. destruct (born x).
    + destruct F as (F & _). congruence.
    + exfalso; decompose [and ex] F; assumption.
    + exfalso; decompose [and ex] F; assumption.
  - destruct (procs st c) as [y|]; [|exact K]. destruct (at_ y); try exact K; apply kept_finish; assumption.
  - destruct (negb ok || _); ql K P.
  - destruct (log_held x); [exact K|]. ql K P.
  - (* POpen *) destruct ok; [|ql K P]. destruct (files x n); [ql K P|]. cbv zeta.
    set (i := match name st with Some i => i | None => inodes st end). set (st1 := mkWorld _ _ _ _ _ _ _ _ _).
    assert (C : pid_fd x = None /\ childless st p).
    { unfold fine in F. rewrite A in F. destruct (born x); [exfalso; decompose [and ex] F; assumption| |exfalso; decompose [and ex] F; assumption].
      destruct F as (_ & _ & _ & ? & ? & ? & _ & _ & _ & _ & _ & _ & _ & _ & _ & _ & F1 & F2). auto. }
    destruct C as [Fx Ch]. set (x' := go _ PLock). assert (Fx' : pid_fd x' = Some (n, i, p)) by reflexivity.
    assert (E : forall q y, procs (put st1 p x') q = Some y -> (q = p /\ y = x') \/ (q <> p /\ procs st q = Some y)).
    { intros q y Q. cbn in Q. unfold upd in Q. destruct (q =? p) eqn:N; [apply Nat.eqb_eq in N; injection Q as <-; auto|]. apply Nat.eqb_neq in N. auto. }
    assert (No : forall q y k j, q <> p -> procs st q = Some y -> pid_fd y = Some (k, j, p) -> False).
    { intros q y k j N Q Fy. destruct (k_opener _ K _ _ _ _ _ Q Fy) as [O|[O1 O2]]; [congruence|]. exact (Ch q y Q O1 (eq_sym O2)). }
    constructor.
    + intros q y k j d Q Fy. destruct (E q y Q) as [[-> ->]|[N Q1]]; [left; congruence|]. exact (k_opener _ K _ _ _ _ _ Q1 Fy).
    + intros q q' y y' k k' j j' d Q Q' Fy Fy'. destruct (E _ _ Q) as [[-> ->]|[N Q1]], (E _ _ Q') as [[-> ->]|[N' Q1']].
      * congruence.
      * exfalso. rewrite Fx' in Fy. injection Fy as <- <- <-. exact (No _ _ _ _ N' Q1' Fy').
      * exfalso. rewrite Fx' in Fy'. injection Fy' as <- <- <-. exact (No _ _ _ _ N Q1 Fy).
      * exact (k_same _ K _ _ _ _ _ _ _ _ _ Q1 Q1' Fy Fy').
    + intros j d L. destruct (k_held _ K j d L) as (q & y & k & Q & Lq & Fy). exists q, y, k. split; [|auto]. cbn. unfold upd. destruct (q =? p) eqn:N; [|exact Q].
      apply Nat.eqb_eq in N. subst q. congruence.
  - (* PLock *) destruct (pid_fd x) as [[[k i] d]|] eqn:Fx; [|exact K]. destruct (negb ok || _) eqn:T; [ql K P|].
    apply orb_false_iff in T as [_ T]. apply (kept_set st _ p x (go x PFork2) K P); auto.
    intros j e. cbn. unfold upd. destruct (j =? i) eqn:J; [|auto]. apply Nat.eqb_eq in J. intros [= <-]. subst j. right. exists k. auto.
  - destruct ok; [|ql K P]. apply kept_fork; auto. intros k i d E. unfold fine in F. rewrite A in F. destruct (born x).
    + exfalso; decompose [and ex] F; assumption.
    + destruct F as (_ & _ & _ & ? & ? & ? & _ & _ & _ & _ & _ & _ & _ & _ & _ & _ & k0 & i0 & F1 & _). congruence.
    + exfalso; decompose [and ex] F; assumption.
  - apply kept_finish; assumption.
  - destruct (pid_fd x) as [[[k i] d]|] eqn:Fx; [|exact K]. destruct ok; ql K P.
  - destruct (pid_fd x) as [[[k i] d]|] eqn:Fx; [|exact K]. destruct ok; ql K P.
  - destruct (pid_fd x) as [[[k i] d]|] eqn:Fx; [|exact K]. destruct ok; [|ql K P]. ql K P. destruct (skipn (S n) rest); reflexivity.
  - destruct ok; [|ql K P]. destruct (files x n); ql K P.
  - destruct ok; ql K P. destruct (t <? 2); reflexivity.
  - ql K P.
  - destruct (pid_fd x) as [[[k i] d]|] eqn:Fx; [|exact K]. apply (kept_unlock st p x _ k i d K P Fx); auto.
  - destruct (log_held x); [exact K|]. ql K P.
  - destruct (log_held x || config_held x); [exact K|]. ql K P.
  - destruct (log_held x); [exact K|]. destruct (pid_fd x) as [[[k i] d]|] eqn:Fx.
    + apply (kept_unlock st p x _ k i d K P Fx); auto.
    + apply (kept_set st _ p x (go x (Exited 1)) K P); auto. intros j e k' _ F'. congruence.
Qed.

Lemma kept_step st a : inv st -> kept st -> kept (step st a).
Proof.
  intros I K. destruct a as [s|p ok n|p log|n|p t| |p].
  - cbn [step]. destruct (negb _); [exact K|].
    assert (New : procs st (next st) = None) by (destruct (procs st (next st)) eqn:E; [destruct (i_in _ I _ _ E); lia|reflexivity]).
    set (st' := mkWorld _ _ _ _ _ _ _ _ _).
    assert (E : forall q y, procs st' q = Some y -> pid_fd y <> None -> procs st q = Some y).
    { intros q y Q. cbn in Q. unfold upd in Q. destruct (q =? next st); [|auto]. injection Q as <-. intros N. destruct (N eq_refl). }
    constructor.
    + intros q y k i d Q F. apply (k_opener _ K q y k i d); [apply E; congruence|exact F].
    + intros q q' y y' k k' i i' d Q Q' F F'. apply (k_same _ K q q' y y' k k' i i' d); auto; apply E; congruence.
    + intros i d L. destruct (k_held _ K i d L) as (q & y & k & Q & R). exists q, y, k. split; [|exact R]. cbn. unfold upd. destruct (q =? next st) eqn:N; [|exact Q].
      apply Nat.eqb_eq in N. congruence.
  - apply kept_turn; assumption.
  - cbn [step]. unfold watch_turn. destruct (procs st p) as [x|] eqn:P; [|exact K]. destruct (live x) eqn:Lv; [cbn [negb]|exact K].
    destruct (watch x); try exact K; try (ql K P; exact Lv).
    + destruct (changed x); [ql K P; exact Lv|exact K].
    + destruct log; ql K P; exact Lv.
  - cbn [step]. set (f := fun x => with_mind x (config x) (watch x) true (log_held x) (config_held x)). set (st' := mkWorld _ _ _ _ _ _ _ _ _).
    assert (E : forall q y, procs st' q = Some y -> exists z, procs st q = Some z /\ y = f z).
    { intros q y Q. cbn in Q. destruct (procs st q) as [z|]; [|discriminate]. injection Q as <-. exists z. auto. }
    constructor.
    + intros q y k i d Q F. destruct (E q y Q) as (z & Z & ->). exact (k_opener _ K q z k i d Z F).
    + intros q q' y y' k k' i i' d Q Q' F F'. destruct (E _ _ Q) as (z & Z & ->), (E _ _ Q') as (z' & Z' & ->). exact (k_same _ K q q' z z' k k' i i' d Z Z' F F').
    + intros i d L. destruct (k_held _ K i d L) as (q & y & k & Q & R). exists q, (f y), k. split; [|exact R]. cbn. rewrite Q. reflexivity.
  - rewrite open_tty_nothing; assumption.
  - constructor; [exact (k_opener _ K)|exact (k_same _ K)|exact (k_held _ K)].
  - cbn [step]. destruct (procs st p) as [x|] eqn:P; [|exact K]. destruct (live x); [|exact K]. apply kept_finish; assumption.
Qed.
Lemma kept_run l : forall st, inv st -> kept st -> kept (run st l).
Proof. induction l as [|a l IH]; intros st I K; [exact K|]. change (run st (a :: l)) with (run (step st a) l). apply IH; [apply inv_step, I|apply kept_step; assumption]. Qed.
Lemma kept_boot n left d : kept (boot n left d).
Proof. constructor; cbn; intros; discriminate. Qed.

(** Only [Kill] kills. *)
Definition killed (st : world) (p : nat) : Prop := exists x, procs st p = Some x /\ at_ x = Killed.
Lemma put_killed st0 st p x q : procs st = procs st0 -> at_ x <> Killed -> killed (put st p x) q -> killed st0 q.
Proof.
  intros E N (y & Q & A). cbn in Q. unfold upd in Q. destruct (q =? p); [injection Q as <-; contradiction|]. exists y. rewrite <- E. auto.
Qed.
Lemma finish_killed st p x a q : a <> Killed -> killed (finish st p x a) q -> killed st q.
Proof.
  intros N. unfold finish. apply put_killed; [|exact N]. destruct (pid_fd x) as [[[k i] d]|]; [|reflexivity]. destruct (shared st p d); [reflexivity|]. apply unlock_same.
Qed.
Lemma fork_killed st p x pa b ca q : pa <> Killed -> ca <> Killed -> killed (fork st p x pa b ca) q -> killed st q.
Proof.
  intros N N' (y & Q & A). cbn in Q. unfold upd in Q. destruct (q =? next st); [injection Q as <-; contradiction|]. destruct (q =? p); [injection Q as <-; contradiction|]. exists y. auto.
Qed.
Lemma turn_killed st p ok n q : killed (turn st p ok n) q -> killed st q.
Proof.
  unfold turn. destruct (procs st p) as [x|] eqn:P; [|auto].
  destruct (at_ x) as [auto| | | |c| | | | | | | | |rest| |null t|null| | |a| |e|] eqn:A; auto;
    repeat match goal with |- killed (match ?c with _ => _ end) _ -> _ => destruct c eqn:? end; auto; cbv zeta;
    try (apply finish_killed; discriminate); try (apply fork_killed; discriminate);
    (apply put_killed; [first [reflexivity | apply unlock_same]|]); cbn [at_ go];
    repeat match goal with |- context [match ?c with _ => _ end] => destruct c end; discriminate.
Qed.
Lemma step_killed st a q : killed (step st a) q -> killed st q \/ a = Kill q.
Proof.
  destruct a as [s|p ok n|p log|n|p t| |p]; cbn [step].
  - destruct (negb _); [auto|]. intros (y & Q & A). cbn in Q. unfold upd in Q. destruct (q =? next st); [injection Q as <-; discriminate|]. left. exists y. auto.
  - intros H. left. exact (turn_killed _ _ _ _ _ H).
  - unfold watch_turn. destruct (procs st p) as [x|] eqn:P; [|auto]. destruct (live x) eqn:Lv; [cbn [negb]|auto].
    assert (N : at_ x <> Killed) by (intros N; unfold live in Lv; rewrite N in Lv; discriminate). intros H. left. revert H.
    repeat match goal with |- killed (match ?c with _ => _ end) _ -> _ => destruct c end; auto; (apply put_killed; [reflexivity|exact N]).
  - intros (y & Q & A). cbn in Q. destruct (procs st q) as [z|] eqn:Z; [|discriminate]. injection Q as <-. left. exists z. auto.
  - destruct (procs st p) as [x|] eqn:P; [|auto]. destruct (at_ x) eqn:A; auto. destruct (tty x); auto. destruct (session x =? p); auto.
    intros H. left. revert H. apply put_killed; [reflexivity|]. cbn. congruence.
  - intros (y & Q & A). left. exists y. auto.
  - destruct (Nat.eq_dec p q) as [->|N]; [auto|]. destruct (procs st p) as [x|] eqn:P; [|auto]. destruct (live x); [|auto].
    intros (y & Q & A). left. exists y. split; [|exact A]. unfold finish in Q. cbn in Q. unfold upd in Q. destruct (q =? p) eqn:D; [apply Nat.eqb_eq in D; congruence|].
    destruct (pid_fd x) as [[[k i] d]|]; [|exact Q]. destruct (shared st p d); [exact Q|]. destruct (unlock_same st i d) as (E & _). rewrite E in Q. exact Q.
Qed.
