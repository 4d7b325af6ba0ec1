(** The thread that watches the configuration files, and the locks. *)
From Coq Require Import List NArith ZArith Bool Arith Lia.
From Verif Require Import Model.Base Model.Forks Spec.ForksSpec Proofs.ForksProofs Proofs.ForksMore.
Import ListNotations.
Open Scope nat_scope.

Definition same_mind (x x' : process) : Prop :=
  born x' = born x /\ parent x' = parent x /\ config x' = config x /\ watch x' = watch x /\ changed x' = changed x /\ log_held x' = log_held x /\ config_held x' = config_held x.
Lemma same_refl x : same_mind x x.
Proof. repeat split. Qed.

Lemma put_keeps st st' p x x' : procs st' = procs st -> procs st p = Some x -> same_mind x x' ->
  (forall q y, procs st q = Some y -> exists y', procs (put st' p x') q = Some y' /\ same_mind y y' /\ (q <> p -> y' = y)) /\
  (forall q y, procs (put st' p x') q = Some y -> procs st q = None -> False).
Proof.
  intros E P S. cbn [put procs]. rewrite E. unfold upd. split.
  - intros q y Q. destruct (q =? p) eqn:Eq; [apply Nat.eqb_eq in Eq; subst q|]; [|exists y; repeat split; auto].
    exists x'. rewrite P in Q. injection Q as <-. split; [reflexivity|]. split; [exact S|]. intros []; reflexivity.
  - intros q y Q N. destruct (q =? p) eqn:Eq; [apply Nat.eqb_eq in Eq; subst q|]; congruence.
Qed.

(** What a step does to the processes there are, and what is new. *)
Definition keeps (st st' : world) (p : nat) : Prop :=
  (forall q y, procs st q = Some y -> exists y', procs st' q = Some y' /\ same_mind y y' /\ (q <> p -> y' = y)) /\
  (forall q y, procs st' q = Some y -> procs st q = None -> exists x b a, procs st p = Some x /\ (b = Forked1 \/ b = Forked2) /\ y = child_of p x b a).
Lemma keeps_refl st p : keeps st st p.
Proof. split; [intros q y Q; exists y; repeat split; auto|intros; congruence]. Qed.
Lemma keeps_put st st' p x x' : procs st' = procs st -> procs st p = Some x -> same_mind x x' -> keeps st (put st' p x') p.
Proof.
  intros E P S. destruct (put_keeps st st' p x x' E P S) as (A & B). split; [exact A|]. intros q y Q N. destruct (B q y Q N).
Qed.
Lemma keeps_fork st p x pa b ca : inv st -> procs st p = Some x -> b = Forked1 \/ b = Forked2 -> keeps st (fork st p x pa b ca) p.
Proof.
  intros I P B. split.
  - intros q y Q. destruct (Nat.eq_dec q p) as [->|N]; [|exists y; split; [apply (fork_old _ _ _ _ _ _ _ _ I Q N)|split; [apply same_refl|auto]]].
    exists (go x pa). rewrite P in Q. injection Q as <-. split; [apply fork_self; assumption|]. split; [repeat split|intros []; reflexivity].
  - intros q y Q N. unfold fork in Q. cbn [procs] in Q. unfold upd in Q. destruct (q =? next st) eqn:E.
    + injection Q as <-. exists x, b, ca. auto.
    + destruct (q =? p) eqn:E'; [apply Nat.eqb_eq in E'; subst q|]; congruence.
Qed.
Lemma unlock_procs st i d : procs (unlock st i d) = procs st.
Proof. unfold unlock. destruct (locks st i) as [e|]; [|reflexivity]. destruct (e =? d); reflexivity. Qed.
Lemma keeps_finish st p x a : procs st p = Some x -> keeps st (finish st p x a) p.
Proof.
  intros P. unfold finish. apply (keeps_put _ _ p x); [|exact P|repeat split]. destruct (pid_fd x) as [[[k i] d]|]; [|reflexivity].
  destruct (shared st p d); [reflexivity|apply unlock_procs].
Qed.
Lemma keeps_turn st p ok n : inv st -> keeps st (turn st p ok n) p.
Proof.
  intros I. unfold turn. destruct (procs st p) as [x|] eqn:P; [|apply keeps_refl].
  destruct (at_ x) eqn:A;
    repeat match goal with
    | |- keeps st st p => apply keeps_refl
    | |- keeps st (finish _ _ _ _) p => apply keeps_finish; exact P
    | |- keeps st (fork _ _ _ _ _ _) p => apply keeps_fork; [exact I|exact P|auto]
    | |- keeps st (put (unlock _ _ _) p _) p => apply (keeps_put _ _ p x); [apply unlock_procs|exact P|repeat split]
    | |- keeps st (put _ p _) p => apply (keeps_put _ _ p x); [reflexivity|exact P|repeat split]
    | |- keeps st (match ?e with _ => _ end) p => destruct e
    end.
Qed.

Lemma disk_turn st p ok n : disk (turn st p ok n) = disk st.
Proof.
  unfold turn. destruct (procs st p) as [x|]; [|reflexivity]. unfold finish, unlock.
  destruct (at_ x); repeat (match goal with |- context [match ?e with _ => _ end] => destruct e end); reflexivity.
Qed.

(** Every step but the thread's own and the edit of the files. *)
Lemma keeps_step st a p : inv st -> (forall log, a <> Watch p log) -> (forall n, a <> Edit n) ->
  disk (step st a) = disk st /\
  (forall y, procs st p = Some y -> exists y', procs (step st a) p = Some y' /\ same_mind y y').
Proof.
  intros I NW NE. destruct a as [s|q ok n|q log|n|q t| |q]; try (destruct (NE n eq_refl)).
  - cbn [step]. destruct (negb _); [split; [reflexivity|intros y Y; exists y; split; [exact Y|apply same_refl]]|]. split; [reflexivity|].
    intros y Y. exists y. split; [|apply same_refl]. cbn [procs]. unfold upd. destruct (p =? next st) eqn:E; [|exact Y].
    apply Nat.eqb_eq in E. pose proof (i_in _ I p y Y). lia.
  - cbn [step]. split; [apply disk_turn|]. intros y Y. destruct (keeps_turn st q ok n I) as (K & _). destruct (K p y Y) as (y' & Y' & S & _). eauto.
  - assert (N : q <> p) by (intros ->; exact (NW log eq_refl)). cbn [step]. unfold watch_turn. destruct (procs st q) as [x|] eqn:Q; [|split; [reflexivity|intros y Y; exists y; split; [exact Y|apply same_refl]]].
    assert (G : forall x', procs (put st q x') p = procs st p).
    { intros x'. cbn [put procs]. unfold upd. destruct (p =? q) eqn:E; [apply Nat.eqb_eq in E; congruence|reflexivity]. }
    repeat (match goal with |- context [match ?e with _ => _ end] => destruct e end);
      (split; [reflexivity|]); intros y Y; exists y; (split; [first [exact Y | rewrite G; exact Y]|apply same_refl]).
  - rewrite open_tty_nothing by exact I. split; [reflexivity|]. intros y Y. exists y. split; [exact Y|apply same_refl].
  - split; [reflexivity|]. intros y Y. exists y. split; [exact Y|apply same_refl].
  - cbn [step]. destruct (procs st q) as [x|] eqn:Q; [|split; [reflexivity|intros y Y; exists y; split; [exact Y|apply same_refl]]].
    destruct (live x); [|split; [reflexivity|intros y Y; exists y; split; [exact Y|apply same_refl]]].
    split; [unfold finish, unlock; repeat (match goal with |- context [match ?e with _ => _ end] => destruct e end); reflexivity|].
    intros y Y. destruct (keeps_finish st q x Killed Q) as (K & _). destruct (K p y Y) as (y' & Y' & S & _). eauto.
Qed.

(** ** Processes that were started have the thread *)

Definition busy (w : watcher) : bool * bool :=
  match w with WNone | WIdle => (false, false) | WLogs => (true, false) | WLoads => (false, true) | WLoadsLogs => (true, true) end.
Definition minds (st : world) (x : process) : Prop :=
  watch x <> WNone /\ log_held x = fst (busy (watch x)) /\ config_held x = snd (busy (watch x)) /\
  (watch x = WIdle -> changed x = false -> config x = disk st).
Definition mind (st : world) : Prop := forall p x s, procs st p = Some x -> born x = Started s -> minds st x.

Lemma minds_same st st' x x' : disk st' = disk st -> same_mind x x' -> minds st x -> minds st' x'.
Proof.
  intros D (B & P & C & W & Ch & L & H) (M1 & M2 & M3 & M4). unfold minds. rewrite D, C, W, Ch, L, H. auto.
Qed.

Lemma mind_step st a : inv st -> mind st -> mind (step st a).
Proof.
  intros I M. intros p x' s P B.
  destruct a as [s0|q ok n|q log|n|q t| |q].
  - cbn [step] in P. destruct (negb _) eqn:Ok; cbn [step]; rewrite ?Ok; [exact (M p x' s P B)|]. cbn [procs] in P. unfold upd in P. destruct (p =? next st).
    + injection P as <-. unfold minds, started. cbn. repeat split; try discriminate.
    + exact (M p x' s P B).
  - cbn [step] in *. destruct (keeps_turn st q ok n I) as (K1 & K2). destruct (procs st p) as [x|] eqn:X.
    + destruct (K1 p x X) as (y & Y & S & _). rewrite P in Y. injection Y as <-. apply (minds_same st _ x x'); [apply disk_turn|exact S|].
      apply (M p x s X). destruct S as (S & _). congruence.
    + destruct (K2 p x' P X) as (z & b & a & Z & Bb & E). subst x'. cbn [child_of born] in B. destruct Bb; congruence.
  - cbn [step] in *. unfold watch_turn in *. destruct (procs st q) as [x|] eqn:Q; [|exact (M p x' s P B)].
    destruct (negb (live x)); [exact (M p x' s P B)|].
    destruct (Nat.eq_dec p q) as [->|N].
    2: { assert (G : forall z, procs (put st q z) p = procs st p) by (intros z; cbn [put procs]; unfold upd; destruct (p =? q) eqn:E; [apply Nat.eqb_eq in E; congruence|reflexivity]).
         repeat (match type of P with context [match ?e with _ => _ end] => destruct e end); rewrite ?G in P; exact (M p x' s P B). }
    assert (MB : born x = Started s -> minds st x) by exact (M q x s Q).
    destruct (watch x) eqn:W.
    + rewrite Q in P. injection P as <-. exact (MB B).
    + destruct (changed x) eqn:Ch.
      * rewrite put_at in P. injection P as <-. destruct (MB B) as (M1 & M2 & M3 & M4). rewrite W in *. unfold minds. cbn. repeat split; try discriminate. exact M3.
      * rewrite Q in P. injection P as <-. exact (MB B).
    + rewrite put_at in P. injection P as <-. unfold minds. cbn. repeat split; discriminate.
    + destruct log; rewrite put_at in P; injection P as <-; unfold minds; cbn; repeat split; try discriminate.
      destruct (MB B) as (M1 & M2 & M3 & M4). rewrite W in *. exact M2.
    + rewrite put_at in P. injection P as <-. unfold minds. cbn. repeat split; discriminate.
  - cbn [step map_procs procs] in P. destruct (procs st p) as [x|] eqn:X; [|discriminate]. injection P as <-.
    cbn [with_mind born] in B. destruct (M p x s X B) as (M1 & M2 & M3 & M4). unfold minds. cbn. repeat split; auto. discriminate.
  - rewrite open_tty_nothing in * by exact I. exact (M p x' s P B).
  - exact (M p x' s P B).
  - cbn [step] in *. destruct (procs st q) as [x|] eqn:Q; [|exact (M p x' s P B)]. destruct (live x); [|exact (M p x' s P B)].
    destruct (keeps_finish st q x Killed Q) as (K1 & K2). destruct (procs st p) as [y|] eqn:Y.
    + destruct (K1 p y Y) as (y' & Y' & S & _). rewrite P in Y'. injection Y' as <-. apply (minds_same st _ y x'); [|exact S|].
      * unfold finish, unlock; repeat (match goal with |- context [match ?e with _ => _ end] => destruct e end); reflexivity.
      * apply (M p y s Y). destruct S as (S & _). congruence.
    + destruct (K2 p x' P Y) as (z & b & a & Z & Bb & E). subst x'. cbn [child_of born] in B. destruct Bb; congruence.
Qed.
Lemma mind_boot n left d : mind (boot n left d).
Proof. intros p x s P. discriminate. Qed.
Lemma mind_run l : forall st, inv st -> mind st -> mind (run st l).
Proof.
  induction l as [|a l IH]; intros st I M; [exact M|]. change (run st (a :: l)) with (run (step st a) l). apply IH; [apply inv_step; exact I|apply mind_step; assumption].
Qed.

(** ** The thread gets there *)

(** How many turns it needs. *)
Definition turns (x : process) : nat :=
  match watch x with
  | WNone | WIdle => if changed x then 3 else 0
  | WLogs => if changed x then 5 else 2
  | WLoads => if changed x then 4 else 1
  | WLoadsLogs => if changed x then 5 else 2
  end.

Lemma watch_works st p x log : procs st p = Some x -> live x = true -> watch x <> WNone -> exists x', procs (watch_turn st p log) p = Some x' /\
  at_ x' = at_ x /\ watch x' <> WNone /\ disk (watch_turn st p log) = disk st /\ (turns x = 0 -> turns x' = 0) /\ (if log then turns x' <= S (turns x) else turns x' <= pred (turns x)).
Proof.
  intros P L N. unfold watch_turn. rewrite P, L. cbn [negb]. destruct (watch x) eqn:W; [congruence| | | |].
  - destruct (changed x) eqn:C.
    + eexists. split; [apply put_at|]. repeat split; try discriminate; unfold turns; rewrite W; cbn [with_mind watch changed]; rewrite ?C; [discriminate|]. destruct log; lia.
    + exists x. split; [exact P|]. repeat split; try congruence. unfold turns. rewrite W, C. destruct log; lia.
  - eexists. split; [apply put_at|]. repeat split; try discriminate; unfold turns; rewrite W; cbn [with_mind watch changed]; destruct (changed x); try discriminate; destruct log; lia.
  - destruct log; eexists; (split; [apply put_at|]); repeat split; try discriminate; unfold turns; rewrite W; cbn [with_mind watch changed]; destruct (changed x); try discriminate; lia.
  - eexists. split; [apply put_at|]. repeat split; try discriminate; unfold turns; rewrite W; cbn [with_mind watch changed]; destruct (changed x); try discriminate; destruct log; lia.
Qed.

Lemma dead_step st a p x : inv st -> procs st p = Some x -> live x = false -> exists x', procs (step st a) p = Some x' /\ at_ x' = at_ x.
Proof.
  intros I P L. destruct a as [s|q ok n|q log|n|q t| |q].
  - cbn [step]. destruct (negb _); [eauto|]. exists x. split; [|reflexivity]. cbn [procs]. unfold upd. destruct (p =? next st) eqn:E; [|exact P].
    apply Nat.eqb_eq in E. pose proof (i_in _ I p x P). lia.
  - cbn [step]. destruct (Nat.eq_dec p q) as [<-|N].
    + exists x. split; [|reflexivity]. unfold turn. rewrite P. unfold live in L. destruct (at_ x); try discriminate; exact P.
    + destruct (keeps_turn st q ok n I) as (K & _). destruct (K p x P) as (y & Y & _ & E). rewrite (E N) in Y. eauto.
  - cbn [step]. unfold watch_turn. destruct (procs st q) as [z|] eqn:Q; [|eauto]. destruct (negb (live z)) eqn:Lz; [eauto|].
    assert (N : p <> q) by (intros ->; rewrite P in Q; injection Q as <-; rewrite L in Lz; discriminate).
    assert (G : forall x', procs (put st q x') p = procs st p) by (intros z'; cbn [put procs]; unfold upd; destruct (p =? q) eqn:E; [apply Nat.eqb_eq in E; congruence|reflexivity]).
    repeat (match goal with |- context [match ?e with _ => _ end] => destruct e end); rewrite ?G; eauto.
  - cbn [step map_procs procs]. rewrite P. eexists. split; [reflexivity|reflexivity].
  - rewrite open_tty_nothing by exact I. eauto.
  - exists x. split; [exact P|reflexivity].
  - cbn [step]. destruct (procs st q) as [z|] eqn:Q; [|eauto]. destruct (live z) eqn:Lz; [|eauto].
    assert (N : p <> q) by (intros ->; congruence). destruct (keeps_finish st q z Killed Q) as (K & _). destruct (K p x P) as (y & Y & _ & E). rewrite (E N) in Y. eauto.
Qed.
Lemma dead_run l : forall st p x, inv st -> procs st p = Some x -> live x = false -> exists x', procs (run st l) p = Some x' /\ at_ x' = at_ x.
Proof.
  induction l as [|a l IH]; intros st p x I P L; [eauto|]. change (run st (a :: l)) with (run (step st a) l).
  destruct (dead_step st a p x I P L) as (x1 & P1 & A1). destruct (IH (step st a) p x1 (inv_step _ _ I) P1) as (x2 & P2 & A2).
  { unfold live in *. rewrite A1. exact L. }
  exists x2. split; [exact P2|congruence].
Qed.

Lemma turns_step st a p x : inv st -> procs st p = Some x -> watch x <> WNone -> live x = true -> (forall n, a <> Edit n) ->
  exists x', procs (step st a) p = Some x' /\ watch x' <> WNone /\ disk (step st a) = disk st /\ (turns x = 0 -> turns x' = 0) /\
    turns x' + worked p [a] <= turns x + logged p [a] \/ turns x = 0 /\ exists x', procs (step st a) p = Some x' /\ watch x' <> WNone /\ disk (step st a) = disk st /\ turns x' = 0.
Proof.
  intros I P W L NE. assert (D : {q & {log | a = Watch q log /\ q = p}} + {forall log, a <> Watch p log}).
  { destruct a as [s|q ok n|q log|n|q t| |q]; try (right; discriminate). destruct (Nat.eq_dec q p) as [->|N]; [left; eauto|right; congruence]. }
  destruct D as [(q & log & -> & ->)|NW].
  - destruct (watch_works st p x log P L W) as (x' & P' & A' & W' & D' & Z & T). cbn [step]. cbn [worked logged]. rewrite Nat.eqb_refl.
    destruct (turns x) as [|t] eqn:Tx.
    + exists x'. right. split; [reflexivity|]. exists x'. auto 8.
    + exists x'. left. repeat split; auto. destruct log; cbn [pred] in T; lia.
  - destruct (keeps_step st a p I NW NE) as (D & K). destruct (K x P) as (x' & P' & S). exists x'. left.
    assert (E : turns x' = turns x) by (destruct S as (_ & _ & _ & Sw & Sc & _); unfold turns; rewrite Sw, Sc; reflexivity).
    assert (E' : watch x' = watch x) by (destruct S as (_ & _ & _ & Sw & _); exact Sw).
    repeat split; try congruence. assert (worked p [a] = 0 /\ logged p [a] = 0); [|lia].
    destruct a as [s|q ok n|q log|n|q t| |q]; try (split; reflexivity). cbn [worked logged].
    destruct (q =? p) eqn:Eq; [apply Nat.eqb_eq in Eq; subst q; destruct (NW log eq_refl)|]. destruct log; split; reflexivity.
Qed.

Lemma worked_cons p a l : worked p (a :: l) = worked p [a] + worked p l.
Proof. destruct a as [s|q ok n|q [|]|n|q t| |q]; cbn [worked]; try reflexivity. destruct (q =? p); reflexivity. Qed.
Lemma logged_cons p a l : logged p (a :: l) = logged p [a] + logged p l.
Proof. destruct a as [s|q ok n|q [|]|n|q t| |q]; cbn [logged]; try reflexivity. destruct (q =? p); reflexivity. Qed.

Lemma turns_run l : forall st p x y, inv st -> procs st p = Some x -> watch x <> WNone -> (forall n, ~ In (Edit n) l) ->
  procs (run st l) p = Some y -> live y = true ->
  watch y <> WNone /\ disk (run st l) = disk st /\ (turns x = 0 -> turns y = 0) /\ (turns y = 0 \/ turns y + worked p l <= turns x + logged p l).
Proof.
  induction l as [|a l IH]; intros st p x y I P W NE Y L.
  - cbn in Y. rewrite P in Y. injection Y as <-. repeat split; auto. 
  - assert (Lx : live x = true).
    { destruct (live x) eqn:Lx; [reflexivity|]. destruct (dead_run (a :: l) st p x I P Lx) as (y' & Y' & A'). rewrite Y in Y'. injection Y' as <-. unfold live in *. rewrite A' in L. congruence. }
    change (run st (a :: l)) with (run (step st a) l) in *. rewrite worked_cons, logged_cons.
    destruct (turns_step st a p x I P W Lx ltac:(intros n ->; apply (NE n); left; reflexivity)) as (x' & [(P' & W' & D' & Z & T)|(Tx & x1 & P' & W' & D' & T)]).
    + destruct (IH (step st a) p x' y (inv_step _ _ I) P' W' ltac:(intros n H; apply (NE n); right; exact H) Y L) as (A & B & C & E).
      repeat split; try assumption; [congruence|intros Q; auto|]. destruct E as [E|E]; [left; exact E|right; lia].
    + destruct (IH (step st a) p x1 y (inv_step _ _ I) P' W' ltac:(intros n H; apply (NE n); right; exact H) Y L) as (A & B & C & E).
      repeat split; try assumption; [congruence|intros Q; auto|]. left. auto.
Qed.

Lemma follows st l p x s y : inv st -> mind st -> procs st p = Some x -> born x = Started s -> (forall n, ~ In (Edit n) l) ->
  procs (run st l) p = Some y -> live y = true -> 5 + logged p l <= worked p l ->
  config y = disk st /\ log_held y = false /\ config_held y = false.
Proof.
  intros I M P B NE Y L H. destruct (M p x s P B) as (W & _).
  destruct (turns_run l st p x y I P W NE Y L) as (Wy & D & _ & T).
  assert (Tx : turns x <= 5) by (unfold turns; destruct (watch x), (changed x); lia).
  assert (T0 : turns y = 0) by lia.
  assert (By : born y = Started s).
  { clear - P B Y I NE. revert st x P B Y I. induction l as [|a l IH]; intros st x P B Y I; [cbn in Y; congruence|].
    change (run st (a :: l)) with (run (step st a) l) in Y.
    assert (K : exists x', procs (step st a) p = Some x' /\ born x' = born x).
    { destruct a as [s0|q ok n|q log|n|q t| |q]; try (destruct (NE n); left; reflexivity);
        try (match goal with |- context [step st ?a] => destruct (keeps_step st a p I ltac:(discriminate) ltac:(discriminate)) as (_ & K); destruct (K x P) as (x' & P' & S & _); eauto end).
      cbn [step]. unfold watch_turn. destruct (procs st q) as [z|] eqn:Q; [|eauto].
      assert (G : forall z', born z' = born z -> exists x', procs (put st q z') p = Some x' /\ born x' = born x).
      { intros z' E. cbn [put procs]. unfold upd. destruct (p =? q) eqn:Eq; [apply Nat.eqb_eq in Eq; subst q|]; [|eauto]. exists z'. split; [reflexivity|congruence]. }
      repeat (match goal with |- context [match ?e with _ => _ end] => destruct e end); eauto; apply G; reflexivity. }
    destruct K as (x' & P' & B'). apply (IH ltac:(intros n H; apply (NE n); right; exact H) (step st a) x' P' ltac:(congruence) Y (inv_step _ _ I)). }
  destruct (mind_run l st I M p y s Y By) as (M1 & M2 & M3 & M4).
  assert (E : watch y = WIdle /\ changed y = false) by (unfold turns in T0; destruct (watch y), (changed y); try discriminate; try congruence; auto).
  destruct E as (E1 & E2). rewrite M2, M3, E1, (M4 E1 E2). auto.
Qed.

(** ** Processes that were forked do not have it *)

Lemma forked_step st a p x : inv st -> procs st p = Some x -> forked x ->
  exists x', procs (step st a) p = Some x' /\ born x' = born x /\ config x' = config x /\ log_held x' = log_held x /\ config_held x' = config_held x.
Proof.
  intros I P F. destruct a as [s|q ok n|q log|n|q t| |q];
    try (match goal with |- context [step st ?a] => destruct (keeps_step st a p I ltac:(discriminate) ltac:(discriminate)) as (_ & K); destruct (K x P) as (x' & P' & S1 & S2 & S3 & S4 & S5 & S6 & S7); exists x'; auto 8 end).
  - destruct (Nat.eq_dec q p) as [->|N].
    + pose proof (forked_alone st p x I P F) as W. cbn [step]. unfold watch_turn. rewrite P, W. exists x. destruct (negb (live x)); auto 8.
    + destruct (keeps_step st (Watch q log) p I ltac:(congruence) ltac:(discriminate)) as (_ & K). destruct (K x P) as (x' & P' & S1 & S2 & S3 & S4 & S5 & S6 & S7). exists x'. auto 8.
  - cbn [step map_procs procs]. rewrite P. eexists. split; [reflexivity|]. repeat split.
Qed.
Lemma forked_run l : forall st p x, inv st -> procs st p = Some x -> forked x ->
  exists x', procs (run st l) p = Some x' /\ born x' = born x /\ config x' = config x /\ log_held x' = log_held x /\ config_held x' = config_held x.
Proof.
  induction l as [|a l IH]; intros st p x I P F; [exists x; auto 8|]. change (run st (a :: l)) with (run (step st a) l).
  destruct (forked_step st a p x I P F) as (x1 & P1 & A1 & A2 & A3 & A4).
  destruct (IH (step st a) p x1 (inv_step _ _ I) P1 ltac:(unfold forked in *; rewrite A1; exact F)) as (x2 & P2 & B1 & B2 & B3 & B4).
  exists x2. repeat split; congruence.
Qed.

(** ** What is locked in a forked process stays locked, there and in the processes forked from it *)

Definition heir (st : world) (p : nat) (x : process) : Prop :=
  (born x = Forked2 -> exists y, procs st (parent x) = Some y /\ born y = Forked1 /\ config x = config y /\ log_held x = log_held y /\ config_held x = config_held y) /\
  (forked x -> forall k, at_ x = PServe k -> log_held x = false /\ (config_held x = true -> k = 0)).
Definition heirs (st : world) : Prop := forall p x, procs st p = Some x -> heir st p x.

Lemma held_turn st p x ok n x' : inv st -> procs st p = Some x -> heir st p x -> forked x -> procs (turn st p ok n) p = Some x' ->
  forall k, at_ x' = PServe k -> log_held x' = false /\ (config_held x' = true -> k = 0).
Proof.
  intros I P (_ & H) F T k E. pose proof (i_in _ I p x P) as Ip. specialize (H F). unfold turn in T. rewrite P in T.
  destruct (at_ x) eqn:A;
    repeat match type of T with
    | procs (put _ _ _) _ = _ => rewrite put_at in T; injection T as <-; cbn [at_ go with_env with_files with_pid with_ids log_held config_held] in E
    | procs (finish _ _ _ _) _ = _ => unfold finish in T
    | procs (fork _ _ _ _ _ _) _ = _ => rewrite fork_self in T by assumption; injection T as <-; cbn [at_ go] in E
    | procs (match ?e with _ => _ end) _ = _ => destruct e eqn:?
    end; try discriminate; try congruence.
  - exfalso. pose proof (i_fine _ I p x P) as Fi. unfold fine in Fi. rewrite A in Fi. unfold forked in F. destruct (born x); [contradiction| |].
    + destruct Fi as (_ & _ & _ & ? & ? & ? & _ & _ & _ & _ & _ & _ & []).
    + destruct Fi as (_ & _ & _ & _ & _ & _ & _ & m & ym & l & yl & s & _ & _ & _ & _ & _ & _ & _ & _ & _ & []).
  - match type of E with match ?e with _ => _ end = _ => destruct e end; discriminate.
  - destruct (target <? 2); discriminate.
  - split; [assumption|]. injection E as <-. reflexivity.
  - assert (at_ x = PServe k) by congruence. rewrite P in T. injection T as <-. apply H. congruence.
  - apply orb_false_iff in Heqb. destruct Heqb as (Hb1 & Hb2). cbn [go log_held config_held]. split; [exact Hb1|congruence].
Qed.

Lemma heirs_step st a : inv st -> heirs st -> heirs (step st a).
Proof.
  intros I H p x' P'. destruct (procs st p) as [x|] eqn:P.
  - assert (Bx : born x' = born x /\ parent x' = parent x /\ (forked x -> config x' = config x /\ log_held x' = log_held x /\ config_held x' = config_held x)).
    { destruct a as [s|q ok n|q log|n|q t| |q];
        try (match type of P' with context [step st ?a] => destruct (keeps_step st a p I ltac:(discriminate) ltac:(discriminate)) as (_ & K); destruct (K x P) as (y & Y & S1 & S2 & S3 & S4 & S5 & S6 & S7); rewrite P' in Y; injection Y as <-; auto end).
      - destruct (Nat.eq_dec q p) as [->|N].
        + split; [|split].
          1, 2: cbn [step] in P'; unfold watch_turn in P'; rewrite P in P'; repeat (match type of P' with procs (match ?e with _ => _ end) _ = _ => destruct e end); rewrite ?put_at in P'; rewrite ?P in P'; injection P' as <-; reflexivity.
          intros F. destruct (forked_step st (Watch p log) p x I P F) as (y & Y & S1 & S2 & S3 & S4). rewrite P' in Y. injection Y as <-. auto.
        + destruct (keeps_step st (Watch q log) p I ltac:(congruence) ltac:(discriminate)) as (_ & K). destruct (K x P) as (y & Y & S1 & S2 & S3 & S4 & S5 & S6 & S7). rewrite P' in Y. injection Y as <-. auto.
      - cbn [step map_procs procs] in P'. rewrite P in P'. injection P' as <-. repeat split. }
    destruct Bx as (Bx & Px & Mx). split.
    + intros B. rewrite Bx in B. destruct (H p x P) as (Hx & _). destruct (Hx B) as (y & Y & By & Cy & Ly & Hy).
      destruct (forked_step st a (parent x) y I Y ltac:(unfold forked; rewrite By; exact Logic.I)) as (y' & Y' & S1 & S2 & S3 & S4).
      destruct Mx as (M1 & M2 & M3); [unfold forked; rewrite B; exact Logic.I|]. exists y'. rewrite Px. repeat split; congruence.
    + intros F' k E. assert (F : forked x) by (unfold forked in *; rewrite Bx in F'; exact F').
      destruct (Mx F) as (_ & M2 & M3).
      assert (Same : at_ x' = at_ x -> log_held x' = false /\ (config_held x' = true -> k = 0)).
      { intros Sa. rewrite Sa in E. rewrite M2, M3. destruct (H p x P) as (_ & Hx). exact (Hx F k E). }
      destruct a as [s|q ok n|q log|n|q t| |q].
      * apply Same. cbn [step] in P'. destruct (negb _); [congruence|]. cbn [procs] in P'. unfold upd in P'. destruct (p =? next st) eqn:Eq; [|congruence].
        apply Nat.eqb_eq in Eq. pose proof (i_in _ I p x P). lia.
      * cbn [step] in P'. destruct (Nat.eq_dec p q) as [<-|N]; [exact (held_turn st p x ok n x' I P (H p x P) F P' k E)|]. apply Same.
        destruct (keeps_turn st q ok n I) as (K & _). destruct (K p x P) as (y & Y & _ & Ey). rewrite (Ey N), P' in Y. congruence.
      * apply Same. cbn [step] in P'. unfold watch_turn in P'. destruct (procs st q) as [z|] eqn:Q; [|congruence].
        destruct (Nat.eq_dec p q) as [<-|N].
        -- rewrite P in Q. injection Q as <-. repeat (match type of P' with procs (match ?e with _ => _ end) _ = _ => destruct e end); rewrite ?put_at in P'; try congruence; injection P' as <-; reflexivity.
        -- assert (G : forall z, procs (put st q z) p = procs st p) by (intros z'; cbn [put procs]; unfold upd; destruct (p =? q) eqn:Eq; [apply Nat.eqb_eq in Eq; congruence|reflexivity]).
           repeat (match type of P' with procs (match ?e with _ => _ end) _ = _ => destruct e end); rewrite ?G in P'; congruence.
      * apply Same. cbn [step map_procs procs] in P'. rewrite P in P'. injection P' as <-. reflexivity.
      * apply Same. rewrite open_tty_nothing in P' by exact I. congruence.
      * apply Same. cbn [step procs] in P'. congruence.
      * cbn [step] in P'. destruct (procs st q) as [z|] eqn:Q; [|apply Same; congruence]. destruct (live z); [|apply Same; congruence].
        destruct (Nat.eq_dec p q) as [<-|N]; [unfold finish in P'; rewrite put_at in P'; injection P' as <-; discriminate|]. apply Same.
        destruct (keeps_finish st q z Killed Q) as (K & _). destruct (K p x P) as (y & Y & _ & Ey). rewrite (Ey N), P' in Y. congruence.
  - destruct a as [s|q ok n|q log|n|q t| |q].
    + cbn [step] in P'. destruct (negb _); [congruence|]. cbn [procs] in P'. unfold upd in P'. destruct (p =? next st); [|congruence]. injection P' as <-.
      split; [discriminate|intros []].
    + cbn [step] in *. destruct (keeps_turn st q ok n I) as (K1 & K2). destruct (K2 p x' P' P) as (z & b & pl & Z & Bb & ->).
      assert (T : exists z', procs (turn st q ok n) q = Some z' /\ same_mind z z') by (destruct (K1 q z Z) as (z' & Z' & S & _); eauto).
      destruct T as (z' & Z' & (S1 & S2 & S3 & S4 & S5 & S6 & S7)). clear K1 K2.
      assert (A : at_ z = PFork1 /\ b = Forked1 /\ pl = PSetsid \/ at_ z = PFork2 /\ b = Forked2 /\ pl = PTruncate).
      { assert (Np : p <> q) by congruence. assert (PS : forall w, procs w p = None -> forall u, procs (put w q u) p = None) by (intros w Nw u; cbn [put procs]; unfold upd; destruct (p =? q) eqn:Eq; [apply Nat.eqb_eq in Eq; congruence|exact Nw]).
        assert (PU : forall w i d, procs w p = None -> procs (unlock w i d) p = None) by (intros; rewrite unlock_procs; assumption).
        unfold turn in P'. rewrite Z in P'.
        destruct (at_ z) eqn:Az;
          repeat match type of P' with
          | procs (finish _ _ _ _) _ = _ => unfold finish in P'
          | procs (match ?e with _ => _ end) _ = _ => destruct e
          end; try congruence;
          try (rewrite PS in P' by first [exact P | apply PU; exact P]; discriminate);
          try (rewrite PS in P' by (repeat (match goal with |- context [match ?e with _ => _ end] => destruct e end); first [exact P | apply PU; exact P]); discriminate).
        - unfold fork in P'. cbn [procs] in P'. unfold upd in P'. destruct (p =? next st); [|destruct (p =? q) eqn:Eq; [apply Nat.eqb_eq in Eq; congruence|congruence]]. unfold child_of in P'. injection P' as <- <-. auto.
        - unfold fork in P'. cbn [procs] in P'. unfold upd in P'. destruct (p =? next st); [|destruct (p =? q) eqn:Eq; [apply Nat.eqb_eq in Eq; congruence|congruence]]. unfold child_of in P'. injection P' as <- <-. auto. }
      destruct A as [(Az & -> & ->)|(Az & -> & ->)]; (split; [|intros _ k E; discriminate]); [discriminate|].
      intros _. cbn [child_of parent config log_held config_held]. exists z'. split; [exact Z'|]. repeat split; try congruence.
      rewrite S1. pose proof (i_fine _ I q z Z) as Fz. unfold fine in Fz. rewrite Az in Fz. destruct (born z); [|reflexivity|].
      * destruct Fz as (_ & _ & _ & _ & _ & _ & []).
      * destruct Fz as (_ & _ & _ & _ & _ & _ & _ & m & ym & l & yl & s & _ & _ & _ & _ & _ & _ & _ & _ & _ & []).
    + exfalso. cbn [step] in P'. unfold watch_turn in P'. destruct (procs st q) as [z|] eqn:Q; [|congruence]. assert (N : p <> q) by congruence.
      assert (G : forall z, procs (put st q z) p = procs st p) by (intros z'; cbn [put procs]; unfold upd; destruct (p =? q) eqn:Eq; [apply Nat.eqb_eq in Eq; congruence|reflexivity]).
      repeat (match type of P' with procs (match ?e with _ => _ end) _ = _ => destruct e end); rewrite ?G in P'; congruence.
    + exfalso. cbn [step map_procs procs] in P'. rewrite P in P'. discriminate.
    + exfalso. rewrite open_tty_nothing in P' by exact I. congruence.
    + exfalso. cbn [step procs] in P'. congruence.
    + exfalso. cbn [step] in P'. destruct (procs st q) as [z|] eqn:Q; [|congruence]. destruct (live z); [|congruence].
      destruct (keeps_finish st q z Killed Q) as (_ & K). destruct (K p x' P' P) as (w & b & pl & W & Bb & ->).
      assert (N : p <> q) by congruence. unfold finish in P'. cbn [put procs] in P'. unfold upd in P'. destruct (p =? q) eqn:Eq; [apply Nat.eqb_eq in Eq; congruence|].
      destruct (pid_fd z) as [[[k i] d]|]; [destruct (shared st q d)|]; rewrite ?unlock_procs in P'; congruence.
Qed.
Lemma heirs_boot n left d : heirs (boot n left d).
Proof. intros p x P. discriminate. Qed.
Lemma heirs_run l : forall st, inv st -> heirs st -> heirs (run st l).
Proof.
  induction l as [|a l IH]; intros st I M; [exact M|]. change (run st (a :: l)) with (run (step st a) l). apply IH; [apply inv_step; exact I|apply heirs_step; assumption].
Qed.
