(** Proofs about the threads that serve an attached client. *)
From Coq Require Import List NArith ZArith Bool Arith Lia.
From Verif Require Import Model.Base Model.Chunk Model.Keybindings Model.Input Model.Streaming Spec.KeySpec Spec.InputSpec Spec.StreamingSpec.
Import ListNotations.
Open Scope nat_scope.

(** *** What always holds *)

Definition closed_by (s : stream) : Prop :=
  match boss_at s with
  | KPoll | KTell | KAwait => True
  | KJoinTypist | KJoinBeater | KJoinWatch | KScope (Returned _) | KDone (Returned _) => shut s = true
  | KScope _ | KDone _ => shut s = true \/ owed s = true
  end.
Definition told_by (s : stream) : Prop :=
  match boss_at s with
  | KPoll | KTell => told s = []
  | _ => told s = [] \/ told s = [TellDisconnect] \/ exists z, told s = [TellExit z] /\ exited s = Some z /\ child_done s = true
  end.
Definition joined_by (s : stream) : Prop :=
  match boss_at s with
  | KJoinBeater => typist_at s = TEnded Good
  | KJoinWatch => typist_at s = TEnded Good /\ beater_at s = BEnded Good
  | KScope (Returned _) => typist_at s = TEnded Good /\ beater_at s = BEnded Good /\ watch_at s = WEnded
  | KDone (Returned d) => typist_at s = TEnded Good /\ beater_at s = BEnded Good /\ watch_at s = WEnded /\ d = child_done s
  | KScope Panicked => typist_at s = TEnded Panic \/ beater_at s = BEnded Panic
  | KDone Panicked => all_threads_ended s /\ (typist_at s = TEnded Panic \/ beater_at s = BEnded Panic)
  | KDone Failed => all_threads_ended s
  | _ => True
  end.

Record inv (s : stream) : Prop := {
  i_stop : stop s = false <-> boss_at s = KPoll;
  i_seen : child_done s = true -> exited s <> None /\ watch_at s = WEnded;
  i_watch : watch_at s = WEnded -> stop s = true \/ child_done s = true;
  i_closed : closed_by s;
  i_told : told_by s;
  i_joined : joined_by s;
  i_calm : beater_at s <> BEnded Panic
}.

Lemma opened_inv b : inv (opened b).
Proof. split; cbn; try tauto; try discriminate; try (split; discriminate). Qed.


Definition not_ended (x : typist) : Prop := match x with TEnded _ => False | _ => True end.
Definition beats (x : beater) : Prop := match x with BEnded _ => False | _ => True end.

(** What a step of client->shell leaves alone. *)
Record typist_frame (s s' : stream) : Prop := {
  tf_beater : beater_at s' = beater_at s; tf_watch : watch_at s' = watch_at s; tf_boss : boss_at s' = boss_at s;
  tf_stop : stop s' = stop s; tf_done : child_done s' = child_done s; tf_exit : exited s' = exited s; tf_gone : gone s' = gone s;
  tf_told : told s' = told s; tf_shut : shut s = true -> shut s' = true; tf_owed : owed s = true -> owed s' = true;
  tf_self : typist_at s' = typist_at s \/ not_ended (typist_at s)
}.
Lemma typist_framed s a : typist_frame s (typist_step s a).
Proof.
  unfold typist_step. destruct (typist_at s) as [[b|]|k|k|nx by_| |h] eqn:E.
  - split; cbn; auto. rewrite E. cbn. auto.
  - split; cbn; auto. rewrite E. cbn. auto.
  - destruct (stop s); split; cbn; auto; rewrite E; cbn; auto.
  - destruct a; try (split; cbn; auto; rewrite E; cbn; auto; fail);
      (destruct (unread s) as [|c r];
       [destruct (shut s || gone s); split; cbn; auto; rewrite E; cbn; auto
       |destruct (read_once k c) as [[k' w|w]|]; split; cbn; auto; rewrite E; cbn; auto]).
  - destruct a; split; cbn; auto; rewrite E; cbn; auto.
  - destruct a; split; cbn; auto; rewrite E; cbn; auto.
  - split; cbn; auto.
Qed.
Lemma typist_inv s a : inv s -> inv (typist_step s a).
Proof.
  intros Iv. destruct (typist_framed s a) as [F1 F2 F3 F4 F5 F6 F7 F8 F9 F10 F11].
  remember (typist_step s a) as s' eqn:Es. clear Es. destruct Iv as [I1 I2 I3 I4 I5 I6 I7]. split.
  - rewrite F3, F4. exact I1.
  - rewrite F5, F6, F2. exact I2.
  - rewrite F2, F4, F5. exact I3.
  - unfold closed_by in *. rewrite F3. destruct (boss_at s) as [| | | | | |[d| |]|[d| |]]; tauto.
  - unfold told_by in *. rewrite F3, F8, F5, F6. exact I5.
  - unfold joined_by, all_threads_ended in *. rewrite F3, F1, F2, F5. destruct F11 as [->|N]; [exact I6|].
    destruct (boss_at s) as [| | | | | |[d| |]|[d| |]]; try exact I; cbn in I6;
      destruct (typist_at s); cbn in N; try tauto; decompose [and or ex] I6; (discriminate || contradiction).
  - rewrite F1. exact I7.
Qed.

Record beater_frame (s s' : stream) : Prop := {
  bf_typist : typist_at s' = typist_at s; bf_watch : watch_at s' = watch_at s; bf_boss : boss_at s' = boss_at s;
  bf_stop : stop s' = stop s; bf_done : child_done s' = child_done s; bf_exit : exited s' = exited s; bf_unread : unread s' = unread s;
  bf_gone : gone s' = gone s; bf_shut : shut s' = shut s; bf_owed : owed s' = owed s; bf_pty : pty s' = pty s; bf_told : told s' = told s;
  bf_self : beater_at s' = beater_at s \/ (beats (beater_at s) /\ beater_at s' <> BEnded Panic)
}.
Lemma beater_framed s a : beater_frame s (beater_step s a).
Proof.
  unfold beater_step. destruct (beater_at s) as [| | |h] eqn:E.
  - destruct (stop s) eqn:S; [|destruct a]; split; cbn; auto; rewrite E; right; (split; [exact I|discriminate]).
  - destruct a; split; cbn; auto; rewrite E; right; (split; [exact I|discriminate]).
  - destruct a as [| | | | |[|]|]; split; cbn; auto; rewrite E; right; (split; [exact I|discriminate]).
  - split; cbn; auto.
Qed.
Lemma beater_inv s a : inv s -> inv (beater_step s a).
Proof.
  intros Iv. destruct (beater_framed s a) as [F1 F2 F3 F4 F5 F6 F7 F8 F9 F10 F11 F12 F13].
  remember (beater_step s a) as s' eqn:Es. clear Es. destruct Iv as [I1 I2 I3 I4 I5 I6 I7]. split.
  - rewrite F3, F4. exact I1.
  - rewrite F5, F6, F2. exact I2.
  - rewrite F2, F4, F5. exact I3.
  - unfold closed_by in *. rewrite F3, F9, F10. exact I4.
  - unfold told_by in *. rewrite F3, F12, F5, F6. exact I5.
  - unfold joined_by, all_threads_ended in *. rewrite F3, F1, F2, F5. destruct F13 as [->|[N N']]; [exact I6|].
    destruct (boss_at s) as [| | | | | |[d| |]|[d| |]]; try exact I; try exact I6; cbn in I6;
      destruct (beater_at s); cbn in N; try tauto; decompose [and or ex] I6; try discriminate; auto.
  - destruct F13 as [->|[N N']]; assumption.
Qed.

Record watch_frame (s s' : stream) : Prop := {
  wf_typist : typist_at s' = typist_at s; wf_beater : beater_at s' = beater_at s; wf_boss : boss_at s' = boss_at s;
  wf_stop : stop s' = stop s; wf_exit : exited s' = exited s; wf_unread : unread s' = unread s;
  wf_gone : gone s' = gone s; wf_shut : shut s' = shut s; wf_owed : owed s' = owed s; wf_pty : pty s' = pty s; wf_told : told s' = told s;
  wf_self : s' = s \/ (watch_at s <> WEnded /\
    ((watch_at s' <> WEnded /\ child_done s' = child_done s) \/
     (watch_at s' = WEnded /\ stop s = true /\ child_done s' = child_done s) \/
     (watch_at s' = WEnded /\ child_done s' = true /\ exited s <> None)))
}.
Lemma watch_framed s a : watch_frame s (watch_step s a).
Proof.
  unfold watch_step. destruct (watch_at s) eqn:E.
  - destruct (stop s) eqn:S; [|destruct (exited s) eqn:X]; split; cbn; auto; rewrite E; right; (split; [discriminate|]).
    + right. left. auto.
    + right. right. split; [reflexivity|]. split; [reflexivity|]. rewrite X. discriminate.
    + left. split; [discriminate|reflexivity].
  - assert (Q : forall z, exited s = z -> watch_frame s (set_watch WCheck s)).
    { intros z _. split; cbn; auto. rewrite E. right. split; [discriminate|]. left. split; [discriminate|reflexivity]. }
    assert (Y : forall z, exited s = Some z -> watch_frame s (set_watch WEnded (set_child_done s))).
    { intros z X. split; cbn; auto. rewrite E. right. split; [discriminate|]. right. right. split; [reflexivity|]. split; [reflexivity|]. rewrite X. discriminate. }
    destruct (exited s) eqn:X; destruct a; eauto; split; auto.
  - split; auto.
Qed.
Lemma watch_inv s a : inv s -> inv (watch_step s a).
Proof.
  intros Iv. destruct (watch_framed s a) as [F1 F2 F3 F4 F5 F6 F7 F8 F9 F10 F11 [->|[N F12]]]; [exact Iv|].
  remember (watch_step s a) as s' eqn:Es. clear Es. destruct Iv as [I1 I2 I3 I4 I5 I6 I7].
  assert (Cd : child_done s = false) by (destruct (child_done s); [destruct (I2 eq_refl); congruence|reflexivity]). split.
  - rewrite F3, F4. exact I1.
  - intros H. rewrite F5. destruct F12 as [[_ K]|[(_ & _ & K)|(W & _ & X)]]; [congruence|congruence|auto].
  - intros H. rewrite F4. destruct F12 as [[K _]|[(_ & K & _)|(_ & K & _)]]; [contradiction|auto|auto].
  - unfold closed_by in *. rewrite F3, F8, F9. exact I4.
  - unfold told_by in *. rewrite F3, F11, F5. destruct (boss_at s); auto;
      (destruct I5 as [K|[K|(z & _ & _ & K)]]; [auto|auto|congruence]).
  - unfold joined_by, all_threads_ended in *. rewrite F3, F1, F2.
    destruct (boss_at s) as [| | | | | |[d| |]|[d| |]]; try exact I; try exact I6; exfalso; tauto.
  - rewrite F2. exact I7.
Qed.

Lemma boss_inv s a : inv s -> inv (boss_step s a).
Proof.
  intros Iv. unfold boss_step. destruct (boss_at s) as [| | | | | |r|r] eqn:B.
  - destruct (typist_over s || beater_over s || watch_over s || child_done s) eqn:O; [|exact Iv].
    destruct Iv as [I1 I2 I3 I4 I5 I6 I7]. unfold told_by in I5. rewrite B in I5.
    split; unfold closed_by, told_by, joined_by; cbn; auto. split; discriminate.
  - assert (Tell : forall m, (m = TellDisconnect \/ exists z, m = TellExit z /\ exited s = Some z /\ child_done s = true) -> inv (set_boss KAwait (say m s))).
    { intros m Hm. destruct Iv as [I1 I2 I3 I4 I5 I6 I7]. unfold told_by in I5. rewrite B in I5.
      split; unfold closed_by, told_by, joined_by; cbn; auto.
      - rewrite B in I1. split; intros H; [apply I1 in H|]; discriminate.
      - rewrite I5. cbn [app]. destruct Hm as [->|(z & -> & Hz)]; [auto|]. right. right. exists z. auto. }
    assert (Sh : inv (set_boss KJoinTypist (set_shut s))).
    { destruct Iv as [I1 I2 I3 I4 I5 I6 I7]. unfold told_by in I5. rewrite B in I5.
      split; unfold closed_by, told_by, joined_by; cbn; auto. rewrite B in I1. split; intros H; [apply I1 in H|]; discriminate. }
    assert (M : inv (set_boss KAwait (say (if child_done s then TellExit (match exited s with Some z => z | None => 1%Z end) else TellDisconnect) s))).
    { apply Tell. destruct (child_done s) eqn:C; [|auto]. destruct (i_seen s Iv C) as [X _]. destruct (exited s) as [z|]; [|congruence]. right. exists z. auto. }
    destruct a; auto.
  - assert (Ok : inv (set_boss KJoinTypist (set_shut s)) /\ inv (set_boss (KScope Failed) (set_owed true s))).
    { destruct Iv as [I1 I2 I3 I4 I5 I6 I7]. unfold told_by in I5. rewrite B in *.
      split; split; unfold closed_by, told_by, joined_by; cbn; auto; split; intros H; try (apply I1 in H); discriminate. }
    destruct a; tauto.
  - destruct (typist_at s) eqn:T; try exact Iv. destruct Iv as [I1 I2 I3 I4 I5 I6 I7]. unfold told_by, closed_by in *. rewrite B in *.
    split; unfold closed_by, told_by, joined_by; cbn; auto; destruct how; cbn; auto; split; intros H; try (apply I1 in H); discriminate.
  - destruct (beater_at s) eqn:T; try exact Iv. destruct Iv as [I1 I2 I3 I4 I5 I6 I7]. unfold told_by, closed_by, joined_by in *. rewrite B in *.
    split; unfold closed_by, told_by, joined_by; cbn; auto; try (destruct how; cbn; auto; split; intros H; try (apply I1 in H); discriminate).
  - destruct (watch_at s) eqn:T; try exact Iv. destruct Iv as [I1 I2 I3 I4 I5 I6 I7]. unfold told_by, closed_by, joined_by in *. rewrite B in *.
    split; unfold closed_by, told_by, joined_by; cbn; auto.
    + split; intros H; try (apply I1 in H); discriminate.
    + tauto.
  - destruct (typist_over s && beater_over s && watch_over s) eqn:O; [|exact Iv].
    assert (A : all_threads_ended s).
    { unfold typist_over, beater_over, watch_over in O. split; [|split].
      - destruct (typist_at s); try discriminate O; eauto.
      - destruct (typist_at s); try discriminate O; destruct (beater_at s); try discriminate O; eauto.
      - destruct (typist_at s); try discriminate O; destruct (beater_at s); try discriminate O; destruct (watch_at s); try discriminate O; reflexivity. }
    destruct Iv as [I1 I2 I3 I4 I5 I6 I7]. unfold told_by, closed_by, joined_by in *. rewrite B in *.
    destruct r as [d| |].
    + destruct (child_done s) eqn:C; (split; unfold closed_by, told_by, joined_by; cbn; rewrite ?C; auto; [split; intros H; try (apply I1 in H); discriminate|tauto]).
    + split; unfold closed_by, told_by, joined_by; cbn; auto. split; intros H; try (apply I1 in H); discriminate.
    + split; unfold closed_by, told_by, joined_by; cbn; auto. split; intros H; try (apply I1 in H); discriminate.
  - exact Iv.
Qed.

Lemma output_inv s : inv s -> inv (output_step s).
Proof.
  intros Iv. unfold output_step. destruct (owed s) eqn:O; [|exact Iv]. destruct Iv as [I1 I2 I3 I4 I5 I6 I7].
  unfold told_by, closed_by, joined_by in *. split; unfold closed_by, told_by, joined_by; cbn; auto.
  destruct (boss_at s) as [| | | | | |[d| |]|[d| |]]; auto.
Qed.
Lemma step_inv s x : inv s -> inv (step s x).
Proof.
  intros Iv. destruct x as [[| | | |] a|z|c| |]; cbn [step].
  - apply typist_inv. exact Iv.
  - apply beater_inv. exact Iv.
  - apply watch_inv. exact Iv.
  - apply boss_inv. exact Iv.
  - apply output_inv. exact Iv.
  - destruct (exited s) eqn:X; [exact Iv|]. destruct Iv as [I1 I2 I3 I4 I5 I6 I7].
    assert (C : child_done s = false) by (destruct (child_done s); [destruct (I2 eq_refl); congruence|reflexivity]).
    unfold told_by, closed_by, joined_by in *. split; unfold closed_by, told_by, joined_by; cbn; auto.
    + rewrite C. discriminate.
    + destruct (boss_at s); auto; (destruct I5 as [K|[K|(w & _ & _ & K)]]; [auto|auto|congruence]).
  - destruct (gone s || shut s || _ || _ || _); [exact Iv|]. destruct Iv as [I1 I2 I3 I4 I5 I6 I7]. split; assumption.
  - destruct Iv as [I1 I2 I3 I4 I5 I6 I7]. split; assumption.
  - destruct Iv as [I1 I2 I3 I4 I5 I6 I7]. split; auto. unfold closed_by in *. cbn. destruct (boss_at s) as [| | | | | |[d| |]|[d| |]]; auto.
Qed.
Lemma run_inv l : forall s, inv s -> inv (run s l).
Proof. induction l as [|x l IH]; intros s Iv; [exact Iv|]. cbn. apply IH. apply step_inv. exact Iv. Qed.

(** *** Getting somewhere *)

Lemma run_app s l l' : run s (l ++ l') = run (run s l) l'.
Proof. apply fold_left_app. Qed.

Section Leads.
  Variables (A : action -> Prop) (P Q : stream -> Prop) (m : stream -> nat) (blk : stream -> who).
  Hypothesis keeps : forall s x, A x -> Q s -> Q (step s x).
  Hypothesis moves : forall s x, A x -> P s -> Q (step s x) \/ (P (step s x) /\ (m (step s x) < m s \/ (m (step s x) = m s /\ blk (step s x) = blk s))).
  Hypothesis gains : forall s a, A (Step (blk s) a) -> P s -> settles a ->
    Q (step s (Step (blk s) a)) \/ (P (step s (Step (blk s) a)) /\ m (step s (Step (blk s) a)) < m s).

  Lemma keeps_run l : Forall A l -> forall s, Q s -> Q (run s l).
  Proof. induction 1 as [|x l X F IH]; intros s H; [exact H|]. cbn. apply IH. apply keeps; assumption. Qed.
  Lemma moves_run l : Forall A l -> forall s, P s -> Q (run s l) \/ (P (run s l) /\ m (run s l) <= m s).
  Proof.
    induction 1 as [|x l X F IH]; intros s H; [right; split; [exact H|apply le_n]|]. change (run s (x :: l)) with (run (step s x) l).
    destruct (moves s x X H) as [q|[p q]]; [left; apply keeps_run; assumption|].
    destruct (IH _ p) as [r|[r r']]; [auto|]. right. split; [exact r|lia].
  Qed.
  Lemma round_run l : Forall A l -> forall s, P s -> (exists a, settles a /\ In (Step (blk s) a) l) -> Q (run s l) \/ (P (run s l) /\ m (run s l) < m s).
  Proof.
    induction 1 as [|x l X F IH]; intros s H (a & Ha & B); [destruct B|]. change (run s (x :: l)) with (run (step s x) l).
    assert (D : forall s', P s' -> m s' < m s -> Q (run s' l) \/ (P (run s' l) /\ m (run s' l) < m s)).
    { intros s' p q. destruct (moves_run l F s' p) as [r|[r r']]; [auto|]. right. split; [exact r|]. eapply Nat.le_lt_trans; eassumption. }
    destruct B as [->|B].
    - destruct (gains s a X H Ha) as [q|[p q]]; [left; apply keeps_run; assumption|]. apply D; assumption.
    - destruct (moves s x X H) as [q|[p [q|[q q']]]]; [left; apply keeps_run; assumption|apply D; assumption|].
      rewrite <- q. apply IH; [exact p|]. exists a. rewrite q'. auto.
  Qed.
  Lemma leads : forall rounds s, P s -> Forall full_round rounds -> Forall A (concat rounds) -> m s < length rounds -> Q (run s (concat rounds)).
  Proof.
    induction rounds as [|l rounds IH]; intros s H F C L; [cbn in L; lia|]. inversion F as [|? ? F1 F2]; subst. cbn [concat] in *. rewrite run_app.
    apply Forall_app in C as [C1 C2].
    destruct (round_run l C1 s H (F1 (blk s))) as [q|[p q]]; [apply keeps_run; assumption|]. apply IH; [exact p|exact F2|exact C2|cbn in L; lia].
  Qed.
End Leads.

Lemma over_keeps s x : over s -> over (step s x).
Proof.
  intros (r & B). exists r. destruct x as [[| | | |] a|z|c| |]; cbn [step].
  - rewrite (tf_boss _ _ (typist_framed s a)). exact B.
  - rewrite (bf_boss _ _ (beater_framed s a)). exact B.
  - rewrite (wf_boss _ _ (watch_framed s a)). exact B.
  - unfold boss_step. rewrite B. exact B.
  - unfold output_step. destruct (owed s); exact B.
  - destruct (exited s); exact B.
  - destruct (gone s || shut s || _ || _ || _); exact B.
  - exact B.
  - exact B.
Qed.

Definition trank (x : typist) : nat := match x with TStart _ => 2 | TCheck _ => 1 | TRead _ => 4 | TWrite _ _ => 3 | TDetach => 2 | TEnded _ => 0 end.
Definition brank (x : beater) : nat := match x with BSleep => 1 | BAwait => 2 | BAsk => 3 | BEnded _ => 0 end.
Definition wrank (x : watch) : nat := match x with WCheck => 1 | WWait => 2 | WEnded => 0 end.
Definition krank (x : boss) : nat :=
  match x with KPoll => 9 | KTell => 8 | KAwait => 7 | KJoinTypist => 4 | KJoinBeater => 3 | KJoinWatch => 2 | KScope _ => 1 | KDone _ => 0 end.
Definition orank (b : bool) : nat := if b then 1 else 0.
Definition ending (s : stream) : nat :=
  if stop s then trank (typist_at s) + brank (beater_at s) + wrank (watch_at s) + krank (boss_at s) + orank (owed s) else 19.
Definition culprit (s : stream) : who :=
  if stop s then
    if owed s then Output
    else if 7 <=? krank (boss_at s) then Boss
    else if 0 <? trank (typist_at s) then Typist
    else if 0 <? brank (beater_at s) then Beater
    else if 0 <? wrank (watch_at s) then Watch
    else Boss
  else Boss.
Definition doomed (s : stream) : Prop := inv s /\ (stop s = true \/ thread_ended s).

Lemma culprit_ext s s' : stop s' = stop s -> owed s' = owed s -> boss_at s' = boss_at s ->
  trank (typist_at s') = trank (typist_at s) -> brank (beater_at s') = brank (beater_at s) -> wrank (watch_at s') = wrank (watch_at s) ->
  ending s' = ending s /\ culprit s' = culprit s.
Proof. intros E1 E2 E3 E4 E5 E6. unfold ending, culprit. rewrite E1, E2, E3, E4, E5, E6. auto. Qed.

(** A step of client->shell after the stop. *)
Lemma typist_rank s a : stop s = true ->
  trank (typist_at (typist_step s a)) + orank (owed (typist_step s a)) < trank (typist_at s) + orank (owed s) \/
  (trank (typist_at (typist_step s a)) = trank (typist_at s) /\ owed (typist_step s a) = owed s).
Proof.
  intros S. unfold typist_step. destruct (typist_at s) as [[b|]|k|k|nx by_| |h] eqn:E; rewrite ?S;
    try (destruct a; cbn; rewrite ?E; cbn; destruct (owed s); cbn; (left; lia) || (right; auto; fail); fail).
  - destruct a; try (cbn; rewrite ?E; cbn; destruct (owed s); cbn; (left; lia) || (right; auto; fail); fail);
    (destruct (unread s) as [|c r]; [destruct (shut s || gone s)|destruct (read_once k c) as [[k' w|w]|]]; cbn; rewrite ?E; cbn; destruct (owed s); cbn; (left; lia) || (right; auto; fail)).
  - destruct a; try (destruct nx); cbn; rewrite ?E; cbn; destruct (owed s); cbn; (left; lia) || (right; auto; fail).
Qed.
Lemma beater_rank s a : stop s = true -> brank (beater_at (beater_step s a)) < brank (beater_at s) \/ beater_step s a = s.
Proof.
  intros S. unfold beater_step. destruct (beater_at s) as [| | |h] eqn:E; rewrite ?S.
  - left. cbn. lia.
  - destruct a; try (right; reflexivity); left; cbn; lia.
  - destruct a as [| | | | |[|]|]; try (right; reflexivity); left; cbn; lia.
  - right. reflexivity.
Qed.
Lemma watch_rank s a : stop s = true -> wrank (watch_at (watch_step s a)) < wrank (watch_at s) \/ watch_step s a = s.
Proof.
  intros S. unfold watch_step. destruct (watch_at s) eqn:E; rewrite ?S.
  - left. cbn. lia.
  - destruct a; try (right; reflexivity); left; destruct (exited s); cbn; lia.
  - right. reflexivity.
Qed.
Lemma boss_rank s a : stop s = true -> boss_at s <> KPoll -> 
  (stop (boss_step s a) = true /\ typist_at (boss_step s a) = typist_at s /\ beater_at (boss_step s a) = beater_at s /\ watch_at (boss_step s a) = watch_at s) /\
  (krank (boss_at (boss_step s a)) + orank (owed (boss_step s a)) < krank (boss_at s) + orank (owed s) \/ boss_step s a = s).
Proof.
  intros S N. unfold boss_step. destruct (boss_at s) as [| | | | | |r|r] eqn:B; try congruence.
  - destruct a; cbn; (split; [auto|]); try (right; reflexivity); left; lia.
  - destruct a; cbn; (split; [auto|]); try (right; reflexivity); left; destruct (owed s); cbn; lia.
  - destruct (typist_at s) eqn:T; cbn; (split; [auto|]); try (right; reflexivity). left. destruct how; cbn; lia.
  - destruct (beater_at s) eqn:T; cbn; (split; [auto|]); try (right; reflexivity). left. destruct how; cbn; lia.
  - destruct (watch_at s) eqn:T; cbn; (split; [auto|]); try (right; reflexivity). left. lia.
  - destruct (typist_over s && beater_over s && watch_over s); [|split; [auto|right; reflexivity]].
    destruct r as [d| |]; [destruct (child_done s)| |]; cbn; (split; [auto|]); left; lia.
  - split; [auto|]. right. reflexivity.
Qed.

Lemma boss_typist s a : typist_at (boss_step s a) = typist_at s.
Proof.
  unfold boss_step. destruct (boss_at s) as [| | | | | |r|r]; try (destruct a; reflexivity).
  - destruct (_ || _); reflexivity.
  - destruct (typist_at s) eqn:E; cbn; auto.
  - destruct (beater_at s); reflexivity.
  - destruct (watch_at s); reflexivity.
  - destruct (_ && _); [|reflexivity]. destruct r as [d| |]; try reflexivity. destruct (child_done s); reflexivity.
Qed.
Lemma boss_beater s a : beater_at (boss_step s a) = beater_at s.
Proof.
  unfold boss_step. destruct (boss_at s) as [| | | | | |r|r]; try (destruct a; reflexivity).
  - destruct (_ || _); reflexivity.
  - destruct (typist_at s) eqn:E; cbn; auto.
  - destruct (beater_at s) eqn:E; cbn; auto.
  - destruct (watch_at s); reflexivity.
  - destruct (_ && _); [|reflexivity]. destruct r as [d| |]; try reflexivity. destruct (child_done s); reflexivity.
Qed.
Lemma typist_self s x : typist_at (step s x) = typist_at s \/ not_ended (typist_at s).
Proof.
  destruct x as [[| | | |] a|z|c| |]; cbn [step].
  - apply (tf_self _ _ (typist_framed s a)).
  - left. apply (bf_typist _ _ (beater_framed s a)).
  - left. apply (wf_typist _ _ (watch_framed s a)).
  - left. apply boss_typist.
  - left. unfold output_step. destruct (owed s); reflexivity.
  - left. destruct (exited s); reflexivity.
  - left. destruct (gone s || shut s || _ || _ || _); reflexivity.
  - auto.
  - auto.
Qed.
Lemma beater_self s x : beater_at (step s x) = beater_at s \/ beats (beater_at s).
Proof.
  destruct x as [[| | | |] a|z|c| |]; cbn [step].
  - left. apply (tf_beater _ _ (typist_framed s a)).
  - destruct (bf_self _ _ (beater_framed s a)) as [E|[E _]]; auto.
  - left. apply (wf_beater _ _ (watch_framed s a)).
  - left. apply boss_beater.
  - left. unfold output_step. destruct (owed s); reflexivity.
  - left. destruct (exited s); reflexivity.
  - left. destruct (gone s || shut s || _ || _ || _); reflexivity.
  - auto.
  - auto.
Qed.
Lemma typist_ended_run l : forall s h, typist_at s = TEnded h -> typist_at (run s l) = TEnded h.
Proof.
  induction l as [|x l IH]; intros s h E; [exact E|]. change (run s (x :: l)) with (run (step s x) l). apply IH.
  destruct (typist_self s x) as [H|H]; [congruence|]. rewrite E in H. destruct H.
Qed.
Lemma beater_ended_run l : forall s h, beater_at s = BEnded h -> beater_at (run s l) = BEnded h.
Proof.
  induction l as [|x l IH]; intros s h E; [exact E|]. change (run s (x :: l)) with (run (step s x) l). apply IH.
  destruct (beater_self s x) as [H|H]; [congruence|]. rewrite E in H. destruct H.
Qed.

Lemma ended_keeps s x : thread_ended s -> thread_ended (step s x).
Proof.
  intros H. assert (K := typist_self s x).
  assert (K2 := beater_self s x).
  assert (K3 : watch_at s = WEnded -> watch_at (step s x) = WEnded).
  { intros W. destruct x as [[| | | |] a|z|c| |]; cbn [step].
    - rewrite (tf_watch _ _ (typist_framed s a)). exact W.
    - rewrite (bf_watch _ _ (beater_framed s a)). exact W.
    - unfold watch_step. rewrite W. exact W.
    - unfold boss_step. destruct (boss_at s) as [| | | | | |r|r]; try (destruct a; exact W).
      + destruct (_ || _); exact W.
      + destruct (typist_at s) eqn:E; cbn; auto.
      + destruct (beater_at s) eqn:E; cbn; auto.
      + destruct (watch_at s) eqn:E; cbn; congruence.
      + destruct (_ && _); [|exact W]. destruct r as [d| |]; try exact W. destruct (child_done s); exact W.
    - unfold output_step. destruct (owed s); exact W.
    - destruct (exited s); exact W.
    - destruct (gone s || shut s || _ || _ || _); exact W.
    - auto.
    - auto. }
  destruct H as [(h & H)|[(h & H)|H]].
  - left. exists h. destruct K as [K|K]; [congruence|rewrite H in K; destruct K].
  - right. left. exists h. destruct K2 as [K2|K2]; [congruence|rewrite H in K2; destruct K2].
  - right. right. auto.
Qed.
Lemma stop_keeps s x : stop s = true -> stop (step s x) = true.
Proof.
  intros H. destruct x as [[| | | |] a|z|c| |]; cbn [step].
  - rewrite (tf_stop _ _ (typist_framed s a)). exact H.
  - rewrite (bf_stop _ _ (beater_framed s a)). exact H.
  - rewrite (wf_stop _ _ (watch_framed s a)). exact H.
  - unfold boss_step. destruct (boss_at s) as [| | | | | |r|r]; try (destruct a; exact H).
    + destruct (_ || _); [reflexivity|exact H].
    + destruct (typist_at s) eqn:E; cbn; auto.
    + destruct (beater_at s) eqn:E; cbn; auto.
    + destruct (watch_at s) eqn:E; cbn; congruence.
    + destruct (_ && _); [|exact H]. destruct r as [d| |]; try exact H. destruct (child_done s); exact H.
  - unfold output_step. destruct (owed s); exact H.
  - destruct (exited s); exact H.
  - destruct (gone s || shut s || _ || _ || _); exact H.
  - exact H.
  - exact H.
Qed.
Lemma doomed_keeps s x : doomed s -> doomed (step s x).
Proof.
  intros [Iv [H|H]]; (split; [apply step_inv; exact Iv|]); [left; apply stop_keeps; exact H|right; apply ended_keeps; exact H].
Qed.
Lemma ending_bound s : stop s = true -> boss_at s <> KPoll -> ending s < 19.
Proof.
  intros S N. unfold ending. rewrite S.
  assert (trank (typist_at s) <= 4) by (destruct (typist_at s); cbn; lia).
  assert (brank (beater_at s) <= 3) by (destruct (beater_at s); cbn; lia).
  assert (wrank (watch_at s) <= 2) by (destruct (watch_at s); cbn; lia).
  assert (krank (boss_at s) <= 8) by (destruct (boss_at s); cbn; congruence || lia).
  assert (orank (owed s) <= 1) by (destruct (owed s); cbn; lia). lia.
Qed.
Lemma stopped_not_polling s : inv s -> stop s = true -> boss_at s <> KPoll.
Proof. intros Iv S E. apply (i_stop s Iv) in E. congruence. Qed.

Lemma typist_keeps s a : stop s = true -> ending (typist_step s a) < ending s \/ (ending (typist_step s a) = ending s /\ culprit (typist_step s a) = culprit s).
Proof.
  intros S. destruct (typist_framed s a) as [F1 F2 F3 F4 F5 F6 F7 F8 F9 F10 F11]. destruct (typist_rank s a S) as [R|[R R']].
  - left. unfold ending. rewrite F4, S, F1, F2, F3. lia.
  - right. apply culprit_ext; auto; congruence.
Qed.
Lemma beater_keeps s a : stop s = true -> ending (beater_step s a) < ending s \/ (ending (beater_step s a) = ending s /\ culprit (beater_step s a) = culprit s).
Proof.
  intros S. destruct (beater_framed s a) as [F1 F2 F3 F4 F5 F6 F7 F8 F9 F10 F11 F12 F13]. destruct (beater_rank s a S) as [R| ->].
  - left. unfold ending. rewrite F4, S, F1, F2, F3, F10. lia.
  - right. auto.
Qed.
Lemma watch_keeps s a : stop s = true -> ending (watch_step s a) < ending s \/ (ending (watch_step s a) = ending s /\ culprit (watch_step s a) = culprit s).
Proof.
  intros S. destruct (watch_framed s a) as [F1 F2 F3 F4 F5 F6 F7 F8 F9 F10 F11 F12]. destruct (watch_rank s a S) as [R| ->].
  - left. unfold ending. rewrite F4, S, F1, F2, F3, F9. lia.
  - right. auto.
Qed.
Lemma boss_keeps s a : stop s = true -> boss_at s <> KPoll -> ending (boss_step s a) < ending s \/ boss_step s a = s.
Proof.
  intros S N. destruct (boss_rank s a S N) as [(F1 & F2 & F3 & F4) [R|R]]; [left|right; exact R].
  unfold ending. rewrite F1, S, F2, F3, F4. lia.
Qed.
Lemma output_keeps s : stop s = true -> ending (output_step s) < ending s \/ output_step s = s.
Proof.
  intros S. unfold output_step. destruct (owed s) eqn:O; [left|right; reflexivity]. unfold ending. cbn. rewrite S, O. cbn. lia.
Qed.

Lemma doomed_moves s x : doomed s ->
  over (step s x) \/ (doomed (step s x) /\ (ending (step s x) < ending s \/ (ending (step s x) = ending s /\ culprit (step s x) = culprit s))).
Proof.
  intros D. right. split; [apply doomed_keeps; exact D|]. destruct D as [Iv D]. destruct (stop s) eqn:S.
  - assert (N := stopped_not_polling s Iv S). destruct x as [[| | | |] a|z|c| |]; cbn [step].
    + apply typist_keeps. exact S.
    + apply beater_keeps. exact S.
    + apply watch_keeps. exact S.
    + destruct (boss_keeps s a S N) as [H| ->]; auto.
    + destruct (output_keeps s S) as [H| ->]; auto.
    + right. destruct (exited s); auto.
    + right. destruct (gone s || shut s || _ || _ || _); auto.
    + right. auto.
    + right. auto.
  - assert (E : ending s = 19) by (unfold ending; rewrite S; reflexivity). assert (C : culprit s = Boss) by (unfold culprit; rewrite S; reflexivity).
    rewrite E, C. destruct (stop (step s x)) eqn:S'.
    + left. apply ending_bound; [exact S'|]. apply stopped_not_polling; [apply step_inv; exact Iv|exact S'].
    + right. unfold ending, culprit. rewrite S'. auto.
Qed.
Lemma doomed_gains s a : doomed s -> settles a ->
  over (step s (Step (culprit s) a)) \/ (doomed (step s (Step (culprit s) a)) /\ ending (step s (Step (culprit s) a)) < ending s).
Proof.
  intros D [A1 A2]. assert (D' := doomed_keeps s (Step (culprit s) a) D). destruct D as [Iv D].
  destruct (stop s) eqn:S.
  2:{ right. split; [exact D'|]. assert (C : culprit s = Boss) by (unfold culprit; rewrite S; reflexivity). rewrite C in *. cbn [step] in *.
      assert (E : ending s = 19) by (unfold ending; rewrite S; reflexivity). rewrite E.
      assert (B : boss_at s = KPoll) by (apply (i_stop s Iv); exact S). destruct D' as [Iv' _].
      assert (St : stop (boss_step s a) = true).
      { unfold boss_step. rewrite B. replace (typist_over s || beater_over s || watch_over s || child_done s) with true; [reflexivity|].
        unfold typist_over, beater_over, watch_over. destruct D as [D|[(h & ->)|[(h & ->)| ->]]]; [discriminate| | |]; cbn; rewrite ?orb_true_r; reflexivity. }
      apply ending_bound; [exact St|]. apply stopped_not_polling; assumption. }
  clear D. assert (N := stopped_not_polling s Iv S). revert D'. unfold culprit. rewrite S. destruct (owed s) eqn:O.
  { intros D'. right. split; [exact D'|]. cbn [step]. unfold output_step, ending. rewrite O. cbn. rewrite S, ?O. cbn. lia. }
  destruct (7 <=? krank (boss_at s)) eqn:K.
  { intros D'. right. split; [exact D'|]. cbn [step]. destruct (boss_rank s a S N) as [(F1 & F2 & F3 & F4) R].
    destruct R as [R|R]; [unfold ending; rewrite F1, S, F2, F3, F4; lia|]. exfalso.
    unfold boss_step in R. destruct (boss_at s) as [| | | | | |r|r] eqn:B; try discriminate K; [congruence| |].
    - destruct a; try congruence; apply (f_equal boss_at) in R; cbn in R; congruence.
    - destruct a; try congruence; apply (f_equal boss_at) in R; cbn in R; congruence. }
  assert (Sh : shut s = true).
  { assert (C := i_closed s Iv). unfold closed_by in C. destruct (boss_at s) as [| | | | | |[d| |]|[d| |]]; try discriminate K; auto;
      (destruct C as [C|C]; [exact C|congruence]). }
  destruct (0 <? trank (typist_at s)) eqn:T.
  { intros D'. right. split; [exact D'|]. cbn [step]. destruct (typist_framed s a) as [F1 F2 F3 F4 F5 F6 F7 F8 F9 F10 F11].
    assert (R : trank (typist_at (typist_step s a)) + orank (owed (typist_step s a)) < trank (typist_at s) + orank (owed s)).
    { unfold typist_step. destruct (typist_at s) as [[b|]|k|k|nx by_| |h] eqn:E; rewrite ?S; rewrite ?O; try discriminate T; try (cbn; rewrite ?O; cbn; lia).
      - destruct a; try congruence; try (cbn; rewrite ?O; cbn; lia);
          (destruct (unread s) as [|c r]; [rewrite Sh; cbn; rewrite ?O; cbn; lia|destruct (read_once k c) as [[k' w|w]|]; cbn; rewrite ?O; cbn; lia]).
      - destruct a; try congruence; try (exfalso; eapply A2; reflexivity); destruct nx; cbn; rewrite ?O; cbn; lia.
      - destruct a; try congruence; cbn; rewrite ?O; cbn; lia. }
    unfold ending. rewrite F4, S, F1, F2, F3. lia. }
  destruct (0 <? brank (beater_at s)) eqn:Bt.
  { intros D'. right. split; [exact D'|]. cbn [step]. destruct (beater_framed s a) as [F1 F2 F3 F4 F5 F6 F7 F8 F9 F10 F11 F12 F13].
    destruct (beater_rank s a S) as [R|R]; [unfold ending; rewrite F4, S, F1, F2, F3, F10; lia|]. exfalso. unfold beater_step in R. rewrite S in R.
    destruct (beater_at s) eqn:E; try discriminate Bt.
    - apply (f_equal beater_at) in R. cbn in R. congruence.
    - destruct a; try congruence; apply (f_equal beater_at) in R; cbn in R; congruence.
    - destruct a as [| | | | |[|]|]; try congruence; apply (f_equal beater_at) in R; cbn in R; congruence. }
  destruct (0 <? wrank (watch_at s)) eqn:W.
  { intros D'. right. split; [exact D'|]. cbn [step]. destruct (watch_framed s a) as [F1 F2 F3 F4 F5 F6 F7 F8 F9 F10 F11 F12].
    destruct (watch_rank s a S) as [R|R]; [unfold ending; rewrite F4, S, F1, F2, F3, F9; lia|]. exfalso. unfold watch_step in R. rewrite S in R.
    destruct (watch_at s) eqn:E; try discriminate W.
    - apply (f_equal watch_at) in R. cbn in R. congruence.
    - destruct a; try congruence; destruct (exited s); apply (f_equal watch_at) in R; cbn in R; congruence. }
  intros D'. cbn [step] in *.
  assert (T' : exists h, typist_at s = TEnded h) by (destruct (typist_at s); try discriminate T; eauto).
  assert (B' : exists h, beater_at s = BEnded h) by (destruct (beater_at s); try discriminate Bt; eauto).
  assert (W' : watch_at s = WEnded) by (destruct (watch_at s); try discriminate W; reflexivity).
  destruct T' as [h1 T'], B' as [h2 B'].
  destruct (boss_at s) as [| | | | | |r|r] eqn:B; try discriminate K.
  - right. split; [exact D'|]. destruct (boss_rank s a S) as [(F1 & F2 & F3 & F4) [R|R]]; [congruence|unfold ending; rewrite F1, S, F2, F3, F4; lia|].
    exfalso. unfold boss_step in R. rewrite B, T' in R. apply (f_equal boss_at) in R. cbn in R. rewrite B in R. destruct h1; discriminate R.
  - right. split; [exact D'|]. destruct (boss_rank s a S) as [(F1 & F2 & F3 & F4) [R|R]]; [congruence|unfold ending; rewrite F1, S, F2, F3, F4; lia|].
    exfalso. unfold boss_step in R. rewrite B, B' in R. apply (f_equal boss_at) in R. cbn in R. rewrite B in R. destruct h2; discriminate R.
  - right. split; [exact D'|]. destruct (boss_rank s a S) as [(F1 & F2 & F3 & F4) [R|R]]; [congruence|unfold ending; rewrite F1, S, F2, F3, F4; lia|].
    exfalso. unfold boss_step in R. rewrite B, W' in R. apply (f_equal boss_at) in R. cbn in R. rewrite B in R. discriminate R.
  - left. unfold boss_step. rewrite B. unfold typist_over, beater_over, watch_over. rewrite T', B', W'. cbn [andb].
    destruct r as [d| |]; eexists; reflexivity.
  - left. apply (over_keeps s (Step Boss a)). exists r. exact B.
Qed.

Lemma doomed_ends rounds s : doomed s -> Forall full_round rounds -> 20 <= length rounds -> over (run s (concat rounds)).
Proof.
  intros D F L. apply (leads (fun _ => True) doomed over ending culprit); auto.
  { intros; apply over_keeps; assumption. } { intros; apply doomed_moves; assumption. } { intros; apply doomed_gains; assumption. }
  { apply Forall_forall. intros; exact I. }
  destruct D as [Iv _]. destruct (stop s) eqn:S.
  - pose proof (ending_bound s S (stopped_not_polling s Iv S)). lia.
  - unfold ending. rewrite S. lia.
Qed.

Lemma two_stages (Q : stream -> Prop) a rounds s :
  (forall r, Forall full_round r -> length r = a -> Q (run s (concat r))) ->
  (forall s', Q s' -> doomed s') ->
  Forall full_round rounds -> a + 20 <= length rounds -> over (run s (concat rounds)).
Proof.
  intros H1 H2 F L. rewrite <- (firstn_skipn a rounds), concat_app, run_app.
  rewrite <- (firstn_skipn a rounds) in F. apply Forall_app in F as [F1 F2].
  apply doomed_ends; [|exact F2|rewrite skipn_length; lia]. apply H2. apply H1; [exact F1|]. rewrite firstn_length. lia.
Qed.

(** The shell has exited: the supervisor sees it. *)
Definition mourning (s : stream) : Prop := inv s /\ exited s <> None.
Lemma exited_keeps s x z : exited s = Some z -> exited (step s x) = Some z.
Proof.
  intros H. destruct x as [[| | | |] a|z'|c| |]; cbn [step].
  - rewrite (tf_exit _ _ (typist_framed s a)). exact H.
  - rewrite (bf_exit _ _ (beater_framed s a)). exact H.
  - rewrite (wf_exit _ _ (watch_framed s a)). exact H.
  - unfold boss_step. destruct (boss_at s) as [| | | | | |r|r]; try (destruct a; exact H).
    + destruct (_ || _); exact H.
    + destruct (typist_at s) eqn:E; cbn; auto.
    + destruct (beater_at s) eqn:E; cbn; auto.
    + destruct (watch_at s) eqn:E; cbn; exact H.
    + destruct (_ && _); [|exact H]. destruct r as [d| |]; try exact H. destruct (child_done s); exact H.
  - unfold output_step. destruct (owed s); exact H.
  - rewrite H. exact H.
  - destruct (gone s || shut s || _ || _ || _); exact H.
  - exact H.
  - exact H.
Qed.
Lemma watch_only s x : (forall a, x <> Step Watch a) -> watch_at (step s x) = watch_at s.
Proof.
  intros N. destruct x as [[| | | |] a|z'|c| |]; cbn [step].
  - apply (tf_watch _ _ (typist_framed s a)).
  - apply (bf_watch _ _ (beater_framed s a)).
  - exfalso. exact (N a eq_refl).
  - unfold boss_step. destruct (boss_at s) as [| | | | | |r|r]; try (destruct a; reflexivity).
    + destruct (_ || _); reflexivity.
    + destruct (typist_at s) eqn:E; cbn; auto.
    + destruct (beater_at s) eqn:E; cbn; auto.
    + destruct (watch_at s) eqn:E; cbn; auto.
    + destruct (_ && _); [|reflexivity]. destruct r as [d| |]; try reflexivity. destruct (child_done s); reflexivity.
  - unfold output_step. destruct (owed s); reflexivity.
  - destruct (exited s); reflexivity.
  - destruct (gone s || shut s || _ || _ || _); reflexivity.
  - reflexivity.
  - reflexivity.
Qed.
Lemma exit_noticed r s : mourning s -> Forall full_round r -> length r = 3 -> doomed (run s (concat r)).
Proof.
  intros M F L.
  apply (leads (fun _ => True) mourning doomed (fun s => wrank (watch_at s)) (fun _ => Watch)); auto.
  - intros; apply doomed_keeps; assumption.
  - intros s' x _ [Iv X]. right. assert (M' : mourning (step s' x)).
    { split; [apply step_inv; exact Iv|]. destruct (exited s') as [z|] eqn:E; [|congruence]. rewrite (exited_keeps _ x _ E). discriminate. }
    split; [exact M'|]. destruct x as [[| | | |] a|z'|c| |]; try (right; split; [rewrite watch_only by (intros; discriminate); reflexivity|reflexivity]).
    cbn [step]. unfold watch_step. destruct (exited s') as [z|] eqn:E; [|congruence]. destruct (watch_at s') eqn:W; [destruct (stop s')|destruct a|]; cbn; rewrite ?W; cbn; (left; lia) || (right; auto).
  - intros s' a _ [Iv X] [A1 A2]. cbn [step].
    assert (Iv' : inv (watch_step s' a)) by (apply watch_inv; exact Iv).
    destruct (watch_at s') eqn:W.
    + left. split; [exact Iv'|]. right. right. right. unfold watch_step. rewrite W. destruct (stop s'); [reflexivity|]. destruct (exited s'); [reflexivity|congruence].
    + right. split; [split; [exact Iv'|rewrite (wf_exit _ _ (watch_framed s' a)); exact X]|].
      unfold watch_step. rewrite W. destruct a; try congruence; destruct (exited s'); cbn; lia.
    + left. split; [exact Iv'|]. right. right. right. unfold watch_step. rewrite W. exact W.
  - apply Forall_forall. intros; exact I.
  - rewrite L. destruct M as [_ _]. destruct (watch_at s); cbn; lia.
Qed.

(** Nobody is there: the heartbeat sees it. *)
Lemma beater_only s x : (forall a, x <> Step Beater a) -> beater_at (step s x) = beater_at s.
Proof.
  intros N. destruct x as [[| | | |] a|z'|c| |]; cbn [step].
  - apply (tf_beater _ _ (typist_framed s a)).
  - exfalso. exact (N a eq_refl).
  - apply (wf_beater _ _ (watch_framed s a)).
  - unfold boss_step. destruct (boss_at s) as [| | | | | |r|r]; try (destruct a; reflexivity).
    + destruct (_ || _); reflexivity.
    + destruct (typist_at s) eqn:E; cbn; auto.
    + destruct (beater_at s) eqn:E; cbn; auto.
    + destruct (watch_at s) eqn:E; cbn; auto.
    + destruct (_ && _); [|reflexivity]. destruct r as [d| |]; try reflexivity. destruct (child_done s); reflexivity.
  - unfold output_step. destruct (owed s); reflexivity.
  - destruct (exited s); reflexivity.
  - destruct (gone s || shut s || _ || _ || _); reflexivity.
  - reflexivity.
  - reflexivity.
Qed.
Definition pulse (x : beater) : nat := match x with BSleep => 2 | BAsk => 1 | _ => 0 end.
Lemma absence_noticed b r s : (b = Gone \/ b = Reply false) -> inv s -> Forall full_round r -> Forall (heartbeat_hears b) (concat r) -> length r = 3 -> doomed (run s (concat r)).
Proof.
  intros B Iv F H L.
  apply (leads (heartbeat_hears b) inv doomed (fun s => pulse (beater_at s)) (fun _ => Beater)); auto.
  - intros; apply doomed_keeps; assumption.
  - intros s' x X Iv'. assert (Iv2 : inv (step s' x)) by (apply step_inv; exact Iv').
    destruct x as [[| | | |] a|z'|c| |]; try (right; split; [exact Iv2|]; right; split; [rewrite beater_only by (intros; discriminate); reflexivity|reflexivity]).
    cbn [step] in *. cbn in X. unfold beater_step in *. destruct (beater_at s') eqn:W.
    + destruct (stop s'); [left; split; [exact Iv2|]; right; right; left; eexists; reflexivity|].
      right. split; [exact Iv2|]. destruct X as [->|X]; [right; rewrite W; auto|]. left. destruct B as [->| ->]; subst a; cbn; lia.
    + destruct X as [->|X]; [right; split; [exact Iv2|]; right; rewrite W; auto|].
      destruct B as [->| ->]; subst a; [left; split; [exact Iv2|]; right; right; left; eexists; reflexivity|]. right. split; [exact Iv2|]. left. cbn. lia.
    + destruct X as [->|X]; [right; split; [exact Iv2|]; right; rewrite W; auto|].
      left. split; [exact Iv2|]. right. right. left. destruct B as [->| ->]; subst a; eexists; reflexivity.
    + left. split; [exact Iv2|]. right. right. left. eexists. exact W.
  - intros s' a X Iv' [A1 _]. cbn [step]. assert (Iv2 : inv (beater_step s' a)) by (apply beater_inv; exact Iv'). cbn in X. destruct X as [->|X]; [congruence|].
    unfold beater_step in *. destruct (beater_at s') eqn:W.
    + destruct (stop s'); [left; split; [exact Iv2|]; right; right; left; eexists; reflexivity|].
      right. split; [destruct B as [->| ->]; subst a; exact Iv2|]. destruct B as [->| ->]; subst a; cbn; lia.
    + destruct B as [->| ->]; subst a; [left; split; [exact Iv2|]; right; right; left; eexists; reflexivity|]. right. split; [exact Iv2|]. cbn. lia.
    + left. split; [exact Iv2|]. right. right. left. destruct B as [->| ->]; subst a; eexists; reflexivity.
    + left. split; [exact Iv2|]. right. right. left. eexists. exact W.
  - rewrite L. destruct (beater_at s); cbn; lia.
Qed.

(** The stream is closed, on one side or the other: client->shell sees the end of it. *)
Definition closing (s : stream) : Prop := inv s /\ (gone s = true \/ shut s = true).
Definition to_read (s : stream) : nat :=
  3 * length (unread s) + match typist_at s with TStart _ => 2 | TCheck _ => 1 | TRead _ => 0 | TWrite _ _ => 2 | TDetach => 1 | TEnded _ => 0 end.
Lemma gone_keeps s x : gone s = true -> gone (step s x) = true.
Proof.
  intros H. destruct x as [[| | | |] a|z'|c| |]; cbn [step].
  - rewrite (tf_gone _ _ (typist_framed s a)). exact H.
  - rewrite (bf_gone _ _ (beater_framed s a)). exact H.
  - rewrite (wf_gone _ _ (watch_framed s a)). exact H.
  - unfold boss_step. destruct (boss_at s) as [| | | | | |r|r]; try (destruct a; exact H).
    + destruct (_ || _); exact H.
    + destruct (typist_at s) eqn:E; cbn; auto.
    + destruct (beater_at s) eqn:E; cbn; auto.
    + destruct (watch_at s) eqn:E; cbn; exact H.
    + destruct (_ && _); [|exact H]. destruct r as [d| |]; try exact H. destruct (child_done s); exact H.
  - unfold output_step. destruct (owed s); exact H.
  - destruct (exited s); exact H.
  - destruct (gone s || shut s || _ || _ || _); exact H.
  - reflexivity.
  - exact H.
Qed.
Lemma shut_keeps s x : shut s = true -> shut (step s x) = true.
Proof.
  intros H. destruct x as [[| | | |] a|z'|c| |]; cbn [step].
  - apply (tf_shut _ _ (typist_framed s a)). exact H.
  - rewrite (bf_shut _ _ (beater_framed s a)). exact H.
  - rewrite (wf_shut _ _ (watch_framed s a)). exact H.
  - unfold boss_step. destruct (boss_at s) as [| | | | | |r|r]; try (destruct a; exact H || reflexivity).
    + destruct (_ || _); exact H.
    + destruct (typist_at s) eqn:E; cbn; auto.
    + destruct (beater_at s) eqn:E; cbn; auto.
    + destruct (watch_at s) eqn:E; cbn; exact H.
    + destruct (_ && _); [|exact H]. destruct r as [d| |]; try exact H. destruct (child_done s); exact H || reflexivity.
  - unfold output_step. destruct (owed s); exact H || reflexivity.
  - destruct (exited s); exact H.
  - destruct (gone s || shut s || _ || _ || _); exact H.
  - exact H.
  - reflexivity.
Qed.
(** Only client->shell reads and moves itself; only the client adds to what there is to read. *)
Lemma typist_only s x : (forall a, x <> Step Typist a) -> (forall c, x <> Types c) ->
  typist_at (step s x) = typist_at s /\ unread (step s x) = unread s /\ pty (step s x) = pty s.
Proof.
  intros N N'. destruct x as [[| | | |] a|z'|c| |]; cbn [step].
  - exfalso. exact (N a eq_refl).
  - destruct (beater_framed s a). auto.
  - destruct (watch_framed s a). auto.
  - unfold boss_step. destruct (boss_at s) as [| | | | | |r|r]; try (destruct a; auto; fail).
    + destruct (_ || _); auto.
    + destruct (typist_at s) eqn:E; cbn; auto.
    + destruct (beater_at s) eqn:E; cbn; auto.
    + destruct (watch_at s) eqn:E; cbn; auto.
    + destruct (_ && _); [|auto]. destruct r as [d| |]; auto. destruct (child_done s); auto.
  - unfold output_step. destruct (owed s); auto.
  - destruct (exited s); auto.
  - exfalso. exact (N' c eq_refl).
  - auto.
  - auto.
Qed.
Lemma typist_reads s a : (to_read (typist_step s a) < to_read s \/ to_read (typist_step s a) = to_read s) \/ exists h, typist_at (typist_step s a) = TEnded h.
Proof.
  unfold typist_step. destruct (typist_at s) as [[b|]|k|k|nx by_| |h] eqn:E.
  - left. left. unfold to_read. cbn. rewrite E. lia.
  - right. eexists. reflexivity.
  - destruct (stop s); [right; eexists; reflexivity|]. left. left. unfold to_read. cbn. rewrite E. lia.
  - assert (R : (to_read s < to_read s \/ to_read s = to_read s)) by auto.
    destruct a; auto; try (right; eexists; reflexivity);
      (destruct (unread s) as [|c r] eqn:U;
       [destruct (shut s || gone s); [right; eexists; reflexivity|auto]
       |destruct (read_once k c) as [[k' w|w]|]; [left|left|right; eexists; reflexivity]; left; unfold to_read; cbn; rewrite E, U; cbn; lia]).
  - destruct a; auto; try (right; eexists; reflexivity); left; [left|left|left|left|right]; unfold to_read; try destruct nx; cbn; rewrite E; lia.
  - destruct a; auto; right; eexists; reflexivity.
  - auto.
Qed.
Lemma end_of_file_noticed r s : closing s -> Forall full_round r -> length r = to_read s + 1 -> doomed (run s (concat r)).
Proof.
  intros M F L.
  apply (leads (fun _ => True) closing doomed to_read (fun _ => Typist)); auto.
  - intros; apply doomed_keeps; assumption.
  - intros s' x _ [Iv X]. assert (Iv' := step_inv s' x Iv).
    assert (M' : closing (step s' x)).
    { split; [exact Iv'|]. destruct X as [X|X]; [left; apply gone_keeps|right; apply shut_keeps]; exact X. }
    assert (Z : typist_at (step s' x) = typist_at s' -> unread (step s' x) = unread s' -> to_read (step s' x) = to_read s') by (unfold to_read; intros -> ->; reflexivity).
    destruct x as [[| | | |] a|z'|c| |];
      try (right; split; [exact M'|]; right; split; [|reflexivity]; apply Z; apply typist_only; intros; discriminate).
    + cbn [step] in *. destruct (typist_reads s' a) as [R|(h & R)]; [right; split; [exact M'|tauto]|].
      left. split; [exact Iv'|]. right. left. exists h. exact R.
    + right. split; [exact M'|]. right. split; [|reflexivity]. cbn [step]. destruct X as [-> | ->]; rewrite ?orb_true_r; reflexivity.
  - intros s' a _ [Iv X] [A1 A2]. cbn [step]. assert (Iv' : inv (typist_step s' a)) by (apply typist_inv; exact Iv).
    assert (M' : closing (typist_step s' a)).
    { split; [exact Iv'|]. destruct X as [X|X]; [left; exact (gone_keeps s' (Step Typist a) X)|right; exact (shut_keeps s' (Step Typist a) X)]. }
    assert (Z : (exists h, typist_at (typist_step s' a) = TEnded h) \/ to_read (typist_step s' a) < to_read s').
    { clear M' Iv'. unfold typist_step. destruct (typist_at s') as [[b|]|k|k|nx by_| |h] eqn:E.
      - right. unfold to_read. cbn. rewrite E. lia.
      - left. eexists. reflexivity.
      - destruct (stop s'); [left; eexists; reflexivity|]. right. unfold to_read. cbn. rewrite E. lia.
      - destruct a; try congruence; try (left; eexists; reflexivity);
          (destruct (unread s') as [|c u] eqn:U;
           [left; replace (shut s' || gone s') with true by (destruct X as [-> | ->]; rewrite ?orb_true_r; reflexivity); eexists; reflexivity
           |destruct (read_once k c) as [[k' w|w]|]; [right|right|left; eexists; reflexivity]; unfold to_read; cbn; rewrite E, U; cbn; lia]).
      - destruct a; try congruence; try (exfalso; eapply A2; reflexivity); try (left; eexists; reflexivity); right; unfold to_read; destruct nx; cbn; rewrite E; lia.
      - destruct a; try congruence; left; eexists; reflexivity.
      - left. exists h. exact E. }
    destruct Z as [(h & R)|R]; [left; split; [exact Iv'|]; right; left; exists h; exact R|right; split; [exact M'|exact R]].
  - apply Forall_forall. intros; exact I.
  - rewrite L. lia.
Qed.

(** *** What is typed *)

Lemma read_all_app reads : forall k c, read_all_input k (reads ++ [c]) =
  match read_all_input k reads with
  | None => None
  | Some (Detached w) => Some (Detached w)
  | Some (Continue k' w) =>
      match read_once k' c with
      | None => None
      | Some (Detached w') => Some (Detached (w ++ w'))
      | Some (Continue k'' w') => Some (Continue k'' (w ++ w'))
      end
  end.
Proof.
  induction reads as [|r reads IH]; intros k c.
  - cbn. destruct (read_once k c) as [[k' w|w]|]; rewrite ?app_nil_r; reflexivity.
  - cbn [app read_all_input]. destruct (read_once k r) as [[k' w|w]|]; try reflexivity. rewrite IH.
    destruct (read_all_input k' reads) as [[k'' w'|w']|]; try reflexivity.
    destruct (read_once k'' c) as [[k3 w3|w3]|]; rewrite ?app_assoc; reflexivity.
Qed.
Lemma read_all_more k reads c w : read_all_input k reads = Some (Detached w) -> read_all_input k (reads ++ [c]) = Some (Detached w).
Proof. intros H. rewrite read_all_app, H. reflexivity. Qed.
Lemma read_all_stops reads : forall k more w, read_all_input k reads = Some (Detached w) -> read_all_input k (reads ++ more) = Some (Detached w).
Proof.
  intros k more. revert reads. induction more as [|c more IH]; intros reads w H; [rewrite app_nil_r; exact H|].
  replace (reads ++ c :: more) with ((reads ++ [c]) ++ more) by (rewrite <- app_assoc; reflexivity). apply IH. apply read_all_more. exact H.
Qed.

(** [k0]: the state client->shell starts in; [sent]: what the client has sent so far. *)
Definition keyed (k0 : c2s) (sent : list (list N)) (s : stream) : Prop :=
  exists reads, sent = reads ++ unread s /\
  match typist_at s with
  | TStart (Some b) => k0 = c2s_start b (N.to_nat BUF_SIZE) /\ reads = [] /\ pty s = []
  | TStart None => False
  | TCheck k | TRead k => read_all_input k0 reads = Some (Continue k (pty s))
  | TWrite (Some k) rest => read_all_input k0 reads = Some (Continue k (pty s ++ rest))
  | TWrite None rest => read_all_input k0 reads = Some (Detached (pty s ++ rest))
  | TDetach => read_all_input k0 reads = Some (Detached (pty s))
  | TEnded Panic => read_all_input k0 reads = None
  | TEnded _ => exists r, read_all_input k0 reads = Some r /\ prefix (pty s) (written r)
  end.

Lemma keyed_ext k0 sent s s' : typist_at s' = typist_at s -> unread s' = unread s -> pty s' = pty s -> keyed k0 sent s -> keyed k0 sent s'.
Proof. intros E1 E2 E3 (reads & H1 & H2). exists reads. rewrite E1, E2, E3. auto. Qed.
Lemma prefix_refl {A} (l : list A) : prefix l l.
Proof. exists []. rewrite app_nil_r. reflexivity. Qed.
Lemma prefix_app {A} (l l' : list A) : prefix l (l ++ l').
Proof. exists l'. reflexivity. Qed.

Lemma keyed_typist k0 sent s a : keyed k0 sent s -> keyed k0 sent (typist_step s a).
Proof.
  intros (reads & H1 & H2). unfold typist_step. destruct (typist_at s) as [[b|]|k|k|nx by_| |h] eqn:E.
  - destruct H2 as (-> & -> & P). exists []. cbn. rewrite P. auto.
  - destruct H2.
  - destruct (stop s); exists reads; cbn; (split; [exact H1|]); [|exact H2]. eexists. split; [exact H2|]. apply prefix_refl.
  - assert (Same : keyed k0 sent s) by (exists reads; rewrite E; auto).
    assert (Fin : forall h, h <> Panic -> keyed k0 sent (set_typist (TEnded h) s)).
    { intros h N. exists reads. cbn. split; [exact H1|]. assert (exists r, read_all_input k0 reads = Some r /\ prefix (pty s) (written r)) by (eexists; split; [exact H2|apply prefix_refl]).
      destruct h; try assumption. congruence. }
    assert (Rd : forall c r, unread s = c :: r -> keyed k0 sent
      match read_once k c with
      | None => set_typist (TEnded Panic) (set_unread r s)
      | Some (Continue k' w) => set_typist (TWrite (Some k') w) (set_unread r s)
      | Some (Detached w) => set_typist (TWrite None w) (set_unread r s)
      end).
    { intros c r U. rewrite U in H1.
      assert (H3 := read_all_app reads k0 c). rewrite H2 in H3.
      assert (H4 : sent = (reads ++ [c]) ++ r) by (rewrite <- app_assoc; exact H1).
      destruct (read_once k c) as [[k' w|w]|]; exists (reads ++ [c]); cbn; auto. }
    destruct a; auto; try (apply Fin; discriminate);
      (destruct (unread s) as [|c r] eqn:U; [destruct (shut s || gone s); auto; apply Fin; discriminate|apply (Rd c r eq_refl)]).
  - assert (Same : keyed k0 sent s) by (exists reads; rewrite E; auto).
    assert (Tr : forall n, keyed k0 sent (set_typist (TWrite nx (skipn n by_)) (give (firstn n by_) s))).
    { intros n. exists reads. cbn. split; [exact H1|]. rewrite <- app_assoc, firstn_skipn. exact H2. }
    assert (Ls : keyed k0 sent (set_typist (TEnded Bad) s)).
    { exists reads. cbn. split; [exact H1|]. destruct nx; (eexists; split; [exact H2|apply prefix_app]). }
    assert (Ok : keyed k0 sent (set_typist (match nx with Some k => TCheck k | None => TDetach end) (give by_ s))).
    { exists reads. cbn. split; [exact H1|]. destruct nx; exact H2. }
    destruct a; auto.
  - assert (Same : keyed k0 sent s) by (exists reads; rewrite E; auto).
    destruct a; auto; exists reads; cbn; (split; [exact H1|]); (eexists; split; [exact H2|apply prefix_refl]).
  - exists reads. rewrite E. auto.
Qed.
Definition readable (c : list N) : Prop := good_read (N.to_nat BUF_SIZE) c.
Lemma types_accepted s c : readable c -> step s (Types c) = if gone s || shut s then s else set_unread (unread s ++ [c]) s.
Proof.
  intros (Hn & Hl & Hb). cbn [step]. destruct (gone s || shut s); [reflexivity|]. cbn [orb].
  replace (length c =? 0) with false by (symmetry; apply Nat.eqb_neq; destruct c; [congruence|discriminate]).
  replace (BUF_SIZE <? N.of_nat (length c))%N with false by (symmetry; apply N.ltb_ge; lia).
  replace (forallb (fun x => (x <? 256)%N) c) with true; [reflexivity|]. symmetry. apply forallb_forall.
  unfold byte_stream in Hb. rewrite Forall_forall in Hb. intros x Hx. apply N.ltb_lt. apply Hb. exact Hx.
Qed.
Lemma keyed_step k0 sent s x : (forall c, x = Types c -> readable c) -> keyed k0 sent s -> keyed k0 (sent ++ typed s [x]) (step s x).
Proof.
  intros Rd H. assert (Z : (forall a, x <> Step Typist a) -> (forall c, x <> Types c) -> keyed k0 sent (step s x)).
  { intros N N'. destruct (typist_only s x N N') as (E1 & E2 & E3). apply (keyed_ext k0 sent s); assumption. }
  destruct x as [w a|z|c| |]; cbn [typed app]; rewrite ?app_nil_r; try (apply Z; intros; discriminate).
  - destruct w; try (apply Z; intros; discriminate). apply keyed_typist. exact H.
  - rewrite (types_accepted s c (Rd c eq_refl)). destruct (gone s || shut s); [rewrite app_nil_r; exact H|].
    destruct H as (reads & H1 & H2). exists reads. cbn. split; [rewrite H1, app_assoc; reflexivity|exact H2].
Qed.
Lemma typed_app l : forall s l', typed s (l ++ l') = typed s l ++ typed (run s l) l'.
Proof. induction l as [|x l IH]; intros s l'; [reflexivity|]. cbn [typed app]. rewrite IH, app_assoc. reflexivity. Qed.
Lemma keyed_run k0 l : sane l -> forall sent s, keyed k0 sent s -> keyed k0 (sent ++ typed s l) (run s l).
Proof.
  induction l as [|x l IH]; intros S sent s H; [cbn; rewrite app_nil_r; exact H|].
  assert (S1 : forall c, x = Types c -> readable c) by (intros c ->; apply S; left; reflexivity).
  assert (S2 : sane l) by (intros c Hc; apply S; right; exact Hc).
  assert (H' := keyed_step k0 sent s x S1 H). apply (IH S2) in H'. rewrite <- app_assoc in H'.
  replace (typed s (x :: l)) with (typed s [x] ++ typed (step s x) l) by (cbn [typed]; rewrite app_nil_r; reflexivity). exact H'.
Qed.
Lemma keyed_opened b : keyed (c2s_start b (N.to_nat BUF_SIZE)) [] (opened (Some b)).
Proof. exists []. cbn. auto. Qed.
Lemma opened_keyed b l : sane l -> keyed (c2s_start b (N.to_nat BUF_SIZE)) (typed (opened (Some b)) l) (run (opened (Some b)) l).
Proof. intros S. apply (keyed_run _ l S [] _ (keyed_opened b)). Qed.

(** A detach is among what there is to read. *)
Fixpoint before_detach (k : c2s) (u : list (list N)) : nat :=
  match u with
  | [] => 0
  | c :: u' => match read_once k c with Some (Continue k' _) => S (before_detach k' u') | _ => 0 end
  end.
Definition detaches (k : c2s) (u : list (list N)) : Prop := exists w, read_all_input k u = Some (Detached w).
Definition leaving (s : stream) : Prop :=
  match typist_at s with
  | TStart (Some b) => detaches (c2s_start b (N.to_nat BUF_SIZE)) (unread s)
  | TStart None => False
  | TCheck k | TRead k | TWrite (Some k) _ => detaches k (unread s)
  | TWrite None _ | TDetach => True
  | TEnded _ => False
  end.
Definition to_detach (s : stream) : nat :=
  match typist_at s with
  | TStart (Some b) => 3 * before_detach (c2s_start b (N.to_nat BUF_SIZE)) (unread s) + 5
  | TStart None => 0
  | TCheck k => 3 * before_detach k (unread s) + 4
  | TRead k => 3 * before_detach k (unread s) + 3
  | TWrite (Some k) _ => 3 * before_detach k (unread s) + 5
  | TWrite None _ => 2
  | TDetach => 1
  | TEnded _ => 0
  end.
Lemma before_detach_more k u c : detaches k u -> before_detach k (u ++ [c]) = before_detach k u.
Proof.
  revert k. induction u as [|d u IH]; intros k (w & H); [discriminate H|]. cbn [app before_detach read_all_input] in *.
  destruct (read_once k d) as [[k' w'|w']|]; try reflexivity; try discriminate. f_equal. apply IH.
  destruct (read_all_input k' u) as [[k2 w2|w2]|] eqn:R; try discriminate. exists w2. exact R.
Qed.
Lemma before_detach_length k u : before_detach k u <= length u.
Proof. revert k. induction u as [|d u IH]; intros k; [apply le_n|]. cbn. destruct (read_once k d) as [[k' w'|w']|]; try lia. specialize (IH k'). lia. Qed.
Lemma leaving_typist s a : leaving s -> (exists h, typist_at (typist_step s a) = TEnded h) \/ (leaving (typist_step s a) /\
  (to_detach (typist_step s a) < to_detach s \/ to_detach (typist_step s a) = to_detach s)).
Proof.
  unfold leaving. intros L. unfold typist_step. destruct (typist_at s) as [[b|]|k|k|nx by_| |h] eqn:E.
  - right. cbn. split; [exact L|]. left. unfold to_detach. cbn. rewrite E. lia.
  - destruct L.
  - destruct (stop s); [left; eexists; reflexivity|]. right. cbn. split; [exact L|]. left. unfold to_detach. cbn. rewrite E. lia.
  - assert (Same : leaving s /\ (to_detach s < to_detach s \/ to_detach s = to_detach s)) by (unfold leaving; rewrite E; auto).
    unfold leaving in Same. rewrite E in Same.
    destruct a; try (right; rewrite E; exact Same); try (left; eexists; reflexivity);
      (destruct (unread s) as [|c r] eqn:U; [destruct L as [w L]; discriminate L|]; destruct L as [w L]; cbn [read_all_input] in L;
       destruct (read_once k c) as [[k' w'|w']|] eqn:R; [| |discriminate L]; right; cbn; unfold to_detach; cbn; rewrite E, U; cbn [before_detach]; rewrite R;
       [destruct (read_all_input k' r) as [[k2 w2|w2]|] eqn:R2; try discriminate L; split; [exists w2; exact R2|left; lia]
       |split; [exact I|left; lia]]).
  - destruct a; try (left; eexists; reflexivity); right; unfold to_detach; cbn; rewrite E; destruct nx; (split; [exact L|]); (left; lia) || (right; reflexivity).
  - destruct a; try (left; eexists; reflexivity); right; unfold to_detach; rewrite E; auto.
  - destruct L.
Qed.
Lemma leaving_types s c : leaving s -> leaving (step s (Types c)) /\ to_detach (step s (Types c)) = to_detach s.
Proof.
  intros L. cbn [step]. destruct (gone s || shut s || _ || _ || _); [auto|]. unfold leaving, to_detach in *. cbn.
  destruct (typist_at s) as [[b|]|k|k|[k|] by_| |h]; auto; (rewrite before_detach_more by exact L; destruct L as [w L]; split; [exists w; apply read_all_more; exact L|reflexivity]).
Qed.
Lemma detach_noticed r s : inv s -> leaving s -> Forall full_round r -> length r = to_detach s + 1 -> doomed (run s (concat r)).
Proof.
  intros Iv0 L0 F L.
  apply (leads (fun _ => True) (fun s => inv s /\ leaving s) doomed to_detach (fun _ => Typist)); auto.
  - intros; apply doomed_keeps; assumption.
  - intros s' x _ [Iv X]. assert (Iv' := step_inv s' x Iv).
    assert (Z : typist_at (step s' x) = typist_at s' /\ unread (step s' x) = unread s' /\ pty (step s' x) = pty s' ->
      leaving (step s' x) /\ to_detach (step s' x) = to_detach s') by (unfold to_detach, leaving in *; intros (-> & -> & _); auto).
    destruct x as [[| | | |] a|z'|c| |];
      try (right; destruct Z as [Z1 Z2]; [apply typist_only; intros; discriminate|]; split; [split; assumption|]; right; split; [exact Z2|reflexivity]).
    + cbn [step] in *. destruct (leaving_typist s' a X) as [(h & R)|[R R']]; [|right; split; [split; assumption|tauto]].
      left. split; [exact Iv'|]. right. left. exists h. exact R.
    + right. destruct (leaving_types s' c X) as [Z1 Z2]. split; [split; assumption|]. auto.
  - intros s' a _ [Iv X] [A1 A2]. cbn [step]. assert (Iv' : inv (typist_step s' a)) by (apply typist_inv; exact Iv).
    destruct (leaving_typist s' a X) as [(h & R)|[R [R'|R']]]; [|auto|].
    + left. split; [exact Iv'|]. right. left. exists h. exact R.
    + exfalso. unfold leaving, to_detach, typist_step in *. destruct (typist_at s') as [[b|]|k|k|nx by_| |h] eqn:E; try tauto.
      * cbn in R'. lia.
      * destruct (stop s'); cbn in R'; lia.
      * destruct a; try congruence; cbn in R'; try lia;
          (destruct (unread s') as [|c u] eqn:U; [destruct X as [w X]; discriminate X|]; destruct X as [w X]; cbn [before_detach read_all_input] in *;
           destruct (read_once k c) as [[k' w'|w']|] eqn:Ro; [| |discriminate X]; cbn in R'; lia).
      * destruct a; try congruence; try (eapply A2; reflexivity); destruct nx; cbn in R'; lia.
      * destruct a; try congruence; cbn in R'; lia.
  - apply Forall_forall. intros; exact I.
  - rewrite L. lia.
Qed.
Lemma to_detach_bound s : to_detach s <= 3 * length (unread s) + 5.
Proof.
  unfold to_detach. destruct (typist_at s) as [[b|]|k|k|[k|] by_| |h]; try lia.
  - pose proof (before_detach_length (c2s_start b (N.to_nat BUF_SIZE)) (unread s)). lia.
  - pose proof (before_detach_length k (unread s)). lia.
  - pose proof (before_detach_length k (unread s)). lia.
  - pose proof (before_detach_length k (unread s)). lia.
Qed.

(** *** Nothing happens *)

Record lively (s : stream) : Prop := {
  l_inv : inv s; l_stop : stop s = false; l_gone : gone s = false; l_shut : shut s = false; l_owed : owed s = false;
  l_exit : exited s = None; l_done : child_done s = false;
  l_typist : not_ended (typist_at s); l_beater : beats (beater_at s); l_watch : watch_at s <> WEnded
}.
Lemma opened_lively b : lively (opened b).
Proof. split; try reflexivity; try exact I; [apply opened_inv|discriminate]. Qed.

Lemma continue_prefix k a b k' w : read_all_input k (a ++ b) = Some (Continue k' w) -> exists k'' w', read_all_input k a = Some (Continue k'' w').
Proof.
  revert k k' w. induction a as [|c a IH]; intros k k' w H; [exists k, []; reflexivity|]. cbn [app read_all_input] in *.
  destruct (read_once k c) as [[k1 w1|w1]|]; try discriminate.
  destruct (read_all_input k1 (a ++ b)) as [[k2 w2|w2]|] eqn:E; try discriminate. destruct (IH _ _ _ E) as (k3 & w3 & ->). eauto.
Qed.
Definition carries_on (k0 : c2s) (sent : list (list N)) : Prop := exists k w, read_all_input k0 sent = Some (Continue k w).

Lemma lively_typist k0 sent s a : lively s -> keyed k0 sent s -> carries_on k0 sent -> a <> Lost ->
  lively (typist_step s a) /\ (to_read (typist_step s a) < to_read s \/ to_read (typist_step s a) = to_read s) /\
  (settles a -> to_read (typist_step s a) < to_read s \/ (unread s = [] /\ exists k, typist_at (typist_step s a) = TRead k)).
Proof.
  intros Lv (reads & H1 & H2) (kk & ww & C) N. assert (Iv' := typist_inv s a (l_inv s Lv)). destruct Lv as [L1 L2 L3 L4 L5 L6 L7 L8 L9 L10].
  assert (C' := continue_prefix k0 reads (unread s) kk ww). rewrite <- H1 in C'. specialize (C' C). destruct C' as (k' & w' & C').
  revert Iv'. unfold typist_step. destruct (typist_at s) as [[b|]|k|k|nx by_| |h] eqn:E; intros Iv'.
  - split; [split; cbn; auto|]. unfold to_read. cbn. rewrite E. split; [left; lia|]. intros _. left. lia.
  - destruct H2.
  - rewrite L2 in *. split; [split; cbn; auto|]. unfold to_read. cbn. rewrite E. split; [left; lia|]. intros _. left. lia.
  - assert (Same : lively s) by (split; auto; rewrite E; exact I).
    assert (Rd : forall c r, unread s = c :: r -> inv
      match read_once k c with
      | None => set_typist (TEnded Panic) (set_unread r s)
      | Some (Continue k' w) => set_typist (TWrite (Some k') w) (set_unread r s)
      | Some (Detached w) => set_typist (TWrite None w) (set_unread r s)
      end -> lively
      match read_once k c with
      | None => set_typist (TEnded Panic) (set_unread r s)
      | Some (Continue k' w) => set_typist (TWrite (Some k') w) (set_unread r s)
      | Some (Detached w) => set_typist (TWrite None w) (set_unread r s)
      end /\ to_read
      match read_once k c with
      | None => set_typist (TEnded Panic) (set_unread r s)
      | Some (Continue k' w) => set_typist (TWrite (Some k') w) (set_unread r s)
      | Some (Detached w) => set_typist (TWrite None w) (set_unread r s)
      end < to_read s).
    { intros c r U Ivv. destruct (read_once k c) as [[k1 w1|w1]|] eqn:R.
      - split; [split; cbn; auto|]. unfold to_read. cbn. rewrite E, U. cbn. lia.
      - split; [split; cbn; auto|]. unfold to_read. cbn. rewrite E, U. cbn. lia.
      - exfalso. assert (C2 := continue_prefix k0 (reads ++ [c]) r kk ww). rewrite <- app_assoc in C2. cbn [app] in C2. rewrite U in H1. rewrite <- H1 in C2.
        destruct (C2 C) as (k3 & w3 & C3). rewrite read_all_app, H2, R in C3. discriminate C3. }
    assert (Em : unread s = [] -> (unread s = [] /\ exists k1, typist_at s = TRead k1)) by (intros U; split; [exact U|]; exists k; exact E).
    destruct a; try congruence.
    { split; [exact Same|]. split; [auto|]. intros [K _]. congruence. }
    all: destruct (unread s) as [|c r] eqn:U;
      [rewrite L3, L4 in *; cbn [orb]; split; [exact Same|]; split; [auto|]; intros _; right; apply (Em eq_refl)
      |destruct (Rd c r eq_refl Iv') as [Z1 Z2]; split; [exact Z1|]; split; [left; exact Z2|intros _; left; exact Z2]].
  - assert (Same : lively s) by (split; auto; rewrite E; exact I).
    destruct a; try congruence; try (split; [exact Same|]; split; [auto|]; intros [K _]; congruence);
      try (split; [split; cbn; auto; destruct nx; exact I|]; unfold to_read; destruct nx; cbn; rewrite E; split; try (left; lia); intros _; left; lia).
    split; [split; cbn; auto|]. unfold to_read; cbn; rewrite E. split; [auto|]. intros [_ K]. exfalso. eapply K. reflexivity.
  - exfalso. congruence.
  - destruct L8.
Qed.
Lemma lively_step k0 sent s x : lively s -> keyed k0 sent s -> carries_on k0 sent -> uneventful x -> lively (step s x).
Proof.
  intros Lv Ky C U. assert (Iv' := step_inv s x (l_inv s Lv)). destruct x as [[| | | |] a|z|c| |]; cbn [uneventful] in U; cbn [step] in *; try contradiction.
  - eapply lively_typist; eassumption.
  - destruct U as (U1 & U2 & U3). destruct Lv as [L1 L2 L3 L4 L5 L6 L7 L8 L9 L10]. revert Iv'. unfold beater_step.
    destruct (beater_at s) as [| | |h] eqn:E.
    + rewrite L2. destruct a; intros Iv'; split; cbn; auto; rewrite ?E; exact I.
    + destruct a; try congruence; intros Iv'; split; cbn; auto; rewrite ?E; exact I.
    + destruct a as [| | | | |[|]|]; try congruence; intros Iv'; split; cbn; auto; rewrite ?E; exact I.
    + destruct L9.
  - destruct Lv as [L1 L2 L3 L4 L5 L6 L7 L8 L9 L10]. revert Iv'. unfold watch_step. rewrite L2, L6.
    destruct (watch_at s) eqn:E; [|destruct a|]; intros Iv'; split; cbn; auto; rewrite ?E; try discriminate; try congruence.
  - destruct Lv as [L1 L2 L3 L4 L5 L6 L7 L8 L9 L10]. revert Iv'. unfold boss_step. assert (B : boss_at s = KPoll) by (apply (i_stop s L1); exact L2). rewrite B.
    replace (typist_over s || beater_over s || watch_over s || child_done s) with false; [intros Iv'; split; auto|].
    unfold typist_over, beater_over, watch_over. rewrite L7. destruct (typist_at s); try destruct L8; destruct (beater_at s); try destruct L9; destruct (watch_at s); try reflexivity; congruence.
  - unfold output_step in *. rewrite (l_owed s Lv) in *. exact Lv.
  - destruct Lv as [L1 L2 L3 L4 L5 L6 L7 L8 L9 L10]. destruct (gone s || shut s || _ || _ || _); split; auto.
Qed.
Lemma lively_run k0 l : sane l -> Forall uneventful l -> forall sent s, lively s -> keyed k0 sent s -> carries_on k0 (sent ++ typed s l) -> lively (run s l).
Proof.
  intros S F. revert S. induction F as [|x l X F IH]; intros S sent s Lv Ky C; [exact Lv|].
  assert (S1 : forall c, x = Types c -> readable c) by (intros c ->; apply S; left; reflexivity).
  assert (S2 : sane l) by (intros c Hc; apply S; right; exact Hc).
  replace (typed s (x :: l)) with (typed s [x] ++ typed (step s x) l) in C by (cbn [typed]; rewrite app_nil_r; reflexivity).
  change (run s (x :: l)) with (run (step s x) l). apply (IH S2 (sent ++ typed s [x])).
  - destruct C as (k & w & C). eapply lively_step; try eassumption. eapply continue_prefix. exact C.
  - apply keyed_step; assumption.
  - rewrite <- app_assoc. exact C.
Qed.

Definition silent (x : action) : Prop := uneventful x /\ forall c, x <> Types c.
Definition served (k0 : c2s) (sent : list (list N)) (s : stream) : Prop :=
  (lively s /\ keyed k0 sent s) /\ unread s = [] /\ ((exists k, typist_at s = TRead k) \/ exists k, typist_at s = TCheck k).
Lemma served_pty k0 sent s k w : served k0 sent s -> read_all_input k0 sent = Some (Continue k w) -> pty s = w.
Proof.
  intros ([_ (reads & H1 & H2)] & U & T) C. rewrite U, app_nil_r in H1. subst reads.
  destruct T as [(k1 & T)|(k1 & T)]; rewrite T in H2; congruence.
Qed.
Lemma silent_typed l : Forall silent l -> forall s, typed s l = [].
Proof.
  induction 1 as [|x l [_ X] F IH]; intros s; [reflexivity|]. cbn [typed]. rewrite IH, app_nil_r. destruct x; auto. exfalso. eapply X. reflexivity.
Qed.
Lemma keystrokes_arrive k0 sent rounds s : lively s -> keyed k0 sent s -> carries_on k0 sent -> Forall full_round rounds -> Forall silent (concat rounds) ->
  to_read s < length rounds -> served k0 sent (run s (concat rounds)).
Proof.
  intros Lv Ky C F Si L.
  assert (St : forall s x, silent x -> lively s /\ keyed k0 sent s -> lively (step s x) /\ keyed k0 sent (step s x)).
  { intros s' x [X1 X2] [A B]. split; [eapply lively_step; eassumption|].
    assert (K := keyed_step k0 sent s' x). replace (typed s' [x]) with (@nil (list N)) in K by (cbn [typed]; destruct x; auto; exfalso; eapply X2; reflexivity).
    rewrite app_nil_r in K. apply K; [|exact B]. intros c ->. exfalso. eapply X2. reflexivity. }
  assert (Other : forall s x, silent x -> (forall a, x <> Step Typist a) -> typist_at (step s x) = typist_at s /\ unread (step s x) = unread s).
  { intros s' x [_ X2] N. destruct (typist_only s' x N X2) as (E1 & E2 & _). auto. }
  apply (leads silent (fun s => lively s /\ keyed k0 sent s) (served k0 sent) to_read (fun _ => Typist)); auto.
  - intros s' x X (A & U & T). split; [apply St; assumption|].
    assert (D : (exists a, x = Step Typist a) \/ (forall a, x <> Step Typist a)) by (destruct x as [[| | | |] a|z|c| |]; try (right; intros; discriminate); left; exists a; reflexivity).
    destruct D as [[a ->]|D]; [|destruct (Other s' x X D) as [-> ->]; auto].
    cbn [step]. destruct A as [A _]. destruct X as [X _]. cbn in X. unfold typist_step.
    destruct T as [(k & T)|(k & T)]; rewrite T.
    + rewrite U, (l_gone s' A), (l_shut s' A). cbn [orb]. destruct a; try congruence; eauto.
    + rewrite (l_stop s' A). cbn. split; [exact U|]. left. exists k. reflexivity.
  - intros s' x X A. right. split; [apply St; assumption|].
    assert (D : (exists a, x = Step Typist a) \/ (forall a, x <> Step Typist a)) by (destruct x as [[| | | |] a|z|c| |]; try (right; intros; discriminate); left; exists a; reflexivity).
    destruct D as [[a ->]|D].
    + cbn [step]. destruct A as [A B]. destruct X as [X _]. cbn in X. destruct (lively_typist k0 sent s' a A B C X) as (_ & Z & _). tauto.
    + right. split; [|reflexivity]. unfold to_read. destruct (Other s' x X D) as [-> ->]. reflexivity.
  - intros s' a X A Sa. cbn [step]. assert (A' := St s' _ X A). cbn [step] in A'. destruct A as [A B]. destruct X as [X _]. cbn in X.
    destruct (lively_typist k0 sent s' a A B C X) as (_ & _ & Z). destruct (Z Sa) as [Z1|(Z1 & Z2)]; [auto|]. left. split; [exact A'|].
    split; [|left; exact Z2]. unfold typist_step. destruct (typist_at s') as [[b|]|k|k|nx by_| |h] eqn:E; auto.
    + destruct (stop s'); exact Z1.
    + rewrite Z1. destruct a; auto; destruct (shut s' || gone s'); exact Z1.
    + destruct a; exact Z1.
    + destruct a; exact Z1.
Qed.

(** *** How it ends *)

Definition clean (s : stream) : Prop :=
  typist_at s <> TEnded Bad /\ typist_at s <> TStart None /\ beater_at s <> BEnded Bad /\ boss_at s <> KScope Failed /\ boss_at s <> KDone Failed.
Lemma clean_step s x : faultless x -> clean s -> clean (step s x).
Proof.
  intros F (C1 & C2 & C3 & C4 & C5). destruct x as [[| | | |] a|z|c| |]; cbn [faultless] in F; cbn [step].
  - destruct (typist_framed s a) as [F1 F2 F3 F4 F5 F6 F7 F8 F9 F10 F11]. unfold clean. rewrite F1, F3.
    enough (typist_at (typist_step s a) <> TEnded Bad /\ typist_at (typist_step s a) <> TStart None) by tauto. destruct F as (A1 & A2 & A3).
    unfold typist_step. destruct (typist_at s) as [[b|]|k|k|nx by_| |h] eqn:E.
    + split; discriminate.
    + congruence.
    + destruct (stop s); split; discriminate.
    + destruct a; try congruence; try (rewrite E; split; discriminate);
        (destruct (unread s); [destruct (shut s || gone s); rewrite ?E; split; discriminate|destruct (read_once k l) as [[k' w|w]|]; split; discriminate]).
    + destruct a; try congruence; try (rewrite E; split; discriminate); destruct nx; split; discriminate.
    + destruct a; try congruence; try (rewrite E; split; discriminate); split; discriminate.
    + rewrite E. auto.
  - destruct (beater_framed s a) as [F1 F2 F3 F4 F5 F6 F7 F8 F9 F10 F11 F12 F13]. unfold clean. rewrite F1, F3.
    enough (beater_at (beater_step s a) <> BEnded Bad) by tauto. unfold beater_step.
    destruct (beater_at s) as [| | |h] eqn:E; [destruct (stop s); [|destruct a]|destruct a|destruct a as [| | | | |[|]|]|]; rewrite ?E; try discriminate; try congruence.
  - destruct (watch_framed s a) as [F1 F2 F3 F4 F5 F6 F7 F8 F9 F10 F11 F12]. unfold clean. rewrite F1, F2, F3. tauto.
  - destruct F as (A1 & A2 & A3). unfold boss_step. destruct (boss_at s) as [| | | | | |r|r] eqn:B.
    + destruct (_ || _); unfold clean; cbn; rewrite ?B; repeat split; auto; discriminate.
    + destruct a; try congruence; unfold clean; cbn; rewrite ?B; repeat split; auto; discriminate.
    + destruct a; try congruence; unfold clean; cbn; rewrite ?B; repeat split; auto; discriminate.
    + destruct (typist_at s) eqn:T; try (unfold clean; rewrite ?B, ?T; repeat split; auto; discriminate).
      unfold clean; cbn. rewrite T. destruct how; try congruence; repeat split; auto; discriminate.
    + destruct (beater_at s) eqn:T; try (unfold clean; rewrite ?B, ?T; repeat split; auto; discriminate).
      unfold clean; cbn. rewrite T. destruct how; try congruence; repeat split; auto; discriminate.
    + destruct (watch_at s) eqn:T; unfold clean; cbn; rewrite ?B; repeat split; auto; discriminate.
    + destruct (_ && _); [|unfold clean; rewrite B; repeat split; auto]. destruct r as [d| |]; [destruct (child_done s)| |]; unfold clean; cbn; repeat split; auto; try discriminate; congruence.
    + unfold clean; rewrite B; repeat split; auto.
  - unfold output_step. destruct (owed s); repeat split; auto.
  - destruct (exited s); repeat split; auto.
  - destruct (gone s || shut s || _ || _ || _); repeat split; auto.
  - repeat split; auto.
  - repeat split; auto.
Qed.
Lemma clean_run l : Forall faultless l -> forall s, clean s -> clean (run s l).
Proof. induction 1 as [|x l X F IH]; intros s C; [exact C|]. cbn. apply IH. apply clean_step; assumption. Qed.

(** A write the shell does not take. *)
Lemma writing_keeps l : Forall shell_reads_nothing l -> forall s nx bytes, typist_at s = TWrite nx bytes -> typist_at (run s l) = TWrite nx bytes.
Proof.
  induction 1 as [|x l X F IH]; intros s nx bytes T; [exact T|]. cbn. apply IH.
  assert (D : (exists a, x = Step Typist a) \/ (forall a, x <> Step Typist a)) by (destruct x as [[| | | |] a|z|c| |]; try (right; intros; discriminate); left; exists a; reflexivity).
  destruct D as [[a ->]|D].
  - cbn in X. subst a. cbn. unfold typist_step. rewrite T. exact T.
  - destruct x as [w a|z|c| |]; try (rewrite (proj1 (typist_only s _ D ltac:(intros; discriminate))); exact T).
    cbn [step]. destruct (gone s || shut s || _ || _ || _); exact T.
Qed.
Lemma over_all_ended s : inv s -> over s -> all_threads_ended s.
Proof.
  intros Iv (r & B). pose proof (i_joined s Iv) as J. unfold joined_by in J. rewrite B in J. destruct r as [d| |].
  - destruct J as (T & Be & W & _). unfold all_threads_ended. eauto.
  - exact J.
  - apply J.
Qed.

(** A thread could not be started. *)
Definition waiting_for_client (s : stream) : Prop :=
  boss_at s = KScope Failed /\ stop s = false /\ gone s = false /\ shut s = false /\ owed s = false /\ unread s = [] /\
  match typist_at s with TStart (Some _) | TCheck _ | TRead _ => True | _ => False end.
Lemma waiting_step s x : idle_client x -> waiting_for_client s -> waiting_for_client (step s x).
Proof.
  intros X (B & S & G & Sh & O & U & T). destruct x as [[| | | |] a|z|c| |]; cbn [idle_client] in X; cbn [step]; try contradiction.
  - unfold typist_step. destruct (typist_at s) as [[b|]|k|k|nx by_| |h] eqn:E; try destruct T.
    + unfold waiting_for_client. cbn. auto 10.
    + rewrite S. unfold waiting_for_client. cbn. auto 10.
    + rewrite U, G, Sh. cbn [orb]. destruct a; try congruence; unfold waiting_for_client; rewrite E; auto 10.
  - destruct (beater_framed s a) as [F1 F2 F3 F4 F5 F6 F7 F8 F9 F10 F11 F12 F13]. unfold waiting_for_client. rewrite F1, F3, F4, F7, F8, F9, F10. auto 10.
  - destruct (watch_framed s a) as [F1 F2 F3 F4 F5 F6 F7 F8 F9 F10 F11 F12]. unfold waiting_for_client. rewrite F1, F3, F4, F6, F7, F8, F9. auto 10.
  - unfold boss_step. rewrite B. replace (typist_over s) with false by (unfold typist_over; destruct (typist_at s); try reflexivity; destruct T).
    unfold waiting_for_client. cbn [andb]. auto 10.
  - unfold output_step. rewrite O. unfold waiting_for_client. auto 10.
  - destruct (exited s); unfold waiting_for_client; cbn; auto 10.
Qed.
Lemma waiting_run l : Forall idle_client l -> forall s, waiting_for_client s -> waiting_for_client (run s l).
Proof. induction 1 as [|x l X F IH]; intros s W; [exact W|]. cbn. apply IH. apply waiting_step; assumption. Qed.

(** Only the shell ends it. *)
Record expiring (s : stream) : Prop := {
  e_inv : inv s; e_gone : gone s = false; e_owed : owed s = false;
  e_typist : typist_at s <> TEnded Bad /\ typist_at s <> TStart None;
  e_beater : beater_at s <> BEnded Bad;
  e_boss : match boss_at s with KScope (Returned _) | KDone (Returned _) => True | KScope _ | KDone _ => False | _ => True end;
  e_before : stop s = false -> shut s = false /\ not_ended (typist_at s) /\ beats (beater_at s);
  e_after : stop s = true -> child_done s = true;
  e_told : forall m, In m (told s) -> m <> TellDisconnect
}.
Lemma expiring_typist k0 sent s a : expiring s -> keyed k0 sent s -> carries_on k0 sent -> a <> Lost ->
  (typist_at (typist_step s a) <> TEnded Bad /\ typist_at (typist_step s a) <> TStart None /\ typist_at (typist_step s a) <> TEnded Panic) /\
  (owed (typist_step s a) = owed s) /\
  (stop s = false -> shut (typist_step s a) = shut s /\ not_ended (typist_at (typist_step s a))).
Proof.
  intros Ex (reads & H1 & H2) (kk & ww & C) N. destruct Ex as [E1 E2 E3 [E4 E4'] E5 E6 E7 E8 E9].
  assert (C' := continue_prefix k0 reads (unread s) kk ww). rewrite <- H1 in C'. specialize (C' C). destruct C' as (k' & w' & C').
  unfold typist_step. destruct (typist_at s) as [[b|]|k|k|nx by_| |h] eqn:E.
  - cbn. repeat split; discriminate || auto.
  - congruence.
  - destruct (stop s); cbn; repeat split; discriminate || auto; discriminate.
  - assert (Rd : forall c r, unread s = c :: r -> read_once k c <> None).
    { intros c r U R. assert (C2 := continue_prefix k0 (reads ++ [c]) r kk ww). rewrite <- app_assoc in C2. cbn [app] in C2. rewrite U in H1. rewrite <- H1 in C2.
      destruct (C2 C) as (k3 & w3 & C3). rewrite read_all_app, H2, R in C3. discriminate C3. }
    destruct a; try congruence; try (cbn; rewrite E; repeat split; discriminate || auto; fail);
      (destruct (unread s) as [|c r] eqn:U;
       [destruct (shut s || gone s) eqn:SG; cbn;
        [split; [repeat split; discriminate|]; split; [reflexivity|]; intros St; destruct (E7 St) as [Sh _]; rewrite Sh, E2 in SG; discriminate SG
        |rewrite E; split; [repeat split; discriminate|]; split; [reflexivity|]; intros _; split; [reflexivity|exact I]]
       |specialize (Rd c r eq_refl); destruct (read_once k c) as [[k1 w1|w1]|]; [| |congruence]; cbn; repeat split; discriminate || auto]).
  - destruct a; try congruence; try destruct nx; cbn; rewrite ?E; repeat split; discriminate || auto.
  - congruence.
  - rewrite E. split; [|split; [reflexivity|]].
    + split; [exact E4|]. split; [discriminate|]. intros K. injection K as ->. congruence.
    + intros St. destruct (E7 St) as (_ & K & _). destruct K.
Qed.
Lemma expiring_panic k0 sent s : keyed k0 sent s -> carries_on k0 sent -> typist_at s <> TEnded Panic.
Proof.
  intros (reads & H1 & H2) (kk & ww & C) K. rewrite K in H2.
  assert (C' := continue_prefix k0 reads (unread s) kk ww). rewrite <- H1 in C'. destruct (C' C) as (k' & w' & C''). congruence.
Qed.
Lemma expiring_step k0 sent s x : expiring s -> keyed k0 sent s -> carries_on k0 sent -> only_the_shell x -> expiring (step s x).
Proof.
  intros Ex Ky C U. assert (Iv' := step_inv s x (e_inv s Ex)). destruct x as [[| | | |] a|z|c| |]; cbn [only_the_shell] in U; cbn [step] in *; try contradiction.
  - destruct (expiring_typist k0 sent s a Ex Ky C U) as ((A1 & A2 & A3) & A4 & A5).
    destruct (typist_framed s a) as [F1 F2 F3 F4 F5 F6 F7 F8 F9 F10 F11]. destruct Ex as [E1 E2 E3 [E4 E4'] E5 E6 E7 E8 E9].
    split; auto; rewrite ?F1, ?F3, ?F4, ?F5, ?F7, ?F8; auto; [congruence|]. intros St. destruct (A5 St) as [-> B]. destruct (E7 St) as (B1 & B2 & B3). auto.
  - destruct U as (U1 & U2 & U3). destruct (beater_framed s a) as [F1 F2 F3 F4 F5 F6 F7 F8 F9 F10 F11 F12 F13]. destruct Ex as [E1 E2 E3 [E4 E4'] E5 E6 E7 E8 E9].
    assert (Z : beater_at (beater_step s a) <> BEnded Bad /\ (stop s = false -> beats (beater_at (beater_step s a)))).
    { unfold beater_step. destruct (beater_at s) as [| | |h] eqn:E.
      - destruct (stop s); [split; [discriminate|intros; discriminate]|]. destruct a; rewrite ?E; split; try discriminate; intros; exact I.
      - destruct a; try congruence; rewrite ?E; split; try discriminate; intros; exact I.
      - destruct a as [| | | | |[|]|]; try congruence; rewrite ?E; split; try discriminate; intros; exact I.
      - rewrite E. split; [exact E5|]. intros St. destruct (E7 St) as (_ & _ & K). destruct K. }
    split; auto; rewrite ?F1, ?F3, ?F4, ?F5, ?F8, ?F9, ?F10, ?F12; auto; try tauto.
  - destruct (watch_framed s a) as [F1 F2 F3 F4 F5 F6 F7 F8 F9 F10 F11 F12]. destruct Ex as [E1 E2 E3 [E4 E4'] E5 E6 E7 E8 E9].
    split; auto; rewrite ?F1, ?F2, ?F3, ?F4, ?F7, ?F8, ?F9, ?F11; auto. intros St. destruct F12 as [->|[_ [[_ ->]|[(_ & _ & ->)|(_ & -> & _)]]]]; auto.
  - destruct U as (A1 & A2 & A3). assert (Np := expiring_panic k0 sent s Ky C). destruct Ex as [E1 E2 E3 [E4 E4'] E5 E6 E7 E8 E9].
    revert Iv'. unfold boss_step. destruct (boss_at s) as [| | | | | |r|r] eqn:B; intros Iv'.
    + assert (St : stop s = false) by (apply (i_stop s E1); exact B). destruct (E7 St) as (B1 & B2 & B3).
      destruct (typist_over s || beater_over s || watch_over s || child_done s) eqn:O; [|split; auto; rewrite B; exact I].
      assert (Cd : child_done s = true).
      { unfold typist_over, beater_over, watch_over in O. destruct (typist_at s); try destruct B2; destruct (beater_at s); try destruct B3; cbn in O;
          destruct (watch_at s) eqn:W; cbn in O; auto; destruct (i_watch s E1 W); congruence. }
      split; cbn; auto.
    + assert (St : stop s = true) by (destruct (stop s) eqn:S; [reflexivity|]; apply (i_stop s E1) in S; congruence).
      assert (Cd := E8 St). rewrite Cd in *. destruct (i_seen s E1 Cd) as [X _]. destruct (exited s) as [z|] eqn:Xz; [|congruence].
      assert (Z : expiring s) by (split; auto; rewrite B; exact I).
      assert (Z' : expiring (set_boss KAwait (say (TellExit z) s)) \/ inv (set_boss KAwait (say (TellExit z) s)) -> expiring (set_boss KAwait (say (TellExit z) s))).
      { intros [K|K]; [exact K|]. split; cbn; auto; try (rewrite St; discriminate). intros m Hm. apply in_app_iff in Hm as [Hm|[<-|[]]]; auto; discriminate. }
      destruct a; try congruence; auto.
    + assert (St : stop s = true) by (destruct (stop s) eqn:S; [reflexivity|]; apply (i_stop s E1) in S; congruence).
      destruct a; try congruence; split; cbn; auto; rewrite ?B; auto; rewrite ?St; discriminate.
    + assert (St : stop s = true) by (destruct (stop s) eqn:S; [reflexivity|]; apply (i_stop s E1) in S; congruence).
      destruct (typist_at s) eqn:T; try (split; auto; rewrite ?B, ?T; auto; split; discriminate).
      destruct how; try congruence. split; cbn; auto; rewrite ?T; auto; rewrite ?St; discriminate.
    + assert (St : stop s = true) by (destruct (stop s) eqn:S; [reflexivity|]; apply (i_stop s E1) in S; congruence).
      assert (Nb := i_calm s E1).
      destruct (beater_at s) eqn:T; try (split; auto; rewrite ?B, ?T; auto; discriminate).
      destruct how; try congruence. split; cbn; auto; rewrite ?T; auto; rewrite ?St; discriminate.
    + assert (St : stop s = true) by (destruct (stop s) eqn:S; [reflexivity|]; apply (i_stop s E1) in S; congruence).
      destruct (watch_at s) eqn:T; split; cbn; auto; rewrite ?B; auto; rewrite ?St; discriminate.
    + assert (St : stop s = true) by (destruct (stop s) eqn:S; [reflexivity|]; apply (i_stop s E1) in S; congruence).
      destruct r as [d| |]; try destruct E6. destruct (typist_over s && beater_over s && watch_over s); [|split; auto; rewrite B; exact I].
      rewrite (E8 St). split; cbn; auto; rewrite ?St; try discriminate. rewrite (E8 St) in Iv'. exact Iv'.
    + split; auto. rewrite B. exact E6.
  - unfold output_step in *. rewrite (e_owed s Ex) in *. exact Ex.
  - destruct Ex as [E1 E2 E3 [E4 E4'] E5 E6 E7 E8 E9]. destruct (exited s); split; auto.
  - destruct Ex as [E1 E2 E3 [E4 E4'] E5 E6 E7 E8 E9]. destruct (gone s || shut s || _ || _ || _); split; auto.
Qed.
Lemma expiring_run k0 l : sane l -> Forall only_the_shell l -> forall sent s, expiring s -> keyed k0 sent s -> carries_on k0 (sent ++ typed s l) -> expiring (run s l).
Proof.
  intros S F. revert S. induction F as [|x l X F IH]; intros S sent s Lv Ky C; [exact Lv|].
  assert (S1 : forall c, x = Types c -> readable c) by (intros c ->; apply S; left; reflexivity).
  assert (S2 : sane l) by (intros c Hc; apply S; right; exact Hc).
  replace (typed s (x :: l)) with (typed s [x] ++ typed (step s x) l) in C by (cbn [typed]; rewrite app_nil_r; reflexivity).
  change (run s (x :: l)) with (run (step s x) l). apply (IH S2 (sent ++ typed s [x])).
  - destruct C as (k & w & C). eapply expiring_step; try eassumption. eapply continue_prefix. exact C.
  - apply keyed_step; assumption.
  - rewrite <- app_assoc. exact C.
Qed.
Lemma opened_expiring b : expiring (opened (Some b)).
Proof. split; cbn; auto; try discriminate; try (split; discriminate). auto using opened_inv. Qed.
