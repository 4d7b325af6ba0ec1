(** C65: the end of an attachment frees the session, and a shell that has exited is
    reported.  C64 says when; here is when not. *)
From Coq Require Import List NArith ZArith Bool Arith Lia.
From Verif Require Import Model.Base Model.Chunk Model.Keybindings Model.Input Model.Streaming
  Spec.KeySpec Spec.InputSpec Spec.StreamingSpec Proofs.StreamingProofs Properties.C09_Input Properties.C64_Attachment.
Import ListNotations.
Open Scope nat_scope.

(** Whatever the reason to end it, the attachment is over, and with it the session free for
    the next client, as soon as nothing a thread waits for is withheld. *)
Theorem C65_freed_partial : forall b l rounds, let s := run (opened b) l in
  exited s <> None \/ gone s = true \/ shut s = true \/ thread_ended s ->
  Forall full_round rounds -> 3 * length (unread s) + 23 <= length rounds ->
  let s' := run (opened b) (l ++ concat rounds) in over s' /\ all_threads_ended s'.
Proof.
  intros b l rounds s R F L s'. assert (O : over s').
  { destruct R as [R|[R|[R|R]]].
    - apply C64_ends_with_the_shell; auto. lia.
    - apply C64_ends_with_the_client; auto.
    - apply C64_ends_with_the_client; auto.
    - apply C64_ends_with_a_thread; auto. lia. }
  split; [exact O|]. apply C64_ends_completely. exact O.
Qed.
(** Missing for the full claim: what if it is withheld.  See the next theorem. *)
Print Assumptions C65_freed_partial.

Definition fine (l : list who) : list action := map (fun w => Step w Fine) l.

(** A shell that does not read what was typed holds the session after its client has gone,
    or was detached: client->shell stays in its write, and the handler, with the session
    locked, waits for it.  No other thread, request or event makes a difference. *)
Theorem C65_unread_input_refuted : forall b l nx bytes, typist_at (run (opened b) l) = TWrite nx bytes ->
  forall l', Forall shell_reads_nothing l' -> ~ over (run (opened b) (l ++ l')).
Proof.
  intros b l nx bytes T l' F O. assert (Iv : inv (run (opened b) (l ++ l'))) by (apply run_inv; apply opened_inv).
  destruct (over_all_ended _ Iv O) as [(h & E) _]. rewrite run_app in E. rewrite (writing_keeps l' F _ _ _ T) in E. discriminate E.
Qed.
Print Assumptions C65_unread_input_refuted.
(** It takes a client that pastes something and hangs up. *)
Definition paste : list action := fine [Typist; Typist] ++ [Types [97]%N] ++ fine [Typist] ++ [Leaves].
Example C65_paste : exists b, default_bindings = Ok b /\
  let s := run (opened (Some b)) paste in (exists nx bytes, typist_at s = TWrite nx bytes) /\ gone s = true /\
  let s' := run s (concat (repeat (fine [Beater; Watch; Boss; Output] ++ [Step Beater (Reply false)]) 30)) in
  stop s' = true /\ shut s' = true /\ boss_at s' = KJoinTypist.
Proof.
  destruct default_bindings as [b|e] eqn:E; [|vm_compute in E; discriminate E]. exists b. split; [reflexivity|].
  vm_compute in E. injection E as <-. vm_compute. split; [eexists; eexists; reflexivity|]. auto.
Qed.

(** A shell that exits at the moment its client leaves may not be noticed: its exit is
    recorded before the threads are told to stop, and yet the handler takes the session to
    be alive, and keeps it in the table. *)
Definition wind_up : list action := fine [Boss; Watch; Typist; Typist; Beater; Boss; Boss; Boss; Boss; Boss; Boss].
Theorem C65_exit_unnoticed_refuted : forall b, exists l, let s := run (opened (Some b)) l in
  exited s = Some 0%Z /\ stop s = false /\ boss_at (run s wind_up) = KDone (Returned false).
Proof.
  intros b. exists [Step Watch Fine; Step Beater Fine; Step Beater Fine; Step Watch Busy; ShellExits 0; Step Beater (Reply false)].
  split; [reflexivity|]. split; reflexivity.
Qed.
Print Assumptions C65_exit_unnoticed_refuted.

(** One that was noticed is forgotten if a heartbeat was left unanswered for a third of a
    second: the error wins, the handler takes the session to be alive although it has told
    the output thread, and the client, that it is not. *)
Theorem C65_exit_forgotten_refuted : forall b, exists l, let s := run (opened (Some b)) l in
  child_done s = true /\ boss_at (run s wind_up) = KDone Failed /\ told (run s wind_up) = [TellExit 0%Z].
Proof.
  intros b. exists [Step Beater Fine; Step Beater Fine; ShellExits 0; Step Beater Lost; Step Watch Fine].
  split; [reflexivity|]. split; reflexivity.
Qed.
Print Assumptions C65_exit_forgotten_refuted.

(** If the heartbeat or the supervisor thread cannot be started, the one before it is
    neither told to stop nor cut off: the handler waits for a client that may stay for
    ever, attached to nothing, even after the shell has exited. *)
Theorem C65_half_started_refuted : forall b beater l, Forall idle_client l ->
  let s := run (half_opened (Some b) beater) l in ~ over s /\ stop s = false /\ shut s = false /\ told s = [].
Proof.
  intros b beater l F s. assert (W : waiting_for_client s) by (apply (waiting_run l F); repeat split).
  destruct W as (B & S & _ & Sh & _). split; [intros (r & O); congruence|]. split; [exact S|]. split; [exact Sh|].
  assert (G : forall l s0, told s0 = [] -> (boss_at s0 = KScope Failed \/ boss_at s0 = KDone Failed) -> told (run s0 l) = []).
  { clear. induction l as [|x l IH]; intros s0 T Bo; [exact T|]. cbn.
    assert (T' : told (step s0 x) = [] /\ (boss_at (step s0 x) = KScope Failed \/ boss_at (step s0 x) = KDone Failed)).
    { destruct x as [[| | | |] a|z|c| |]; cbn [step].
      - destruct (typist_framed s0 a) as [F1 F2 F3 F4 F5 F6 F7 F8 F9 F10 F11]. rewrite F3, F8. auto.
      - destruct (beater_framed s0 a) as [F1 F2 F3 F4 F5 F6 F7 F8 F9 F10 F11 F12 F13]. rewrite F3, F12. auto.
      - destruct (watch_framed s0 a) as [F1 F2 F3 F4 F5 F6 F7 F8 F9 F10 F11 F12]. rewrite F3, F11. auto.
      - unfold boss_step. destruct Bo as [Bo|Bo]; rewrite Bo; [destruct (_ && _); cbn; auto|auto].
      - unfold output_step. destruct (owed s0); cbn; auto.
      - destruct (exited s0); cbn; auto.
      - destruct (gone s0 || shut s0 || _ || _ || _); cbn; auto.
      - cbn; auto.
      - cbn; auto. }
    destruct T' as [T1 T2]. apply IH; assumption. }
  apply G; [reflexivity|left; reflexivity].
Qed.
Print Assumptions C65_half_started_refuted.
(** What ends it then is the client alone: nobody reports an exit, nothing is told and
    nothing is closed, until the thread that reads from the client has ended, and the
    heartbeat if it was started; then it comes to an error. *)
Theorem C65_half_started_ends : forall b beater l, let s := run (half_opened (Some b) beater) l in
  child_done s = false /\ stop s = false /\ (gone s = true <-> In Leaves l) /\
  (~ In Shuts l -> (forall a, ~ In (Step Typist a) l) -> shut s = false /\ owed s = false) /\
  (forall r, boss_at s = KDone r -> r = Failed) /\
  (typist_over s = true -> (beater = true -> beater_over s = true) -> forall a, boss_at (step s (Step Boss a)) = KDone Failed).
Proof.
  intros b beater l s.
  assert (G : watch_at s = WEnded /\ child_done s = false /\ stop s = false /\ (gone s = true <-> In Leaves l) /\ (beater = false -> beater_over s = true) /\
              (boss_at s = KScope Failed \/ boss_at s = KDone Failed) /\
              (~ In Shuts l -> (forall a, ~ In (Step Typist a) l) -> shut s = false /\ owed s = false)).
  { subst s. induction l as [|x l IH] using rev_ind.
    - cbn. repeat split; auto; try tauto; try discriminate. intros ->. reflexivity.
    - unfold run in *. rewrite fold_left_app. cbn [fold_left]. set (s := fold_left step l _) in *. destruct IH as (W & C & S & Gn & Be & Bo & Sh).
      assert (Gn' : In Leaves (l ++ [x]) <-> In Leaves l \/ x = Leaves).
      { rewrite in_app_iff. cbn [In]. split; intros [H|H]; [auto|destruct H as [H|[]]; auto|auto|subst; auto]. }
      assert (Sh' : ~ In Shuts (l ++ [x]) -> (forall a, ~ In (Step Typist a) (l ++ [x])) -> (shut s = false /\ owed s = false) /\ x <> Shuts /\ forall a, x <> Step Typist a).
      { intros H1 H2. split; [apply Sh; [intros K; apply H1, in_or_app; auto|intros a K; apply (H2 a), in_or_app; auto]|].
        split; [intros ->; apply H1, in_or_app; cbn; auto|intros a ->; apply (H2 a), in_or_app; cbn; auto]. }
      rewrite Gn'. clear Gn' Sh. destruct x as [[| | | |] a|z|c| |]; cbn [step].
      + destruct (typist_framed s a) as [F1 F2 F3 F4 F5 F6 F7 F8 F9 F10 F11]. unfold beater_over. rewrite F1, F2, F3, F4, F5, F7.
        repeat (split; [first [assumption | reflexivity | rewrite Gn; split; [auto|intros [H|H]; [auto|discriminate]]]|]). intros H1 H2. destruct (Sh' H1 H2) as (_ & _ & N). destruct (N a eq_refl).
      + unfold beater_step. destruct (beater_at s) eqn:Eb; [| | |]; try rewrite S; destruct a; try destruct present; cbn [watch_at child_done stop gone boss_at shut owed set_beater beater_at];
          (repeat (split; [first [assumption | reflexivity | rewrite Gn; split; [auto|intros [H|H]; [auto|discriminate]]
             | intros Hb; specialize (Be Hb); unfold beater_over in *; cbn [beater_at set_beater]; try rewrite Eb in *; first [reflexivity|discriminate|assumption]]|]));
          intros H1 H2; apply (Sh' H1 H2).
      + unfold watch_step. rewrite W. repeat (split; [first [assumption | reflexivity | rewrite Gn; split; [auto|intros [H|H]; [auto|discriminate]]]|]). intros H1 H2; apply (Sh' H1 H2).
      + unfold boss_step. destruct Bo as [Bo|Bo]; rewrite Bo; [destruct (_ && _)|]; cbn [watch_at child_done stop gone boss_at shut owed set_boss];
          unfold beater_over; cbn [beater_at set_boss];
          (repeat (split; [first [assumption | rewrite Gn; split; [auto|intros [H|H]; [auto|discriminate]] | left; assumption | right; first [assumption|reflexivity]]|])); intros H1 H2; apply (Sh' H1 H2).
      + unfold output_step. destruct (owed s) eqn:Eo; cbn [watch_at child_done stop gone boss_at shut owed set_shut set_owed]; unfold beater_over; cbn [beater_at set_shut set_owed];
          (repeat (split; [first [assumption | rewrite Gn; split; [auto|intros [H|H]; [auto|discriminate]]]|])); intros H1 H2; destruct (Sh' H1 H2) as ((P & Q) & _); [discriminate Q|auto].
      + destruct (exited s); cbn [watch_at child_done stop gone boss_at shut owed set_exited]; unfold beater_over; cbn [beater_at set_exited];
          (repeat (split; [first [assumption | rewrite Gn; split; [auto|intros [H|H]; [auto|discriminate]]]|])); intros H1 H2; apply (Sh' H1 H2).
      + destruct (gone s || shut s || _ || _ || _); cbn [watch_at child_done stop gone boss_at shut owed set_unread]; unfold beater_over; cbn [beater_at set_unread];
          (repeat (split; [first [assumption | rewrite Gn; split; [auto|intros [H|H]; [auto|discriminate]]]|])); intros H1 H2; apply (Sh' H1 H2).
      + cbn [watch_at child_done stop gone boss_at shut owed set_gone]; unfold beater_over; cbn [beater_at set_gone].
        (repeat (split; [first [assumption | split; auto]|])); intros H1 H2; apply (Sh' H1 H2).
      + cbn [watch_at child_done stop gone boss_at shut owed set_shut]; unfold beater_over; cbn [beater_at set_shut].
        (repeat (split; [first [assumption | rewrite Gn; split; [auto|intros [H|H]; [auto|discriminate]]]|])). intros H1 H2. destruct (Sh' H1 H2) as (_ & N & _). destruct (N eq_refl). }
  destruct G as (W & C & S & Gn & Be & Bo & Sh). repeat (split; [assumption|]). split.
  - intros r E. destruct Bo as [Bo|Bo]; congruence.
  - intros T B a. cbn [step]. unfold boss_step. assert (B' : beater_over s = true) by (destruct beater; auto). assert (W' : watch_over s = true) by (unfold watch_over; rewrite W; reflexivity).
    destruct Bo as [Bo|Bo]; rewrite Bo; [rewrite T, B', W'; reflexivity|exact Bo].
Qed.
Print Assumptions C65_half_started_ends.
Example C65_half_started_over : forall b, let s := run (half_opened (Some b) false) (fine [Typist; Typist] ++ [Leaves] ++ fine [Typist]) in
  typist_over s = true /\ boss_at (step s (Step Boss Fine)) = KDone Failed.
Proof. intros b. split; reflexivity. Qed.
Example C65_half_started : forall b, let s := run (half_opened (Some b) true) (fine [Typist; Beater; Typist; Typist] ++ [ShellExits 0] ++ fine [Boss; Watch; Typist]) in
  exited s = Some 0%Z /\ boss_at s = KScope Failed.
Proof. intros b. split; reflexivity. Qed.
