(** C64: the threads that serve an attached client: they run until there is a reason to
    end, and then all of them end. *)
From Coq Require Import List NArith ZArith Bool Arith Lia.
From Verif Require Import Model.Base Model.Chunk Model.Keybindings Model.Input Model.Streaming
  Spec.KeySpec Spec.InputSpec Spec.StreamingSpec Proofs.StreamingProofs Properties.C09_Input.
Import ListNotations.
Open Scope nat_scope.

Definition size : nat := N.to_nat BUF_SIZE.

(** As long as nothing happens that should end it, the attachment goes on: no thread ends,
    none is told to, and the output thread is not told to disconnect. *)
Theorem C64_goes_on : forall b l, sane l -> Forall uneventful l ->
  (exists k w, read_all_input (c2s_start b size) (typed (opened (Some b)) l) = Some (Continue k w)) ->
  let s := run (opened (Some b)) l in
  boss_at s = KPoll /\ ~ thread_ended s /\ stop s = false /\ told s = [] /\ shut s = false.
Proof.
  intros b l S U C s. assert (L : lively s). { apply (lively_run (c2s_start b size) l S U [] (opened (Some b))); [apply opened_lively|apply keyed_opened|exact C]. }
  assert (B : boss_at s = KPoll) by (apply (i_stop s (l_inv s L)); exact (l_stop s L)).
  pose proof (i_told s (l_inv s L)) as T. unfold told_by in T. rewrite B in T.
  split; [exact B|]. split; [|split; [exact (l_stop s L)|split; [exact T|exact (l_shut s L)]]].
  intros [(h & E)|[(h & E)|E]].
  - pose proof (l_typist s L) as K. rewrite E in K. exact K.
  - pose proof (l_beater s L) as K. rewrite E in K. exact K.
  - exact (l_watch s L E).
Qed.
Print Assumptions C64_goes_on.

(** Whatever happens, the shell is given a prefix of what the reads so far amount to, and
    all of it whenever client->shell is about to read again: nothing typed is lost,
    reordered or invented on the way from the client's socket. *)
Theorem C64_keystrokes : forall cfg b l, bindings_new cfg = Ok b -> sane l ->
  let s := run (opened (Some b)) l in
  exists reads r, typed (opened (Some b)) l = reads ++ unread s /\ read_all_input (c2s_start b size) reads = Some r /\
    prefix (pty s) (written r) /\ (forall k, typist_at s = TCheck k \/ typist_at s = TRead k -> r = Continue k (pty s)).
Proof.
  intros cfg b l Hb S s. destruct (opened_keyed b l S) as (reads & H1 & H2). fold s in H1, H2.
  assert (Gr : Forall (good_read size) (typed (opened (Some b)) l)).
  { clear - S. generalize (opened (Some b)) as s. induction l as [|x l IH]; intros s; [constructor|]. cbn [typed]. apply Forall_app. split.
    - destruct x; try constructor. destruct (gone s || shut s); constructor; [|constructor]. apply S. left. reflexivity.
    - apply IH. intros c Hc. apply S. right. exact Hc. }
  rewrite H1 in Gr. apply Forall_app in Gr as [Gr _].
  assert (Np := C09_never_panics cfg b size Hb reads Gr).
  exists reads. destruct (typist_at s) as [[b'|]|k|k|[k|] rest| |[| |]] eqn:E.
  - destruct H2 as (E0 & -> & P). exists (Continue (c2s_start b size) []). rewrite P.
    split; [exact H1|]. split; [reflexivity|]. split; [exists []; reflexivity|]. intros k [K|K]; discriminate.
  - destruct H2.
  - exists (Continue k (pty s)). split; [exact H1|]. split; [exact H2|]. split; [apply prefix_refl|]. intros k' [K|K]; congruence.
  - exists (Continue k (pty s)). split; [exact H1|]. split; [exact H2|]. split; [apply prefix_refl|]. intros k' [K|K]; congruence.
  - exists (Continue k (pty s ++ rest)). split; [exact H1|]. split; [exact H2|]. split; [apply prefix_app|]. intros k' [K|K]; discriminate.
  - exists (Detached (pty s ++ rest)). split; [exact H1|]. split; [exact H2|]. split; [apply prefix_app|]. intros k' [K|K]; discriminate.
  - exists (Detached (pty s)). split; [exact H1|]. split; [exact H2|]. split; [apply prefix_refl|]. intros k' [K|K]; discriminate.
  - destruct H2 as (r & H2 & H3). exists r. split; [exact H1|]. split; [exact H2|]. split; [exact H3|]. intros k' [K|K]; discriminate.
  - destruct H2 as (r & H2 & H3). exists r. split; [exact H1|]. split; [exact H2|]. split; [exact H3|]. intros k' [K|K]; discriminate.
  - contradiction.
Qed.
Print Assumptions C64_keystrokes.

(** While the attachment goes on, all of it arrives, in three rounds for each read and
    three more. *)
Theorem C64_keystrokes_arrive : forall b l k w rounds, sane l -> Forall uneventful l ->
  read_all_input (c2s_start b size) (typed (opened (Some b)) l) = Some (Continue k w) ->
  Forall full_round rounds -> Forall uneventful (concat rounds) -> (forall c, ~ In (Types c) (concat rounds)) ->
  3 * length (unread (run (opened (Some b)) l)) + 3 <= length rounds ->
  pty (run (opened (Some b)) (l ++ concat rounds)) = w.
Proof.
  intros b l k w rounds S U C F U2 N L. rewrite run_app.
  assert (Lv : lively (run (opened (Some b)) l)). { apply (lively_run (c2s_start b size) l S U [] (opened (Some b))); [apply opened_lively|apply keyed_opened|exists k, w; exact C]. }
  eapply served_pty; [|exact C]. apply keystrokes_arrive; auto.
  - apply opened_keyed. exact S.
  - exists k, w. exact C.
  - rewrite Forall_forall in U2. apply Forall_forall. intros x Hx. split; [apply U2; exact Hx|]. intros c ->. exact (N c Hx).
  - unfold to_read. destruct (typist_at _); lia.
Qed.
Print Assumptions C64_keystrokes_arrive.

(** Once the shell has exited, the attachment is over after at most 23 rounds in which
    nobody is kept waiting ... *)
Theorem C64_ends_with_the_shell : forall b l rounds, exited (run (opened b) l) <> None ->
  Forall full_round rounds -> 23 <= length rounds -> over (run (opened b) (l ++ concat rounds)).
Proof.
  intros b l rounds X F L. rewrite run_app. apply (two_stages doomed 3); auto.
  intros r Fr Lr. apply exit_noticed; auto. split; [apply run_inv; apply opened_inv|exact X].
Qed.
Print Assumptions C64_ends_with_the_shell.

(** ... once the client has hung up, or another request has cut it off, after what it had
    sent was read ... *)
Theorem C64_ends_with_the_client : forall b l rounds, let s := run (opened b) l in gone s = true \/ shut s = true ->
  Forall full_round rounds -> 3 * length (unread s) + 23 <= length rounds -> over (run (opened b) (l ++ concat rounds)).
Proof.
  intros b l rounds s X F L. rewrite run_app. fold s. apply (two_stages doomed (to_read s + 1)); auto.
  - intros r Fr Lr. apply end_of_file_noticed; auto. split; [apply run_inv; apply opened_inv|exact X].
  - assert (to_read s <= 3 * length (unread s) + 2) by (unfold to_read; destruct (typist_at s); lia). lia.
Qed.
Print Assumptions C64_ends_with_the_client.

(** ... once the client has typed a detach ... *)
Theorem C64_ends_with_a_detach : forall b l w rounds, sane l -> let s := run (opened (Some b)) l in
  read_all_input (c2s_start b size) (typed (opened (Some b)) l) = Some (Detached w) ->
  Forall full_round rounds -> 3 * length (unread s) + 26 <= length rounds -> over (run (opened (Some b)) (l ++ concat rounds)).
Proof.
  intros b l w rounds S s C F L. rewrite run_app. fold s. assert (Iv : inv s) by (apply run_inv; apply opened_inv).
  destruct (opened_keyed b l S) as (reads & H1 & H2). fold s in H1, H2.
  assert (D : doomed s \/ leaving s).
  { assert (App : forall k u, read_all_input (c2s_start b size) reads = Some (Continue k u) -> detaches k (unread s)).
    { intros k u R. rewrite H1 in C. clear - R C. revert C R. generalize (c2s_start b size) as k0. generalize (unread s) as un. revert w u.
      induction reads as [|c reads IH]; intros w u un k0 C R; [cbn in R; injection R as -> _; exists w; exact C|]. cbn [app read_all_input] in *.
      destruct (read_once k0 c) as [[k1 w1|w1]|]; try discriminate R.
      destruct (read_all_input k1 reads) as [[k2 w2|w2]|] eqn:E; try discriminate R. injection R as -> _.
      destruct (read_all_input k1 (reads ++ un)) as [[k3 w3|w3]|] eqn:E3; try discriminate C. eapply IH; eassumption. }
    unfold leaving. destruct (typist_at s) as [[b'|]|k|k|[k|] rest| |h] eqn:E; eauto.
    - right. destruct H2 as (E0 & -> & _). cbn [app] in H1. exists w. rewrite <- H1, <- E0. exact C.
    - left. split; [exact Iv|]. right. left. exists h. exact E. }
  destruct D as [D|D].
  - apply doomed_ends; auto. lia.
  - pose proof (to_detach_bound s). apply (two_stages doomed (to_detach s + 1)); auto; [|lia].
    intros r Fr Lr. apply detach_noticed; auto.
Qed.
Print Assumptions C64_ends_with_a_detach.

(** ... once the heartbeat finds that the client cannot be reached or that the output thread
    is no longer there ... *)
Theorem C64_ends_with_the_heartbeat : forall b l heard rounds, heard = Gone \/ heard = Reply false ->
  Forall full_round rounds -> Forall (heartbeat_hears heard) (concat rounds) -> 23 <= length rounds ->
  over (run (opened b) (l ++ concat rounds)).
Proof.
  intros b l heard rounds B F H L. rewrite run_app. set (s := run (opened b) l).
  rewrite <- (firstn_skipn 3 rounds), concat_app, run_app. rewrite <- (firstn_skipn 3 rounds) in F. apply Forall_app in F as [F1 F2].
  rewrite <- (firstn_skipn 3 rounds), concat_app in H. apply Forall_app in H as [H1 _].
  apply doomed_ends; [|exact F2|rewrite skipn_length; lia]. apply (absence_noticed heard); auto; [apply run_inv; apply opened_inv|]. rewrite firstn_length. lia.
Qed.
Print Assumptions C64_ends_with_the_heartbeat.

(** ... and once any of its threads has ended, for whatever reason: a heartbeat nobody was
    there to receive, a failed read or write, keybindings that do not compile. *)
Theorem C64_ends_with_a_thread : forall b l rounds, thread_ended (run (opened b) l) ->
  Forall full_round rounds -> 20 <= length rounds -> over (run (opened b) (l ++ concat rounds)).
Proof. intros b l rounds X F L. rewrite run_app. apply doomed_ends; auto. split; [apply run_inv; apply opened_inv|auto]. Qed.
Print Assumptions C64_ends_with_a_thread.

(** When it is over nothing of it is left: every thread has ended, and unless an error is
    reported the client's stream is closed. *)
Theorem C64_ends_completely : forall b l, let s := run (opened b) l in over s ->
  all_threads_ended s /\ stop s = true /\ (shut s = true \/ owed s = true) /\ (forall d, boss_at s = KDone (Returned d) -> shut s = true).
Proof.
  intros b l s O. assert (Iv : inv s) by (apply run_inv; apply opened_inv). split; [apply over_all_ended; assumption|].
  destruct O as (r & B). pose proof (i_closed s Iv) as C. unfold closed_by in C. rewrite B in C. split; [|split].
  - destruct (stop s) eqn:S; [reflexivity|]. apply (i_stop s Iv) in S. congruence.
  - destruct r as [d| |]; auto.
  - intros d E. rewrite B in E. injection E as ->. exact C.
Qed.
Print Assumptions C64_ends_completely.

(** The handler is told that the shell has ended only if it has; the output thread is told
    an exit status only if it is the one that was recorded, at most once, and then the
    handler is told too. *)
Theorem C64_truthful : forall b l, let s := run (opened b) l in
  (boss_at s = KDone (Returned true) -> exited s <> None) /\
  (forall z, In (TellExit z) (told s) -> exited s = Some z /\ told s = [TellExit z] /\ forall d, boss_at s = KDone (Returned d) -> d = true) /\
  length (told s) <= 1.
Proof.
  intros b l s. assert (Iv : inv s) by (apply run_inv; apply opened_inv). pose proof (i_joined s Iv) as J. unfold joined_by in J. split; [|split].
  - intros B. rewrite B in J. apply (i_seen s Iv). symmetry. apply J.
  - intros z H. pose proof (i_told s Iv) as T. unfold told_by in T.
    assert (T' : told s = [] \/ told s = [TellDisconnect] \/ exists z, told s = [TellExit z] /\ exited s = Some z /\ child_done s = true) by (destruct (boss_at s); auto).
    destruct T' as [T'|[T'|(z' & T' & X & C)]]; rewrite T' in H; [destruct H|destruct H as [H|[]]; discriminate H|].
    destruct H as [H|[]]. injection H as ->. split; [exact X|]. split; [exact T'|]. intros d B. rewrite B in J. destruct J as (_ & _ & _ & ->). exact C.
  - pose proof (i_told s Iv) as T. unfold told_by in T.
    assert (T' : told s = [] \/ told s = [TellDisconnect] \/ exists z, told s = [TellExit z] /\ exited s = Some z /\ child_done s = true) by (destruct (boss_at s); auto).
    destruct T' as [->|[->|(z' & -> & _)]]; cbn; lia.
Qed.
Print Assumptions C64_truthful.

(** It never ends in a panic, and without a failure on the way never in an error. *)
Theorem C64_no_panic : forall cfg b l, bindings_new cfg = Ok b -> sane l -> boss_at (run (opened (Some b)) l) <> KDone Panicked.
Proof.
  intros cfg b l Hb S B. set (s := run (opened (Some b)) l) in *. assert (Iv : inv s) by (apply run_inv; apply opened_inv).
  pose proof (i_joined s Iv) as J. unfold joined_by in J. rewrite B in J. destruct J as [_ [J|J]]; [|exact (i_calm s Iv J)].
  destruct (opened_keyed b l S) as (reads & H1 & H2). fold s in H1, H2. rewrite J in H2.
  destruct (C64_keystrokes cfg b l Hb S) as (reads' & r & E1 & E2 & _). fold s in E1. rewrite H1 in E1. apply app_inv_tail in E1. subst reads'.
  unfold size in E2. congruence.
Qed.
Print Assumptions C64_no_panic.
Theorem C64_no_error : forall cfg b l, bindings_new cfg = Ok b -> sane l -> Forall faultless l ->
  let s := run (opened (Some b)) l in over s -> boss_at s = KDone (Returned (child_done s)).
Proof.
  intros cfg b l Hb S F s (r & B). assert (C : clean s) by (apply (clean_run l F); repeat split; discriminate).
  assert (N := C64_no_panic cfg b l Hb S). fold s in N. destruct C as (_ & _ & _ & _ & C).
  assert (Iv : inv s) by (apply run_inv; apply opened_inv). pose proof (i_joined s Iv) as J. unfold joined_by in J. rewrite B in *.
  destruct r as [d| |]; [|congruence|congruence]. destruct J as (_ & _ & _ & ->). reflexivity.
Qed.
Print Assumptions C64_no_error.

(** An error that ends the thread that reads from the client or the heartbeat is what the
    handler is given in the end, whatever comes in between. *)
Theorem C64_errors_reported : forall cfg b l l', bindings_new cfg = Ok b -> sane (l ++ l') ->
  typist_at (run (opened (Some b)) l) = TEnded Bad \/ beater_at (run (opened (Some b)) l) = BEnded Bad ->
  let s := run (opened (Some b)) (l ++ l') in over s -> boss_at s = KDone Failed.
Proof.
  intros cfg b l l' Hb S E s (r & B). assert (N := C64_no_panic cfg b (l ++ l') Hb S). fold s in N. assert (Iv : inv s) by (apply run_inv; apply opened_inv).
  assert (E' : typist_at s = TEnded Bad \/ beater_at s = BEnded Bad).
  { unfold s. rewrite run_app. destruct E as [E|E]; [left; apply typist_ended_run; exact E|right; apply beater_ended_run; exact E]. }
  pose proof (i_joined s Iv) as J. unfold joined_by in J. rewrite B in *. destruct r as [d| |]; [|reflexivity|congruence]. destruct J as (J1 & J2 & _). destruct E'; congruence.
Qed.
Print Assumptions C64_errors_reported.

(** Such an error is: that the detach keys were typed and the output thread did not take the
    request, was not there, or did not acknowledge it.  Otherwise the stream is closed
    there and then.  If it only did not acknowledge, it has yet to close it. *)
Theorem C64_detach_request : forall b l a, let s := run (opened b) l in typist_at s = TDetach -> settles a ->
  let s' := step s (Step Typist a) in
  (typist_at s' = TEnded Bad <-> a = Busy \/ a = Gone \/ a = Lost) /\ (typist_at s' = TEnded Good <-> ~ (a = Busy \/ a = Gone \/ a = Lost)) /\
  (typist_at s' = TEnded Good -> shut s' = true) /\ (a = Lost -> owed s' = true) /\
  beater_at s' = beater_at s /\ watch_at s' = watch_at s /\ boss_at s' = boss_at s /\ told s' = told s /\ pty s' = pty s.
Proof.
  intros b l a s T [S1 S2] s'. unfold s'. cbn [step]. unfold typist_step. rewrite T.
  destruct a as [| | | | |p|n]; cbn; try congruence; repeat split; intros; try congruence; try tauto; try (intuition congruence); exfalso; eapply S2; reflexivity.
Qed.
Print Assumptions C64_detach_request.

(** And keybindings that do not compile. *)
Theorem C64_bad_bindings : forall l, let s := run (opened None) l in over s -> boss_at s = KDone Failed.
Proof.
  intros l s (r & B). assert (Iv : inv s) by (apply run_inv; apply opened_inv).
  assert (T : typist_at s = TStart None \/ typist_at s = TEnded Bad).
  { unfold s. clear. enough (G : forall s, typist_at s = TStart None \/ typist_at s = TEnded Bad -> typist_at (run s l) = TStart None \/ typist_at (run s l) = TEnded Bad) by (apply G; left; reflexivity).
    induction l as [|x l IH]; intros s H; [exact H|]. change (run s (x :: l)) with (run (step s x) l). apply IH.
    destruct H as [H|H]; [|right; exact (typist_ended_run [x] s Bad H)].
    destruct x as [[| | | |] a|z|c| |]; cbn [step].
    - right. unfold typist_step. rewrite H. reflexivity.
    - rewrite (bf_typist _ _ (beater_framed s a)). auto.
    - rewrite (wf_typist _ _ (watch_framed s a)). auto.
    - left. rewrite boss_typist. exact H.
    - left. unfold output_step. destruct (owed s); exact H.
    - left. destruct (exited s); exact H.
    - left. destruct (gone s || shut s || _ || _ || _); exact H.
    - left. exact H.
    - left. exact H. }
  pose proof (i_joined s Iv) as J. unfold joined_by in J. rewrite B in *. destruct r as [d| |].
  - destruct J as (J & _). destruct T; congruence.
  - reflexivity.
  - exfalso. destruct J as [_ [J|J]]; [destruct T; congruence|exact (i_calm s Iv J)].
Qed.
Print Assumptions C64_bad_bindings.

(** If nothing but the shell's exit ends it, the handler is told so, and the client the
    shell's status. *)
Theorem C64_exit_reported : forall b l, sane l -> Forall only_the_shell l ->
  (exists k w, read_all_input (c2s_start b size) (typed (opened (Some b)) l) = Some (Continue k w)) ->
  let s := run (opened (Some b)) l in over s ->
  exists z, exited s = Some z /\ boss_at s = KDone (Returned true) /\ (told s = [TellExit z] \/ told s = []).
Proof.
  intros b l S F C s (r & B). assert (E : expiring s). { apply (expiring_run (c2s_start b size) l S F [] (opened (Some b))); [apply opened_expiring|apply keyed_opened|exact C]. }
  assert (Iv := e_inv s E). pose proof (e_boss s E) as R. rewrite B in R. destruct r as [d| |]; [|destruct R|destruct R].
  assert (St : stop s = true) by (destruct (stop s) eqn:St; [reflexivity|]; apply (i_stop s Iv) in St; congruence).
  assert (Cd := e_after s E St). pose proof (i_joined s Iv) as J. unfold joined_by in J. rewrite B in J. destruct J as (_ & _ & _ & ->). rewrite Cd in B.
  destruct (i_seen s Iv Cd) as [X _]. destruct (exited s) as [z|] eqn:Ez; [|congruence]. exists z. split; [reflexivity|]. split; [exact B|].
  pose proof (i_told s Iv) as T. unfold told_by in T. rewrite B in T. destruct T as [T|[T|(z' & T & X' & _)]]; [auto| |left; congruence].
  exfalso. apply (e_told s E TellDisconnect); [rewrite T; left; reflexivity|reflexivity].
Qed.
Print Assumptions C64_exit_reported.

(** A round in which the heartbeat learns that the client is not there. *)
Example C64_nobody_there :
  let round := [Step Typist Fine; Step Beater (Reply false); Step Watch Fine; Step Boss Fine; Step Output Fine] in
  full_round round /\ Forall (heartbeat_hears (Reply false)) round.
Proof.
  split; [|repeat (constructor; cbn; auto)].
  intros w. destruct w; [exists Fine|exists (Reply false)|exists Fine|exists Fine|exists Fine]; (split; [split; [discriminate|intros n; discriminate]|]); cbn; auto 8.
Qed.

(** A session typed into for a while, whose shell then exits with status 3. *)
Definition each (a : answer) : list action := map (fun w => Step w a) [Typist; Beater; Watch; Boss; Output].
Definition default_bindings : result bindings kb_error := bindings_new [(lit "Ctrl-Space Ctrl-q", Detach)].
Definition an_afternoon : list action :=
  each Fine ++ [Types [108; 115; 13]%N] ++ each Fine ++ [Step Beater Busy; Step Watch Busy] ++ each (Trickle 1) ++ each (Reply true) ++ each NotYet.
Definition its_end : list action := ShellExits 3 :: concat (repeat (each Fine) 23).
Example C64_a_session : exists b, default_bindings = Ok b /\
  let s := run (opened (Some b)) an_afternoon in
  let s' := run s its_end in
  sane an_afternoon /\ Forall uneventful an_afternoon /\ pty s = [108; 115; 13]%N /\ boss_at s = KPoll /\
  Forall only_the_shell (an_afternoon ++ its_end) /\ boss_at s' = KDone (Returned true) /\ told s' = [TellExit 3] /\ full_round (each Fine).
Proof.
  destruct default_bindings as [b|e] eqn:E; [|vm_compute in E; discriminate E]. exists b. split; [reflexivity|].
  assert (P : forall b', default_bindings = Ok b' ->
    pty (run (opened (Some b')) an_afternoon) = [108; 115; 13]%N /\ boss_at (run (opened (Some b')) an_afternoon) = KPoll /\
    boss_at (run (run (opened (Some b')) an_afternoon) its_end) = KDone (Returned true) /\ told (run (run (opened (Some b')) an_afternoon) its_end) = [TellExit 3]).
  { intros b' Eb. vm_compute in Eb. injection Eb as <-. vm_compute. auto. }
  destruct (P b E) as (P1 & P2 & P3 & P4). cbn zeta.
  split; [|split; [repeat (constructor; [repeat split; discriminate|]); constructor|split; [exact P1|split; [exact P2|split; [|split; [exact P3|split; [exact P4|]]]]]]].
  - intros c H. unfold an_afternoon, each in H. cbn in H. repeat (destruct H as [H|H]; [try discriminate H|]); [|destruct H].
    injection H as <-. split; [discriminate|]. split; [apply Nat.leb_le; vm_compute; reflexivity|].
    unfold byte_stream. repeat (apply Forall_cons; [reflexivity|]). apply Forall_nil.
  - assert (Rep : forall n, Forall only_the_shell (concat (repeat (each Fine) n))).
    { induction n as [|n IH]; [constructor|]. cbn [repeat concat]. apply Forall_app. split; [|exact IH]. repeat constructor; discriminate. }
    apply Forall_app. split; [|apply Forall_cons; [exact I|apply Rep]].
    unfold an_afternoon, each. cbn. repeat (apply Forall_cons; [cbn; repeat split; discriminate|]). apply Forall_nil.
  - intros w. exists Fine. split; [split; [discriminate|intros n; discriminate]|]. destruct w; cbn; auto 8.
Qed.

(** The detach keys are typed while the output thread is busy. *)
Definition a_detach : list action := [Step Typist Fine; Step Typist Fine; Types [108; 0; 17]%N; Step Typist Fine; Step Typist Fine].
Example C64_detach_not_taken : exists b, default_bindings = Ok b /\ sane (a_detach ++ [Step Typist Busy]) /\
  typist_at (run (opened (Some b)) a_detach) = TDetach /\
  typist_at (run (opened (Some b)) (a_detach ++ [Step Typist Busy])) = TEnded Bad /\
  boss_at (run (opened (Some b)) (a_detach ++ [Step Typist Busy] ++ concat (repeat (each Fine) 20))) = KDone Failed.
Proof.
  destruct default_bindings as [b|e] eqn:E; [|vm_compute in E; discriminate E]. exists b. split; [reflexivity|]. split.
  - intros c H. cbn in H. repeat (destruct H as [H|H]; [try discriminate H|]); [|destruct H]. injection H as <-. split; [discriminate|]. split; [vm_compute; lia|].
    repeat constructor; reflexivity.
  - vm_compute in E. injection E as <-. vm_compute. repeat split. 
Qed.
