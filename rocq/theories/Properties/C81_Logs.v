(** C81: what is logged, and where. *)
From Coq Require Import String List NArith ZArith Bool Arith Lia.
From Verif Require Import Model.Base Model.Msgpack Model.Messages Spec.WireSpec Proofs.BaseLemmas Model.Logging Spec.LoggingSpec Proofs.LoggingProofs Properties.C43_Skew.
Import ListNotations.
Open Scope N_scope.

(** The command takes the six words and no others, and what it sends for one arrives as a
    request for that level. *)
Theorem C81_words : forall word v, level_request word = Some v <-> exists l, word = called l /\ wants v l.
Proof.
  intros word v. unfold level_request, levels. cbn [lookup]. split.
  - destruct (str_eqb word (lit "off")) eqn:E0; [apply str_eqb_eq in E0; intros H; injection H as <-; exists LOff; split; [exact E0|reflexivity]|].
    destruct (str_eqb word (lit "error")) eqn:E1; [apply str_eqb_eq in E1; intros H; injection H as <-; exists LError; split; [exact E1|reflexivity]|].
    destruct (str_eqb word (lit "warn")) eqn:E2; [apply str_eqb_eq in E2; intros H; injection H as <-; exists LWarn; split; [exact E2|reflexivity]|].
    destruct (str_eqb word (lit "info")) eqn:E3; [apply str_eqb_eq in E3; intros H; injection H as <-; exists LInfo; split; [exact E3|reflexivity]|].
    destruct (str_eqb word (lit "debug")) eqn:E4; [apply str_eqb_eq in E4; intros H; injection H as <-; exists LDebug; split; [exact E4|reflexivity]|].
    destruct (str_eqb word (lit "trace")) eqn:E5; [apply str_eqb_eq in E5; intros H; injection H as <-; exists LTrace; split; [exact E5|reflexivity]|].
    discriminate.
  - intros (l & -> & ->). destruct l; reflexivity.
Qed.
Theorem C81_sent : forall l v rest, wants v l -> decode_from connect_header (encode_to connect_header v ++ rest) = Some (v, rest) /\ forall l', wants v l' -> l' = l.
Proof.
  intros l v rest W0. unfold wants in W0. subst v. destruct (C43_every_request (SetLogLevel l) rest I) as [H U]. split; [exact H|]. intros l' W. unfold wants in W. symmetry in W. apply U in W. congruence.
Qed.

(** Of a history there is one record. *)
Theorem C81_record : forall p daemon now h, exists r later, record p daemon now h r later /\
  forall r' later', record p daemon now h r' later' -> r' = r /\ later' = later.
Proof. intros p d now h. destruct (record_exists p d h now) as (r & later & R). exists r, later. split; [exact R|]. intros r' later' R'. exact (record_unique p d h now r' r later' later R' R). Qed.

(** A program that is not the only one, on a disk that may hold anything: what it has put on
    its standard error stream is its record if it is a daemon without a log file and nothing
    if not; and it shows what the level it is at shows, which is the one it began at or was
    last asked for. *)
Theorem C81_program : forall before h1 h2 p daemon log_file verbose first r later,
  programs (run before h1) p = None -> begins_at verbose first -> record p daemon (Some first) h2 r later ->
  exists g, programs (run before (h1 ++ Start p daemon log_file verbose true :: h2)) p = Some g /\
    p_stderr g = (if daemon then match log_file with None => r | Some _ => [] end else []) /\
    p_file g = option_map (fun path => (path, length r)) log_file /\
    match later with
    | Some l => p_status g = None /\ forall s, passes (p_filter g) s = true <-> In s (shown l)
    | None => p_status g <> None
    end.
Proof.
  intros before h1 h2 p d o v first r later N B R. rewrite run_app. cbn [fold_left step].
  destruct (start_at (run before h1) p d o v first N B) as (g0 & G0 & D0 & A0 & F0 & E0).
  destruct (follow p d h2 (Some first) r later R _ g0 G0 D0 A0) as (g & G & D & A & F & E). exists g. split; [exact G|]. rewrite F, E. unfold moved. cbn [p_file p_stderr]. rewrite F0, E0, D0.
  split; [destruct o, d; reflexivity|]. split; [destruct o; reflexivity|]. destruct later as [l|]; [|exact A]. destruct A as [S X]. split; [exact S|]. intros s. rewrite X. apply passes_shown.
Qed.

(** A log file nobody else uses holds the program's record, and nothing of what was in it
    before. *)
Theorem C81_file : forall before h1 h2 p daemon path verbose first r later,
  programs (run before h1) p = None -> begins_at verbose first -> record p daemon (Some first) h2 r later ->
  alone path h2 -> (forall q g place, programs (run before h1) q = Some g -> p_file g = Some (path, place) -> p_status g <> None) ->
  disk (run before (h1 ++ Start p daemon (Some path) verbose true :: h2)) path = Some r.
Proof.
  intros before h1 h2 p d path v first r later N B R Al O. rewrite run_app. cbn [fold_left step].
  destruct (start_at (run before h1) p d (Some path) v first N B) as (g0 & G0 & D0 & A0 & F0 & E0).
  change r with ([] ++ r). apply (follow_file p d path h2 (Some first) r later R Al _ g0 [] G0 D0 A0).
  - intros q g place Q G F. unfold start in G. rewrite N in G. cbn in G. destruct (Nat.eqb_spec q p); [contradiction|]. exact (O q g place G F).
  - unfold start. rewrite N. cbn. rewrite str_eqb_refl. reflexivity.
  - exact F0.
Qed.

(** And in general: a file changes in a step only if a program starts with it, which empties
    it, or if one that has it logs something its level shows, which is then written over
    what is there, at the place up to which that program has written. *)
Theorem C81_starts : forall w p daemon path verbose creatable, programs w p = None ->
  disk (step w (Start p daemon (Some path) verbose creatable)) path = (if creatable then Some [] else disk w path) /\
  (forall other, other <> path -> disk (step w (Start p daemon (Some path) verbose creatable)) other = disk w other) /\
  (creatable = false -> exists g, programs (step w (Start p daemon (Some path) verbose creatable)) p = Some g /\ p_status g = Some 1%Z).
Proof.
  intros w p d path v c N. cbn [step]. unfold start. rewrite N. split; [|split].
  - destruct c; cbn; [rewrite str_eqb_refl|]; reflexivity.
  - intros other O. destruct c; cbn; [|reflexivity]. destruct (str_eqb other path) eqn:E; [apply str_eqb_eq in E; contradiction|reflexivity].
  - intros ->. cbn. rewrite Nat.eqb_refl. eexists. split; reflexivity.
Qed.
Theorem C81_writes : forall w a path, (forall q d v c, a <> Start q d (Some path) v c) ->
  disk (step w a) path = disk w path \/
  exists p g place bytes now, programs w p = Some g /\ p_status g = None /\ p_file g = Some (path, place) /\ 
    (exists s, passes (p_filter g) s = true /\ (a = Log p s bytes \/ s = SError /\ (a = Finish p (Some bytes) \/ bytes = lit "modifying log level: " /\ p_daemon g = true /\ exists v, a = Level p v false))) /\
    disk (step w a) path = Some now /\ overwritten match disk w path with Some c => c | None => [] end place bytes now /\
    programs (step w a) p = option_map (fun g' => mkProgram (p_filter g) (Some (path, (place + length bytes)%nat)) (p_daemon g) (p_stderr g) (p_status g')) (programs (step w a) p).
Proof.
  intros w a path N. rewrite step_disk by exact N. destruct (programs w (subject a)) as [g|] eqn:G; [|left; reflexivity].
  destruct (writes g (subject a) a) as [b|] eqn:W; [|left; reflexivity]. destruct (p_file g) as [[f place]|] eqn:F; [|left; reflexivity].
  destruct (str_eqb path f) eqn:E; [|left; reflexivity]. apply str_eqb_eq in E. subst f. right. exists (subject a), g, place, b, (write_at (old w path) place b).
  assert (S : p_status g = None) by (unfold writes in W; destruct (p_status g); [discriminate|reflexivity]).
  split; [exact G|]. split; [exact S|]. split; [exact F|]. split; [|split; [reflexivity|split; [apply write_over|]]].
  - unfold writes in W. rewrite S in W. destruct a as [q d o v c|q s x|q v []|q [x|]]; try discriminate; cbn [subject] in W; rewrite Nat.eqb_refl in W; cbn [andb] in W.
    + destruct (passes (p_filter g) s) eqn:P; [|discriminate]. injection W as <-. exists s. auto.
    + destruct (p_daemon g); [|discriminate]. destruct (asked_filter v); [|discriminate]. cbn [andb] in W. destruct (passes (p_filter g) SError) eqn:P; [|discriminate]. injection W as <-. exists SError. eauto 10.
    + destruct (passes (p_filter g) SError) eqn:P; [|discriminate]. injection W as <-. exists SError. auto.
  - rewrite (step_program w (subject a) g a G). cbn [option_map]. f_equal. unfold next. rewrite W, S. unfold moved. rewrite F. cbn. rewrite app_nil_r, S.
    destruct a as [q d o v c|q s x|q v []|q e]; try reflexivity; cbn [subject]; rewrite ?Nat.eqb_refl; try reflexivity. exfalso. unfold writes in W. rewrite S in W. discriminate.
Qed.

(** A command other than the daemon, run without a log file, logs nowhere, not even the
    error it ends with; but its exit status tells. *)
Theorem C81_silent : forall before h1 h2 p verbose first r later, let w := run before (h1 ++ Start p false None verbose true :: h2) in
  programs (run before h1) p = None -> begins_at verbose first -> record p false (Some first) h2 r later ->
  (exists g, programs w p = Some g /\ p_stderr g = []) /\ forall s bytes path, disk (step w (Log p s bytes)) path = disk w path /\ disk (step w (Finish p (Some bytes))) path = disk w path.
Proof.
  intros before h1 h2 p v first r later w N B R. destruct (C81_program before h1 h2 p false None v first r later N B R) as (g & G & E & F & _). split; [exists g; auto|].
  intros s bytes path. fold w in G. split; rewrite step_disk by discriminate; cbn [subject]; rewrite G, F; destruct (writes _ _ _); reflexivity.
Qed.
Theorem C81_status : forall w p g error, programs w p = Some g -> p_status g = None ->
  exists g', programs (step w (Finish p error)) p = Some g' /\ p_status g' = Some (match error with Some _ => 1 | None => 0 end)%Z.
Proof. intros w p g e G S. rewrite (step_program w p g _ G). unfold next. rewrite S, Nat.eqb_refl. eexists. split; reflexivity. Qed.

(** A running daemon confirms every request for a level, and is at that level from then on
    if its filter can be changed. *)
Theorem C81_level : forall w p g v l taken, programs w p = Some g -> p_daemon g = true -> p_status g = None -> wants v l ->
  confirmed (step w (Level p v taken)) = confirmed w ++ [p] /\
  exists g', programs (step w (Level p v taken)) p = Some g' /\
    forall s, passes (p_filter g') s = true <-> if taken then In s (shown l) else passes (p_filter g) s = true.
Proof.
  intros w p g v l t G D S W. assert (Q : asked_filter v = Some (filter_at l)) by (apply asked_wants; eauto). split.
  - cbn [step]. unfold level. rewrite G, Q, D, S. cbn [confirmed]. destruct t; [reflexivity|]. unfold log, emit. rewrite G, S. destruct (passes _ _); [|reflexivity].
    destruct (p_file g) as [[]|]; [reflexivity|]. destruct (p_daemon g); reflexivity.
  - rewrite (step_program w p g _ G). eexists. split; [reflexivity|]. intros s. destruct t.
    + unfold next, writes. rewrite S, Q, Nat.eqb_refl, D. apply passes_shown.
    + unfold next. rewrite S. destruct (writes _ _ _); reflexivity.
Qed.
Print Assumptions C81_words.
Print Assumptions C81_sent.
Print Assumptions C81_record.
Print Assumptions C81_program.
Print Assumptions C81_file.
Print Assumptions C81_starts.
Print Assumptions C81_writes.
Print Assumptions C81_silent.
Print Assumptions C81_status.
Print Assumptions C81_level.

(** A daemon that is started anew with the file of its last run, is made to say more and then
    nothing, and ends with an error. *)
Definition file : rstr := lit "/tmp/log".
Definition request (l : WireSpec.level) : value := request_message (SetLogLevel l).
Definition first_run : list action := [Start 0 true (Some file) 0 true; Log 0 SInfo (lit "old"); Finish 0 None].
Definition second_run : list action :=
  [Log 1 SInfo (lit "up "); Log 1 SDebug (lit "detail "); Start 2 false None 0 true; Level 1 (request LDebug) true; Log 1 SDebug (lit "more ");
   Log 2 SError (lit "elsewhere"); Log 1 STrace (lit "most "); Level 1 (request LOff) true; Log 1 SError (lit "unseen "); Level 1 (request LError) true; Finish 1 (Some (lit "end"))].
Example C81_runs :
  programs (run (fun _ => None) first_run) 1%nat = None /\ begins_at 0 LInfo /\
  record 1 true (Some LInfo) second_run (lit "up more end") None /\ alone file second_run /\
  (forall q g place, programs (run (fun _ => None) first_run) q = Some g -> p_file g = Some (file, place) -> p_status g <> None) /\
  disk (run (fun _ => None) first_run) file = Some (lit "old") /\
  disk (run (fun _ => None) (first_run ++ Start 1 true (Some file) 0 true :: second_run)) file = Some (lit "up more end").
Proof.
  split; [reflexivity|]. split; [constructor|]. split; [|split; [|split; [|split; vm_compute; reflexivity]]].
  - unfold second_run. change (lit "up more end") with (lit "up " ++ lit "more " ++ lit "end").
    apply r_shown; [cbn; auto|]. apply r_hidden; [cbn; intros H; repeat destruct H as [H|H]; discriminate || contradiction|].
    apply r_other; [discriminate|discriminate|intros (_ & v & l & t & H & _); discriminate|]. apply r_level with (l := LDebug); [reflexivity|reflexivity|].
    apply r_shown; [cbn; auto|]. apply r_other; [discriminate|discriminate|intros (_ & v & l & t & H & _); discriminate|].
    apply r_hidden; [cbn; intros H; repeat destruct H as [H|H]; discriminate || contradiction|]. apply r_level with (l := LOff); [reflexivity|reflexivity|].
    apply r_hidden; [cbn; auto|]. apply r_level with (l := LError); [reflexivity|reflexivity|]. apply r_error; [cbn; auto|]. constructor.
  - intros q d v c H. cbn in H. repeat destruct H as [H|H]; discriminate || contradiction.
  - intros q g place G F. unfold run, first_run in G. cbn in G. destruct (Nat.eqb_spec q 0); [|discriminate]. injection G as <-. discriminate.
Qed.

(** *** What does not hold *)

(** A command given the daemon's log file empties it, and what the daemon logs next comes
    after as many zeros. *)
Theorem C81_shared_refuted : ~ forall before h1 h2 p daemon path verbose first r later,
  programs (run before h1) p = None -> begins_at verbose first -> record p daemon (Some first) h2 r later ->
  disk (run before (h1 ++ Start p daemon (Some path) verbose true :: h2)) path = Some r.
Proof.
  intros H. specialize (H (fun _ => None) [] [Log 0 SInfo (lit "abc"); Start 1 false (Some file) 0 true; Log 0 SInfo (lit "d")] 0%nat true file 0 LInfo (lit "abcd") (Some LInfo) eq_refl b_plain).
  assert (R : record 0 true (Some LInfo) [Log 0 SInfo (lit "abc"); Start 1 false (Some file) 0 true; Log 0 SInfo (lit "d")] (lit "abcd") (Some LInfo)).
  { change (lit "abcd") with (lit "abc" ++ lit "d" ++ []). apply r_shown; [cbn; auto|]. apply r_other; [discriminate|discriminate|intros (_ & v & l & t & X & _); discriminate|]. apply r_shown; [cbn; auto|]. constructor. }
  specialize (H R). vm_compute in H. discriminate.
Qed.
Print Assumptions C81_shared_refuted.
Example C81_shared :
  disk (run (fun _ => None) [Start 0 true (Some file) 0 true; Log 0 SInfo (lit "abc"); Start 1 false (Some file) 0 true; Log 0 SInfo (lit "d")]) file = Some ([0; 0; 0] ++ lit "d").
Proof. vm_compute. reflexivity. Qed.
(** A set-log-level that is confirmed need not have changed anything. *)
Theorem C81_confirmed_refuted : ~ forall w p g v l taken, programs w p = Some g -> p_daemon g = true -> p_status g = None -> wants v l ->
  confirmed (step w (Level p v taken)) = confirmed w ++ [p] -> exists g', programs (step w (Level p v taken)) p = Some g' /\ forall s, passes (p_filter g') s = true <-> In s (shown l).
Proof.
  intros H. specialize (H (run (fun _ => None) [Start 0 true None 0 true]) 0%nat _ (request LOff) LOff false eq_refl eq_refl eq_refl eq_refl eq_refl).
  destruct H as (g' & G & X). vm_compute in G. injection G as <-. specialize (X SError). destruct X as [X _]. destruct X. reflexivity.
Qed.
Print Assumptions C81_confirmed_refuted.
