(** C38: launching the daemon automatically. *)
From Coq Require Import List NArith ZArith Bool Arith Lia.
From Verif Require Import Model.Daemonize Spec.DaemonizeSpec Proofs.DaemonizeProofs.
Import ListNotations.
Open Scope nat_scope.

(** A client goes on only when, at that moment, the socket leads to a daemon. *)
Theorem C38_client_done : forall st a c,
  procs st c <> CDone -> procs (exec st a) c = CDone -> a = Go c /\ exists d, reaches st d /\ reaches (exec st a) d.
Proof.
  intros st a c N D. pose proof (client_done st a c N D) as (-> & C & E). split; [reflexivity|].
  destruct (connected_reaches st C) as (d & R). exists d. split; [exact R|]. rewrite E. apply reaches_set; [exact R|]. intros <-. exfalso.
  destruct R as [_ R]. cbn [exec] in E. unfold turn in E. destruct (procs st c) eqn:P; cbn in R; try discriminate R;
    apply (f_equal (fun s => procs s c)) in E; rewrite ?procs_set_same in E; try discriminate E; try (rewrite P in E; discriminate E); destruct auto; discriminate E.
Qed.
Print Assumptions C38_client_done.

(** How long a client waits for the daemon it launched: nine attempts with sleeps
    of 10, 20, 40, ... ms between them, 5110 ms in all, then it gives up; or, told to be
    patient, for ever, sleeping never more than 2 s. *)
Theorem C38_waits : forall st c,
  (forall m, connect (exec_all st (repeat (Go c) m)) <> Connected) ->
  (procs st c = CPoll (Some 9) 10 ->
     (forall n, n <= 9 -> procs (exec_all st (repeat (Go c) n)) c = CPoll (Some (9 - n)) (10 * 2 ^ n)) /\
     procs (exec_all st (repeat (Go c) 10)) c = CFailed /\
     fold_right plus 0 (map (fun n => 10 * 2 ^ n) (seq 0 9)) = 5 * 1000 + 110) /\
  (procs st c = CPoll None 10 ->
     forall n, procs (exec_all st (repeat (Go c) n)) c = CPoll None (Nat.min (10 * 2 ^ n) 2000)).
Proof.
  intros st c N. split.
  - intros P. assert (A : forall n, n <= 9 -> procs (exec_all st (repeat (Go c) n)) c = CPoll (Some (9 - n)) (10 * 2 ^ n)).
    { induction n as [|n IH]; intros L; [exact P|]. rewrite repeat_snoc_go, exec_all_snoc, go_c. specialize (IH ltac:(lia)).
      rewrite (poll_limited _ _ _ _ IH (N n) ltac:(lia)). rewrite procs_set_same. f_equal; [f_equal; lia|cbn [Nat.pow]; lia]. }
    split; [exact A|]. split; [|vm_compute; reflexivity]. change 10 with (S 9) at 1. rewrite repeat_snoc_go, exec_all_snoc, go_c. apply (poll_out _ _ _ (A 9 (le_n 9))).
  - intros P. induction n as [|n IH]; [exact P|]. rewrite repeat_snoc_go, exec_all_snoc, go_c.
    rewrite (poll_patient _ _ _ IH (N n)). rewrite procs_set_same. f_equal. apply min_double.
Qed.
Print Assumptions C38_waits.

(** A client alone, the directory in whatever state dead daemons left it: it gets
    through; a daemon that could be reached before is the one it reaches, and then
    nothing is launched or changed; otherwise the daemon it launched is the one
    reached, with its events socket.  Nobody else is touched. *)
Theorem C38_alone_partial : forall patient st, quiet st ->
  let st' := launch patient st in let c := next st in
  procs st' c = CDone /\ (exists d, reaches st' d) /\ quiet st' /\
  (forall d, reaches st d -> reaches st' d /\ next st' = S c /\ control st' = control st /\ events st' = events st /\ pid_file st' = pid_file st) /\
  ((forall d, ~ reaches st d) -> reaches st' (S c) /\ serving st' (S c) /\ events st' = Some (S c) /\ next st' = S (S c)) /\
  (forall p, p <> c -> p <> S c -> procs st' p = procs st p).
Proof.
  intros patient st Q. cbn zeta. pose proof (launch_quiet patient st Q) as Q'. pose proof (launch_cases patient st Q) as L. cbn zeta in L.
  remember (launch patient st) as st' eqn:E. clear E. destruct L as [(d & [R1 R2] & H)|(N & pid & H)].
  - assert (Ld : d < next st) by (destruct Q as (_ & _ & Q3); apply Q3; exact R1).
    assert (R' : reaches st' d) by (split; [rewrite (f_control _ _ _ _ _ _ _ _ _ H); exact R1|rewrite (f_old _ _ _ _ _ _ _ _ _ H d) by lia; exact R2]).
    split; [exact (f_c _ _ _ _ _ _ _ _ _ H)|]. split; [exists d; exact R'|]. split; [exact Q'|]. split; [|split; [|exact (f_old _ _ _ _ _ _ _ _ _ H)]].
    + intros d' [X _]. replace d' with d by congruence. split; [exact R'|]. destruct H; auto.
    + intros X. exfalso. apply (X d). split; assumption.
  - assert (R' : reaches st' (S (next st))) by (split; [exact (f_control _ _ _ _ _ _ _ _ _ H)|rewrite (f_d _ _ _ _ _ _ _ _ _ H); reflexivity]).
    split; [exact (f_c _ _ _ _ _ _ _ _ _ H)|]. split; [eexists; exact R'|]. split; [exact Q'|]. split; [intros d R; exfalso; exact (N d R)|].
    split; [|exact (f_old _ _ _ _ _ _ _ _ _ H)]. intros _. split; [exact R'|]. split; [exists true; exact (f_d _ _ _ _ _ _ _ _ _ H)|]. destruct H; auto.
Qed.
Print Assumptions C38_alone_partial.

(** A daemon started by hand with nobody to be reached, the directory in whatever state
    dead daemons left it: within seven steps it serves, it is the one reached, and it has
    the events socket.  Nobody else is touched and no pid file appears. *)
Theorem C38_by_hand : forall st, quiet st -> (forall d, ~ reaches st d) ->
  let st' := exec_all st (NewDaemon :: repeat (Go (next st)) 7) in
  serving st' (next st) /\ reaches st' (next st) /\ events st' = Some (next st) /\ pid_file st' = pid_file st /\
  next st' = S (next st) /\ forall p, p <> next st -> procs st' p = procs st p.
Proof.
  intros st Q R. cbn zeta. destruct (first_by_hand_7 st Q R) as [A B C D K L].
  split; [exists false; exact A|]. split; [split; [exact C|rewrite A; reflexivity]|]. auto.
Qed.
Print Assumptions C38_by_hand.

(** Not vacuous: over the sockets of a dead daemon. *)
Example C38_by_hand_case : quiet (boot (Some 0) (Some 0) None) /\ (forall d, ~ reaches (boot (Some 0) (Some 0) None) d).
Proof. split; [apply boot_quiet|]. intros d [A B]. vm_compute in A. injection A as <-. vm_compute in B. discriminate. Qed.

(** So with clients one after the other, each getting through, and daemons killed or
    stopped in between, from any left-over files: a client always gets through. *)
Theorem C38_sequential_partial : forall c e p l patient,
  let st := fold_left happen l (boot c e p) in let st' := launch patient st in
  procs st' (next st) = CDone /\ exists d, reaches st' d.
Proof.
  intros c e p l patient. cbn zeta. assert (Q : quiet (fold_left happen l (boot c e p))).
  { assert (G : forall l st, quiet st -> quiet (fold_left happen l st)) by (clear; induction l as [|b l IH]; intros st Q; [exact Q|]; apply IH; apply happen_quiet; exact Q).
    apply G. apply boot_quiet. }
  destruct (C38_alone_partial patient _ Q) as (A & B & _). split; assumption.
Qed.
Print Assumptions C38_sequential_partial.

(** With any number of clients and daemons at once, from a directory without a
    control socket, as long as no one's connection is refused and no daemon is taken
    down: never two that have bound the socket, every daemon that serves is the one
    reached, and there is one once a client has got through. *)
Theorem C38_concurrent_partial : forall e f l,
  always (fun st a => ~ meets_refusal st a /\ ~ takes_down st a) (boot None e f) l ->
  let st := exec_all (boot None e f) l in
  (forall p q, bound (procs st p) -> bound (procs st q) -> p = q) /\
  (forall p, serving st p -> reaches st p) /\
  (forall c, procs st c = CDone -> exists d, reaches st d).
Proof.
  intros e f l A. cbn zeta. pose proof (single_run l _ (single_boot e f) A) as S. remember (exec_all (boot None e f) l) as st eqn:E. clear E A.
  split; [|split].
  - intros p q Hp Hq. destruct (si_bound _ S p Hp) as [X _]. destruct (si_bound _ S q Hq) as [Y _]. congruence.
  - intros p (auto & Hp). destruct (si_bound _ S p) as [X _]; [rewrite Hp; exact I|]. split; [exact X|rewrite Hp; reflexivity].
  - intros c Hc. exact (si_done _ S c Hc).
Qed.
Print Assumptions C38_concurrent_partial.

(** Two clients that find the same dead socket: the slower one removes the socket of
    the daemon the faster one has launched.  Two daemons run, and one of them can no
    longer be reached. *)
Definition stale_race : list act :=
  [NewClient false; NewClient false; Go 1; Go 2; Go 1; Go 1] ++ repeat (Go 3) 8 ++ [Go 1; Go 2; Go 2] ++ repeat (Go 4) 9 ++ [Go 2].
Lemma stale_race_facts :
  let st := exec_all (boot (Some 0) None None) stale_race in
  procs st 1 = CDone /\ procs st 2 = CDone /\ procs st 3 = DServe true /\ procs st 4 = DServe true /\ control st = Some 4.
Proof. vm_compute. auto. Qed.
Theorem C38_stale_refuted : exists l, let st := exec_all (boot (Some 0) None None) l in
  procs st 1 = CDone /\ procs st 2 = CDone /\ serving st 3 /\ ~ reaches st 3 /\ serving st 4 /\ reaches st 4.
Proof.
  exists stale_race. pose proof stale_race_facts as F. cbn zeta in *. remember (exec_all _ stale_race) as st eqn:E. clear E.
  destruct F as (A & B & C & D & K). repeat split; try assumption; try (eexists; eassumption).
  - intros [X _]. congruence.
  - rewrite D. reflexivity.
Qed.
Print Assumptions C38_stale_refuted.

(** It takes no dead socket: a client that connects between the daemon's bind and its
    listen is refused and removes the socket of a daemon that is coming up. *)
Definition window_race : list act :=
  [NewClient false; Go 0; Go 0] ++ repeat (Go 1) 7 ++ [NewClient false; Go 2; Go 1; Go 2; Go 2] ++ repeat (Go 3) 9 ++ [Go 0; Go 2].
Lemma window_race_facts :
  let st := exec_all (boot None None None) window_race in
  procs st 0 = CDone /\ procs st 2 = CDone /\ procs st 1 = DServe true /\ procs st 3 = DServe true /\ control st = Some 3.
Proof. vm_compute. auto. Qed.
Theorem C38_window_refuted : exists l, let st := exec_all (boot None None None) l in
  procs st 0 = CDone /\ procs st 2 = CDone /\ serving st 1 /\ ~ reaches st 1 /\ serving st 3 /\ reaches st 3.
Proof.
  exists window_race. pose proof window_race_facts as F. cbn zeta in *. remember (exec_all _ window_race) as st eqn:E. clear E.
  destruct F as (A & B & C & D & K). repeat split; try assumption; try (eexists; eassumption).
  - intros [X _]. congruence.
  - rewrite D. reflexivity.
Qed.
Print Assumptions C38_window_refuted.

(** The lock on the pid file does not prevent it: no daemon that serves holds it. *)
Theorem C38_lock_refuted : exists l i, let st := exec_all (boot None None None) l in
  serving st 1 /\ reaches st 1 /\ pid_file st = Some i /\ held st i = false.
Proof.
  exists ([NewClient false; Go 0; Go 0] ++ repeat (Go 1) 8), 0. cbn zeta.
  assert (F : let st := exec_all (boot None None None) ([NewClient false; Go 0; Go 0] ++ repeat (Go 1) 8) in
    procs st 1 = DServe true /\ control st = Some 1 /\ pid_file st = Some 0 /\ held st 0 = false) by (vm_compute; auto).
  cbn zeta in F. remember (exec_all _ _) as st eqn:E. clear E. destruct F as (A & B & C & D).
  split; [exists true; exact A|]. split; [split; [exact B|rewrite A; reflexivity]|]. auto.
Qed.
Print Assumptions C38_lock_refuted.

(** Not vacuous: two clients at once, nobody refused: one daemon, both through. *)
Example C38_two_clients : exists l,
  always (fun st a => ~ meets_refusal st a /\ ~ takes_down st a) (boot None None None) l /\
  let st := exec_all (boot None None None) l in procs st 0 = CDone /\ procs st 1 = CDone /\ reaches st 2.
Proof.
  exists ([NewClient false; NewClient true; Go 0; Go 1; Go 0; Go 1] ++ repeat (Go 2) 8 ++ [Go 0; Go 1]). split.
  - cbn [app repeat always]. repeat match goal with |- _ /\ _ => split end; try exact I;
      try (intros [H _]; vm_compute in H; discriminate H); try (intros [_ H]; vm_compute in H; exact H); try (intros H; exact H).
  - split; [vm_compute; reflexivity|]. split; [vm_compute; reflexivity|]. split; vm_compute; reflexivity.
Qed.
