(** C68: a daemon launched by a client is cut off from where the client was started. *)
From Coq Require Import List NArith ZArith Bool Arith String.
From Verif Require Import Model.Base Model.Json Model.Forks Spec.JsonSpec Spec.ForksSpec Proofs.JsonProofs Proofs.ForksProofs Proofs.ForksMore Proofs.ForksLocks.
Import ListNotations.
Open Scope nat_scope.

(** The states that can come about: from any number of processes of other programs, any
    left-over pid file and any configuration, with any number of daemons starting. *)
Definition reached (st : world) : Prop := exists n left d l, st = run (boot n left d) l.
Lemma reached_inv st : reached st -> inv st.
Proof. intros (n & left & d & l & ->). apply inv_run, inv_boot. Qed.

(** Whatever serves was started by hand and is as it was started, or was launched and is
    cut off. *)
Theorem C68_cut_off : forall st p x, reached st -> serving st p x ->
  exists l s, descends st p l s /\ (s_auto s = true -> cut_off st p x l s) /\ (s_auto s = false -> p = l /\ as_started p x s).
Proof.
  intros st p x R (P & k & A). destruct (cut st p x k (reached_inv st R) P A) as (l & s & D & H1 & H2).
  exists l, s. split; [exact D|]. split; [|exact H2]. intros Au. apply (H1 Au).
Qed.
Print Assumptions C68_cut_off.

(** It stays so: opening terminals gets it none. *)
Theorem C68_no_terminal : forall st p x t, reached st -> serving st p x -> step st (OpenTty p t) = st.
Proof. intros st p x t R _. apply open_tty_nothing, reached_inv, R. Qed.
Print Assumptions C68_no_terminal.

(** There is one way back, so at most one daemon comes of one start. *)
Theorem C68_one : forall st p x q y l s, reached st -> serving st p x -> serving st q y -> descends st p l s -> descends st q l s -> p = q.
Proof. intros st p x q y l s R. apply one_serving, reached_inv, R. Qed.
Print Assumptions C68_one.
Theorem C68_one_start : forall st p l s l' s', reached st -> descends st p l s -> descends st p l' s' -> l = l' /\ s = s'.
Proof. intros st p l s l' s' R D D'. exact (descends_one st (reached_inv st R) p l s D l' s' D'). Qed.
Print Assumptions C68_one_start.

(** The status the client sees: 0 only when the process that is to serve has been forked
    off; otherwise 1, and nothing was forked off, unless the process in between was killed. *)
Theorem C68_status : forall st l y s e, reached st -> procs st l = Some y -> born y = Started s -> s_auto s = true -> at_ y = Exited e ->
  (e = 0 /\ exists p x, procs st p = Some x /\ born x = Forked2 /\ descends st p l s) \/
  (e = 1 /\ ((forall p x, procs st p = Some x -> born x = Forked2 -> ~ descends st p l s) \/
             exists m y, procs st m = Some y /\ parent y = l /\ born y = Forked1 /\ at_ y = Killed)).
Proof. intros st l y s e R. apply status, reached_inv, R. Qed.
Print Assumptions C68_status.
Theorem C68_waits : forall st p x c, reached st -> procs st p = Some x -> at_ x = PWait c ->
  exists y, procs st c = Some y /\ parent y = p /\ born y = Forked1 /\
  (live y = true -> forall ok n, turn st p ok n = st) /\
  (live y = false -> forall ok n, exists x', procs (turn st p ok n) p = Some x' /\ at_ x' = Exited (match at_ y with Exited e => e | _ => 1 end)).
Proof. intros st p x c R. apply waits, reached_inv, R. Qed.
Print Assumptions C68_waits.

(** From the writing of the pid file to the release of its lock: the lock is held, and
    the file holds the number of the process that will serve, and a newline, whatever it
    held before. *)
Definition pid_file_written (a : place) : Prop := match a with PNull | PDup _ _ | PClose _ | PUnlock => True | _ => False end.
Theorem C68_pid_file : forall st p x, reached st -> procs st p = Some x -> pid_file_written (at_ x) ->
  exists k i o, pid_fd x = Some (k, i, o) /\ locks st i = Some o /\ number (data st i) = Some (Z.of_nat p, [10%N]).
Proof.
  intros st p x R P W. pose proof (i_fine _ (reached_inv st R) p x P) as F. unfold fine in F. destruct (born x).
  - destruct F as (_ & _ & _ & _ & _ & _ & F). destruct (at_ x); contradiction.
  - destruct F as (_ & _ & _ & ? & ? & ? & _ & _ & _ & _ & _ & _ & F). destruct (at_ x); contradiction.
  - destruct F as (_ & _ & _ & _ & _ & _ & _ & m & ym & l & yl & s & _ & _ & _ & _ & _ & _ & _ & _ & _ & F).
    assert (N : number (pid_text p) = Some (Z.of_nat p, [10%N])) by (unfold pid_text; apply integer_read; reflexivity).
    destruct (at_ x); try contradiction; destruct F as (k & i & K & _ & _ & _ & L & F); exists k, i, m; (split; [exact K|]); (split; [exact L|]);
      [destruct F as (_ & ->)|destruct F as (-> & _)|destruct F as (-> & _)|destruct F as (-> & _)]; exact N.
Qed.
Print Assumptions C68_pid_file.

(** Between taking the lock and releasing it a launch is alone with the file. *)
Definition has_lock (x : process) (i : nat) : Prop :=
  exists k o, pid_fd x = Some (k, i, o) /\
  match at_ x with PFork2 | PTruncate | PSeek | PWrite _ | PNull | PDup _ _ | PClose _ | PUnlock => True | _ => False end.
Theorem C68_alone : forall st p x q y i, reached st -> procs st p = Some x -> procs st q = Some y -> has_lock x i -> has_lock y i -> p = q.
Proof.
  intros st p x q y i R P Q X Y. pose proof (reached_inv st R) as I.
  assert (C : forall p x, procs st p = Some x -> has_lock x i -> exists o, claims x i o).
  { clear - I. intros p x P (k & o & K & A). exists o, k. split; [exact K|]. pose proof (i_fine _ I p x P) as F. unfold fine in F. destruct (born x).
    - destruct F as (_ & _ & _ & _ & _ & _ & F). destruct (at_ x); contradiction.
    - destruct F as (_ & _ & _ & ? & ? & ? & _ & _ & _ & _ & _ & _ & F). destruct (at_ x); try contradiction. exact Logic.I.
    - destruct F as (_ & _ & _ & _ & _ & _ & _ & m & ym & l & yl & s & _ & _ & _ & _ & _ & _ & _ & _ & _ & F). destruct (at_ x); try contradiction; exact Logic.I. }
  destruct (C p x P X) as (o & Co), (C q y Q Y) as (o' & Co').
  destruct (claims_opener _ _ _ _ _ (i_fine _ I p x P) Co) as (L & _), (claims_opener _ _ _ _ _ (i_fine _ I q y Q) Co') as (L' & _).
  assert (o' = o) by congruence. subst o'. exact (claims_one st p x q y i i o I P Q Co Co').
Qed.
Print Assumptions C68_alone.

(** Every turn of a process brings it nearer to serving or to its end, while nobody holds
    the log. *)
Theorem C68_goes_on : forall st p x ok n, reached st -> procs st p = Some x -> live x = true -> log_held x = false ->
  (forall c, at_ x <> PWait c) -> (forall k, at_ x <> PServe k) ->
  exists x', procs (turn st p ok n) p = Some x' /\ rank p (at_ x') < rank p (at_ x).
Proof. intros st p x ok n R. apply goes_on, reached_inv, R. Qed.
Print Assumptions C68_goes_on.

(** A launch fails only if the kernel refuses something or another launch has the lock. *)
Theorem C68_fails_only : forall st p x n x', reached st -> procs st p = Some x -> at_ x <> PFail ->
  (at_ x = POpen \/ at_ x = PNull -> files x n = None) ->
  procs (turn st p true n) p = Some x' -> at_ x' = PFail ->
  at_ x = PLock /\ exists k i d e, pid_fd x = Some (k, i, d) /\ locks st i = Some e /\ e <> d.
Proof. intros st p x n x' R. apply fails_only, reached_inv, R. Qed.
Print Assumptions C68_fails_only.

(** A launch from job 50 of session 40 on terminal 7, with a left-over pid file longer
    than the new one. *)
Definition from_a_shell : start :=
  mkStart true false 50 40 (Some 7) (fun n => if n <? 3 then Some (Inherited n) else if n =? 5 then Some (Inherited 5) else None) (lit "/home/me") 18%N.
Definition launch : list action :=
  [Start from_a_shell] ++ repeat (Turn 100 true 0) 4 ++
  [Turn 101 true 0; Turn 101 true 0; Turn 101 true 3; Turn 101 true 0; Turn 101 true 0] ++
  [Turn 102 true 0; Turn 102 true 0; Turn 102 true 1; Turn 102 true 1; Turn 102 true 4; Turn 102 true 0; Turn 101 true 0; Turn 102 true 0; Turn 102 true 0; Turn 102 true 0].
Definition launched_world : world := run (boot 100 (Some (lit "31337 and more")) 0) launch.
Example C68_nonvacuous :
  reached launched_world /\
  option_map at_ (procs launched_world 102) = Some PUnlock /\
  data launched_world 0 = lit "102" ++ [10%N] /\ locks launched_world 0 = Some 101 /\
  let st := run launched_world [Turn 100 true 0; Turn 102 true 0; Turn 102 true 0; OpenTty 102 9] in
  option_map at_ (procs st 100) = Some (Exited 0) /\ option_map at_ (procs st 102) = Some (PServe 0) /\
  option_map tty (procs st 102) = Some None /\ option_map session (procs st 102) = Some 101 /\ locks st 0 = None /\
  option_map (fun x => map (files x) (seq 0 7)) (procs st 102) = Some [Some (Null false); Some (Null false); Some (Null false); None; None; Some (Inherited 5); None].
Proof. split; [exists 100, (Some (lit "31337 and more")), 0, launch; reflexivity|]. vm_compute. repeat split. Qed.

(** A second launch while the first holds the lock ends with 1. *)
Example C68_second_launch :
  let st := run launched_world ([Start from_a_shell] ++ repeat (Turn 103 true 0) 4 ++ [Turn 104 true 0; Turn 104 true 0; Turn 104 true 3; Turn 104 true 0; Turn 104 true 0; Turn 103 true 0]) in
  option_map at_ (procs st 104) = Some (Exited 1) /\ option_map at_ (procs st 103) = Some (Exited 1) /\ data st 0 = lit "102" ++ [10%N] /\ locks st 0 = Some 101.
Proof. vm_compute. repeat split. Qed.

(** The lock of the pid file is never left behind: whenever it is held, a process that has
    not ended has the file open. *)
Theorem C68_lock_held : forall st i d, reached st -> locks st i = Some d ->
  exists p x k, procs st p = Some x /\ live x = true /\ pid_fd x = Some (k, i, d).
Proof. intros st i d (n & left & c & l & ->). apply k_held, kept_run; [apply inv_boot|apply kept_boot]. Qed.
Print Assumptions C68_lock_held.
(** Though both processes that had it open are killed at the worst time: *)
Example C68_killed_with_lock :
  locks launched_world 0 = Some 101 /\ locks (step launched_world (Kill 102)) 0 = None /\
  option_map at_ (procs (step launched_world (Kill 102)) 102) = Some Killed.
Proof. vm_compute. repeat split. Qed.

(** Nothing this program does kills a process: whatever fails ends with a status. *)
Theorem C68_killed : forall st a p x', procs (step st a) p = Some x' -> at_ x' = Killed ->
  (exists x, procs st p = Some x /\ at_ x = Killed) \/ a = Kill p.
Proof. intros st a p x' P A. apply step_killed. exists x'. auto. Qed.
Print Assumptions C68_killed.
