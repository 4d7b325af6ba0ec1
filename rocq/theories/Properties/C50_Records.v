(** C50: the attachment records shown by list. *)
From Coq Require Import List NArith ZArith Bool Arith Lia.
From Verif Require Import Model.Base Model.Protocol Model.Names Model.Server Spec.ServerSpec Spec.ServerExamples
  Proofs.BaseLemmas Proofs.ServerProofs Proofs.ServerEvents Proofs.ServerMoves Proofs.ServerGossip.
Import ListNotations.
Open Scope nat_scope.

(** A session's record: who is attached, when someone last came, when someone last
    left. *)
Definition record (x : session) : option (rstr * Z) * option Z * option Z := (s_attachment x, s_connected x, s_disconnected x).

(** An attach request that is given session [s] sets its record, with the time and
    the client's process; no other step does. *)
Definition sets (st : server) (a : action) (s : sid) (who : rstr * Z) (now : Z) : Prop :=
  exists c h pid, a = AAttach c true now /\ handlers st c = HAccepted pid (QAttach h) /\ listed st (h_name h) s /\ who = (h_name_template h, pid).
(** The end of a connection to a session of that name clears it, or a detach
    request naming it. *)
Definition clears (st : server) (a : action) (s : sid) (now : Z) : Prop :=
  (exists c h s0, a = AUnwind c now /\ handlers st c = HUnwind h s0 false /\ listed st (h_name h) s) \/
  (exists c n rest nf na, a = ADetachNext c now /\ handlers st c = HDetach (n :: rest) nf na /\ listed st n s).

Theorem C50_record_changes : forall st a s x x',
  session_at st s = Some x -> session_at (step st a) s = Some x' ->
  record x' = record x \/
  (exists who now, sets st a s who now /\ record x' = (Some who, Some now, s_disconnected x)) \/
  (exists now, clears st a s now /\ record x' = (None, s_connected x, Some now)).
Proof.
  intros st a s x x' Hx Hx'. destruct (step_alters st a s x Hx) as [K|(y & K & A)]; rewrite Hx' in K; injection K as ->; [auto|].
  destruct A; auto.
  - right. left. exists (h_name_template h, pid), now. split; [exists c, h, pid; auto|reflexivity].
  - destruct (s_exit x); [auto|]. right. left. exists (h_name_template h, pid), now. split; [exists c, h, pid; auto|reflexivity].
  - right. right. exists now. split; [left; exists c, h, s0; auto|reflexivity].
  - right. right. exists now. split; [right; exists c, n, rest, nf, na; auto|reflexivity].
  - right. right. exists now. split; [right; exists c, n, rest, nf, na; auto|reflexivity].
Qed.
Print Assumptions C50_record_changes.

(** A new session starts with its creator's record. *)
Theorem C50_new_record : forall st a s x,
  session_at st s = None -> session_at (step st a) s = Some x ->
  exists c ok now inst h pid, a = ASpawn c ok now inst /\ handlers st c = HSpawn h pid /\
    record x = (Some (h_name_template h, pid), Some now, None).
Proof.
  intros st a s x Hn Hx. destruct (step_new_session st a s x Hn Hx) as (c & ok & now & inst & h & pid & d & -> & Hc & _ & _ & -> & _).
  exists c, ok, now, inst, h, pid. auto.
Qed.
Print Assumptions C50_new_record.

(** A client that is given an existing session has it recorded at once ... *)
Theorem C50_set_when_attaching : forall st c e now h s,
  handlers (step st (AAttach c e now)) c = HReply h s false -> handlers st c <> HReply h s false ->
  exists x pid, session_at (step st (AAttach c e now)) s = Some x /\ handlers st c = HAccepted pid (QAttach h) /\
    s_attachment x = Some (h_name_template h, pid) /\ s_connected x = Some now.
Proof.
  intros st c e now h s. cbn [step]. unfold attach_select. destruct (handlers st c) eqn:Hc; try congruence. destruct q; try congruence.
  destruct (daemon_rejects (h_name h0)); [rewrite goto_same; congruence|]. destruct e; cbn [negb]; [|rewrite goto_same; congruence].
  destruct (locked st); [congruence|]. destruct (lookup (h_name h0) (table st)) as [s1|] eqn:L; [|rewrite goto_same; congruence].
  destruct (session_at st s1) as [x1|] eqn:Hx; [|congruence]. destruct (s_inner x1); [rewrite goto_same; congruence|].
  destruct (s_exit x1), (s_thread x1) as [| |[|]|]; cbn [is_finished]; rewrite goto_same; try congruence;
    intros E _; injection E as -> ->; at_simp; rewrite Nat.eqb_refl, Hx; eexists; exists pid; split; try reflexivity; auto.
Qed.
Print Assumptions C50_set_when_attaching.

(** ... and one that goes, leaving the shell running, has it cleared, if the name
    still stands for its session; no other record is touched. *)
Theorem C50_cleared_when_leaving_partial : forall st c now h s x,
  handlers st c = HUnwind h s false -> locked st = None -> listed st (h_name h) s -> session_at st s = Some x ->
  let st' := step st (AUnwind c now) in
  session_at st' s = Some (record_detached x now) /\ forall s', s' <> s -> session_at st' s' = session_at st s'.
Proof.
  intros st c now h s x Hc Hl L Hx. unfold listed in L. cbn [step]. cbn zeta. unfold attach_unwind. rewrite Hc, Hl, L. split; [at_simp; rewrite Nat.eqb_refl, Hx; reflexivity|].
  intros s' N. at_simp. apply Nat.eqb_neq in N. rewrite N. reflexivity.
Qed.
Print Assumptions C50_cleared_when_leaving_partial.

(** A cleared record carries the time of a disconnect; every record the time of a
    connect. *)
Theorem C50_cleared_has_time : forall st s x,
  reachable st -> session_at st s = Some x ->
  (exists t, s_connected x = Some t) /\ (s_attachment x = None -> exists t, s_disconnected x = Some t).
Proof.
  intros st s x (d & l & ->). revert s x. induction l as [|a l IH] using rev_ind; intros s x.
  - cbn. unfold session_at. cbn. destruct s; discriminate.
  - rewrite run_step. intros Hx. destruct (session_at (run (server_new d) l) s) as [x0|] eqn:H0.
    + destruct (IH s x0 H0) as [I1 I2].
      destruct (C50_record_changes _ a s x0 x H0 Hx) as [E|[(who & now & _ & E)|(now & _ & E)]]; unfold record in E; injection E as E1 E2 E3.
      * rewrite E1, E2, E3. auto.
      * rewrite E1, E2. split; [eauto|discriminate].
      * rewrite E2, E3. split; [exact I1|eauto].
    + destruct (C50_new_record _ a s x H0 Hx) as (c & ok & now & inst & h & pid & _ & _ & E). unfold record in E. injection E as E1 E2 E3.
      rewrite E1, E2. split; [eauto|discriminate].
Qed.
Print Assumptions C50_cleared_has_time.

Example C50_nonvacuous :
  let st := run fresh (creates 1 work None ++ goes 1 30 ++ reattaches 2 work) in
  map record (sessions (run fresh (creates 1 work None))) = [(Some (lit "tmpl", 42%Z), Some 11%Z, None)] /\
  map record (sessions (run fresh (creates 1 work None ++ goes 1 30))) = [(None, Some 11%Z, Some 30%Z)] /\
  map record (sessions st) = [(Some (lit "tmpl", 42%Z), Some 20%Z, Some 30%Z)].
Proof. vm_compute. auto. Qed.

(** But the record is found by name.  Its session killed and the name created
    again, a handler clears the record of a session it was never attached to, whose
    own client is connected all the while. *)
Definition wrong_record : list action :=
  creates 1 work None ++ [asks 2 (QKill [work]); AKill 2 []] ++ creates 3 work None ++ [AEnd 1 false true true].
Theorem C50_other_session_refuted : exists l,
  let st := run fresh l in let st' := step st (AUnwind 1 50) in
  attached st 1 0 /\ (forall s, attached st 1 s -> s = 0) /\ connected st' 3 1 /\
  map s_attachment (sessions st) = [Some (lit "tmpl", 42%Z); Some (lit "tmpl", 42%Z)] /\
  map s_attachment (sessions st') = [Some (lit "tmpl", 42%Z); None].
Proof.
  exists wrong_record. cbn zeta.
  assert (F : attached_session (handlers (run fresh wrong_record) 1) = Some 0) by (vm_compute; reflexivity).
  split; [exact F|]. split; [intros s A; unfold attached in A; rewrite F in A; injection A as <-; reflexivity|].
  split; [exists 3, (hdr work None); vm_compute; reflexivity|]. vm_compute. auto.
Qed.
Print Assumptions C50_other_session_refuted.

(** A client that goes away while it is shown the message of the day leaves its
    record behind: list shows the session as attached, although no one is. *)
Definition left_behind : list action := creates 1 work None ++ goes 1 30 ++ [asks 2 (QAttach (hdr work None)); AAttach 2 true 40; AReply 2 true false].
Theorem C50_left_behind_refuted : exists l,
  let st := run fresh l in
  handlers st 1 = HDone /\ handlers st 2 = HDone /\ map s_inner (sessions st) = [None] /\
  map record (sessions st) = [(Some (lit "tmpl", 42%Z), Some 40%Z, Some 30%Z)].
Proof. exists left_behind. vm_compute. auto. Qed.
Print Assumptions C50_left_behind_refuted.
