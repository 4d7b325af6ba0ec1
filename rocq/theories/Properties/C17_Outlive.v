(** C17: sessions outlive clients. *)
From Coq Require Import List NArith ZArith Bool Arith Lia.
From Verif Require Import Model.Base Model.Protocol Model.Names Model.Server Spec.ServerSpec Spec.ServerExamples
  Proofs.BaseLemmas Proofs.ServerProofs Proofs.ServerEvents Proofs.ServerMoves.
Import ListNotations.
Open Scope nat_scope.

(** A listed session whose shell is running stays listed, whatever step is taken
    by whomever, unless it is taken away by a kill request naming it, the reaper,
    or the creation or cleanup of another session of that name: no step of a
    client's going away is among them. *)
Theorem C17_stays_listed : forall st a n s,
  reachable st -> listed st n s -> shell_running st s -> ~ taken_away st a n s -> listed (step st a) n s.
Proof.
  intros st a n s R L (x & Hx & He) NT. pose proof (reachable_inv _ R) as I. unfold listed in *.
  destruct (step_tells st a) as (es & _ & T). destruct T; try exact L.
  - destruct (str_eq_dec n (h_name h)) as [->|N]; [|rewrite lookup_insert_neq by assumption; exact L].
    exfalso. apply NT. right; right; left. exists c, h, s0. repeat split; auto.
    intros ->. destruct (i_new _ I c h s H) as (_ & F). exact (F _ L).
  - destruct (str_eq_dec n (h_name h)) as [->|N]; [|rewrite lookup_remove_neq by assumption; exact L].
    exfalso. apply NT. right; right; right. exists c, h, s0, now. repeat split; auto.
    intros ->. destruct (i_done _ I c s) as (y & v & Hy & Hv); [eauto|]. congruence.
  - rewrite lookup_fold_remove. destruct (existsb (str_eqb n) (filter (present st) names)) eqn:E; [|exact L].
    exfalso. apply NT. left. exists c, oks, pid, names. repeat split; auto.
    apply existsb_exists in E as (m & Hm & E). apply str_eqb_eq in E. subst. apply filter_In in Hm. apply Hm.
  - destruct (str_eq_dec n (r_name r)) as [->|N]; [|rewrite lookup_remove_neq by assumption; exact L].
    exfalso. apply NT. right; left. exists k, inst, r. auto.
Qed.
Print Assumptions C17_stays_listed.

(** A running shell stops only by exiting. *)
Theorem C17_stays_running : forall st a s,
  shell_running st s -> (forall v, a <> AExit s v) -> shell_running (step st a) s.
Proof.
  intros st a s (x & Hx & He) N. destruct (step_alters st a s x Hx) as [H|(x' & H & A)]; [exists x; auto|].
  exists x'. split; [exact H|]. destruct A; cbn; try (exact He); try (rewrite He; exact He).
  exfalso. eapply N. reflexivity.
Qed.
Print Assumptions C17_stays_running.

(** Over a whole history: as long as nothing takes the session away and its shell
    does not exit, it is listed with its shell running, whatever else happens to
    its clients. *)
Fixpoint undisturbed (st : server) (l : list action) (n : rstr) (s : sid) : Prop :=
  match l with
  | [] => True
  | a :: r => ~ taken_away st a n s /\ (forall v, a <> AExit s v) /\ undisturbed (step st a) r n s
  end.
Theorem C17_history : forall l st n s,
  reachable st -> listed st n s -> shell_running st s -> undisturbed st l n s ->
  listed (run st l) n s /\ shell_running (run st l) s.
Proof.
  induction l as [|a l IH]; intros st n s R L S U; cbn; [auto|]. destruct U as (U1 & U2 & U3). apply IH; auto.
  - destruct R as (d & l0 & ->). exists d, (l0 ++ [a]). unfold run. rewrite fold_left_app. reflexivity.
  - apply C17_stays_listed; assumption.
  - apply C17_stays_running; assumption.
Qed.
Print Assumptions C17_history.

(** The session's output thread stays ready for a new client unless it ends by
    itself or the shell has exited. *)
Theorem C17_thread_stays : forall st a s x,
  reachable st -> session_at st s = Some x -> is_live (s_thread x) = true -> s_exit x = None -> (forall ok, a <> AThreadEnd s ok) ->
  exists x', session_at (step st a) s = Some x' /\ is_live (s_thread x') = true.
Proof.
  intros st a s x R Hx Hv He N. destruct (step_alters st a s x Hx) as [H|(x' & H & A)]; [exists x; auto|].
  exists x'. split; [exact H|]. destruct A; cbn; try (exact Hv); try reflexivity; try congruence.
  all: match goal with E : s_thread _ = TFinished _ |- _ => rewrite E in Hv; discriminate Hv end.
Qed.
Print Assumptions C17_thread_stays.

(** A later attach to that name connects the new client to that same session and
    says so; no other session is created or touched. *)
(** Missing for the full claim: a session whose output thread has ended although its
    shell runs; refuted below. *)
Theorem C17_reattach_partial : forall st n s x c pid h now,
  locked st = None -> listed st n s -> session_at st s = Some x -> s_exit x = None -> s_inner x = None -> is_live (s_thread x) = true ->
  handlers st c = HAccepted pid (QAttach h) -> h_name h = n -> daemon_rejects n = false ->
  let st' := run st [AAttach c true now; AReply c true true; AStart c true] in
  connected st' c s /\ replies st' = replies st ++ [(c, RAttach (Attached []))] /\ table st' = table st /\
  shell_running st' s /\ forall s', s' <> s -> session_at st' s' = session_at st s'.
Proof.
  intros st n s x c pid h now Hl L Hx He Hi Hv Hc <- Hr. cbn [run fold_left step].
  unfold listed in L.
  assert (Hf : is_finished (s_thread x) = false) by (destruct (s_thread x); try reflexivity; discriminate Hv).
  set (x1 := set_inner (record_attached (set_stream x (Some c)) now (h_name_template h, pid)) (Some c)).
  remember (attach_select st c true now) as st1 eqn:E1. unfold attach_select in E1. rewrite Hc, Hr, Hl, L, Hx, Hi, He, Hf in E1. cbn [negb] in E1.
  assert (H1 : handlers st1 c = HReply h s false) by (rewrite E1; apply goto_same).
  assert (X1 : session_at st1 s = Some x1). { rewrite E1. at_simp. rewrite Nat.eqb_refl, Hx. reflexivity. }
  assert (O1 : forall s', s' <> s -> session_at st1 s' = session_at st s').
  { intros s' N. rewrite E1. at_simp. apply Nat.eqb_neq in N. rewrite N. reflexivity. }
  assert (T1 : table st1 = table st /\ replies st1 = replies st) by (rewrite E1; split; reflexivity). clear E1.
  remember (attach_reply st1 c true true) as st2 eqn:E2. unfold attach_reply in E2. rewrite H1, X1 in E2. change (s_stream x1) with (Some c) in E2. cbn [negb] in E2.
  assert (H2 : handlers st2 c = HStart h s) by (rewrite E2; apply goto_same).
  assert (X2 : session_at st2 s = Some x1) by (rewrite E2; exact X1).
  assert (O2 : forall s', session_at st2 s' = session_at st1 s') by (rewrite E2; reflexivity).
  assert (T2 : table st2 = table st1 /\ replies st2 = replies st1 ++ [(c, RAttach (Attached []))]) by (rewrite E2; split; reflexivity). clear E2.
  unfold attach_start. rewrite H2, X2. change (s_stream x1) with (Some c). change (s_thread x1) with (s_thread x). rewrite Hv. cbn [andb].
  split; [exists c, h; apply goto_same|]. destruct T1 as [T1 R1], T2 as [T2 R2].
  split; [etransitivity; [exact R2|]; rewrite R1; reflexivity|].
  split; [etransitivity; [exact T2|exact T1]|]. split.
  - eexists. split; [at_simp; rewrite Nat.eqb_refl, X2; reflexivity|]. exact He.
  - intros s' N. at_simp. apply Nat.eqb_neq in N. rewrite N. apply Nat.eqb_neq in N. rewrite O2. apply (O1 _ N).
Qed.
Print Assumptions C17_reattach_partial.

(** The whole story for a client that goes away, in either way a client can: the
    session it leaves is found again by the next one. *)
Example C17_nonvacuous :
  let st := run fresh (creates 1 work None ++ [ADropClient 0] ++ goes 1 30 ++ [asks 2 (QAttach (hdr work None))]) in
  listed st work 0 /\ shell_running st 0 /\ locked st = None /\
  undisturbed (run fresh (creates 1 work None)) ([ADropClient 0] ++ goes 1 30) work 0 /\
  connected (run st [AAttach 2 true 20; AReply 2 true true; AStart 2 true]) 2 0.
Proof.
  cbn zeta. split; [vm_compute; reflexivity|].
  split; [match goal with |- shell_running ?st _ => destruct (session_at st 0) as [x|] eqn:E; [exists x; split; [exact E|]|]; vm_compute in E; [injection E as <-; reflexivity|discriminate E] end|].
  split; [vm_compute; reflexivity|]. split.
  - cbn [undisturbed app goes]. repeat split; try discriminate;
      intros [(c & oks & pid & names & E & _)|[(k & inst & r & E & _)|[(c & h & s0 & E & _)|(c & h & s0 & now & E & E2 & _)]]]; try discriminate E.
    injection E as <- <-. vm_compute in E2. discriminate E2.
  - exists 2, (hdr work None). vm_compute. reflexivity.
Qed.

(** But when the output thread has ended with an error while the shell lives on
    (a failed write of a heartbeat does that), the session is still listed, its
    shell still runs, and no client can be connected to it ever again. *)
Definition bricked : list action := creates 1 work None ++ [AThreadEnd 0 false] ++ goes 1 30 ++ [asks 2 (QAttach (hdr work None)); AAttach 2 true 40].
Lemma bricked_forever : forall st,
  (exists x, session_at st 0 = Some x /\ s_thread x = TJoined) -> (forall c, attached_session (handlers st c) <> Some 0) ->
  forall l k, ~ connected (run st l) k 0.
Proof.
  intros st J N.
  assert (G : forall l, (exists x, session_at (run st l) 0 = Some x /\ s_thread x = TJoined) /\ forall c h k, handlers (run st l) c <> HStream h 0 k).
  { induction l as [|a l IH] using rev_ind.
    - split; [exact J|]. intros c h k H. apply (N c). change (run st []) with st in H. rewrite H. reflexivity.
    - unfold run. rewrite fold_left_app. cbn [fold_left]. fold (run st l). destruct IH as [(x & Hx & Ht) IH]. split.
      + destruct (step_alters (run st l) a 0 x Hx) as [H|(x' & H & A)]; [eauto|]. exists x'. split; [exact H|].
        inversion A; subst; cbn; try reflexivity; try assumption; rewrite Ht in *; try discriminate.
        match goal with H : _ && is_live TJoined = true |- _ => rewrite andb_false_r in H; discriminate H end.
      + intros c h k H. destruct (step_moves (run st l) a c) as [M|M]; [rewrite H in M; exact (IH _ _ _ (eq_sym M))|].
        rewrite H in M. inversion M; subst.
        match goal with H1 : session_at _ 0 = Some ?y, H2 : is_live (s_thread ?y) = true |- _ => rewrite Hx in H1; injection H1 as <-; rewrite Ht in H2; discriminate H2 end. }
  intros l k (c & h & H). destruct (G l) as [_ F]. exact (F _ _ _ H).
Qed.

Lemma bricked_facts :
  option_map (fun x => (s_exit x, s_thread x)) (session_at (run fresh bricked) 0) = Some (None, TJoined) /\
  lookup work (table (run fresh bricked)) = Some 0 /\ handlers (run fresh bricked) 2 = HDone /\ map fst (replies (run fresh bricked)) = [1].
Proof. vm_compute. auto. Qed.
Lemma bricked_free : forall c, attached_session (handlers (run fresh bricked) c) <> Some 0.
Proof. intros c. destruct c as [|[|[|c]]]; vm_compute; discriminate. Qed.

Theorem C17_reattach_refuted :
  let st := run fresh bricked in
  listed st work 0 /\ shell_running st 0 /\ handlers st 2 = HDone /\ (forall r, ~ In (2, r) (replies st)) /\
  (forall c, attached_session (handlers st c) <> Some 0) /\
  forall l k, ~ connected (run st l) k 0.
Proof.
  cbv zeta. destruct bricked_facts as (J & L & D & RP). pose proof bricked_free as N. unfold listed, shell_running.
  remember (run fresh bricked) as st eqn:E. clear E.
  destruct (session_at st 0) as [x0|] eqn:E0; [|discriminate J]. injection J as J1 J2.
  split; [exact L|]. split; [exists x0; auto|]. split; [exact D|]. split.
  { intros r H. apply (in_map fst) in H. change (In 2 (map fst (replies st))) in H. assert (H' : In 2 [1]) by (rewrite <- RP; exact H).
    destruct H' as [H'|[]]. discriminate H'. }
  split; [exact N|]. apply bricked_forever; eauto.
Qed.
Print Assumptions C17_reattach_refuted.
