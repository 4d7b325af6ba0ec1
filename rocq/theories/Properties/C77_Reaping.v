(** C77: the sessions that end are those whose deadline the reaper thread has acted on. *)
From Coq Require Import List NArith ZArith Bool Arith Lia Permutation.
From Verif Require Import Model.Base Model.Protocol Model.Names Model.Server Spec.ServerSpec Spec.ServerExamples Spec.ReapingSpec
  Proofs.BaseLemmas Proofs.ServerProofs Proofs.ServerReaper Proofs.ReapingProofs.
From Verif Require Model.Reaper Spec.ReaperThreadSpec Proofs.ReaperThreadProofs.
Import ListNotations.
Open Scope nat_scope.

(** The daemon's account of the deadlines is always the thread's. *)
Theorem C77_agree : forall st r, daemon st r -> agrees st r.
Proof. exact agrees_daemon. Qed.
Print Assumptions C77_agree.

(** What the thread can do the daemon can: it takes the message there is ... *)
Theorem C77_takes_messages : forall st r n d s rest, daemon st r -> mailbox st = (n, d, s) :: rest ->
  let st' := step st ARegister in let r' := Reaper.step r (Reaper.Message n d) in
  daemon st' r' /\ mailbox st' = rest /\ ReaperThreadSpec.pending (Reaper.log r') n = Some d.
Proof.
  intros st r n d s rest D M. cbn zeta. split; [exact (d_told _ _ _ _ _ _ D M)|]. split; [cbn [step]; unfold reaper_register; rewrite M; reflexivity|].
  unfold Reaper.step. destruct (agrees_daemon _ _ D) as (_ & _ & ->). cbn [Reaper.log]. unfold ReaperThreadSpec.pending. rewrite ReaperThreadProofs.pending_app.
  destruct (ReaperThreadSpec.name_dec n n) as [_|N]; [reflexivity|destruct (N eq_refl)].
Qed.
Print Assumptions C77_takes_messages.

(** ... and when it wakes up it ends the session whose deadline it acts on, and no other,
    or does nothing anybody could notice. *)
Theorem C77_acts : forall st r now, daemon st r -> locked st = None ->
  let r' := Reaper.step r (Reaper.Timer now) in
  exists l, (l = [] \/ exists k, l = [AFire k now]) /\ daemon (run st l) r' /\
  ((exists n d, Reaper.log r' = Reaper.log r ++ [Reaper.Reaped n d now] /\ ended_by n st (run st l)) \/
   (Reaper.log r' = Reaper.log r /\ unnoticed st (run st l))).
Proof.
  intros st r now D L. cbn zeta. pose proof (agrees_daemon _ _ D) as A.
  destruct (Reaper.peek (Reaper.heap r)) as [x|] eqn:Pk.
  - destruct (top_there _ _ _ A Pk) as (k & q & Hk & <-). destruct (N.ltb_spec now (r_at q)) as [E|E].
    + assert (R : Reaper.step r (Reaper.Timer now) = r).
      { unfold Reaper.step. destruct (Reaper.ended r); [reflexivity|]. rewrite Pk. cbn [Reaper.reap_at as_noted]. apply N.ltb_lt in E. rewrite E. reflexivity. }
      exists []. rewrite R. split; [auto|]. split; [exact D|]. right. unfold unnoticed. repeat split.
    + exists [AFire k now]. split; [eauto|]. split; [exact (d_wakes _ _ _ _ _ D Hk Pk E (or_introl L))|].
      destruct (wakes st r now k q (daemon_inv _ _ D) A Hk Pk E (or_introl L)) as (_ & [(_ & X & Y)|(_ & X & Y)]); cbn zeta in *; [left; eauto|right; auto].
  - assert (R : Reaper.step r (Reaper.Timer now) = r).
    { unfold Reaper.step. destruct (Reaper.ended r); [reflexivity|]. rewrite Pk. reflexivity. }
    exists []. rewrite R. split; [auto|]. split; [exact D|]. right. unfold unnoticed. repeat split.
Qed.
Print Assumptions C77_acts.

Lemma acts_on st r now k : daemon st r -> locked st = None ->
  exists l, Forall (fun a => exists j, a = AFire j now) l /\ daemon (run st l) (Reaper.run r (repeat (Reaper.Timer now) k)) /\ locked (run st l) = None /\
  (forall n s, listed (run st l) n s -> listed st n s) /\ (forall s, In s (signalled st) -> In s (signalled (run st l))) /\
  forall n s, listed st n s ->
    (exists d, ReaperThreadSpec.pending (Reaper.log r) n = Some d /\ (d <= now)%N /\ ~ listed (run st l) n s /\ In s (signalled (run st l))) \/
    (listed (run st l) n s /\ ReaperThreadSpec.pending (Reaper.log (Reaper.run r (repeat (Reaper.Timer now) k))) n = ReaperThreadSpec.pending (Reaper.log r) n).
Proof.
  revert st r. induction k as [|k IH]; intros st r D L.
  - exists []. cbn. repeat (split; [auto|]). auto.
  - destruct (C77_acts st r now D L) as (l1 & F1 & D1 & A). cbn zeta in *.
    assert (L1 : locked (run st l1) = None).
    { destruct A as [(n & d & _ & E)|(_ & E)]; destruct E as (_ & _ & _ & _ & E & _); congruence. }
    destruct (IH _ _ D1 L1) as (l2 & F2 & D2 & L2 & B2 & S2 & X2).
    assert (R : run st (l1 ++ l2) = run (run st l1) l2) by (unfold run; apply fold_left_app).
    exists (l1 ++ l2). rewrite R. split.
    { apply Forall_app. split; [|exact F2]. destruct F1 as [->|(j & ->)]; [constructor|]. repeat constructor. eauto. }
    split; [exact D2|]. split; [exact L2|]. cbn [repeat]. change (Reaper.run r (Reaper.Timer now :: repeat (Reaper.Timer now) k)) with (Reaper.run (Reaper.step r (Reaper.Timer now)) (repeat (Reaper.Timer now) k)).
    destruct A as [(n0 & d0 & Lg & E)|(Lg & E)].
    + assert (Pd : ReaperThreadSpec.pending (Reaper.log r) n0 = Some d0 /\ (d0 <= now)%N).
      { destruct (ReaperThreadProofs.log_step r (Reaper.Timer now) (daemon_inv _ _ D)) as [X|[(? & ? & X & _)|(n & d & now' & Et & X & Y & Z & _)]]; [|discriminate|].
        - rewrite X in Lg. apply (f_equal (@length _)) in Lg. rewrite app_length in Lg. cbn in Lg. lia.
        - rewrite X in Lg. apply app_inv_head in Lg. injection Lg as -> -> ->. auto. }
      destruct E as (Et & _ & _ & _ & _ & _ & _ & _ & Es). unfold listed in *. split.
      { intros n s H. apply B2 in H. rewrite Et in H. destruct (str_eq_dec n n0) as [->|N]; [rewrite lookup_remove_eq in H; discriminate|rewrite lookup_remove_neq in H by exact N; exact H]. }
      split. { intros s H. apply S2. destruct (lookup n0 (table st)); destruct Es as (-> & _); [apply in_or_app; auto|exact H]. }
      intros n s H. destruct (str_eq_dec n n0) as [->|N].
      * left. exists d0. split; [apply Pd|]. split; [apply Pd|]. rewrite H in Es. destruct Es as (Es & _). split.
        -- intros Q. apply B2 in Q. rewrite Et, lookup_remove_eq in Q. discriminate.
        -- apply S2. rewrite Es. apply in_or_app. right. left. reflexivity.
      * assert (H1 : lookup n (table (run st l1)) = Some s) by (rewrite Et, lookup_remove_neq by exact N; exact H).
        assert (P1 : ReaperThreadSpec.pending (Reaper.log (Reaper.step r (Reaper.Timer now))) n = ReaperThreadSpec.pending (Reaper.log r) n).
        { rewrite Lg. unfold ReaperThreadSpec.pending. rewrite ReaperThreadProofs.pending_app. destruct (ReaperThreadSpec.name_dec n n0); [contradiction|reflexivity]. }
        rewrite <- P1. apply X2. exact H1.
    + destruct E as (Et & _ & _ & _ & _ & _ & _ & _ & Es & _). unfold listed in *. rewrite Lg in X2. rewrite Et in X2, B2. rewrite Es in S2. auto.
Qed.

(** Whatever has happened before: when the thread has woken up as often as it was told of
    deadlines, and nothing came in between, the sessions listed are those it was not told
    of, or whose latest deadline is still to come; all others are listed no more and their
    shells have been sent the hangup. *)
Theorem C77_in_time : forall st r now k, daemon st r -> locked st = None -> length (ReaperThreadSpec.noted (Reaper.log r)) <= k ->
  exists l, Forall (fun a => exists j, a = AFire j now) l /\ daemon (run st l) (Reaper.run r (repeat (Reaper.Timer now) k)) /\
  forall n s, listed st n s ->
    (listed (run st l) n s <-> forall d, ReaperThreadSpec.pending (Reaper.log r) n = Some d -> (now < d)%N) /\
    (~ listed (run st l) n s -> In s (signalled (run st l))).
Proof.
  intros st r now k D L K. destruct (acts_on st r now k D L) as (l & F & D' & _ & _ & _ & X). exists l. split; [exact F|]. split; [exact D'|].
  destruct (agrees_daemon _ _ D) as (_ & _ & E).
  assert (Z : forall n d, ReaperThreadSpec.pending (Reaper.log (Reaper.run r (repeat (Reaper.Timer now) k))) n = Some d -> (now < d)%N).
  { apply ReaperThreadProofs.timers; [exact (daemon_inv _ _ D)|exact E|].
    destruct (daemon_thread _ _ D) as (evs & ->). pose proof (ReaperThreadProofs.heap_small evs Reaper.reaper_new ReaperThreadProofs.inv_new) as H. cbn in H. lia. }
  intros n s H. destruct (X n s H) as [(d & P & Dn & N & S)|(Y & P)].
  - split; [|auto]. split; [contradiction|]. intros Q. specialize (Q d P). lia.
  - split; [|contradiction]. split; [|auto]. intros _ d Q. apply (Z n). rewrite P. exact Q.
Qed.
Print Assumptions C77_in_time.

Lemma others st r l : daemon st r -> forallb (fun a => negb (reapers a)) l = true -> daemon (run st l) r.
Proof.
  revert st. induction l as [|a l IH]; intros st D F; [exact D|]. cbn in F. apply andb_prop in F as [Fa F]. change (run st (a :: l)) with (run (step st a) l).
  apply IH; [|exact F]. apply d_else; [exact D|]. destruct (reapers a); [discriminate Fa|reflexivity].
Qed.

(** Three sessions, two of them with a time to live of 5 and 100 seconds: the thread is told
    of both, wakes up after 50 seconds, and the one is gone. *)
Example C77_nonvacuous :
  let st := run fresh (creates 1 work (Some 5%N) ++ creates 2 play (Some 100%N) ++ creates 3 (lit "x") None) in
  let st2 := run st [ARegister; ARegister] in
  let told := [Reaper.Message work 6000%N; Reaper.Message play 101000%N] in
  daemon st2 (Reaper.run Reaper.reaper_new told) /\ locked st2 = None /\
  map (fun x => fst (fst x)) (mailbox st) = [work; play] /\ table st2 = [(lit "x", 2); (play, 1); (work, 0)] /\
  daemon (run st2 [AFire 1 50000%N]) (Reaper.run Reaper.reaper_new (told ++ [Reaper.Timer 50000%N])) /\
  table (run st2 [AFire 1 50000%N]) = [(lit "x", 2); (play, 1)] /\ signalled (run st2 [AFire 1 50000%N]) = [0].
Proof.
  cbn zeta. set (st := run fresh _).
  assert (D : daemon st Reaper.reaper_new) by (apply others; [exact (d_new [])|vm_compute; reflexivity]).
  assert (M : mailbox st = [(work, 6000%N, 0); (play, 101000%N, 1)]) by (vm_compute; reflexivity).
  assert (M' : mailbox (step st ARegister) = [(play, 101000%N, 1)]) by (vm_compute; reflexivity).
  pose proof (d_told _ _ _ _ _ _ (d_told _ _ _ _ _ _ D M) M') as D2.
  split; [exact D2|]. split; [vm_compute; reflexivity|]. split; [vm_compute; reflexivity|]. split; [vm_compute; reflexivity|]. split; [|vm_compute; auto].
  refine (d_wakes _ _ 50000%N 1 (mkReapable work 1 6000%N 0) D2 _ _ _ _); [vm_compute; reflexivity|vm_compute; reflexivity|cbn; lia|left; vm_compute; reflexivity].
Qed.
