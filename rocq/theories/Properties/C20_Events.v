(** C20: events describe the table. *)
From Coq Require Import List NArith ZArith Bool Arith Lia.
From Verif Require Import Model.Base Model.Protocol Model.Names Model.Server Spec.ServerSpec Spec.ServerExamples
  Proofs.BaseLemmas Proofs.ServerProofs Proofs.ServerEvents Proofs.ServerCounts.
Import ListNotations.
Open Scope nat_scope.

(** Whatever the schedule, replaying the published events gives the table. *)
Theorem C20_replay : forall st, reachable st -> forall n, lookup n (table st) = lookup n (replay (events st)).
Proof.
  intros st (d & l & ->). induction l as [|a l IH] using rev_ind; intros n; [reflexivity|].
  unfold run. rewrite fold_left_app. cbn [fold_left]. fold (run (server_new d) l).
  destruct (step_tells (run (server_new d) l) a) as (es & -> & T).
  unfold replay. rewrite fold_left_app. fold (replay (events (run (server_new d) l))).
  eapply tells_replay; eauto.
Qed.
Print Assumptions C20_replay.

(** A step that publishes nothing does not touch the table. *)
Theorem C20_no_silent_change : forall st a, events (step st a) = events st -> table (step st a) = table st.
Proof.
  intros st a E. destruct (step_tells st a) as (es & E' & T). rewrite E' in E.
  rewrite <- (app_nil_r (events st)) in E at 2. apply app_inv_head in E. subst es.
  remember [] as nil eqn:Hn in T. inversion T; subst; try reflexivity; try discriminate.
  - destruct (lookup _ _); discriminate.
  - destruct (filter (present st) names); [symmetry; assumption|discriminate].
Qed.
Print Assumptions C20_no_silent_change.

(** Created minus removed is the number of sessions, as long as no kill request
    names a session twice. *)
Theorem C20_count_partial : forall defaults l,
  no_repeated_kills l ->
  let st := run (server_new defaults) l in
  length (table st) + count ERemoved (events st) = count ECreated (events st).
Proof. intros d l H. apply (counts_run d l H). Qed.
Print Assumptions C20_count_partial.

(** A kill request that names a session twice announces its removal twice. *)
Theorem C20_count_refuted : exists l,
  let st := run fresh l in
  table st = [] /\ count ECreated (events st) = 1 /\ count ERemoved (events st) = 2 /\
  In (1, RAttach (Created [])) (replies st) /\ In (2, RKill []) (replies st).
Proof.
  exists (creates 1 work None ++ [asks 2 (QKill [work; work]); AKill 2 []]). vm_compute. auto 8.
Qed.
Print Assumptions C20_count_refuted.

Example C20_nonvacuous :
  let l := creates 1 work None ++ creates 2 play None ++ exits 1 0 40 ++ [asks 3 (QKill [play; work]); AKill 3 []] ++ creates 4 work None in
  no_repeated_kills l /\ table (run fresh l) = [(work, 2)] /\
  map e_kind (events (run fresh l)) =
    [ECreated; EAttached; ECreated; EAttached; ERemoved; ERemoved; ECreated; EAttached].
Proof.
  split; [|vm_compute; auto].
  intros c self p names H. repeat (destruct H as [H|H]; [try discriminate H|]); [|destruct H].
  injection H as <- <- <- <-. constructor; [|constructor; [intros []|constructor]].
  intros [H|[]]. discriminate H.
Qed.

(** A created or removed event is only published by the step that makes the
    change it tells of (a repeated name in a kill request apart: the second
    event then names no session). *)
Theorem C20_announced : forall st a es e,
  reachable st -> events (step st a) = events st ++ es -> In e es ->
  (e_kind e = ECreated -> exists s, e_sid e = Some s /\ ~ listed st (e_name e) s /\ listed (step st a) (e_name e) s) /\
  (e_kind e = ERemoved -> forall s, e_sid e = Some s -> listed st (e_name e) s /\ ~ listed (step st a) (e_name e) s).
Proof.
  intros st a es e R E Hin. pose proof (reachable_inv _ R) as I.
  destruct (step_tells st a) as (es' & E' & T). rewrite E' in E. apply app_inv_head in E. subst es'. clear E'.
  unfold listed. destruct T; cbn [In] in Hin.
  - destruct Hin.
  - destruct Hin as [<-|[]]. split; discriminate.
  - destruct (i_new _ I c h s H) as (_ & F).
    apply in_app_or in Hin as [Hin|[<-|[<-|[]]]]; cbn [e_kind e_sid e_name].
    + destruct (lookup (h_name h) (table st)) as [old|] eqn:Hl; [|destruct Hin]. destruct Hin as [<-|[]]. cbn [e_kind e_sid e_name]. split; [discriminate|].
      intros _ s0 [= <-]. split; [exact Hl|]. rewrite lookup_insert_eq. intros [= ->]. apply (F (h_name h)). exact Hl.
    + split; [|discriminate]. intros _. exists s. split; [reflexivity|]. split; [apply F|]. apply lookup_insert_eq.
    + split; discriminate.
  - destruct Hin as [<-|[]]. cbn [e_kind e_sid e_name]. split; [discriminate|]. intros _ s0 [= <-]. split; [assumption|]. rewrite lookup_remove_eq. discriminate.
  - destruct Hin as [<-|[]]. split; discriminate.
  - clear H H0. revert Hin. generalize (filter (present st) names) as rm. intros rm.
    assert (G : forall rm (t : list (rstr * sid)), In e (removal_events t rm) -> e_kind e = ERemoved /\ In (e_name e) rm /\
              forall s, e_sid e = Some s -> lookup (e_name e) t = Some s).
    { clear. induction rm as [|m rm IH]; intros t; cbn; [intros []|]. intros [<-|Hin]; cbn; [auto|].
      destruct (IH _ Hin) as (K & M & L). split; [exact K|]. split; [auto|]. intros s Hs. eapply lookup_remove_some. apply L. exact Hs. }
    intros Hin. destruct (G _ _ Hin) as (K & M & L). split; [congruence|]. intros _ s Hs. split; [auto|].
    rewrite lookup_fold_remove. replace (existsb (str_eqb (e_name e)) rm) with true; [discriminate|].
    symmetry. apply existsb_exists. exists (e_name e). split; [exact M|apply str_eqb_refl].
  - destruct Hin as [<-|[]]. cbn [e_kind e_sid e_name]. split; [discriminate|]. intros _ s0 [= <-]. split; [assumption|]. rewrite lookup_remove_eq. discriminate.
Qed.
Print Assumptions C20_announced.
