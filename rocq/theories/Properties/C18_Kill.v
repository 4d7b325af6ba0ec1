(** C18: kill is exact. *)
From Coq Require Import List NArith ZArith Bool Arith Lia.
From Verif Require Import Model.Base Model.Protocol Model.Names Model.Server Spec.ServerSpec Spec.ServerExamples
  Proofs.BaseLemmas Proofs.ServerProofs Proofs.ServerEvents Proofs.ServerMoves.
Import ListNotations.
Open Scope nat_scope.

Definition missing (st : server) (names : list rstr) : list rstr :=
  filter (fun n => match lookup n (table st) with None => true | Some _ => false end) names.

(** The reply to a kill request names exactly the requested names that had no
    session, in the order of the request; when it is written none of the requested
    names has a session, every other name has the session it had, the sessions
    themselves are as before, and exactly the shells of the named sessions have
    been signalled. *)
Theorem C18_kill_exact : forall st a c nf,
  replies (step st a) = replies st ++ [(c, RKill nf)] ->
  exists pid names oks, handlers st c = HAccepted pid (QKill names) /\ a = AKill c oks /\
    nf = missing st names /\
    (forall n, In n names -> lookup n (table (step st a)) = None) /\
    (forall n, ~ In n names -> lookup n (table (step st a)) = lookup n (table st)) /\
    sessions (step st a) = sessions st /\
    exists killed, signalled (step st a) = signalled st ++ killed /\
      forall s, In s killed <-> exists n, In n names /\ lookup n (table st) = Some s.
Proof.
  intros st a c nf E. apply new_reply in E. inversion E; subst. exists pid, names, oks. split; [assumption|]. split; [reflexivity|].
  cbn [step]. unfold handle_kill. repeat match goal with H : handlers _ _ = _ |- _ => rewrite H; clear H | H : locked _ = _ |- _ => rewrite H; clear H end.
  match goal with H : kill_loop _ _ _ _ _ = _ |- _ => rewrite H; pose proof (kill_loop_some _ _ _ _ _ _ _ _ H) as (-> & -> & K) end.
  split. { cbn [app]. unfold missing, present. apply filter_ext. intros n. destruct (lookup n (table st)); reflexivity. }
  rewrite fold_remove_events. cbn [table sessions signalled goto say with_handlers with_replies with_events with_table with_signalled app].
  assert (Q : forall n, existsb (str_eqb n) (filter (present st) names) = true <-> In n names /\ lookup n (table st) <> None).
  { intros n. rewrite existsb_exists. split.
    - intros (m & Hm & En). apply str_eqb_eq in En. subst. apply filter_In in Hm as [Hm Hp]. split; [exact Hm|].
      unfold present in Hp. destruct (lookup m (table st)); [discriminate|discriminate Hp].
    - intros [Hn Hp]. exists n. split; [|apply str_eqb_refl]. apply filter_In. split; [exact Hn|].
      unfold present. destruct (lookup n (table st)); [reflexivity|congruence]. }
  split; [|split; [|split]].
  - intros n Hn. rewrite lookup_fold_remove. destruct (existsb _ _) eqn:Ee; [reflexivity|].
    destruct (lookup n (table st)) eqn:Hl; [|reflexivity]. exfalso.
    assert (existsb (str_eqb n) (filter (present st) names) = true) by (apply Q; split; [exact Hn|congruence]). congruence.
  - intros n Hn. rewrite lookup_fold_remove. destruct (existsb _ _) eqn:Ee; [|reflexivity]. apply Q in Ee as [Hin _]. contradiction.
  - reflexivity.
  - exists (sids_of st names). split.
    + apply (f_equal signalled) in K. exact K.
    + intros s. unfold sids_of. rewrite in_flat_map. split.
      * intros (n & Hn & Hs). exists n. split; [exact Hn|]. destruct (lookup n (table st)); [destruct Hs as [->|[]]; reflexivity|destruct Hs].
      * intros (n & Hn & Hs). exists n. split; [exact Hn|]. rewrite Hs. left. reflexivity.
Qed.
Print Assumptions C18_kill_exact.

(** When the shells can be killed the request is answered, in the same critical
    section that it started. *)
Theorem C18_kill_answered : forall st c pid names oks,
  handlers st c = HAccepted pid (QKill names) -> locked st = None -> Forall (fun ok => ok = true) oks ->
  let st' := step st (AKill c oks) in
  replies st' = replies st ++ [(c, RKill (missing st names))] /\ handlers st' c = HDone.
Proof.
  intros st c pid names oks Hc Hl F. cbn [step]. unfold handle_kill. rewrite Hc, Hl.
  destruct (kill_loop_all_ok names st oks [] [] F) as [[nf rm] Hk]. rewrite Hk.
  apply kill_loop_some in Hk as (-> & -> & _). rewrite fold_remove_events. split; [|apply goto_same].
  cbn. do 3 f_equal. f_equal. unfold missing, present. apply filter_ext. intros n. destruct (lookup n (table st)); reflexivity.
Qed.
Print Assumptions C18_kill_answered.

(** When one of them cannot be killed nobody is told anything and nothing is
    removed, although the shells named before it have been signalled. *)
Theorem C18_kill_failed : forall st c pid names oks,
  handlers st c = HAccepted pid (QKill names) -> locked st = None ->
  replies (step st (AKill c oks)) = replies st ->
  table (step st (AKill c oks)) = table st /\ sessions (step st (AKill c oks)) = sessions st /\
  events (step st (AKill c oks)) = events st /\ handlers (step st (AKill c oks)) c = HDone /\
  Exists (fun ok => ok = false) oks.
Proof.
  intros st c pid names oks Hc Hl E.
  destruct (Exists_dec (fun ok => ok = false) oks) as [X|X]; [intros []; auto; right; discriminate| |].
  - cbn [step] in *. destruct (handle_kill_shape st c oks) as [K|(pid0 & names0 & _ & _ & [(sg & _ & K)|(sg & nf & rm & _ & K)])].
    + exfalso. unfold handle_kill in K. rewrite Hc, Hl in K.
      destruct (kill_loop st names oks [] []) as [st1 [[nf rm]|]];
      apply (f_equal (fun s => handlers s c)) in K; rewrite goto_same, Hc in K; discriminate K.
    + rewrite K. split; [reflexivity|]. split; [reflexivity|]. split; [reflexivity|]. split; [apply goto_same|exact X].
    + exfalso. rewrite K in E. destruct (remove_one_frame rm (with_signalled st sg)) as (t & ev & Er & _). rewrite Er in E. cbn in E.
      apply (f_equal (@length _)) in E. rewrite app_length in E. cbn in E. lia.
  - exfalso. destruct (C18_kill_answered st c pid names oks Hc Hl) as [K _].
    + apply Forall_Exists_neg in X. eapply Forall_impl; [|exact X]. intros []; auto.
    + cbv zeta in K. rewrite E in K. apply (f_equal (@length _)) in K. rewrite app_length in K. cbn in K. lia.
Qed.
Print Assumptions C18_kill_failed.

Example C18_nonvacuous :
  let st := run fresh (creates 1 work None ++ creates 2 play None ++ [asks 3 (QKill [lit "gone"; work; lit "gone2"])]) in
  let st' := step st (AKill 3 [true]) in
  map snd (table st) = [1; 0] /\ map fst (table st') = [play] /\ signalled st' = [0] /\
  replies st' = replies st ++ [(3, RKill [lit "gone"; lit "gone2"])] /\
  table (step st (AKill 3 [false])) = table st /\ signalled (step st (AKill 3 [false])) = [0].
Proof. vm_compute. auto 8. Qed.
