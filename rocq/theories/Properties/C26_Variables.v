(** C26: shared variables. *)
From Coq Require Import List NArith ZArith Bool Arith Lia.
From Verif Require Import Model.Base Model.Protocol Model.Names Model.Server Spec.ServerSpec Spec.ServerExamples
  Proofs.BaseLemmas Proofs.ServerProofs Proofs.ServerEvents Proofs.ServerMoves Proofs.ServerGossip.
Import ListNotations.
Open Scope nat_scope.

(** A step other than the execution of a var set or unset request leaves the
    variables alone; that step changes exactly the named variable, and the map it
    goes on to broadcast is the whole new map. *)
Theorem C26_exact_update : forall st a,
  vars (step st a) = vars st \/
  exists c pid var val, a = AModify c /\ handlers st c = HAccepted pid (QModify var val) /\
    lookup var (vars (step st a)) = val /\ (forall m, m <> var -> lookup m (vars (step st a)) = lookup m (vars st)) /\
    handlers (step st a) c = HCollect (vars (step st a)).
Proof.
  intros st a. destruct a; cbn [step];
    try (left; unfold connect, attach_select, attach_spawn, attach_insert, attach_fetch, attach_wake, attach_reply, attach_start, attach_end,
       shell_exit, thread_end, thread_drop_client, attach_unwind, attach_leave, detach_begin, detach_next, detach_finish, message_begin, message_send, handle_list, handle_log_level,
       handle_get_vars, modify_collect, modify_send, thread_switch, reaper_fire; al_split; reflexivity).
  - left. destruct (handle_kill_shape st c kill_ok) as [->|(pid & names & Hc & Hl & [(sg & _ & ->)|(sg & nf & rm & Hk & ->)])]; [reflexivity|reflexivity|].
    destruct (remove_one_frame rm (with_signalled st sg)) as (t & ev & -> & _). reflexivity.
  - unfold modify_begin. destruct (handlers st c) eqn:Hc; auto. destruct q; auto. right. exists c, pid, var, val.
    split; [reflexivity|]. split; [exact Hc|]. rewrite goto_same. cbn [vars goto with_vars with_handlers]. destruct val as [v|].
    + split; [apply lookup_insert_eq|]. split; [intros m N; apply lookup_insert_neq; assumption|reflexivity].
    + split; [apply lookup_remove_eq|]. split; [intros m N; apply lookup_remove_neq; assumption|reflexivity].
  - left. unfold reaper_register. destruct (mailbox st) as [|[[n t] s] rest]; reflexivity.
Qed.
Print Assumptions C26_exact_update.

(** A request always updates. *)
Theorem C26_updates : forall st c pid var val,
  handlers st c = HAccepted pid (QModify var val) ->
  lookup var (vars (step st (AModify c))) = val /\ handlers (step st (AModify c)) c = HCollect (vars (step st (AModify c))).
Proof.
  intros st c pid var val Hc. cbn [step]. unfold modify_begin. rewrite Hc. rewrite goto_same. split; [|reflexivity].
  cbn [vars goto with_vars with_handlers]. destruct val; [apply lookup_insert_eq|apply lookup_remove_eq].
Qed.
Print Assumptions C26_updates.

(** The reply to a var list request is the variables as they are then, and reading
    changes nothing. *)
Theorem C26_get : forall st a c vs,
  replies (step st a) = replies st ++ [(c, RVars vs)] -> vs = vars st /\ vars (step st a) = vars st.
Proof.
  intros st a c vs E. apply new_reply in E. inversion E; subst. split; [reflexivity|].
  cbn [step]. unfold handle_get_vars. al_split; reflexivity.
Qed.
Print Assumptions C26_get.

(** A new daemon has exactly the variables of the configuration, each with the value
    given last. *)
Theorem C26_defaults : forall defaults var val,
  ((forall v, ~ In (var, v) defaults) -> lookup var (vars (server_new defaults)) = None) /\
  (forall before after, (forall v, ~ In (var, v) after) -> lookup var (vars (server_new (before ++ (var, val) :: after))) = Some val).
Proof.
  intros defaults var val.
  assert (G : forall (l m : list (rstr * rstr)), (forall v, ~ In (var, v) l) -> lookup var (fold_left (fun m p => insert (fst p) (snd p) m) l m) = lookup var m).
  { induction l as [|[k v] l IH]; intros m Hn; [reflexivity|]. cbn [fold_left fst snd]. rewrite IH by (intros w Hw; exact (Hn w (or_intror Hw))).
    apply lookup_insert_neq. intros <-. exact (Hn v (or_introl eq_refl)). }
  split; [exact (G defaults [])|].
  intros before after Ha. unfold server_new, initial_vars. cbn [vars]. rewrite fold_left_app. cbn [fold_left fst snd].
  rewrite G by exact Ha. apply lookup_insert_eq.
Qed.
Print Assumptions C26_defaults.

Example C26_defaults_nonvacuous :
  vars (server_new [(lit "a", lit "1"); (lit "b", lit "2"); (lit "a", lit "3")]) = [(lit "a", lit "3"); (lit "b", lit "2")].
Proof. vm_compute. reflexivity. Qed.

(** No request to set or unset [var] is executed by the schedule. *)
Fixpoint untouched (st : server) (l : list action) (var : rstr) : Prop :=
  match l with
  | [] => True
  | a :: r => (forall c pid val, a = AModify c -> handlers st c <> HAccepted pid (QModify var val)) /\ untouched (step st a) r var
  end.

(** So a get returns, for every variable, the last value set. *)
Theorem C26_last_value : forall st c pid var val l k vs,
  handlers st c = HAccepted pid (QModify var val) ->
  untouched (step st (AModify c)) l var ->
  let st' := run (step st (AModify c)) l in
  replies (step st' (AGetVars k)) = replies st' ++ [(k, RVars vs)] -> lookup var vs = val.
Proof.
  intros st c pid var val l k vs Hc U st' E. apply C26_get in E as [-> _]. unfold st'. clear st'.
  assert (H0 : lookup var (vars (step st (AModify c))) = val).
  { cbn [step]. unfold modify_begin. rewrite Hc. cbn [vars goto with_vars with_handlers]. destruct val; [apply lookup_insert_eq|apply lookup_remove_eq]. }
  clear Hc. revert U H0. generalize (step st (AModify c)). clear st. induction l as [|a l IH]; intros st U H0; [exact H0|].
  destruct U as [U1 U2]. change (run st (a :: l)) with (run (step st a) l). apply IH; [exact U2|].
  destruct (C26_exact_update st a) as [E|(c1 & pid1 & var1 & val1 & Ea & Hc1 & _ & Keep & _)]; [rewrite E; exact H0|].
  rewrite Keep; [exact H0|]. intros <-. exact (U1 _ _ _ Ea Hc1).
Qed.
Print Assumptions C26_last_value.

(** The variable maps a session's output thread has been sent. *)
Definition sent_to (x : session) : list var_list := map snd (s_taken x) ++ s_switches x.

Lemma sent_stays st a s x v : session_at st s = Some x -> In v (sent_to x) ->
  exists x', session_at (step st a) s = Some x' /\ In v (sent_to x').
Proof.
  intros Hx Hin. destruct (step_alters st a s x Hx) as [H|(x' & H & A)]; [eauto|]. exists x'. split; [exact H|].
  unfold sent_to in *. destruct A; cbn; try exact Hin.
  - destruct (s_exit x); exact Hin.
  - rewrite app_assoc. apply in_or_app. left. exact Hin.
  - rewrite map_app. cbn. rewrite H1 in Hin. rewrite <- app_assoc. exact Hin.
Qed.

(** When a var set or unset request is answered, every session that was in the
    table when it went round has been sent the whole new map. *)
(** Missing for the full claim: requests that are not answered because a session's
    shell has exited, and sessions whose queue drops the map; refuted below. *)
Theorem C26_broadcast_partial : forall st c vs l late,
  handlers st c = HCollect vs -> locked st = None ->
  let st' := run (step st (ACollect c)) l in
  replies (step st' (ASend c late)) = replies st' ++ [(c, RModify)] ->
  forall n s, listed st n s -> exists x, session_at st' s = Some x /\ In vs (sent_to x).
Proof.
  intros st c vs l late Hc Hl. cbn zeta. intros E n s L.
  assert (Hin : In s (map snd (table st))).
  { unfold listed in L. induction (table st) as [|[k v] t IH]; [discriminate L|]. cbn in *. destruct (str_eqb n k); [injection L as ->; auto|auto]. }
  assert (H1 : handlers (step st (ACollect c)) c = HSends vs [] (map snd (table st))).
  { cbn [step]. unfold modify_collect. rewrite Hc, Hl. apply goto_same. }
  revert H1 E. generalize (step st (ACollect c)). generalize (map snd (table st)) Hin. clear. intros snap Hin st H1 E.
  assert (G : forall l, handlers (run st l) c = HDone \/ exists sent todo, handlers (run st l) c = HSends vs sent todo /\ sent ++ todo = snap /\
     forall s, In s sent -> exists x, session_at (run st l) s = Some x /\ In vs (sent_to x)).
  { clear E l. induction l as [|a l IH] using rev_ind.
    - right. exists [], snap. split; [exact H1|]. split; [reflexivity|]. intros ? [].
    - rewrite run_step. destruct IH as [D|(sent & todo & D & Sn & Al)]; [left; apply step_done; exact D|].
      assert (Al' : forall s, In s sent -> exists x, session_at (step (run st l) a) s = Some x /\ In vs (sent_to x)).
      { intros s0 Hs0. destruct (Al s0 Hs0) as (x & Hx & Hv). eapply sent_stays; eassumption. }
      destruct (step_moves (run st l) a c) as [M|M].
      { right. exists sent, todo. rewrite M. auto. }
      remember (handlers (step (run st l) a) c) as h' eqn:Eh'. destruct M; try congruence; auto.
      rewrite D in H. injection H as <- <- ->. right. exists (sent ++ [s0]), rest. split; [reflexivity|]. split; [rewrite <- app_assoc; exact Sn|].
      intros s1 Hs1. apply in_app_or in Hs1 as [Hs1|[<-|[]]]; [auto|].
      clear Eh' Al Al'. cbn [step]. unfold modify_send. rewrite D, H0, H2. cbn [negb]. apply Nat.ltb_lt in H3. rewrite H3.
      eexists. split; [at_simp; rewrite Nat.eqb_refl, H0; reflexivity|]. unfold sent_to. cbn. apply in_or_app. right. apply in_or_app. right. left. reflexivity. }
  apply new_reply in E. inversion E; subst.
  destruct (G l) as [D|(sent1 & todo1 & D & Sn & Al)]; [congruence|].
  match goal with H : handlers (run st l) c = HSends _ _ [] |- _ => rewrite D in H; injection H as <- <- -> end.
  rewrite app_nil_r in Sn. subst. apply Al. exact Hin.
Qed.
Print Assumptions C26_broadcast_partial.

Example C26_nonvacuous :
  let st := run (server_new [(lit "v", lit "0")]) (creates 1 work None ++ creates 2 play None ++ [asks 3 (QModify (lit "v") (Some (lit "1"))); AModify 3; ACollect 3]) in
  let st' := run st [ASend 3 false; ASend 3 false; ASwitch 1] in
  replies (step st' (ASend 3 false)) = replies st' ++ [(3, RModify)] /\
  map sent_to (sessions st') = [[[(lit "v", lit "1")]]; [[(lit "v", lit "1")]]] /\
  map s_taken (sessions st') = [[]; [(Some 2, [(lit "v", lit "1")])]].
Proof. vm_compute. auto. Qed.

(** But a session whose shell exited while nobody was attached stays in the table
    and makes every var set fail: there is no reply, and the sessions that come
    after it are not told. *)
Theorem C26_exited_session_refuted : exists l,
  let st := run fresh l in
  handlers st 3 = HDone /\ map fst (replies st) = [1; 2] /\ vars st = [(lit "v", lit "1")] /\
  table st = [(play, 1); (work, 0)] /\ map sent_to (sessions st) = [[]; []] /\
  connected st 1 0 /\ shell_running st 0.
Proof.
  exists (creates 1 work None ++ creates 2 play None ++ goes 2 30 ++ [AExit 1 0; AThreadEnd 1 true] ++
          [asks 3 (QModify (lit "v") (Some (lit "1"))); AModify 3; ACollect 3; ASend 3 false]).
  cbn zeta. do 5 (split; [vm_compute; reflexivity|]). split.
  - exists 1, (hdr work None). vm_compute. reflexivity.
  - match goal with |- shell_running ?st _ => assert (F : option_map s_exit (session_at st 0) = Some None) by (vm_compute; reflexivity);
      unfold shell_running; destruct (session_at st 0) as [x|]; [injection F as F; exists x; auto|discriminate F] end.
Qed.
Print Assumptions C26_exited_session_refuted.

(** And broadcasts can overtake each other: two sets of one variable, both
    answered, the second the last to be executed, and the session is told the
    first one's map last. *)
Theorem C26_overtaken_refuted : exists l,
  let st := run fresh l in
  In (2, RModify) (replies st) /\ In (3, RModify) (replies st) /\
  vars st = [(lit "v", lit "2")] /\
  map s_taken (sessions st) = [[(Some 1, [(lit "v", lit "2")]); (Some 1, [(lit "v", lit "1")])]].
Proof.
  exists (creates 1 work None ++ [asks 2 (QModify (lit "v") (Some (lit "1"))); asks 3 (QModify (lit "v") (Some (lit "2"))); AModify 2; AModify 3;
          ACollect 2; ACollect 3; ASend 3 false; ASend 2 false; ASend 3 false; ASend 2 false; ASwitch 0; ASwitch 0]).
  vm_compute. auto 8.
Qed.
Print Assumptions C26_overtaken_refuted.

(** A session without a client takes the new map and drops it: the next client is
    never switched to it. *)
Theorem C26_dropped_refuted : exists l,
  let st := run fresh l in
  In (2, RModify) (replies st) /\ map s_taken (sessions st) = [[(None, [(lit "v", lit "1")])]] /\ map s_switches (sessions st) = [[]] /\
  connected st 3 0.
Proof.
  exists (creates 1 work None ++ goes 1 30 ++ [asks 2 (QModify (lit "v") (Some (lit "1"))); AModify 2; ACollect 2; ASend 2 false; ASend 2 false; ASwitch 0] ++ reattaches 3 work).
  cbn zeta. do 3 (split; [vm_compute; auto|]). exists 3, (hdr work None). vm_compute. reflexivity.
Qed.
Print Assumptions C26_dropped_refuted.
