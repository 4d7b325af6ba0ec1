(** C16: a refused attach changes nothing. *)
From Coq Require Import List NArith ZArith Bool Arith Lia.
From Verif Require Import Model.Base Model.Protocol Model.Names Model.Server Spec.ServerSpec Spec.ServerExamples
  Proofs.BaseLemmas Proofs.ServerProofs.
Import ListNotations.
Open Scope nat_scope.

Definition refusal (r : attach_status) : Prop :=
  r = Busy \/ (exists why, r = Forbidden why) \/ (exists why, r = UnexpectedError why).

(** Whatever the state, a step that answers an attach request with a refusal
    changes neither the table, nor a session, nor the events, nor anything else
    but the position of the handler that answered, which is then finished. *)
Theorem C16_refusal_changes_nothing : forall st a c r,
  replies (step st a) = replies st ++ [(c, RAttach r)] -> refusal r ->
  same_world st (step st a) /\ only_handler c st (step st a) /\ handlers (step st a) c = HDone.
Proof.
  intros st a c r E F. apply new_reply in E.
  assert (G : forall st', st' = goto (say st c (RAttach r)) c HDone ->
              same_world st st' /\ only_handler c st st' /\ handlers st' c = HDone).
  { intros st' ->. split; [repeat split|]. split.
    - intros c' N. cbn. destruct (Nat.eqb_spec c' c); [contradiction|reflexivity].
    - cbn. rewrite Nat.eqb_refl. reflexivity. }
  inversion E; subst; apply G; cbn [step].
  - unfold connect. repeat match goal with H : _ = _ |- _ => rewrite H end. reflexivity.
  - unfold attach_select. repeat match goal with H : _ = _ |- _ => rewrite H end. reflexivity.
  - unfold attach_select. repeat match goal with H : _ = _ |- _ => rewrite H end. reflexivity.
  - exfalso. destruct F as [F|[[w F]|[w F]]]; destruct created; discriminate F.
Qed.
Print Assumptions C16_refusal_changes_nothing.

(** An invalid name is always refused. *)
Theorem C16_invalid_name : forall st c pid h e now,
  handlers st c = HAccepted pid (QAttach h) -> daemon_rejects (h_name h) = true ->
  exists why, replies (step st (AAttach c e now)) = replies st ++ [(c, RAttach (UnexpectedError why))].
Proof. intros st c pid h e now Hc Hr. cbn [step]. unfold attach_select. rewrite Hc, Hr. cbn. eauto. Qed.
Print Assumptions C16_invalid_name.

(** A connection by another user never gets anywhere: in every schedule its
    handler is either untouched or finished, whatever it asked for ... *)
Theorem C16_other_user : forall defaults l c,
  (forall self p q, In (AConnect c self p q) l -> p_uid p <> p_uid self) ->
  handlers (run (server_new defaults) l) c = HIdle \/ handlers (run (server_new defaults) l) c = HDone.
Proof.
  intros defaults l c. induction l as [|a l IH] using rev_ind; intros H; [left; reflexivity|].
  unfold run. rewrite fold_left_app. cbn [fold_left]. fold (run (server_new defaults) l).
  destruct IH as [E|E]. { intros self p q Hin. apply (H self p q). apply in_or_app; auto. }
  - destruct (step_idle (run (server_new defaults) l) a c E) as [E'|(self & p & q & -> & [E'|(pid & q' & Hp & _)])]; auto.
    exfalso. assert (N : p_uid p <> p_uid self) by (apply (H self p q); apply in_or_app; cbn; auto).
    unfold check_peer in Hp. apply N.eqb_neq in N. rewrite N in Hp. discriminate Hp.
  - right. apply step_done. exact E.
Qed.
Print Assumptions C16_other_user.

(** ... and the step in which it is turned away changes nothing else. *)
Theorem C16_other_user_changes_nothing : forall st c self p q,
  p_uid p <> p_uid self ->
  same_world st (step st (AConnect c self p q)) /\ only_handler c st (step st (AConnect c self p q)) /\
  (forall h, q = Some (QAttach h) -> handlers st c = HIdle ->
     exists why, replies (step st (AConnect c self p q)) = replies st ++ [(c, RAttach (Forbidden why))]).
Proof.
  intros st c self p q N. assert (Hp : exists why, check_peer self p = Err why).
  { unfold check_peer. apply N.eqb_neq in N. rewrite N. cbn. eauto. }
  destruct Hp as [why Hp]. split; [|split].
  - cbn [step]. unfold connect. destruct (handlers st c); [|repeat split ..]. rewrite Hp. destruct q as [[]|]; repeat split.
  - intros c' N'. apply step_other. cbn. congruence.
  - intros h -> Hc. cbn [step]. unfold connect. rewrite Hc, Hp. exists why. reflexivity.
Qed.
Print Assumptions C16_other_user_changes_nothing.

(** Nobody else is turned away: a process of the same user is let in under its own number,
    whichever program it runs, as long as the kernel says which. *)
Theorem C16_same_user : forall self p pid,
  check_peer self p = Ok pid <-> p_uid p = p_uid self /\ p_exe p <> None /\ p_exe self <> None /\ pid = p_pid p.
Proof.
  intros self p pid. unfold check_peer. destruct (N.eqb_spec (p_uid p) (p_uid self)) as [E|E]; cbn [negb]; [|split; [discriminate|intros (H & _); contradiction]].
  destruct (p_exe p), (p_exe self); (split; [intros H; try discriminate; injection H as <-; repeat split; auto; discriminate|intros (_ & H1 & H2 & H3); subst; try contradiction; reflexivity]).
Qed.
Print Assumptions C16_same_user.

(** Someone else's attach and kill requests, an invalid name and a busy session. *)
Definition c16_state : server :=
  run fresh (creates 1 work None ++ [asks 2 (QAttach (hdr work None)); asks 3 (QAttach (hdr (lit "a b") None))]).
Example C16_nonvacuous :
  replies (step c16_state (AAttach 2 true 30)) = replies c16_state ++ [(2, RAttach Busy)] /\
  replies (step c16_state (AAttach 3 true 30)) = replies c16_state ++ [(3, RAttach (UnexpectedError (lit "invalid session name 'a b'")))] /\
  p_uid stranger <> p_uid me /\
  replies (step c16_state (AConnect 4 me stranger (Some (QAttach (hdr work None))))) =
    replies c16_state ++ [(4, RAttach (Forbidden (lit "shpool prohibits connections across users")))] /\
  replies (step c16_state (AConnect 4 me stranger (Some (QKill [work])))) = replies c16_state /\
  listed c16_state work 0.
Proof. repeat split; vm_compute; try reflexivity. discriminate. Qed.
