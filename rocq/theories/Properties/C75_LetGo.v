(** C75: asking a session to let its client go. *)
From Coq Require Import List NArith ZArith Bool Arith Lia.
From Verif Require Import Model.Base Model.Protocol Model.Names Model.Server Spec.ServerSpec Spec.MessageSpec Spec.ServerExamples
  Proofs.BaseLemmas Proofs.ServerProofs Proofs.ServerMoves Proofs.ServerGossip.
Import ListNotations.
Open Scope nat_scope.

(** Whether there is such a session is decided at one moment, by the table; nothing
    else happens then. *)
Theorem C75_found_or_not : forall st c pid n,
  handlers st c = HAccepted pid (QMessageDetach n) -> locked st = None ->
  let st' := step st (AMessage c) in
  same_world st st' /\ only_handler c st st' /\
  ((forall s, ~ listed st n s) -> replies st' = replies st ++ [(c, RMessage false)] /\ handlers st' c = HDone) /\
  (forall s, listed st n s -> replies st' = replies st /\ handlers st' c = HMessage s).
Proof.
  intros st c pid n Hc Hl. cbn zeta. cbn [step]. unfold message_begin, listed. rewrite Hc, Hl.
  destruct (lookup n (table st)) as [s|] eqn:L; (split; [unfold same_world; cbn; repeat split|]); (split; [intros c' N; rewrite goto_other by exact N; reflexivity|]).
  - split; [intros N; destruct (N s eq_refl)|]. intros s' [= <-]. split; [reflexivity|apply goto_same].
  - split; [|discriminate]. intros _. split; [reflexivity|apply goto_same].
Qed.
Print Assumptions C75_found_or_not.

Lemma on_its_way st c s : handlers st c = HMessage s \/ handlers st c = HDone ->
  forall l, handlers (run st l) c = HMessage s \/ handlers (run st l) c = HDone.
Proof.
  intros H l. revert st H. induction l as [|a l IH]; intros st H; [exact H|].
  change (run st (a :: l)) with (run (step st a) l). apply IH. clear IH.
  destruct (step_moves st a c) as [M|M]; [rewrite M; exact H|].
  remember (handlers (step st a) c) as h' eqn:Eh'. destruct H as [H|H]; destruct M; auto; congruence.
Qed.

(** What comes of it, whatever else happens in between.  The message goes to the
    session that had the name at that moment.  The answer comes, once, exactly if
    the session's output thread is there to take the message and takes it in time;
    then the session has let its client go and nothing else has changed.
    Otherwise nothing has changed at all, and there is no answer. *)
Theorem C75_let_go_partial : forall st c pid n s l ok,
  reachable st -> handlers st c = HAccepted pid (QMessageDetach n) -> locked st = None -> listed st n s ->
  let st1 := run (step st (AMessage c)) l in let st2 := step st1 (AMessageSend c ok) in
  handlers st2 c = HDone /\ only_handler c st1 st2 /\
  ((ok = true /\ handlers st1 c <> HDone /\ heeds st1 s -> replies st2 = replies st1 ++ [(c, RMessage true)] /\ let_go s st1 st2) /\
   (~ (ok = true /\ handlers st1 c <> HDone /\ heeds st1 s) -> replies st2 = replies st1 /\ same_world st1 st2)).
(** Missing for the full claim: that the answer says so if nobody was let go, which is false
    (C75_nobody_refuted, C75_gone_refuted, C75_starting_refuted). *)
Proof.
  intros st c pid n s l ok R Hc Hl L. cbn zeta.
  destruct (C75_found_or_not st c pid n Hc Hl) as (W & _ & _ & F). destruct (F s L) as (_ & H1). cbn zeta in *.
  assert (A1 : exists x, session_at (step st (AMessage c)) s = Some x).
  { destruct (i_tab _ (reachable_inv _ R) _ _ L) as (x & Hx & _). exists x. unfold session_at in *. destruct W as (_ & -> & _). exact Hx. }
  assert (A2 : exists x, session_at (run (step st (AMessage c)) l) s = Some x).
  { clear - A1. revert A1. generalize (step st (AMessage c)). induction l as [|a l IH]; intros st0 A; [exact A|]. change (run st0 (a :: l)) with (run (step st0 a) l). apply IH.
    destruct A as (x & Hx). destruct (step_alters st0 a s x Hx) as [Hx'|(x' & Hx' & _)]; eauto. }
  destruct A2 as (x & Hx).
  pose proof (on_its_way (step st (AMessage c)) c s (or_introl H1) l) as H2. revert Hx H2. generalize (run (step st (AMessage c)) l). clear. intros st Hx H.
  assert (Hd : heeds st s <-> is_live (s_thread x) = true).
  { unfold heeds. split.
    - intros (x0 & H0 & T). rewrite Hx in H0. injection H0 as <-. destruct T as [-> | ->]; reflexivity.
    - intros T. exists x. split; [exact Hx|]. destruct (s_thread x); try discriminate T; auto. }
  rewrite Hd. cbn [step]. unfold message_send. destruct H as [H|H]; rewrite H.
  2:{ split; [exact H|]. split; [intros c' _; reflexivity|]. split; [intros (_ & N & _); destruct (N eq_refl)|]. intros _. split; [reflexivity|]. unfold same_world. repeat split. }
  rewrite Hx. destruct ok; cbn [andb].
  2:{ split; [apply goto_same|]. split; [intros c' N; apply goto_other; exact N|]. split; [intros (N & _); discriminate N|]. intros _. split; [reflexivity|]. unfold same_world. cbn. repeat split. }
  destruct (is_live (s_thread x)) eqn:T.
  2:{ split; [apply goto_same|]. split; [intros c' N; apply goto_other; exact N|]. split; [intros (_ & _ & N); discriminate N|]. intros _. split; [reflexivity|]. unfold same_world. cbn. repeat split. }
  split; [apply goto_same|]. split; [intros c' N; rewrite goto_other by exact N; reflexivity|]. split.
  2:{ intros N. exfalso. apply N. split; [reflexivity|]. split; [discriminate|reflexivity]. }
  intros _. split; [reflexivity|]. split; [unfold same_books; cbn; repeat split|]. split; [cbn; apply change_length|]. split.
  - intros s' N. at_simp. apply Nat.eqb_neq in N. rewrite N. reflexivity.
  - eexists _, _. split; [exact Hx|]. split; [at_simp; rewrite Nat.eqb_refl, Hx; reflexivity|]. cbn. repeat split.
Qed.
Print Assumptions C75_let_go_partial.

(** The message reaches the client of a session somebody is attached to; the
    session is free again once that client's connection has ended, and another
    attach gets it. *)
Definition sends (c : conn) (n : rstr) : list action := [asks c (QMessageDetach n); AMessage c; AMessageSend c true].
Example C75_nonvacuous :
  let st := run fresh (creates 1 work None ++ creates 2 play None) in
  let st1 := run st (sends 3 work ++ sends 4 (lit "none")) in
  map s_client (sessions st) = [Some 1; Some 2] /\ map s_client (sessions st1) = [None; Some 2] /\
  replies st1 = replies st ++ [(3, RMessage true); (4, RMessage false)] /\ table st1 = table st /\
  map s_client (sessions (run st1 (goes 1 30 ++ reattaches 5 work))) = [Some 5; Some 2].
Proof. vm_compute. auto 8. Qed.

(** The answer is the same if nobody was attached ... *)
Theorem C75_nobody_refuted : exists l,
  let st := run fresh l in let st' := run st (sends 2 work) in
  listed st work 0 /\ (forall c, ~ attached st c 0) /\ In (2, RMessage true) (replies st').
Proof.
  exists (creates 1 work None ++ goes 1 30). cbn zeta. split; [vm_compute; reflexivity|]. split.
  - intros c A. do 3 (destruct c as [|c]; [vm_compute in A; discriminate A|]). vm_compute in A. discriminate A.
  - vm_compute. auto.
Qed.
Print Assumptions C75_nobody_refuted.

(** ... or if there is no session of that name any more ... *)
Theorem C75_gone_refuted : exists l,
  let st := run fresh l in let st' := step st (AMessageSend 2 true) in
  handlers st 2 = HMessage 0 /\ table st' = [] /\ In (2, RMessage true) (replies st').
Proof. exists (creates 1 work None ++ [asks 2 (QMessageDetach work); AMessage 2; asks 3 (QKill [work]); AKill 3 []]). vm_compute. auto 6. Qed.
Print Assumptions C75_gone_refuted.

(** ... and a client whose attachment is being set up stays attached although the
    session is said to have let it go. *)
Theorem C75_starting_refuted : exists l,
  let st := run fresh l in
  In (2, RMessage true) (replies st) /\ connected st 1 0 /\ map s_client (sessions st) = [Some 1].
Proof.
  exists ([asks 1 (QAttach (hdr work None)); AAttach 1 true 10; ASpawn 1 true 11 1000; AInsert 1; AFetch 1; AReply 1 true true] ++ sends 2 work ++ [AStart 1 true]).
  cbn zeta. split; [vm_compute; auto|]. split; [exists 1, (hdr work None); vm_compute; reflexivity|]. vm_compute. reflexivity.
Qed.
Print Assumptions C75_starting_refuted.
