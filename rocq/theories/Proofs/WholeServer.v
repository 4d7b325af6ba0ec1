(** What becomes, in the daemon, of a request that is not an attach. *)
From Coq Require Import List NArith ZArith Bool Arith Lia.
From Verif Require Import Model.Base Model.Protocol Model.Names Model.Server Spec.ServerSpec
  Proofs.BaseLemmas Proofs.ServerProofs Proofs.ServerEvents Proofs.ServerMoves Proofs.ServerGossip.
Import ListNotations.
Open Scope nat_scope.

Section Life.
  Variables (c : conn) (self other : peer) (q : request) (pid : Z).
  Hypothesis plain : match q with QAttach _ | QMessageDetach _ => False | _ => True end.
  Hypothesis allowed : check_peer self other = Ok pid.

  Definition of_kind (h : handler) : Prop :=
    match h with
    | HIdle | HDone => True
    | HAccepted p q' => p = pid /\ q' = q
    | HDetach _ _ _ => exists names, q = QDetach names
    | HCollect _ | HSends _ _ _ => exists var val, q = QModify var val
    | _ => False
    end.
  Definition unheard (st : server) : Prop := forall s x, session_at st s = Some x -> s_stream x <> Some c.
  Definition own (a : action) : Prop := (forall s p r, a <> AConnect c s p r) \/ a = AConnect c self other (Some q).

  Lemma life_kind st a : own a -> of_kind (handlers st c) -> of_kind (handlers (step st a) c).
  Proof.
    intros O K. destruct (step_moves st a c) as [->|M]; [exact K|].
    remember (handlers (step st a) c) as h' eqn:Eh. clear Eh. unfold own in O.
    inversion M; subst; try exact I; try (match goal with H : handlers st _ = _ |- _ => rewrite H in K end; cbn [of_kind] in K |- *;
      repeat match goal with H : _ /\ _ |- _ => destruct H end; subst; try contradiction; eauto; fail).
    destruct O as [O|O]; [destruct (O _ _ _ eq_refl)|]. injection O as -> -> ->. cbn. split; congruence.
  Qed.

  Lemma life_unheard st a : own a -> of_kind (handlers st c) -> unheard st -> unheard (step st a).
  Proof.
    intros O K U s x' H. destruct (session_at st s) as [x|] eqn:E.
    - destruct (step_alters st a s x E) as [H0|(x1 & H1 & A)]; [rewrite H in H0; injection H0 as ->; eapply U; exact E|].
      rewrite H in H1. injection H1 as ->. pose proof (U s x E) as N.
      destruct A; cbn; try (first [exact N|congruence]; fail);
        try (intros X; injection X as ->; match goal with H : handlers st _ = _ |- _ => rewrite H in K end; cbn in K; destruct K as [_ <-]; exact plain).
      destruct (s_exit x); cbn; [exact N|]. intros X. injection X as ->. match goal with H : handlers st _ = _ |- _ => rewrite H in K end. cbn in K. destruct K as [_ <-]. exact plain.
    - destruct (step_new_session st a s x' E H) as (k & ok & now & inst & h & p & d & _ & Hk & _ & _ & -> & _). cbn. intros X. injection X as ->.
      rewrite Hk in K. exact K.
  Qed.

  (** Who is answered. *)
  Definition fitting (r : reply) : Prop :=
    match r with
    | RKill _ => exists names, q = QKill names
    | RDetach _ _ => exists names, q = QDetach names
    | RList _ => q = QList
    | RVars _ => q = QGetVars
    | RLogLevel => q = QLogLevel
    | RModify => exists var val, q = QModify var val
    | _ => False
    end.
  Lemma life_says st a r : own a -> of_kind (handlers st c) -> unheard st -> says st a c r ->
    fitting r /\ handlers st c <> HIdle /\ handlers st c <> HDone /\ handlers (step st a) c = HDone.
  Proof.
    intros O K U S. unfold own in O.
    inversion S; subst;
      try (exfalso; match goal with H : s_stream _ = Some _ |- _ => exact (U _ _ ltac:(eassumption) H) end);
      match goal with H : handlers st _ = _ |- _ => rewrite H in K; cbn [of_kind] in K; rewrite H; rename H into Hc end;
      repeat match goal with H : _ /\ _ |- _ => destruct H end; subst; try contradiction;
      try (exfalso; match goal with H : _ = q |- _ => pose proof plain as P; rewrite <- H in P; exact P end).
    - destruct O as [O|O]; [destruct (O _ _ _ eq_refl)|]. injection O as _ _ Oq. pose proof plain as P. rewrite <- Oq in P. destruct P.
    - split; [cbn [fitting]; eauto|]. split; [discriminate|]. split; [discriminate|]. cbn [step]. unfold handle_kill. rewrite Hc. repeat match goal with H : locked st = _ |- _ => rewrite H; clear H | H : kill_loop _ _ _ _ _ = _ |- _ => rewrite H; clear H end; rewrite goto_same. reflexivity.
    - split; [cbn [fitting]; eauto|]. split; [discriminate|]. split; [discriminate|]. cbn [step]. unfold detach_finish. rewrite Hc, goto_same. reflexivity.
    - split; [cbn [fitting]; eauto|]. split; [discriminate|]. split; [discriminate|]. cbn [step]. unfold handle_list. rewrite Hc. repeat match goal with H : locked st = _ |- _ => rewrite H; clear H | H : map_opt _ _ = _ |- _ => rewrite H; clear H end. rewrite goto_same. reflexivity.
    - split; [cbn [fitting]; eauto|]. split; [discriminate|]. split; [discriminate|]. cbn [step]. unfold handle_log_level. rewrite Hc, goto_same. reflexivity.
    - split; [cbn [fitting]; eauto|]. split; [discriminate|]. split; [discriminate|]. cbn [step]. unfold handle_get_vars. rewrite Hc, goto_same. reflexivity.
    - split; [cbn [fitting]; eauto|]. split; [discriminate|]. split; [discriminate|]. cbn [step]. unfold modify_send. rewrite Hc, goto_same. reflexivity.
  Qed.

  Definition reply_in (st : server) : option reply := option_map snd (find (fun p => Nat.eqb (fst p) c) (replies st)).
  Lemma reply_in_app st st' l : replies st' = replies st ++ l -> forall r, reply_in st = Some r -> reply_in st' = Some r.
  Proof.
    intros E r. unfold reply_in. rewrite E. generalize (replies st). intros m. induction m as [|p m IH]; cbn; [discriminate|].
    destruct (@fst nat reply p =? c); [auto|exact IH].
  Qed.
  Lemma reply_in_stays st a r : reply_in st = Some r -> reply_in (step st a) = Some r.
  Proof.
    destruct (step_says st a) as [E|(k & r' & E & _)]; [unfold reply_in; rewrite E; auto|]. apply (reply_in_app _ _ _ E).
  Qed.
  Lemma reply_in_new st a r : reply_in st = None -> reply_in (step st a) = Some r -> replies (step st a) = replies st ++ [(c, r)].
  Proof.
    intros N. destruct (step_says st a) as [E|(k & r' & E & _)]; unfold reply_in in *; rewrite E; [congruence|]. revert N.
    generalize (replies st). intros m. induction m as [|p m IH]; cbn.
    - intros _. destruct (Nat.eqb_spec k c) as [->|]; [|discriminate]. cbn. congruence.
    - destruct (@fst nat reply p =? c); [discriminate|]. intros N H. rewrite (IH N H). reflexivity.
  Qed.
End Life.

(** *** How far it has come *)
Section Story.
  Variables (c : conn) (self other : peer) (q : request) (pid : Z) (defaults : list (rstr * rstr)).
  Hypothesis plain : match q with QAttach _ | QMessageDetach _ => False | _ => True end.
  Hypothesis allowed : check_peer self other = Ok pid.
  Notation own := (own c self other q).
  Notation rn := (run (server_new defaults)).

  Lemma story_life l : Forall own l -> of_kind q pid (handlers (rn l) c) /\ unheard c (rn l).
  Proof.
    induction l as [|a l IH] using rev_ind; intros F.
    - split; [exact I|]. intros s x H. unfold session_at in H. cbn in H. destruct s; discriminate.
    - apply Forall_app in F as [F Fa]. inversion Fa; subst. destruct (IH F) as [K U]. rewrite run_step. split.
      + eapply life_kind; eassumption.
      + eapply life_unheard; eassumption.
  Qed.

  Lemma story_reply l r : Forall own l -> reply_in c (rn l) = Some r ->
    exists l1 a l2, l = l1 ++ a :: l2 /\ reply_in c (rn l1) = None /\ replies (step (rn l1) a) = replies (rn l1) ++ [(c, r)] /\
      says (rn l1) a c r /\ fitting q r /\ handlers (rn l1) c <> HIdle.
  Proof.
    induction l as [|a l IH] using rev_ind; intros F H; [discriminate|].
    pose proof F as F'. apply Forall_app in F' as [F1 Fa]. inversion Fa; subst. destruct (reply_in c (rn l)) as [r'|] eqn:E.
    - pose proof (reply_in_stays c (rn l) a r' E) as E'. rewrite run_step in H. rewrite H in E'. injection E' as <-.
      destruct (IH F1 eq_refl) as (l1 & b & l2 & -> & X). exists l1, b, (l2 ++ [a]). rewrite <- app_assoc. split; [reflexivity|exact X].
    - rewrite run_step in H. pose proof (reply_in_new c _ _ _ E H) as N. exists l, a, []. split; [reflexivity|]. split; [exact E|]. split; [exact N|].
      apply new_reply in N. destruct (story_life l F1) as [K U]. destruct (life_says c self other q pid plain _ _ _ H2 K U N) as (A & B & _). auto.
  Qed.

  Lemma story_detach l t nf na : Forall own l -> handlers (rn l) c = HDetach t nf na ->
    exists l1 l2 names, l = l1 ++ ADetach c :: l2 /\ q = QDetach names /\ handlers (rn l1) c = HAccepted pid (QDetach names) /\ locked (rn l1) = None.
  Proof.
    revert t nf na. induction l as [|a l IH] using rev_ind; intros t nf na F H; [discriminate|].
    pose proof F as F'. apply Forall_app in F' as [F1 Fa]. inversion Fa; subst. rewrite run_step in H.
    assert (Old : (exists t nf na, handlers (rn l) c = HDetach t nf na) ->
      exists l1 l2 names, l ++ [a] = l1 ++ ADetach c :: l2 /\ q = QDetach names /\ handlers (rn l1) c = HAccepted pid (QDetach names) /\ locked (rn l1) = None).
    { intros (t0 & nf0 & na0 & D). destruct (IH _ _ _ F1 D) as (l1 & l2 & names & -> & X). exists l1, (l2 ++ [a]), names. rewrite <- app_assoc. auto. }
    destruct (story_life l F1) as [K U].
    destruct (step_moves (rn l) a c) as [M|M]; [rewrite M in H; apply Old; eauto|]. rewrite H in M.
    inversion M; subst; try (apply Old; eauto; fail).
    exists l, [], t. match goal with H : handlers _ _ = HAccepted _ _ |- _ => rewrite H in K; cbn in K; destruct K as [Kp Kq]; subst end. auto.
  Qed.

  Definition past_modify (l : list action) (vs : var_list) : Prop :=
    exists l1 l2 var val, l = l1 ++ AModify c :: l2 /\ q = QModify var val /\ handlers (rn l1) c = HAccepted pid (QModify var val) /\
      vs = vars (step (rn l1) (AModify c)).
  Lemma past_more l vs a : past_modify l vs -> past_modify (l ++ [a]) vs.
  Proof. intros (l1 & l2 & var & val & -> & X). exists l1, (l2 ++ [a]), var, val. rewrite <- app_assoc. auto. Qed.
  Lemma story_collect l vs : Forall own l -> handlers (rn l) c = HCollect vs -> past_modify l vs.
  Proof.
    revert vs. induction l as [|a l IH] using rev_ind; intros vs F H; [discriminate|].
    pose proof F as F'. apply Forall_app in F' as [F1 Fa]. inversion Fa; subst. rewrite run_step in H.
    destruct (story_life l F1) as [K U].
    destruct (step_moves (rn l) a c) as [M|M]; [rewrite M in H; apply past_more; auto|]. pose proof H as H'. rewrite H in M.
    inversion M; subst. exists l, [], var, val. match goal with H : handlers (rn l) _ = HAccepted _ _ |- _ => rewrite H in K; cbn in K; destruct K as [Kp Kq]; subst; rename H into Hc end.
    split; [reflexivity|]. split; [symmetry; exact Kq|]. split; [exact Hc|]. cbn [step]. unfold modify_begin. rewrite Hc. reflexivity.
  Qed.
  Lemma story_sends l vs sent todo : Forall own l -> handlers (rn l) c = HSends vs sent todo ->
    exists l1 l2, l = l1 ++ ACollect c :: l2 /\ handlers (rn l1) c = HCollect vs /\ locked (rn l1) = None /\ past_modify l1 vs.
  Proof.
    revert sent todo. induction l as [|a l IH] using rev_ind; intros sent todo F H; [discriminate|].
    pose proof F as F'. apply Forall_app in F' as [F1 Fa]. inversion Fa; subst. rewrite run_step in H.
    assert (Old : (exists sent todo, handlers (rn l) c = HSends vs sent todo) ->
      exists l1 l2, l ++ [a] = l1 ++ ACollect c :: l2 /\ handlers (rn l1) c = HCollect vs /\ locked (rn l1) = None /\ past_modify l1 vs).
    { intros (s0 & t0 & D). destruct (IH _ _ F1 D) as (l1 & l2 & -> & X). exists l1, (l2 ++ [a]). rewrite <- app_assoc. auto. }
    destruct (step_moves (rn l) a c) as [M|M]; [rewrite M in H; apply Old; eauto|]. rewrite H in M.
    inversion M; subst; try (apply Old; eauto; fail). exists l, []. split; [reflexivity|]. split; [assumption|]. split; [assumption|]. apply story_collect; assumption.
  Qed.
End Story.

(** *** What an answer tells *)

Section Answers.
  Variables (c : conn) (self other : peer) (pid : Z) (defaults : list (rstr * rstr)).
  Hypothesis allowed : check_peer self other = Ok pid.
  Notation rn := (run (server_new defaults)).
  Lemma rn_reachable l : reachable (rn l).
  Proof. exists defaults, l. reflexivity. Qed.

  Lemma answered_kill names l r : Forall (own c self other (QKill names)) l -> reply_in c (rn l) = Some r ->
    exists nf l1 oks l2, r = RKill nf /\ l = l1 ++ AKill c oks :: l2 /\ reply_in c (rn l1) = None /\ handlers (rn l1) c = HAccepted pid (QKill names) /\
      replies (step (rn l1) (AKill c oks)) = replies (rn l1) ++ [(c, RKill nf)].
  Proof.
    intros F H. destruct (story_reply c self other (QKill names) pid defaults I allowed l r F H) as (l1 & a & l2 & -> & N & E & S & Ft & _).
    apply Forall_app in F as [F1 _]. destruct (story_life c self other (QKill names) pid defaults I allowed l1 F1) as [K _].
    destruct r; cbn in Ft; try contradiction; try discriminate; try (destruct Ft; discriminate); try (destruct Ft as (? & ? & ?); discriminate).
    inversion S; subst. match goal with H : handlers _ _ = _ |- _ => rewrite H in K; destruct K as [Kp Kq]; injection Kq as Kq; subst; rename H into Hc end.
    exists not_found, l1, oks, l2. auto 10.
  Qed.

  Lemma answered_list l r : Forall (own c self other QList) l -> reply_in c (rn l) = Some r ->
    exists ls l1 l2, r = RList ls /\ l = l1 ++ AList c :: l2 /\ reply_in c (rn l1) = None /\ handlers (rn l1) c = HAccepted pid QList /\
      replies (step (rn l1) (AList c)) = replies (rn l1) ++ [(c, RList ls)] /\ map_opt (list_entry (rn l1)) (table (rn l1)) = Some ls.
  Proof.
    intros F H. destruct (story_reply c self other QList pid defaults I allowed l r F H) as (l1 & a & l2 & -> & N & E & S & Ft & _).
    apply Forall_app in F as [F1 _]. destruct (story_life c self other QList pid defaults I allowed l1 F1) as [K _].
    destruct r; cbn in Ft; try contradiction; try discriminate; try (destruct Ft; discriminate); try (destruct Ft as (? & ? & ?); discriminate).
    inversion S; subst. match goal with H : handlers _ _ = _ |- _ => rewrite H in K; destruct K as [Kp Kq]; subst; rename H into Hc end.
    exists sessions, l1, l2. auto 10.
  Qed.

  Lemma answered_vars l r : Forall (own c self other QGetVars) l -> reply_in c (rn l) = Some r ->
    exists l1 l2, r = RVars (vars (rn l1)) /\ l = l1 ++ AGetVars c :: l2 /\ reply_in c (rn l1) = None /\ handlers (rn l1) c = HAccepted pid QGetVars.
  Proof.
    intros F H. destruct (story_reply c self other QGetVars pid defaults I allowed l r F H) as (l1 & a & l2 & -> & N & E & S & Ft & _).
    apply Forall_app in F as [F1 _]. destruct (story_life c self other QGetVars pid defaults I allowed l1 F1) as [K _].
    destruct r; cbn in Ft; try contradiction; try discriminate; try (destruct Ft; discriminate); try (destruct Ft as (? & ? & ?); discriminate).
    inversion S; subst. match goal with H : handlers _ _ = _ |- _ => rewrite H in K; destruct K as [Kp Kq]; subst; rename H into Hc end.
    exists l1, l2. auto 10.
  Qed.

  Lemma answered_detach names l r : Forall (own c self other (QDetach names)) l -> reply_in c (rn l) = Some r ->
    exists nf na l1 l2 l3, r = RDetach nf na /\ l = l1 ++ ADetach c :: l2 ++ ADetachFinish c :: l3 /\
      handlers (rn l1) c = HAccepted pid (QDetach names) /\ locked (rn l1) = None /\
      let st2 := run (step (rn l1) (ADetach c)) l2 in
      handlers st2 c = HDetach [] nf na /\ reply_in c st2 = None /\ replies (step st2 (ADetachFinish c)) = replies st2 ++ [(c, RDetach nf na)].
  Proof.
    intros F H. destruct (story_reply c self other (QDetach names) pid defaults I allowed l r F H) as (l1 & a & l2 & -> & N & E & S & Ft & _).
    apply Forall_app in F as [F1 _].
    destruct r; cbn in Ft; try contradiction; try discriminate; try (destruct Ft; discriminate); try (destruct Ft as (? & ? & ?); discriminate).
    inversion S; subst. match goal with H : handlers _ _ = _ |- _ => rename H into Hc end.
    destruct (story_detach c self other (QDetach names) pid defaults I allowed l1 _ _ _ F1 Hc) as (k1 & k2 & names' & -> & Eq & Hk & Lk). injection Eq as <-.
    exists not_found, not_attached, k1, k2, l2. cbv zeta. rewrite <- app_assoc.
    assert (R : rn (k1 ++ ADetach c :: k2) = run (step (rn k1) (ADetach c)) k2) by (unfold run; rewrite fold_left_app; reflexivity).
    rewrite R in *. auto 10.
  Qed.

  Lemma answered_modify var val l r : Forall (own c self other (QModify var val)) l -> reply_in c (rn l) = Some r ->
    exists l1 l2 l3 late l4, r = RModify /\ l = l1 ++ AModify c :: l2 ++ ACollect c :: l3 ++ ASend c late :: l4 /\
      let st1 := rn l1 in let st2 := run (step st1 (AModify c)) l2 in let st3 := run (step st2 (ACollect c)) l3 in
      handlers st1 c = HAccepted pid (QModify var val) /\ handlers st2 c = HCollect (vars (step st1 (AModify c))) /\ locked st2 = None /\
      reply_in c st3 = None /\ replies (step st3 (ASend c late)) = replies st3 ++ [(c, RModify)].
  Proof.
    intros F H. destruct (story_reply c self other (QModify var val) pid defaults I allowed l r F H) as (l1 & a & l2 & -> & N & E & S & Ft & _).
    apply Forall_app in F as [F1 _].
    destruct r; cbn in Ft; try contradiction; try discriminate; try (destruct Ft; discriminate); try (destruct Ft as (? & ? & ?); discriminate).
    inversion S; subst. match goal with H : handlers _ _ = _ |- _ => rename H into Hc end.
    destruct (story_sends c self other (QModify var val) pid defaults I allowed l1 _ _ _ F1 Hc) as (k1 & k2 & -> & Hk & Lk & j1 & j2 & v' & w' & -> & Eq & Hj & ->). injection Eq as <- <-.
    exists j1, j2, k2, late, l2. cbv zeta. split; [reflexivity|]. split; [rewrite <- !app_assoc; cbn [app]; reflexivity|].
    assert (R1 : rn (j1 ++ AModify c :: j2) = run (step (rn j1) (AModify c)) j2) by (unfold run; rewrite fold_left_app; reflexivity).
    assert (R2 : rn ((j1 ++ AModify c :: j2) ++ ACollect c :: k2) = run (step (run (step (rn j1) (AModify c)) j2) (ACollect c)) k2) by (unfold run; rewrite !fold_left_app; reflexivity).
    rewrite R2 in *. rewrite R1 in *. auto 10.
  Qed.
End Answers.
