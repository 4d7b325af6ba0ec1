(** The attach and detach events of each connection. *)
From Coq Require Import List NArith ZArith Bool Arith Lia.
From Verif Require Import Model.Base Model.Protocol Model.Names Model.Server Spec.ServerSpec
  Proofs.BaseLemmas Proofs.ServerProofs Proofs.ServerEvents Proofs.ServerMoves.
Import ListNotations.
Open Scope nat_scope.

Lemma removal_for c rm : forall t, filter (is_for c) (removal_events t rm) = [].
Proof. induction rm as [|n rm IH]; intros t; cbn; [reflexivity|]. apply IH. Qed.

Lemma tells_for st a t es c : tells st a t es -> actor a <> Some c -> filter (is_for c) es = [].
Proof.
  intros T N. assert (E : forall c0, Some c0 <> Some c -> (c0 =? c) = false) by (intros c0 H; apply Nat.eqb_neq; congruence).
  destruct T; cbn [actor] in N; try reflexivity.
  - cbn. unfold is_for. cbn [e_conn e_kind]. rewrite E by exact N. reflexivity.
  - destruct (lookup _ _); cbn; unfold is_for; cbn [e_conn e_kind]; rewrite E by exact N; reflexivity.
  - cbn. unfold is_for. cbn [e_conn e_kind]. rewrite E by exact N. reflexivity.
  - cbn. unfold is_for. cbn [e_conn e_kind]. rewrite E by exact N. reflexivity.
  - apply removal_for.
Qed.

Definition gossip (st : server) (a : action) (c : conn) (es : list event) : Prop :=
  let h := handlers st c in let h' := handlers (step st a) c in
  (filter (is_for c) es = [] /\ h' = h) \/
  (filter (is_for c) es = [] /\ moves st a c h' /\ (forall hd s, h' <> HReply hd s false) /\ (forall hd s, h' <> HFetch hd s) /\
     (forall s d, h' = HLeave s d -> exists hd, h = HUnwind hd s d /\ lookup (h_name hd) (table (step st a)) = None)) \/
  (exists hd s pid, h' = HReply hd s false /\ h = HAccepted pid (QAttach hd) /\
     filter (is_for c) es = [mkEvent EAttached (h_name hd) (Some s) (Some c)]) \/
  (exists hd s, h' = HFetch hd s /\ h = HInsert hd s /\ filter (is_for c) es = [mkEvent EAttached (h_name hd) (Some s) (Some c)]) \/
  (exists hd s0 s, h = HUnwind hd s0 false /\ h' = HLeave s0 false /\ filter (is_for c) es = [mkEvent EDetached (h_name hd) (Some s) (Some c)]).

Ltac quiet_move M :=
  right; left; split; [reflexivity|]; split; [exact M|];
  split; [intros; discriminate|]; split; [intros; discriminate|intros; discriminate].

Lemma attached_goes st c h pid now s x : handlers st c = HAccepted pid (QAttach h) -> locked st = None ->
    lookup (h_name h) (table st) = Some s -> session_at st s = Some x -> s_inner x = None -> s_exit x = None ->
    is_finished (s_thread x) = false -> daemon_rejects (h_name h) = false ->
    handlers (step st (AAttach c true now)) c = HReply h s false.
Proof. intros H H0 H1 H2 H3 H4 H5 H6. cbn [step]. unfold attach_select. rewrite H, H6, H0, H1, H2, H3, H4, H5. cbn [negb]. apply goto_same. Qed.

Lemma tells_attach_quiet st c e now t es : tells st (AAttach c e now) t es ->
  (forall h s, handlers (step st (AAttach c e now)) c <> HReply h s false) -> es = [].
Proof.
  intros T N. remember (AAttach c e now) as a eqn:Ea. destruct T; try discriminate Ea; [reflexivity|].
  injection Ea as -> <- ->. exfalso. eapply N. eapply attached_goes; eassumption.
Qed.

Lemma step_gossip st a c : exists es, events (step st a) = events st ++ es /\ tells st a (table (step st a)) es /\ gossip st a c es.
Proof.
  destruct (step_tells st a) as (es & E & T). exists es. split; [exact E|]. split; [exact T|]. unfold gossip.
  destruct (step_moves st a c) as [M|M].
  { (* the handler does not move *)
    assert (N : filter (is_for c) es = []).
    { destruct (actor a) as [c0|] eqn:A; [|eapply tells_for; [exact T|congruence]].
      destruct (Nat.eq_dec c0 c) as [->|N]; [|eapply tells_for; [exact T|congruence]].
      remember (table (step st a)) as t eqn:Et. clear Et.
      destruct T; cbn [actor] in A; try discriminate A; try reflexivity; injection A as ->; exfalso; cbn [step] in M.
      - unfold attach_select in M. rewrite H, H6, H0, H1, H2, H3, H4, H5 in M. cbn [negb] in M. rewrite goto_same in M. discriminate M.
      - unfold attach_insert in M. rewrite H, H0 in M. rewrite goto_same in M. discriminate M.
      - unfold attach_unwind in M. rewrite H, H0 in M. rewrite goto_same in M. discriminate M.
      - unfold attach_unwind in M. rewrite H, H0 in M. rewrite goto_same in M. discriminate M.
      - destruct (handle_kill_shape st c oks) as [K|(pid0 & names0 & _ & _ & [(sg & _ & K)|(sg & nf & rm & _ & K)])].
        + unfold handle_kill in K. rewrite H, H0 in K. destruct (kill_loop st names oks [] []) as [st1 [[nf rm]|]];
          apply (f_equal (fun s => handlers s c)) in K; rewrite goto_same, H in K; discriminate K.
        + rewrite K, goto_same, H in M. discriminate M.
        + rewrite K, goto_same, H in M. discriminate M. }
    left. auto. }
  (* it moves *)
  assert (A : actor a = Some c) by (destruct M; reflexivity).
  remember (handlers (step st a) c) as h' eqn:Eh.
  assert (T' : exists t, tells st a t es) by eauto. clear T. destruct T' as [t T].
  destruct M;
    try (match goal with M : ?P |- _ => idtac end;
         assert (Q : es = []) by (inversion T; subst; try reflexivity; congruence); subst es;
         right; left; split; [reflexivity|]; split; [econstructor; eassumption|]; split; [intros; discriminate|]; split; intros; discriminate).
  1,2,3: assert (Q : es = []) by (eapply tells_attach_quiet; [exact T|rewrite <- Eh; intros; discriminate]); subst es;
    right; left; (split; [reflexivity|]).
  - split; [eapply mv_refused; eassumption|]. split; [intros; discriminate|]. split; intros; discriminate.
  - split; [eapply mv_create; eassumption|]. split; [intros; discriminate|]. split; intros; discriminate.
  - split; [eapply mv_join_error; eassumption|]. split; [intros; discriminate|]. split; intros; discriminate.
  - (* attach *)
    right; right; left. exists h, s, pid. split; [reflexivity|]. split; [assumption|].
    assert (E2 : events (step st (AAttach c true now)) = events st ++ [mkEvent EAttached (h_name h) (Some s) (Some c)]).
    { cbn [step]. unfold attach_select. rewrite H, H0, H1, H2, H3, H4, H5, H6. reflexivity. }
    rewrite E in E2. apply app_inv_head in E2. subst es. cbn. unfold is_for. cbn [e_conn e_kind]. rewrite ?andb_false_r, Nat.eqb_refl. reflexivity.
  - (* insert *)
    right; right; right; left. exists h, s. split; [reflexivity|]. split; [assumption|].
    assert (E2 : exists old, events (step st (AInsert c)) = events st ++ old ++ [mkEvent ECreated (h_name h) (Some s) (Some c); mkEvent EAttached (h_name h) (Some s) (Some c)] /\ filter (is_for c) old = []).
    { cbn [step]. unfold attach_insert. rewrite H, H0. destruct (lookup (h_name h) (table st)) as [o|].
      - exists [mkEvent ERemoved (h_name h) (Some o) (Some c)]. split; [cbn; rewrite <- !app_assoc; reflexivity|].
        cbn. unfold is_for. cbn [e_conn e_kind]. rewrite andb_false_r. reflexivity.
      - exists []. split; [cbn; rewrite <- !app_assoc; reflexivity|reflexivity]. }
    destruct E2 as (old & E2 & F). rewrite E in E2. apply app_inv_head in E2. subst es. rewrite filter_app, F. cbn. unfold is_for. cbn [e_conn e_kind]. rewrite ?andb_false_r, Nat.eqb_refl. reflexivity.
  - (* unwind *)
    destruct (lookup (h_name h) (table st)) as [s'|] eqn:Hl.
    + destruct done.
      * right; left. assert (Q : filter (is_for c) es = []).
        { inversion T; subst; try reflexivity; try congruence. cbn. unfold is_for. cbn [e_conn e_kind]. rewrite andb_false_r. reflexivity. }
        split; [exact Q|]. split; [econstructor; eassumption|]. split; [intros; discriminate|]. split; [intros; discriminate|].
        intros s1 d1 [= <- <-]. exists h. split; [assumption|]. cbn [step]. unfold attach_unwind. rewrite H, H0, Hl. cbn. apply lookup_remove_eq.
      * right; right; right; right. exists h, s, s'. split; [assumption|]. split; [reflexivity|].
        assert (E2 : events (step st (AUnwind c now)) = events st ++ [mkEvent EDetached (h_name h) (Some s') (Some c)]).
        { cbn [step]. unfold attach_unwind. rewrite H, H0, Hl. reflexivity. }
        rewrite E in E2. apply app_inv_head in E2. subst es. cbn. unfold is_for. cbn [e_conn e_kind]. rewrite ?andb_false_r, Nat.eqb_refl. reflexivity.
    + right; left.
      assert (Q : es = []) by (inversion T; subst; try reflexivity; congruence). subst es.
      split; [reflexivity|]. split; [econstructor; eassumption|]. split; [intros; discriminate|]. split; [intros; discriminate|].
      intros s1 d1 [= <- <-]. exists h. split; [assumption|]. cbn [step]. unfold attach_unwind. rewrite H, H0, Hl. exact Hl.
  - (* kill *)
    right; left. assert (Q : filter (is_for c) es = []) by (inversion T; subst; [reflexivity|apply removal_for]).
    split; [exact Q|]. split; [econstructor; eassumption|]. split; [intros; discriminate|]. split; intros; discriminate.
Qed.

Definition stage (h : handler) : nat :=
  match h with
  | HFetch _ _ | HWaitInner _ _ | HReply _ _ _ | HStart _ _ | HStream _ _ _ | HUnwind _ _ _ => 1
  | HLeave _ _ => 2
  | HDone => 3
  | _ => 0
  end.
Definition header_of (h : handler) : option attach_header :=
  match h with
  | HFetch a _ | HWaitInner a _ | HReply a _ _ | HStart a _ | HStream a _ _ | HUnwind a _ _ => Some a
  | _ => None
  end.

Definition order_ok (n : nat) (ks : list ev_kind) : Prop :=
  match n with
  | 0 => ks = []
  | 1 => ks = [EAttached]
  | 2 => ks = [EAttached] \/ ks = [EAttached; EDetached]
  | _ => ks = [] \/ ks = [EAttached] \/ ks = [EAttached; EDetached]
  end.

Lemma comings_app c a b : comings_and_goings c (a ++ b) = comings_and_goings c a ++ comings_and_goings c b.
Proof. unfold comings_and_goings. rewrite filter_app, map_app. reflexivity. Qed.

Lemma moves_stage st a c h' : moves st a c h' -> (forall hd s, h' <> HReply hd s false) -> (forall hd s, h' <> HFetch hd s) ->
  stage h' = stage (handlers st c) \/ (stage (handlers st c) <= 1 /\ stage h' = 3) \/ (stage (handlers st c) = 1 /\ stage h' = 2) \/
  (stage (handlers st c) = 2 /\ stage h' = 3).
Proof.
  intros M N1 N2. destruct M; repeat match goal with H : handlers st c = _ |- _ => rewrite H; clear H end; cbn [stage]; auto.
  - exfalso. eapply N1. reflexivity.
  - exfalso. eapply N2. reflexivity.
Qed.

Lemma order_step st a c : order_ok (stage (handlers st c)) (comings_and_goings c (events st)) ->
  order_ok (stage (handlers (step st a) c)) (comings_and_goings c (events (step st a))).
Proof.
  intros O. destruct (step_gossip st a c) as (es & E & _ & G). rewrite E, comings_app. unfold gossip in G. cbn zeta in G.
  unfold comings_and_goings at 2.
  destruct G as [[F H]|[(F & M & N1 & N2 & _)|[(hd & s & pid & H' & H & F)|[(hd & s & H' & H & F)|(hd & s0 & s & H & H' & F)]]]]; rewrite F; cbn [map e_kind].
  - rewrite app_nil_r, H. exact O.
  - rewrite app_nil_r. destruct (moves_stage _ _ _ _ M N1 N2) as [S|[[S S']|[[S S']|[S S']]]].
    + rewrite S. exact O.
    + rewrite S'. destruct (stage (handlers st c)) as [|[|n]]; cbn in *; [auto|auto|lia].
    + rewrite S'. rewrite S in O. cbn in *. auto.
    + rewrite S'. rewrite S in O. cbn in *. tauto.
  - rewrite H'. rewrite H in O. cbn in *. rewrite O. reflexivity.
  - rewrite H'. rewrite H in O. cbn in *. rewrite O. reflexivity.
  - rewrite H'. rewrite H in O. cbn in *. rewrite O. auto.
Qed.

Lemma order_run d l c : order_ok (stage (handlers (run (server_new d) l) c)) (comings_and_goings c (events (run (server_new d) l))).
Proof.
  induction l as [|a l IH] using rev_ind; [reflexivity|].
  unfold run. rewrite fold_left_app. cbn [fold_left]. fold (run (server_new d) l). apply order_step. exact IH.
Qed.

(** Whoever was told of an attachment is either still listed or was told of the
    removal afterwards. *)
Definition settled (st : server) : Prop :=
  forall es1 e es2 s0, events st = es1 ++ e :: es2 -> e_kind e = EAttached -> e_sid e = Some s0 ->
    lookup (e_name e) (table st) = Some s0 \/ exists e', In e' es2 /\ e_kind e' = ERemoved /\ e_sid e' = Some s0.

Lemma app_cons_split {A} (l1 l2 a b : list A) (x : A) : l1 ++ l2 = a ++ x :: b ->
  (exists m, l1 = a ++ x :: m /\ b = m ++ l2) \/ (exists m, l2 = m ++ x :: b /\ a = l1 ++ m).
Proof.
  revert a. induction l1 as [|y l1 IH]; intros a E; cbn in E.
  - right. exists a. auto.
  - destruct a as [|z a]; cbn in E.
    + injection E as -> <-. left. exists l1. auto.
    + injection E as -> E. destruct (IH _ E) as [(m & -> & ->)|(m & -> & ->)]; [left; exists m; auto|right; exists m; auto].
Qed.

Lemma tells_lost st a t es n s0 : tells st a t es -> lookup n (table st) = Some s0 ->
  lookup n t = Some s0 \/ exists e', In e' es /\ e_kind e' = ERemoved /\ e_sid e' = Some s0.
Proof.
  intros T L. destruct T; auto.
  - destruct (str_eq_dec n (h_name h)) as [->|N]; [|rewrite lookup_insert_neq by assumption; auto].
    rewrite L. right. eexists. split; [apply in_or_app; left; left; reflexivity|]. auto.
  - destruct (str_eq_dec n (h_name h)) as [->|N]; [|rewrite lookup_remove_neq by assumption; auto].
    right. eexists. split; [left; reflexivity|]. cbn. split; congruence.
  - clear H H0. revert L. generalize (table st). induction (filter (present st) names) as [|m rm IH]; intros t L; [auto|].
    cbn [fold_left removal_events]. destruct (str_eq_dec n m) as [->|N].
    + right. eexists. split; [left; reflexivity|]. auto.
    + destruct (IH (remove m t)) as [H|(e' & H & K)]; [rewrite lookup_remove_neq; assumption|auto|]. right. exists e'. split; [right; exact H|exact K].
  - destruct (str_eq_dec n (r_name r)) as [->|N]; [|rewrite lookup_remove_neq by assumption; auto].
    right. eexists. split; [left; reflexivity|]. cbn. split; congruence.
Qed.

Lemma removal_kinds rm : forall t e, In e (removal_events t rm) -> e_kind e = ERemoved.
Proof. induction rm as [|n rm IH]; intros t e; cbn; [intros []|]. intros [<-|H]; [reflexivity|eauto]. Qed.

Lemma tells_fresh st a t es es1 e es2 s0 : tells st a t es -> es = es1 ++ e :: es2 -> e_kind e = EAttached -> e_sid e = Some s0 ->
  lookup (e_name e) t = Some s0.
Proof.
  intros T E K S. destruct T.
  - destruct es1; discriminate E.
  - destruct es1 as [|? [|? ?]]; try discriminate E. injection E as <- <-. injection S as <-. assumption.
  - destruct (lookup (h_name h) (table st)); cbn [app] in E; repeat (destruct es1 as [|? es1]; [injection E as <- E|injection E as <- E]); try discriminate K;
      try (injection S as <-; apply lookup_insert_eq); destruct es1; discriminate E.
  - destruct es1 as [|? [|? ?]]; try discriminate E. injection E as <- <-. discriminate K.
  - destruct es1 as [|? [|? ?]]; try discriminate E. injection E as <- <-. discriminate K.
  - exfalso. assert (In e (removal_events (table st) (filter (present st) names))) by (rewrite E; apply in_or_app; right; left; reflexivity).
    apply removal_kinds in H1. congruence.
  - destruct es1 as [|? [|? ?]]; try discriminate E. injection E as <- <-. discriminate K.
Qed.

Lemma settled_step st a : settled st -> settled (step st a).
Proof.
  intros J es1 e es2 s0 E K S. destruct (step_tells st a) as (es & E' & T). rewrite E' in E.
  apply app_cons_split in E as [(m & E1 & ->)|(m & E1 & ->)].
  - destruct (J _ _ _ _ E1 K S) as [L|(e' & H & Q)]; [|right; exists e'; split; [apply in_or_app; auto|exact Q]].
    destruct (tells_lost _ _ _ _ _ _ T L) as [H|(e' & H & Q)]; [auto|]. right. exists e'. split; [apply in_or_app; auto|exact Q].
  - left. eapply tells_fresh; eassumption.
Qed.

Lemma settled_run st : reachable st -> settled st.
Proof.
  intros (d & l & ->). induction l as [|a l IH] using rev_ind; [intros [|? ?] ? ? ? E; discriminate E|].
  unfold run. rewrite fold_left_app. apply settled_step. exact IH.
Qed.

(** The name in a connection's attach event is the one it asked for. *)
Definition named (st : server) : Prop :=
  forall c hd e, header_of (handlers st c) = Some hd -> In e (events st) -> e_kind e = EAttached -> e_conn e = Some c -> e_name e = h_name hd.

Lemma in_for c e es : e_kind e = EAttached -> e_conn e = Some c -> In e es -> In e (filter (is_for c) es).
Proof. intros K C H. apply filter_In. split; [exact H|]. unfold is_for. rewrite K, C, Nat.eqb_refl. reflexivity. Qed.

Lemma no_attach_event c es e : comings_and_goings c es = [] -> e_kind e = EAttached -> e_conn e = Some c -> ~ In e es.
Proof. intros Z K C H. apply (in_for c) in H; auto. unfold comings_and_goings in Z. apply map_eq_nil in Z. rewrite Z in H. destruct H. Qed.

Lemma named_step st a : (forall c, order_ok (stage (handlers st c)) (comings_and_goings c (events st))) -> named st -> named (step st a).
Proof.
  intros O N c hd e Hh Hin K C. destruct (step_gossip st a c) as (es & E & _ & G). rewrite E in Hin. unfold gossip in G. cbn zeta in G.
  apply in_app_or in Hin.
  destruct G as [[F H]|[(F & M & N1 & N2 & _)|[(hd1 & s & pid & H' & H & F)|[(hd1 & s & H' & H & F)|(hd1 & s0 & s & H & H' & F)]]]].
  - destruct Hin as [Hin|Hin]; [|apply (in_for c) in Hin; auto; rewrite F in Hin; destruct Hin].
    rewrite H in Hh. eapply N; eassumption.
  - destruct Hin as [Hin|Hin]; [|apply (in_for c) in Hin; auto; rewrite F in Hin; destruct Hin].
    assert (Q : header_of (handlers st c) = Some hd).
    { destruct M; cbn [header_of] in Hh; try discriminate Hh;
      repeat match goal with H : handlers st c = _ |- _ => rewrite H; clear H end; try exact Hh.
      - exfalso. eapply N1. reflexivity.
      - exfalso. eapply N2. reflexivity. }
    eapply N; eassumption.
  - rewrite H' in Hh. injection Hh as <-. specialize (O c). rewrite H in O. cbn in O.
    destruct Hin as [Hin|Hin]; [exfalso; eapply no_attach_event; eassumption|]. apply (in_for c) in Hin; auto. rewrite F in Hin. destruct Hin as [<-|[]]. reflexivity.
  - rewrite H' in Hh. injection Hh as <-. specialize (O c). rewrite H in O. cbn in O.
    destruct Hin as [Hin|Hin]; [exfalso; eapply no_attach_event; eassumption|]. apply (in_for c) in Hin; auto. rewrite F in Hin. destruct Hin as [<-|[]]. reflexivity.
  - rewrite H' in Hh. discriminate Hh.
Qed.

Lemma named_run st : reachable st -> named st.
Proof.
  intros (d & l & ->). induction l as [|a l IH] using rev_ind; [intros c hd e H; discriminate H|].
  unfold run. rewrite fold_left_app. apply named_step; [|exact IH]. intros c. apply order_run.
Qed.

(** In a calm schedule a connection that is done has been matched. *)
Definition matched (st : server) (c : conn) : Prop :=
  forall es1 e es2 s0, events st = es1 ++ e :: es2 -> e_kind e = EAttached -> e_conn e = Some c -> e_sid e = Some s0 ->
    exists e', In e' es2 /\ ((e_kind e' = EDetached /\ e_conn e' = Some c) \/ (e_kind e' = ERemoved /\ e_sid e' = Some s0)).

Lemma run_step st l a : run st (l ++ [a]) = step (run st l) a.
Proof. unfold run. rewrite fold_left_app. reflexivity. Qed.

Lemma reachable_step st a : reachable st -> reachable (step st a).
Proof. intros (d & l & ->). exists d, (l ++ [a]). rewrite run_step. reflexivity. Qed.

Definition calm_step (st : server) (a : action) : Prop :=
  match a with
  | AReply c _ _ => match handlers st c with HReply h s _ => handlers (step st a) c = HStart h s | _ => True end
  | _ => True
  end.

Lemma matched_step st a c : reachable st -> calm_step st a ->
  (2 <= stage (handlers st c) -> matched st c) -> 2 <= stage (handlers (step st a) c) -> matched (step st a) c.
Proof.
  intros R Q J S'. pose proof (reachable_step _ a R) as R'. pose proof (settled_run _ R') as Se. pose proof (named_run _ R) as Nm.
  assert (O : order_ok (stage (handlers st c)) (comings_and_goings c (events st))) by (destruct R as (d & l & ->); apply order_run).
  destruct (step_gossip st a c) as (es & E & _ & G). unfold gossip in G. cbn zeta in G.
  (* attach events of [c] that are in the old part stay matched *)
  assert (Old : filter (is_for c) es = [] -> matched st c -> matched (step st a) c).
  { intros F M es1 e es2 s0 Ee K C S. rewrite E in Ee. apply app_cons_split in Ee as [(m & E1 & ->)|(m & E1 & ->)].
    - destruct (M _ _ _ _ E1 K C S) as (e' & H & D). exists e'. split; [apply in_or_app; auto|exact D].
    - exfalso. assert (Hin : In e (filter (is_for c) es)) by (apply in_for; auto; rewrite E1; apply in_or_app; right; left; reflexivity).
      rewrite F in Hin. destruct Hin. }
  destruct G as [[F H]|[(F & M & N1 & N2 & Lv)|[(hd1 & s & pid & H' & H & F)|[(hd1 & s & H' & H & F)|(hd1 & s0 & s & H & H' & F)]]]].
  - rewrite H in S'. auto.
  - destruct (moves_stage _ _ _ _ M N1 N2) as [S|[[S S3]|[[S S3]|[S S3]]]].
    + rewrite S in S'. auto.
    + destruct (stage (handlers st c)) as [|[|n]] eqn:Es; [| |lia].
      * apply Old; [exact F|]. cbn in O. intros es1 e es2 s0 Ee K C Sd. exfalso.
        eapply (no_attach_event c); [exact O|exact K|exact C|]. rewrite Ee. apply in_or_app. right. left. reflexivity.
      * (* vanished, or broken off *)
        intros es1 e es2 s0 Ee K C Sd.
        destruct (Se _ _ _ _ Ee K Sd) as [L|(e' & Hin & K' & Sd')]; [|exists e'; auto].
        exfalso. remember (handlers (step st a) c) as h' eqn:Eh'. destruct M; cbn [stage] in S3; try discriminate S3;
          try (rewrite H in Es; cbn in Es; discriminate Es).
        -- assert (Hn : e_name e = h_name h).
           { eapply Nm; [rewrite H; reflexivity| |exact K|exact C].
             rewrite E in Ee. assert (Hin : In e (events st ++ es)) by (rewrite Ee; apply in_or_app; right; left; reflexivity).
             apply in_app_or in Hin as [Hin|Hin]; [exact Hin|]. exfalso. apply (in_for c) in Hin; auto. rewrite F in Hin. destruct Hin. }
           cbn [step] in L. unfold attach_fetch in L. rewrite H, H0, H1 in L. cbn in L. rewrite Hn in L. congruence.
        -- cbn [calm_step] in Q. rewrite H in Q. congruence.
    + (* cleaned up without a session of that name *)
      destruct (handlers (step st a) c) eqn:Eh; try discriminate S3. destruct (Lv _ _ eq_refl) as (hd & Hu & Ln).
      intros es1 e es2 s0 Ee K C Sd.
      assert (Hn : e_name e = h_name hd).
      { eapply Nm; [rewrite Hu; reflexivity| |exact K|exact C].
        rewrite E in Ee. assert (Hin : In e (events st ++ es)) by (rewrite Ee; apply in_or_app; right; left; reflexivity).
        apply in_app_or in Hin as [Hin|Hin]; [exact Hin|]. exfalso. apply (in_for c) in Hin; auto. rewrite F in Hin. destruct Hin. }
      destruct (Se _ _ _ _ Ee K Sd) as [L|(e' & Hin & K' & Sd')]; [rewrite Hn in L; congruence|exists e'; auto].
    + apply Old; [exact F|]. apply J. lia.
  - rewrite H' in S'. cbn in S'. lia.
  - rewrite H' in S'. cbn in S'. lia.
  - intros es1 e es2 s1 Ee K C Sd. rewrite E in Ee. apply app_cons_split in Ee as [(m & E1 & ->)|(m & E1 & ->)].
    + exists (mkEvent EDetached (h_name hd1) (Some s) (Some c)). split; [|left; auto].
      apply in_or_app. right. assert (Hin : In (mkEvent EDetached (h_name hd1) (Some s) (Some c)) (filter (is_for c) es)) by (rewrite F; left; reflexivity).
      apply filter_In in Hin. apply Hin.
    + exfalso. assert (Hin : In e (filter (is_for c) es)) by (apply in_for; auto; rewrite E1; apply in_or_app; right; left; reflexivity).
      rewrite F in Hin. destruct Hin as [<-|[]]. discriminate K.
Qed.

Lemma calm_matched l : forall st c, reachable st -> calm st l -> (2 <= stage (handlers st c) -> matched st c) ->
  2 <= stage (handlers (run st l) c) -> matched (run st l) c.
Proof.
  induction l as [|a l IH]; intros st c R Q J S; [exact (J S)|]. cbn in *. destruct Q as [Q1 Q2].
  apply (IH (step st a)); auto using reachable_step. apply matched_step; auto.
Qed.
