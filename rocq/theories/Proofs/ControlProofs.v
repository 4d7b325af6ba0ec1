(** Facts about the control channels. *)
From Coq Require Import List Bool Arith Lia.
From Verif Require Import Model.Control Spec.ControlSpec.
Import ListNotations.

Lemma upd_same {A} (f : nat -> A) i v : upd f i v i = v.
Proof. unfold upd. rewrite Nat.eqb_refl. reflexivity. Qed.
Lemma upd_other {A} (f : nat -> A) i v j : j <> i -> upd f i v j = f j.
Proof. intros H. unfold upd. apply Nat.eqb_neq in H. rewrite H. reflexivity. Qed.
Lemma chan_eqb_eq a b : chan_eqb a b = true <-> a = b.
Proof. destruct a, b; cbn; split; congruence. Qed.

(** A thread that has the control lock of [s]. *)
Definition holds (x : phase) (s : nat) : Prop := exists r, on r = s /\ (x = Sending r \/ exists n, x = Waiting r n).
(** A thread that has the table lock. *)
Definition tables (x : phase) : Prop :=
  match x with AtTable _ => True | WantCtl r | Sending r | Waiting r _ => tabled r = true | _ => False end.
(** Requests have the shapes they start with. *)
Definition shape (M : nat) (r : req) : Prop :=
  on r < M /\ patient r = tabled r /\ Forall (fun s => s < M) (todo r) /\ (tabled r = true -> via r <> Push /\ last r = false) /\ (tabled r = false -> todo r <> [] -> via r = Push).
Definition good_phase (M : nat) (x : phase) : Prop :=
  match x with
  | WantTableDetach l | AtTable l => Forall (fun s => s < M) l
  | WantCtl r | Sending r => shape M r
  | Waiting r _ => shape M r /\ via r <> Push
  | _ => True
  end.

Record Inv (N M : nat) (d : daemon) : Prop := {
  i_range : forall p, ~ at_rest (phases d p) -> p < N;
  i_good : forall p, good_phase M (phases d p);
  i_ctl : forall s p, ctl d s = Some p <-> holds (phases d p) s;
  i_table : forall p, table d = Some p <-> tables (phases d p);
  i_wait : forall p r n, phases d p = Waiting r n -> srv d (on r) = Handling (via r) n (last r) \/ srv d (on r) = Acking (via r) n (last r) \/ srv d (on r) = Ended;
  i_ack : forall a b, In (a, b) (acks d) -> a = b
}.

Lemma vars_phase_rest l : vars_phase l = Finished true \/ exists s r, l = s :: r /\ vars_phase l = WantCtl (mkReq s Push false false false r).
Proof. destruct l as [|s r]; [left; reflexivity|right; exists s, r; auto]. Qed.

Lemma idle_inv N M : Inv N M idle.
Proof.
  constructor; cbn; auto; try discriminate.
  - intros p H. exfalso. apply H. exact I.
  - intros s p. split; [discriminate|]. intros (r & _ & [H|(n & H)]); discriminate H.
  - intros p. split; [discriminate|intros []].
  - intros a b [].
Qed.

(** A phase that holds nothing. *)
Lemma holds_not x s : (forall r, x <> Sending r) -> (forall r n, x <> Waiting r n) -> ~ holds x s.
Proof. intros A B (r & _ & [H|(n & H)]); [exact (A r H)|exact (B r n H)]. Qed.
Lemma holds_sending r s : holds (Sending r) s <-> on r = s.
Proof. split; [intros (q & E & [H|(n & H)]); [congruence|discriminate H]|intros E; exists r; auto]. Qed.
Lemma holds_waiting r n s : holds (Waiting r n) s <-> on r = s.
Proof. split; [intros (q & E & [H|(m & H)]); [discriminate H|congruence]|intros E; exists r; eauto]. Qed.
Lemma vars_holds l s : ~ holds (vars_phase l) s.
Proof. destruct l; cbn; apply holds_not; discriminate. Qed.
Lemma vars_tables l : ~ tables (vars_phase l).
Proof. destruct l; cbn; [tauto|discriminate]. Qed.
Lemma vars_good M l : Forall (fun s => s < M) l -> good_phase M (vars_phase l).
Proof.
  destruct l as [|s r]; cbn; [auto|]. intros H. inversion H; subst. unfold shape. cbn. repeat split; auto; discriminate.
Qed.

(** Releasing the control lock at the end of a message. *)
Definition leaves (d : daemon) (p : nat) (r : req) : Prop := phases d p = Sending r \/ exists n, phases d p = Waiting r n.
Lemma leaves_facts N M d p r : Inv N M d -> leaves d p r -> p < N /\ shape M r /\ ctl d (on r) = Some p /\ (tabled r = true <-> table d = Some p).
Proof.
  intros Iv L. assert (A : ~ at_rest (phases d p)) by (destruct L as [E|(n & E)]; rewrite E; cbn; auto).
  pose proof (i_range _ _ _ Iv p A) as R. pose proof (i_good _ _ _ Iv p) as G. pose proof (i_ctl _ _ _ Iv (on r) p) as C. pose proof (i_table _ _ _ Iv p) as T.
  destruct L as [E|(n & E)]; rewrite E in *; cbn in G, T.
  - split; [exact R|]. split; [exact G|]. split; [apply C; apply holds_sending; reflexivity|tauto].
  - split; [exact R|]. split; [exact (proj1 G)|]. split; [apply C; apply holds_waiting; reflexivity|tauto].
Qed.

(** The invariant, step by step: a thread [p] moves to [x], with the control lock of one
    session and the table lock changing hands accordingly. *)
Lemma inv_build N M d d' p x :
  Inv N M d -> phases d' = upd (phases d) p x -> p < N -> good_phase M x ->
  (forall s q, q <> p -> (ctl d' s = Some q <-> ctl d s = Some q)) -> (forall s, ctl d' s = Some p <-> holds x s) ->
  (forall q, q <> p -> (table d' = Some q <-> table d = Some q)) -> (table d' = Some p <-> tables x) ->
  (forall q r n, q <> p -> phases d q = Waiting r n -> srv d' (on r) = srv d (on r)) ->
  (forall r n, x = Waiting r n -> srv d' (on r) = Handling (via r) n (last r) \/ srv d' (on r) = Acking (via r) n (last r) \/ srv d' (on r) = Ended) ->
  (forall a b, In (a, b) (acks d') -> In (a, b) (acks d) \/ a = b) -> Inv N M d'.
Proof.
  intros Iv Ep Hp Gx C1 C2 T1 T2 W1 W2 A. constructor.
  - intros q Hq. rewrite Ep in Hq. destruct (Nat.eq_dec q p) as [->|Nq]; [exact Hp|]. rewrite upd_other in Hq by exact Nq. exact (i_range _ _ _ Iv q Hq).
  - intros q. rewrite Ep. destruct (Nat.eq_dec q p) as [->|Nq]; [rewrite upd_same; exact Gx|]. rewrite upd_other by exact Nq. apply (i_good _ _ _ Iv).
  - intros s q. rewrite Ep. destruct (Nat.eq_dec q p) as [->|Nq]; [rewrite upd_same; apply C2|]. rewrite upd_other by exact Nq. rewrite (C1 s q Nq). apply (i_ctl _ _ _ Iv).
  - intros q. rewrite Ep. destruct (Nat.eq_dec q p) as [->|Nq]; [rewrite upd_same; exact T2|]. rewrite upd_other by exact Nq. rewrite (T1 q Nq). apply (i_table _ _ _ Iv).
  - intros q r n. rewrite Ep. destruct (Nat.eq_dec q p) as [->|Nq]; [rewrite upd_same; apply W2|]. rewrite upd_other by exact Nq. intros E. rewrite (W1 q r n Nq E). exact (i_wait _ _ _ Iv q r n E).
  - intros a b I. destruct (A a b I) as [I'|E]; [exact (i_ack _ _ _ Iv a b I')|exact E].
Qed.

Ltac no_hold := apply holds_not; congruence.
Lemma not_held N M d p s : Inv N M d -> ~ holds (phases d p) s -> ctl d s <> Some p.
Proof. intros Iv H E. apply H. apply (i_ctl _ _ _ Iv). exact E. Qed.
Lemma not_tabled N M d p : Inv N M d -> ~ tables (phases d p) -> table d <> Some p.
Proof. intros Iv H E. apply H. apply (i_table _ _ _ Iv). exact E. Qed.

(** Leaving with [x]: no locks held if [x] is not at the table. *)
Lemma inv_leave N M d d' p r x :
  Inv N M d -> leaves d p r -> phases d' = upd (phases d) p x -> good_phase M x -> (forall s, ~ holds x s) ->
  ctl d' = upd (ctl d) (on r) None -> (table d' = if tabled r then (if match x with AtTable _ => true | _ => false end then table d else None) else table d) ->
  (tables x <-> tabled r = true /\ match x with AtTable _ => True | _ => False end) ->
  (forall s, s <> on r -> srv d' s = srv d s) -> (forall a b, In (a, b) (acks d') -> In (a, b) (acks d) \/ a = b) -> Inv N M d'.
Proof.
  intros Iv L Ep Gx Hx Ec Et Tx Es A. destruct (leaves_facts _ _ _ _ _ Iv L) as (Hp & _ & Hc & Ht).
  assert (OnlyT : forall q, q <> p -> tabled r = true -> table d <> Some q) by (intros q Nq Tr E; apply Ht in Tr; congruence).
  eapply inv_build; try eassumption.
  - intros s q Nq. rewrite Ec. destruct (Nat.eq_dec s (on r)) as [->|Ns]; [rewrite upd_same|rewrite upd_other by exact Ns; reflexivity]. rewrite Hc. split; congruence.
  - intros s. split; [|intros H; exfalso; exact (Hx s H)]. rewrite Ec. destruct (Nat.eq_dec s (on r)) as [->|Ns]; [rewrite upd_same; discriminate|rewrite upd_other by exact Ns].
    intros E. exfalso. apply (i_ctl _ _ _ Iv) in E. destruct L as [E0|(n & E0)]; rewrite E0 in E; [apply holds_sending in E|apply holds_waiting in E]; congruence.
  - intros q Nq. rewrite Et. destruct (tabled r) eqn:Tr; [|reflexivity]. destruct (match x with AtTable _ => true | _ => false end); [reflexivity|].
    split; [discriminate|intros E; exfalso; exact (OnlyT q Nq eq_refl E)].
  - rewrite Et, Tx. destruct (tabled r) eqn:Tr.
    + assert (Tp : table d = Some p) by (apply Ht; reflexivity). destruct x; cbn; try (split; [discriminate|tauto]). tauto.
    + split; [|intros [? _]; discriminate]. intros E. apply Ht in E. discriminate.
  - intros q r' n Nq E. apply Es. intros E'. assert (C : ctl d (on r') = Some q) by (apply (i_ctl _ _ _ Iv); rewrite E; apply holds_waiting; reflexivity). congruence.
  - intros r' n E. exfalso. apply (Hx (on r')). rewrite E. apply holds_waiting. reflexivity.
Qed.

Lemma inv_continue N M d d0 p r : Inv N M d -> leaves d p r -> phases d0 = phases d -> ctl d0 = ctl d -> table d0 = table d ->
  (forall s, s <> on r -> srv d0 s = srv d s) -> (forall a b, In (a, b) (acks d0) -> In (a, b) (acks d) \/ a = b) -> Inv N M (continue p r d0).
Proof.
  intros Iv L Ep Ec Et Es Ea. destruct (leaves_facts _ _ _ _ _ Iv L) as (_ & (_ & _ & Gt & _) & _).
  apply (inv_leave N M d _ p r (if tabled r then AtTable (todo r) else vars_phase (todo r))); auto.
  - unfold continue, phase_to, ctl_to. cbn. rewrite Ep. reflexivity.
  - destruct (tabled r); [exact Gt|apply vars_good; exact Gt].
  - intros s. destruct (tabled r); [no_hold|apply vars_holds].
  - unfold continue, phase_to, ctl_to. cbn. rewrite Ec. reflexivity.
  - unfold continue, phase_to, ctl_to. cbn. rewrite Et. destruct (tabled r); reflexivity.
  - destruct (tabled r); [cbn; tauto|]. split; [intros H; exfalso; exact (vars_tables _ H)|intros [? _]; discriminate].
Qed.
Lemma inv_fail N M d p r : Inv N M d -> leaves d p r -> Inv N M (fail p r d).
Proof.
  intros Iv L. apply (inv_leave N M d _ p r (Finished false)); auto.
  - unfold fail, phase_to. cbn. destruct (tabled r); reflexivity.
  - exact I.
  - intros s. no_hold.
  - unfold fail, phase_to. cbn. destruct (tabled r); reflexivity.
  - unfold fail, phase_to. cbn. destruct (tabled r); reflexivity.
  - cbn. tauto.
  - intros s _. unfold fail, phase_to. cbn. destruct (tabled r); reflexivity.
  - unfold fail, phase_to. cbn. destruct (tabled r); cbn; auto.
Qed.

(** A step of the session's thread alone. *)
Lemma inv_srv N M d s x : Inv N M d ->
  (forall p r n, phases d p = Waiting r n -> on r = s -> x = Handling (via r) n (last r) \/ x = Acking (via r) n (last r) \/ x = Ended) -> Inv N M (srv_to s x d).
Proof.
  intros Iv H. destruct Iv as [A B C D E F]. constructor; cbn; auto. intros p r n Hp. unfold upd. destruct (on r =? s) eqn:Q; [apply Nat.eqb_eq in Q; eauto|eauto].
Qed.

Lemma start_good M q : in_range M q = true -> good_phase M (start q) /\ (forall s, ~ holds (start q) s) /\ ~ tables (start q).
Proof.
  intros H. destruct q as [s k e|l|l|l]; cbn [start].
  - cbn [in_range] in H. apply andb_true_iff in H as [H1 H2]. apply Nat.ltb_lt in H1. cbn. split; [|split; [intros; no_hold|discriminate]]. unfold shape. cbn.
    repeat split; auto; congruence.
  - cbn [in_range] in H. rewrite forallb_forall in H. cbn. split; [|split; [intros; no_hold|tauto]]. apply Forall_forall. intros x Hx. apply Nat.ltb_lt. auto.
  - cbn [in_range] in H. rewrite forallb_forall in H. split; [|split; [intros; apply vars_holds|apply vars_tables]]. apply vars_good. apply Forall_forall. intros x Hx. apply Nat.ltb_lt. auto.
  - cbn. split; [auto|]. split; [intros; no_hold|tauto].
Qed.

(** A thread without locks moves to where it has none, or gets one. *)
Lemma inv_move N M d p x : Inv N M d -> p < N -> (forall s, ~ holds (phases d p) s) -> ~ tables (phases d p) -> good_phase M x -> (forall s, ~ holds x s) -> ~ tables x ->
  forall ks, Inv N M (phase_to p x (remove_all ks d)).
Proof.
  intros Iv Hp H1 H2 G X1 X2 ks. eapply (inv_build N M d _ p x); cbn; auto; try tauto.
  - intros s. split; [intros E; exfalso; exact (not_held _ _ _ _ _ Iv (H1 s) E)|intros E; exfalso; exact (X1 s E)].
  - split; [intros E; exfalso; exact (not_tabled _ _ _ _ Iv H2 E)|tauto].
  - intros r n ->. exfalso. apply (X1 (on r)). apply holds_waiting. reflexivity.
Qed.

Lemma step_inv N M d a d' : Inv N M d -> step N M d a = Some d' -> Inv N M d'.
Proof.
  intros Iv H. destruct a as [p q|p|p|p|p|s|p|s|p|p|p|s|s]; cbn [step] in H.
  - (* Ask *) assert (E : at_rest (phases d p) /\ (p <? N) && in_range M q = true /\ d' = phase_to p (start q) d).
    { destruct (phases d p); try discriminate H; destruct ((p <? N) && in_range M q); try discriminate H; injection H as <-; cbn; auto. }
    destruct E as (Er & E & ->). apply andb_true_iff in E as [E1 E2]. apply Nat.ltb_lt in E1. destruct (start_good M q E2) as (G & X1 & X2).
    assert (Y1 : forall s, ~ holds (phases d p) s) by (intros s; destruct (phases d p); try destruct Er; no_hold).
    assert (Y2 : ~ tables (phases d p)) by (destruct (phases d p); try destruct Er; cbn; tauto).
    pose proof (inv_move N M d p (start q) Iv E1 Y1 Y2 G X1 X2 []) as Z. destruct Z as [A B C D E0 F]. constructor; auto.
  - (* GetTable *) destruct (table d) as [|] eqn:T; [discriminate H|]. destruct (phases d p) eqn:P; try discriminate H; injection H as <-.
    + apply inv_move; auto; try rewrite P; cbn; auto; try (intros s; no_hold). apply (i_range _ _ _ Iv). rewrite P. cbn. auto.
    + pose proof (i_good _ _ _ Iv p) as G. rewrite P in G. eapply (inv_build N M d _ p (AtTable l)); cbn; auto; try tauto.
      * apply (i_range _ _ _ Iv). rewrite P. cbn. auto.
      * intros s. split; [intros E; apply (i_ctl _ _ _ Iv) in E; rewrite P in E; exfalso; revert E; no_hold|intros E; exfalso; revert E; no_hold].
      * intros q Nq. split; [congruence|rewrite T; discriminate].
      * intros r n E. discriminate E.
  - (* Next *) destruct (phases d p) eqn:P; try discriminate H. pose proof (i_good _ _ _ Iv p) as G. rewrite P in G. cbn in G.
    assert (Hp : p < N) by (apply (i_range _ _ _ Iv); rewrite P; cbn; auto).
    assert (Tp : table d = Some p) by (apply (i_table _ _ _ Iv); rewrite P; exact I).
    assert (Hc : forall s, ctl d s <> Some p) by (intros s; apply (not_held _ _ _ _ _ Iv); rewrite P; no_hold).
    destruct l as [|s r].
    + injection H as <-. eapply (inv_build N M d _ p (Finished true)); cbn; auto; try tauto.
      * intros s. split; [intros E; exfalso; exact (Hc s E)|intros E; exfalso; revert E; no_hold].
      * intros q Nq. split; [discriminate|congruence].
      * split; [discriminate|tauto].
      * intros r n E. discriminate E.
    + inversion G; subst. destruct (removed d s); injection H as <-.
      * eapply (inv_build N M d _ p (AtTable r)); cbn; auto; try tauto.
        -- intros s0. split; [intros E; exfalso; exact (Hc s0 E)|intros E; exfalso; revert E; no_hold].
        -- intros r0 n E. discriminate E.
      * eapply (inv_build N M d _ p (WantCtl _)); cbn; auto; try tauto.
        -- unfold shape. cbn. repeat split; auto; discriminate.
        -- intros s0. split; [intros E; exfalso; exact (Hc s0 E)|intros E; exfalso; revert E; no_hold].
        -- intros r0 n E. discriminate E.
  - (* GetCtl *) destruct (phases d p) eqn:P; try discriminate H. destruct (ctl d (on r)) eqn:C; [discriminate H|]. injection H as <-.
    pose proof (i_good _ _ _ Iv p) as G. rewrite P in G. cbn in G. pose proof (i_table _ _ _ Iv p) as T. rewrite P in T. cbn in T.
    eapply (inv_build N M d _ p (Sending r)); cbn; auto; try tauto.
    + apply (i_range _ _ _ Iv). rewrite P. cbn. auto.
    + intros s q Nq. unfold upd. destruct (s =? on r) eqn:E; [apply Nat.eqb_eq in E; subst s; rewrite C; split; congruence|tauto].
    + intros s. rewrite holds_sending. unfold upd. destruct (s =? on r) eqn:E; [apply Nat.eqb_eq in E; subst s; tauto|]. apply Nat.eqb_neq in E. split; [|congruence].
      intros X. apply (i_ctl _ _ _ Iv) in X. rewrite P in X. exfalso. revert X. no_hold.
    + intros r0 n E. discriminate E.
  - (* Take *) destruct (phases d p) eqn:P; try discriminate H. assert (L : leaves d p r) by (left; exact P). destruct (chan_eqb (via r) Push) eqn:K.
    + assert (E : d' = continue p r (queue_to (on r) (S (queue d (on r))) d)) by (destruct (srv d (on r)); try discriminate H; destruct (queue d (on r) <? push_capacity); congruence).
      subst d'. apply (inv_continue N M d); auto.
    + destruct (srv d (on r)) eqn:S; try discriminate H. injection H as <-. destruct (leaves_facts _ _ _ _ _ Iv L) as (Hp & Sh & Hc & Ht).
      assert (Kn : via r <> Push) by (intros E; apply chan_eqb_eq in E; congruence).
      eapply (inv_build N M d _ p (Waiting r (next d))); cbn; auto; try tauto.
      * intros s. rewrite holds_waiting. split; [|intros <-; exact Hc]. intros X. apply (i_ctl _ _ _ Iv) in X. rewrite P in X. apply holds_sending in X. exact X.
      * intros q r' n Nq E. apply upd_other. intros E'. assert (C : ctl d (on r') = Some q) by (apply (i_ctl _ _ _ Iv); rewrite E; apply holds_waiting; reflexivity). congruence.
      * intros r0 n E. injection E as <- <-. rewrite upd_same. auto.
  - (* Handled *) destruct (srv d s) eqn:S; try discriminate H. injection H as <-. apply inv_srv; [exact Iv|]. intros p r m P <-. destruct (i_wait _ _ _ Iv p r m P) as [E|[E|E]]; rewrite S in E; try discriminate E.
    injection E as -> -> ->. auto.
  - (* Ack *) destruct (phases d p) eqn:P; try discriminate H. destruct (srv d (on r)) as [|k m e|k m e|] eqn:S; try discriminate H. destruct (chan_eqb k (via r)); [|discriminate H]. injection H as <-.
    apply (inv_continue N M d); auto; cbn; auto.
    + right. eauto.
    + intros s Ns. apply upd_other. exact Ns.
    + intros a b I. apply in_app_or in I as [I|[I|[]]]; [left; exact I|right]. injection I as <- <-.
      destruct (i_wait _ _ _ Iv p r n P) as [E|[E|E]]; rewrite S in E; try discriminate E. congruence.
  - (* Drain *) destruct (srv d s); try discriminate H. destruct (queue d s); [discriminate H|]. injection H as <-. destruct Iv as [A B C D E F]. constructor; auto.
  - destruct (phases d p) eqn:P; try discriminate H. destruct (patient r); [discriminate H|]. injection H as <-. apply inv_fail; [exact Iv|left; exact P].
  - destruct (phases d p) eqn:P; try discriminate H. destruct (patient r); [discriminate H|]. injection H as <-. apply inv_fail; [exact Iv|right; eauto].
  - destruct (phases d p) eqn:P; try discriminate H; destruct (srv d (on r)); try discriminate H; injection H as <-; (apply inv_fail; [exact Iv|]); [left; exact P|right; eauto].
  - assert (E : d' = srv_to s Ended d) by (destruct (srv d s); congruence). subst d'. apply inv_srv; auto.
  - destruct (removed d s && _); [|discriminate H]. injection H as <-. apply inv_srv; auto.
Qed.
Lemma exec_inv N M d a : Inv N M d -> Inv N M (exec N M d a).
Proof. intros H. unfold exec. destruct (step N M d a) eqn:E; [eapply step_inv; eassumption|exact H]. Qed.
Lemma run_app N M d a b : run N M d (a ++ b) = run N M (run N M d a) b.
Proof. apply fold_left_app. Qed.
Lemma run_inv N M l : forall d, Inv N M d -> Inv N M (run N M d l).
Proof. induction l as [|a l IH]; intros d H; [exact H|]. cbn. apply IH. apply exec_inv. exact H. Qed.
Lemma reachable_inv N M d : reachable N M d -> Inv N M d.
Proof. intros (l & ->). apply run_inv. apply idle_inv. Qed.
