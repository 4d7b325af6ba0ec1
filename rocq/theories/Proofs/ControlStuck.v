(** What an acknowledgement that nobody waits for does. *)
From Coq Require Import List Bool Arith Lia.
From Verif Require Import Model.Control Spec.ControlSpec Proofs.ControlProofs.
Import ListNotations.

Lemma fail_facts p r d : phases (fail p r d) = upd (phases d) p (Finished false) /\ srv (fail p r d) = srv d /\ queue (fail p r d) = queue d /\ removed (fail p r d) = removed d /\ acks (fail p r d) = acks d.
Proof. unfold fail. destruct (tabled r); auto. Qed.

(** A step changes at most one thread; this is how. *)
Inductive moved (N M : nat) (d : daemon) (p : nat) : phase -> Prop :=
| m_ask q : at_rest (phases d p) -> moved N M d p (start q)
| m_table ks : phases d p = WantTable ks -> table d = None -> moved N M d p (Finished true)
| m_detach l : phases d p = WantTableDetach l -> table d = None -> moved N M d p (AtTable l)
| m_done : phases d p = AtTable [] -> moved N M d p (Finished true)
| m_skip s l : phases d p = AtTable (s :: l) -> moved N M d p (AtTable l)
| m_next s l : phases d p = AtTable (s :: l) -> moved N M d p (WantCtl (mkReq s Conn false true true l))
| m_ctl r : phases d p = WantCtl r -> ctl d (on r) = None -> moved N M d p (Sending r)
| m_push r : phases d p = Sending r -> via r = Push -> queue d (on r) < push_capacity -> moved N M d p (if tabled r then AtTable (todo r) else vars_phase (todo r))
| m_take r n : phases d p = Sending r -> via r <> Push -> srv d (on r) = Serving -> moved N M d p (Waiting r n)
| m_ack r n k m e : phases d p = Waiting r n -> srv d (on r) = Acking k m e -> moved N M d p (if tabled r then AtTable (todo r) else vars_phase (todo r))
| m_late r : leaves d p r -> patient r = false -> moved N M d p (Finished false)
| m_cut r : leaves d p r -> srv d (on r) = Ended -> moved N M d p (Finished false).
Lemma step_moved N M d a d' q : step N M d a = Some d' -> phases d' q = phases d q \/ moved N M d q (phases d' q).
Proof.
  intros H. assert (P1 : forall p x, phases d' = upd (phases d) p x -> moved N M d p x -> phases d' q = phases d q \/ moved N M d q (phases d' q)).
  { intros p x E Hm. rewrite E. destruct (Nat.eq_dec q p) as [->|Nq]; [right; rewrite upd_same; exact Hm|left; apply upd_other; exact Nq]. }
  destruct a as [p rq|p|p|p|p|t|p|t|p|p|p|t|t]; cbn [step] in H.
  - destruct (phases d p) eqn:P; try discriminate H; destruct ((p <? N) && in_range M rq); try discriminate H; injection H as <-;
      (apply (P1 p (start rq)); [reflexivity|apply m_ask; rewrite P; exact I]).
  - destruct (table d) eqn:T; [discriminate H|]. destruct (phases d p) eqn:P; try discriminate H; injection H as <-; (eapply (P1 p); [reflexivity|]).
    + eapply m_table; eassumption.
    + apply m_detach; assumption.
  - destruct (phases d p) eqn:P; try discriminate H. destruct l as [|t l]; [injection H as <-; eapply (P1 p); [reflexivity|apply m_done; exact P]|].
    destruct (removed d t); injection H as <-; (eapply (P1 p); [reflexivity|]); [eapply m_skip; exact P|apply m_next; exact P].
  - destruct (phases d p) eqn:P; try discriminate H. destruct (ctl d (on r)) eqn:C; [discriminate H|]. injection H as <-. eapply (P1 p); [reflexivity|apply m_ctl; assumption].
  - destruct (phases d p) eqn:P; try discriminate H. destruct (chan_eqb (via r) Push) eqn:K.
    + assert (E : d' = continue p r (queue_to (on r) (S (queue d (on r))) d) /\ (queue d (on r) <? push_capacity) = true)
        by (destruct (srv d (on r)); try discriminate H; destruct (queue d (on r) <? push_capacity); try discriminate H; injection H as <-; auto).
      destruct E as [-> L]. eapply (P1 p); [reflexivity|apply m_push; [exact P|apply chan_eqb_eq; exact K|apply Nat.ltb_lt; exact L]].
    + destruct (srv d (on r)) eqn:S; try discriminate H. injection H as <-. eapply (P1 p); [reflexivity|apply m_take; [exact P| |exact S]]. intros E. apply chan_eqb_eq in E. congruence.
  - destruct (srv d t); try discriminate H. injection H as <-. left. reflexivity.
  - destruct (phases d p) eqn:P; try discriminate H. destruct (srv d (on r)) as [|k m e|k m e|] eqn:S; try discriminate H. destruct (chan_eqb k (via r)); [|discriminate H]. injection H as <-.
    eapply (P1 p); [reflexivity|eapply m_ack; eassumption].
  - destruct (srv d t); try discriminate H. destruct (queue d t); [discriminate H|]. injection H as <-. left. reflexivity.
  - destruct (phases d p) eqn:P; try discriminate H. destruct (patient r) eqn:Pa; [discriminate H|]. injection H as <-. apply (P1 p (Finished false)); [apply fail_facts|eapply m_late; [left; exact P|exact Pa]].
  - destruct (phases d p) eqn:P; try discriminate H. destruct (patient r) eqn:Pa; [discriminate H|]. injection H as <-. apply (P1 p (Finished false)); [apply fail_facts|eapply m_late; [right; eauto|exact Pa]].
  - destruct (phases d p) eqn:P; try discriminate H; destruct (srv d (on r)) eqn:S; try discriminate H; injection H as <-; (apply (P1 p (Finished false)); [apply fail_facts|]);
      (eapply m_cut; [|exact S]); [left; exact P|right; eauto].
  - assert (E : d' = srv_to t Ended d) by (destruct (srv d t); congruence). subst d'. left. reflexivity.
  - destruct (removed d t && _); [|discriminate H]. injection H as <-. left. reflexivity.
Qed.

(** How a session's thread changes. *)
Lemma step_srv N M d a d' s : step N M d a = Some d' ->
  srv d' s = srv d s \/ (srv d s = Serving) \/ (exists k n e, srv d s = Handling k n e) \/ (exists p, awaits d p s) \/
  (removed d s = true /\ forallb (fun p => negb (uses s (phases d p))) (seq 0 N) = true).
Proof.
  intros H. assert (P1 : forall t x, srv d' = upd (srv d) t x -> (s = t -> srv d s = Serving \/ (exists k n e, srv d s = Handling k n e) \/ (exists p, awaits d p s) \/
     (removed d s = true /\ forallb (fun p => negb (uses s (phases d p))) (seq 0 N) = true)) -> srv d' s = srv d s \/ (srv d s = Serving) \/ (exists k n e, srv d s = Handling k n e) \/ (exists p, awaits d p s) \/
     (removed d s = true /\ forallb (fun p => negb (uses s (phases d p))) (seq 0 N) = true)).
  { intros t x E X. rewrite E. destruct (Nat.eq_dec s t) as [->|Ns]; [right; apply X; reflexivity|left; apply upd_other; exact Ns]. }
  destruct a as [p rq|p|p|p|p|t|p|t|p|p|p|t|t]; cbn [step] in H.
  - destruct (phases d p) eqn:P; try discriminate H; destruct ((p <? N) && in_range M rq); try discriminate H; injection H as <-; left; reflexivity.
  - destruct (table d) eqn:T; [discriminate H|]. destruct (phases d p) eqn:P; try discriminate H; injection H as <-; left; reflexivity.
  - destruct (phases d p) eqn:P; try discriminate H. destruct l as [|t l]; [injection H as <-; left; reflexivity|]. destruct (removed d t); injection H as <-; left; reflexivity.
  - destruct (phases d p) eqn:P; try discriminate H. destruct (ctl d (on r)) eqn:C; [discriminate H|]. injection H as <-. left; reflexivity.
  - destruct (phases d p) eqn:P; try discriminate H. destruct (chan_eqb (via r) Push) eqn:K.
    + destruct (srv d (on r)); try discriminate H; (destruct (queue d (on r) <? push_capacity); try discriminate H); injection H as <-; left; reflexivity.
    + destruct (srv d (on r)) eqn:S; try discriminate H. injection H as <-. eapply (P1 (on r)); [reflexivity|]. intros ->. left. exact S.
  - destruct (srv d t) eqn:S; try discriminate H. injection H as <-. eapply (P1 t); [reflexivity|]. intros ->. right. left. eauto.
  - destruct (phases d p) eqn:P; try discriminate H. destruct (srv d (on r)) as [|k m e|k m e|] eqn:S; try discriminate H. destruct (chan_eqb k (via r)); [|discriminate H]. injection H as <-.
    eapply (P1 (on r)); [reflexivity|]. intros ->. right. right. left. exists p, r, n. auto.
  - destruct (srv d t); try discriminate H. destruct (queue d t); [discriminate H|]. injection H as <-. left. reflexivity.
  - destruct (phases d p) eqn:P; try discriminate H. destruct (patient r) eqn:Pa; [discriminate H|]. injection H as <-. left. destruct (fail_facts p r d) as (_ & -> & _). reflexivity.
  - destruct (phases d p) eqn:P; try discriminate H. destruct (patient r) eqn:Pa; [discriminate H|]. injection H as <-. left. destruct (fail_facts p r d) as (_ & -> & _). reflexivity.
  - destruct (phases d p) eqn:P; try discriminate H; destruct (srv d (on r)) eqn:S; try discriminate H; injection H as <-; left; destruct (fail_facts p r d) as (_ & -> & _); reflexivity.
  - destruct (srv d t) eqn:S; try discriminate H; injection H as <-; (eapply (P1 t); [reflexivity|]); intros ->; [left; exact S|right; left; eauto].
  - destruct (removed d t && forallb (fun p => negb (uses t (phases d p))) (seq 0 N)) eqn:E; [|discriminate H]. injection H as <-. apply andb_true_iff in E as [E1 E2]. eapply (P1 t); [reflexivity|]. intros ->. auto.
Qed.
Lemma step_removed N M d a d' s : step N M d a = Some d' -> removed d s = true -> removed d' s = true.
Proof.
  intros H R. destruct a as [p rq|p|p|p|p|t|p|t|p|p|p|t|t]; cbn [step] in H.
  - destruct (phases d p) eqn:P; try discriminate H; destruct ((p <? N) && in_range M rq); try discriminate H; injection H as <-; exact R.
  - destruct (table d) eqn:T; [discriminate H|]. destruct (phases d p) eqn:P; try discriminate H; injection H as <-; [cbn; rewrite R; apply orb_true_r|exact R].
  - destruct (phases d p) eqn:P; try discriminate H. destruct l as [|t l]; [injection H as <-; exact R|]. destruct (removed d t); injection H as <-; exact R.
  - destruct (phases d p) eqn:P; try discriminate H. destruct (ctl d (on r)) eqn:C; [discriminate H|]. injection H as <-. exact R.
  - destruct (phases d p) eqn:P; try discriminate H. destruct (chan_eqb (via r) Push) eqn:K.
    + destruct (srv d (on r)); try discriminate H; (destruct (queue d (on r) <? push_capacity); try discriminate H); injection H as <-; exact R.
    + destruct (srv d (on r)) eqn:S; try discriminate H. injection H as <-. exact R.
  - destruct (srv d t) eqn:S; try discriminate H. injection H as <-. exact R.
  - destruct (phases d p) eqn:P; try discriminate H. destruct (srv d (on r)) as [|k m e|k m e|] eqn:S; try discriminate H. destruct (chan_eqb k (via r)); [|discriminate H]. injection H as <-. exact R.
  - destruct (srv d t); try discriminate H. destruct (queue d t); [discriminate H|]. injection H as <-. exact R.
  - destruct (phases d p) eqn:P; try discriminate H. destruct (patient r) eqn:Pa; [discriminate H|]. injection H as <-. destruct (fail_facts p r d) as (_ & _ & _ & -> & _). exact R.
  - destruct (phases d p) eqn:P; try discriminate H. destruct (patient r) eqn:Pa; [discriminate H|]. injection H as <-. destruct (fail_facts p r d) as (_ & _ & _ & -> & _). exact R.
  - destruct (phases d p) eqn:P; try discriminate H; destruct (srv d (on r)) eqn:S; try discriminate H; injection H as <-; destruct (fail_facts p r d) as (_ & _ & _ & -> & _); exact R.
  - destruct (srv d t) eqn:S; try discriminate H; injection H as <-; exact R.
  - destruct (removed d t && forallb (fun p => negb (uses t (phases d p))) (seq 0 N)) eqn:E; [|discriminate H]. injection H as <-. exact R.
Qed.
Lemma run_removed N M l : forall d s, removed d s = true -> removed (run N M d l) s = true.
Proof. induction l as [|a l IH]; intros d s R; [exact R|]. cbn. apply IH. unfold exec. destruct (step N M d a) eqn:E; [eapply step_removed; eassumption|exact R]. Qed.

(** Nobody comes to wait for a session whose thread is stuck. *)
Lemma none_awaits N M d a d' s : step N M d a = Some d' -> orphaned d s -> forall p, ~ awaits d' p s.
Proof.
  intros H [(k & n & e & A) W] p (r & m & P & On). destruct (step_moved N M d a d' p H) as [E|Mv].
  - rewrite E in P. apply (W p). exists r, m. auto.
  - rewrite P in Mv. remember (Waiting r m) as x eqn:Ex. destruct Mv; try discriminate Ex.
    + destruct q as [? ? ?|?|[|? ?]|?]; discriminate Ex.
    + destruct (tabled r0); [discriminate Ex|]. destruct (todo r0); discriminate Ex.
    + injection Ex as -> ->. congruence.
    + destruct (tabled r0); [discriminate Ex|]. destruct (todo r0); discriminate Ex.
Qed.
Lemma orphan_step N M d a d' s : step N M d a = Some d' -> orphaned d s -> removed d' s = false -> srv d' s = srv d s /\ orphaned d' s.
Proof.
  intros H O R. pose proof (none_awaits _ _ _ _ _ _ H O) as W. assert (E : srv d' s = srv d s).
  { destruct O as [(k & n & e & A) W0]. destruct (step_srv N M d a d' s H) as [E|[E|[(k' & n' & e' & E)|[(p & E)|[E _]]]]]; [exact E|congruence|congruence|exfalso; exact (W0 p E)|].
    apply (step_removed _ _ _ _ _ _ H) in E. congruence. }
  split; [exact E|]. split; [|exact W]. destruct O as [(k & n & e & A) _]. exists k, n, e. congruence.
Qed.
Lemma orphan_run N M l : forall d s, orphaned d s -> removed (run N M d l) s = false -> srv (run N M d l) s = srv d s /\ orphaned (run N M d l) s.
Proof.
  induction l as [|a l IH]; intros d s O R; [auto|]. cbn in R |- *. assert (R1 : removed (exec N M d a) s = false).
  { destruct (removed (exec N M d a) s) eqn:E; [|reflexivity]. apply (run_removed N M l) in E. unfold run in E. congruence. }
  assert (X : srv (exec N M d a) s = srv d s /\ orphaned (exec N M d a) s).
  { unfold exec in *. destruct (step N M d a) eqn:E; [|auto]. eapply orphan_step; eassumption. }
  destruct X as [X1 X2]. destruct (IH _ s X2 R) as [Y1 Y2]. split; [unfold run in *; congruence|exact Y2].
Qed.

(** The table held for good. *)
Record frozen (N M : nat) (d : daemon) (p s : nat) (r : req) : Prop := {
  z_inv : Inv N M d; z_send : phases d p = Sending r; z_on : on r = s; z_tabled : tabled r = true; z_orphan : orphaned d s }.
Lemma frozen_step N M d a p s r : frozen N M d p s r -> frozen N M (exec N M d a) p s r /\ srv (exec N M d a) s = srv d s.
Proof.
  intros [Iv P On T O]. unfold exec. destruct (step N M d a) as [d'|] eqn:H; [|split; [constructor; auto|reflexivity]].
  pose proof O as [(k & n & e & A) W0].
  destruct (leaves_facts N M d p r Iv (or_introl P)) as (Hp & (_ & Pa & _ & Sh & _) & _ & _). destruct (Sh T) as [Vn _].
  assert (E : srv d' s = srv d s).
  { destruct (step_srv N M d a d' s H) as [E|[E|[(k' & n' & e' & E)|[(q & E)|[_ E]]]]]; [exact E|congruence|congruence|exfalso; exact (W0 q E)|].
    exfalso. rewrite forallb_forall in E. specialize (E p ltac:(apply in_seq; lia)). rewrite P in E. cbn in E. rewrite On, Nat.eqb_refl in E. discriminate E. }
  assert (P' : phases d' p = Sending r).
  { destruct (step_moved N M d a d' p H) as [E1|Mv]; [congruence|]. exfalso. rewrite <- On in A. destruct Mv; try (unfold leaves in *); try congruence.
    - rewrite P in H0. destruct H0.
    - destruct H0 as [L|(? & L)]; [|congruence]. rewrite P in L. injection L as <-. congruence.
    - destruct H0 as [L|(? & L)]; [|congruence]. rewrite P in L. injection L as <-. congruence. }
  split; [|exact E]. constructor; auto.
  - eapply step_inv; eassumption.
  - split; [exists k, n, e; congruence|]. eapply none_awaits; eassumption.
Qed.
Lemma frozen_run N M p s r l : forall d, frozen N M d p s r -> frozen N M (run N M d l) p s r /\ srv (run N M d l) s = srv d s.
Proof.
  induction l as [|a l IH]; intros d Z; [auto|]. cbn. destruct (frozen_step N M d a p s r Z) as [Z1 E1]. destruct (IH _ Z1) as [Z2 E2]. split; [exact Z2|]. unfold run in *. congruence.
Qed.
Lemma frozen_table N M d p s r : frozen N M d p s r -> table d = Some p.
Proof. intros [Iv P On T O]. apply (leaves_facts N M d p r Iv (or_introl P)). exact T. Qed.
Lemma frozen_wants N M d a p s r q : frozen N M d p s r -> wants_table (phases d q) -> phases (exec N M d a) q = phases d q.
Proof.
  intros Z Wq. pose proof (frozen_table _ _ _ _ _ _ Z) as T. unfold exec. destruct (step N M d a) as [d'|] eqn:H; [|reflexivity].
  destruct (step_moved N M d a d' q H) as [E|Mv]; [exact E|]. exfalso. destruct Mv; unfold leaves in *; try congruence;
    try (match goal with E : phases d q = _ |- _ => rewrite E in Wq; destruct Wq end).
  - destruct (phases d q); try destruct Wq; destruct H0.
  - destruct H0 as [E|(n & E)]; rewrite E in Wq; destruct Wq.
  - destruct H0 as [E|(n & E)]; rewrite E in Wq; destruct Wq.
Qed.
Lemma frozen_wants_run N M p s r q l : forall d, frozen N M d p s r -> wants_table (phases d q) -> phases (run N M d l) q = phases d q.
Proof.
  induction l as [|a l IH]; intros d Z Wq; [reflexivity|]. cbn. pose proof (frozen_wants N M d a p s r q Z Wq) as E. destruct (frozen_step N M d a p s r Z) as [Z1 _].
  unfold run in IH. rewrite (IH _ Z1); [exact E|]. rewrite E. exact Wq.
Qed.

(** Schedules in which nothing goes wrong. *)
Definition calm_phase (x : phase) : Prop := match x with WantCtl r | Sending r | Waiting r _ => last r = false | Finished ok => ok = true | _ => True end.
Definition calm_srv (x : serving) : Prop := match x with Handling _ _ e | Acking _ _ e => e = false | Ended => False | Serving => True end.
Definition all_calm (d : daemon) : Prop := (forall p, calm_phase (phases d p)) /\ forall s, calm_srv (srv d s).
Lemma calm_vars l : calm_phase (vars_phase l).
Proof. destruct l; reflexivity. Qed.
Lemma calm_start p q : calm (Ask p q) -> calm_phase (start q).
Proof. destruct q; cbn; auto. intros _. apply calm_vars. Qed.
Lemma step_calm N M d a d' : calm a -> step N M d a = Some d' -> all_calm d -> all_calm d'.
Proof.
  intros C H [Ph Sv]. assert (U : forall p x, phases d' = upd (phases d) p x -> calm_phase x -> forall q, calm_phase (phases d' q)).
  { intros p x E Hx q. rewrite E. unfold upd. destruct (q =? p); auto. }
  assert (V : forall t x, srv d' = upd (srv d) t x -> calm_srv x -> forall s, calm_srv (srv d' s)).
  { intros t x E Hx s. rewrite E. unfold upd. destruct (s =? t); auto. }
  destruct a as [p rq|p|p|p|p|t|p|t|p|p|p|t|t]; cbn [step] in H; try (destruct C; fail).
  - destruct (phases d p) eqn:P; try discriminate H; destruct ((p <? N) && in_range M rq); try discriminate H; injection H as <-;
      (split; [apply (U p (start rq)); [reflexivity|eapply calm_start; exact C]|exact Sv]).
  - destruct (table d) eqn:T; [discriminate H|]. destruct (phases d p) eqn:P; try discriminate H; injection H as <-; (split; [eapply (U p); [reflexivity|]; reflexivity || exact I|exact Sv]).
  - destruct (phases d p) eqn:P; try discriminate H. destruct l as [|t l]; [injection H as <-; split; [eapply (U p); reflexivity|exact Sv]|].
    destruct (removed d t); injection H as <-; (split; [eapply (U p); [reflexivity|]; reflexivity || exact I|exact Sv]).
  - destruct (phases d p) eqn:P; try discriminate H. destruct (ctl d (on r)) eqn:E; [discriminate H|]. injection H as <-. split; [|exact Sv]. eapply (U p); [reflexivity|]. pose proof (Ph p) as Z. rewrite P in Z. exact Z.
  - destruct (phases d p) eqn:P; try discriminate H. pose proof (Ph p) as Z. rewrite P in Z. cbn in Z. destruct (chan_eqb (via r) Push) eqn:K.
    + assert (E : d' = continue p r (queue_to (on r) (S (queue d (on r))) d)) by (destruct (srv d (on r)); try discriminate H; destruct (queue d (on r) <? push_capacity); congruence).
      subst d'. split; [|exact Sv]. eapply (U p); [reflexivity|]. destruct (tabled r); [exact I|apply calm_vars].
    + destruct (srv d (on r)) eqn:S; try discriminate H. injection H as <-. split; [eapply (U p); [reflexivity|exact Z]|eapply (V (on r)); [reflexivity|exact Z]].
  - destruct (srv d t) eqn:S; try discriminate H. injection H as <-. split; [exact Ph|]. eapply (V t); [reflexivity|]. pose proof (Sv t) as Z. rewrite S in Z. exact Z.
  - destruct (phases d p) eqn:P; try discriminate H. destruct (srv d (on r)) as [|k m e|k m e|] eqn:S; try discriminate H. destruct (chan_eqb k (via r)); [|discriminate H]. injection H as <-.
    pose proof (Sv (on r)) as Z. rewrite S in Z. cbn in Z. subst e. split; [|eapply (V (on r)); [reflexivity|exact I]]. eapply (U p); [reflexivity|]. destruct (tabled r); [exact I|apply calm_vars].
  - destruct (srv d t); try discriminate H. destruct (queue d t); [discriminate H|]. injection H as <-. split; auto.
  - destruct (phases d p) eqn:P; try discriminate H; destruct (srv d (on r)) eqn:S; try discriminate H; pose proof (Sv (on r)) as Z; rewrite S in Z; destruct Z.
Qed.
Lemma run_calm N M l : forall d, all_calm d -> Forall calm l -> all_calm (run N M d l).
Proof.
  induction l as [|a l IH]; intros d A C; [exact A|]. inversion C; subst. cbn. apply IH; [|assumption]. unfold exec. destruct (step N M d a) eqn:E; [eapply step_calm; eassumption|exact A].
Qed.
