(** When the control channels make progress and when they do not. *)
From Coq Require Import List Bool Arith Lia.
From Verif Require Import Model.Control Spec.ControlSpec Proofs.ControlProofs.
Import ListNotations.

(** Whoever the session's thread works for is waiting. *)
Definition attended (d : daemon) (s : nat) : Prop :=
  match srv d s with Handling _ _ _ | Acking _ _ _ => exists p, awaits d p s | _ => True end.

Lemma attended_ext d d' s : srv d' s = srv d s -> (forall p, awaits d p s -> awaits d' p s) -> attended d s -> attended d' s.
Proof. unfold attended. intros -> H A. destruct (srv d s); auto; destruct A as (p & Hp); eauto. Qed.
Lemma awaits_upd d d' p x s q : phases d' = upd (phases d) p x -> (forall r n, phases d p = Waiting r n -> on r <> s) -> awaits d q s -> awaits d' q s.
Proof. intros E H (r & n & Hq & On). destruct (Nat.eq_dec q p) as [->|Nq]; [exfalso; eapply H; eassumption|]. exists r, n. rewrite E, upd_other by exact Nq. auto. Qed.

Lemma awaits_same d d' s p : phases d' = phases d -> awaits d p s -> awaits d' p s.
Proof. unfold awaits. intros ->. auto. Qed.

Lemma step_attended N M d a d' : Inv N M d -> ~ waits_too_long a -> step N M d a = Some d' -> (forall s, attended d s) -> forall s, attended d' s.
Proof.
  intros Iv W H At s. specialize (At s).
  assert (Mv : forall p x, phases d' = upd (phases d) p x -> srv d' s = srv d s -> (forall r n, phases d p <> Waiting r n) -> attended d' s).
  { intros p x E1 E2 N1. apply (attended_ext d d' s E2); [|exact At]. intros q. apply (awaits_upd d d' p x s q E1). intros r n E. exfalso. exact (N1 r n E). }
  assert (Lv : forall p r n x, phases d p = Waiting r n -> phases d' = upd (phases d) p x -> (forall t, t <> on r -> srv d' t = srv d t) ->
     (srv d' (on r) = Serving \/ srv d' (on r) = Ended) -> attended d' s).
  { intros p r n x P E1 E2 E3. destruct (Nat.eq_dec s (on r)) as [->|Ns]; [unfold attended; destruct E3 as [-> | ->]; exact I|].
    apply (attended_ext d d' s (E2 s Ns)); [|exact At]. intros q. apply (awaits_upd d d' p x s q E1). intros r0 m E. congruence. }
  destruct a as [p q|p|p|p|p|t|p|t|p|p|p|t|t]; cbn [step] in H.
  - destruct (phases d p) eqn:P; try discriminate H; destruct ((p <? N) && in_range M q); try discriminate H; injection H as <-; apply (Mv p (start q)); cbn; congruence.
  - destruct (table d); [discriminate H|]. destruct (phases d p) eqn:P; try discriminate H; injection H as <-; (eapply (Mv p); [reflexivity|reflexivity|congruence]).
  - destruct (phases d p) eqn:P; try discriminate H. destruct l as [|t l]; [injection H as <-; eapply (Mv p); [reflexivity|reflexivity|congruence]|].
    destruct (removed d t); injection H as <-; (eapply (Mv p); [reflexivity|reflexivity|congruence]).
  - destruct (phases d p) eqn:P; try discriminate H. destruct (ctl d (on r)); [discriminate H|]. injection H as <-. eapply (Mv p); [reflexivity|reflexivity|congruence].
  - destruct (phases d p) eqn:P; try discriminate H. destruct (chan_eqb (via r) Push).
    + assert (E : d' = continue p r (queue_to (on r) (S (queue d (on r))) d)) by (destruct (srv d (on r)); try discriminate H; destruct (queue d (on r) <? push_capacity); congruence).
      subst d'. eapply (Mv p); [reflexivity|reflexivity|congruence].
    + destruct (srv d (on r)) eqn:S; try discriminate H. injection H as <-. destruct (Nat.eq_dec s (on r)) as [->|Ns].
      * unfold attended. cbn. rewrite upd_same. exists p, r, (next d). cbn. rewrite upd_same. auto.
      * eapply (Mv p); [reflexivity|cbn; apply upd_other; exact Ns|congruence].
  - destruct (srv d t) eqn:S; try discriminate H. injection H as <-. unfold attended in *. cbn. unfold upd. destruct (s =? t) eqn:E; [|exact At].
    apply Nat.eqb_eq in E. subst t. rewrite S in At. exact At.
  - destruct (phases d p) eqn:P; try discriminate H. destruct (srv d (on r)) as [|k m e|k m e|] eqn:S; try discriminate H. destruct (chan_eqb k (via r)); [|discriminate H]. injection H as <-.
    eapply (Lv p r n); [exact P|reflexivity|intros t Nt; cbn; apply upd_other; exact Nt|]. cbn. rewrite upd_same. destruct e; auto.
  - destruct (srv d t); try discriminate H. destruct (queue d t); [discriminate H|]. injection H as <-. apply (attended_ext d); auto.
  - destruct (phases d p) eqn:P; try discriminate H. destruct (patient r); [discriminate H|]. injection H as <-.
    apply (Mv p (Finished false)); [unfold fail; destruct (tabled r); reflexivity|unfold fail; destruct (tabled r); reflexivity|congruence].
  - exfalso. apply W. exact I.
  - destruct (phases d p) eqn:P; try discriminate H; destruct (srv d (on r)) eqn:S; try discriminate H; injection H as <-.
    + apply (Mv p (Finished false)); [unfold fail; destruct (tabled r); reflexivity|unfold fail; destruct (tabled r); reflexivity|congruence].
    + apply (Lv p r n (Finished false)); [exact P|unfold fail; destruct (tabled r); reflexivity|intros t _; unfold fail; destruct (tabled r); reflexivity|].
      right. unfold fail. destruct (tabled r); exact S.
  - assert (E : d' = srv_to t Ended d) by (destruct (srv d t); congruence). subst d'. unfold attended in *. cbn. unfold upd. destruct (s =? t); auto.
  - destruct (removed d t && _); [|discriminate H]. injection H as <-. unfold attended in *. cbn. unfold upd. destruct (s =? t); auto.
Qed.
Lemma run_attended N M l : forall d, Inv N M d -> (forall s, attended d s) -> Forall (fun a => ~ waits_too_long a) l -> forall s, attended (run N M d l) s.
Proof.
  induction l as [|a l IH]; intros d Iv At W; [exact At|]. inversion W; subst. cbn. apply IH; auto; [apply exec_inv; exact Iv|].
  unfold exec. destruct (step N M d a) eqn:E; [eapply step_attended; eassumption|exact At].
Qed.
Lemma idle_attended s : attended idle s.
Proof. exact I. Qed.

(** Somebody can move. *)
Definition moves N M d : Prop := exists a, by_itself a /\ step N M d a <> None.
Lemma move_waiting N M d p r n : Inv N M d -> phases d p = Waiting r n -> moves N M d.
Proof.
  intros Iv P. destruct (i_wait _ _ _ Iv p r n P) as [E|[E|E]].
  - exists (Handled (on r)). split; [exact I|]. cbn. rewrite E. discriminate.
  - exists (Ack p). split; [exact I|]. cbn. rewrite P, E. replace (chan_eqb (via r) (via r)) with true by (destruct (via r); reflexivity). discriminate.
  - exists (Cut p). split; [exact I|]. cbn. rewrite P, E. discriminate.
Qed.
Lemma move_attended N M d s : Inv N M d -> attended d s -> (exists k n e, srv d s = Handling k n e \/ srv d s = Acking k n e) -> moves N M d.
Proof.
  intros Iv At (k & n & e & H). assert (X : exists p, awaits d p s) by (unfold attended in At; destruct H as [E|E]; rewrite E in At; exact At).
  destruct X as (p & r & m & P & _). eapply move_waiting; eassumption.
Qed.
Lemma move_sending N M d p r : Inv N M d -> (forall s, attended d s) -> phases d p = Sending r -> moves N M d.
Proof.
  intros Iv At P. specialize (At (on r)). destruct (srv d (on r)) as [|k n e|k n e|] eqn:S.
  - destruct (chan_eqb (via r) Push) eqn:K.
    + destruct (queue d (on r) <? push_capacity) eqn:Q; [exists (Take p); split; [exact I|]; cbn [step]; rewrite P, K, S, Q; discriminate|].
      exists (Drain (on r)). split; [exact I|]. cbn. rewrite S. apply Nat.ltb_ge in Q. destruct (queue d (on r)); [inversion Q|discriminate].
    + exists (Take p). split; [exact I|]. cbn. rewrite P, K, S. discriminate.
  - eapply move_attended; [exact Iv|exact At|]. rewrite S. eauto.
  - eapply move_attended; [exact Iv|exact At|]. rewrite S. eauto.
  - exists (Cut p). split; [exact I|]. cbn. rewrite P, S. discriminate.
Qed.
Lemma move_want N M d p r : Inv N M d -> (forall s, attended d s) -> phases d p = WantCtl r -> moves N M d.
Proof.
  intros Iv At P. destruct (ctl d (on r)) as [q|] eqn:C.
  - apply (i_ctl _ _ _ Iv) in C. destruct C as (r' & _ & [E|(n & E)]); [eapply move_sending; eassumption|eapply move_waiting; eassumption].
  - exists (GetCtl p). split; [exact I|]. cbn. rewrite P, C. discriminate.
Qed.
Lemma move_at_table N M d p l : phases d p = AtTable l -> moves N M d.
Proof. intros P. exists (Next p). split; [exact I|]. cbn. rewrite P. destruct l; [discriminate|]. destruct (removed d n); discriminate. Qed.
Lemma move_any N M d p : Inv N M d -> (forall s, attended d s) -> ~ at_rest (phases d p) -> moves N M d.
Proof.
  intros Iv At B. destruct (phases d p) eqn:P; try (exfalso; apply B; exact I).
  - destruct (table d) as [q|] eqn:T.
    + apply (i_table _ _ _ Iv) in T. destruct (phases d q) eqn:Q; try destruct T; [eapply move_at_table|eapply move_want|eapply move_sending|eapply move_waiting]; eassumption.
    + exists (GetTable p). split; [exact I|]. cbn. rewrite T, P. discriminate.
  - destruct (table d) as [q|] eqn:T.
    + apply (i_table _ _ _ Iv) in T. destruct (phases d q) eqn:Q; try destruct T; [eapply move_at_table|eapply move_want|eapply move_sending|eapply move_waiting]; eassumption.
    + exists (GetTable p). split; [exact I|]. cbn. rewrite T, P. discriminate.
  - eapply move_at_table. eassumption.
  - eapply move_want; eassumption.
  - eapply move_sending; eassumption.
  - eapply move_waiting; eassumption.
Qed.

(** Work left to do. *)
Definition after (r : req) : nat := if tabled r then 1 + 8 * length (todo r) else 7 * length (todo r).
Definition pw (x : phase) : nat :=
  match x with
  | Resting | Finished _ => 0 | WantTable _ => 1 | WantTableDetach l => 2 + 8 * length l | AtTable l => 1 + 8 * length l
  | WantCtl r => 6 + after r | Sending r => 5 + after r | Waiting r _ => 2 + after r
  end.
Definition sw (x : serving) : nat := match x with Handling _ _ _ => 2 | Acking _ _ _ => 1 | _ => 0 end.
Definition sum (f : nat -> nat) (n : nat) : nat := list_sum (map f (seq 0 n)).
Definition work (N M : nat) (d : daemon) : nat := sum (fun p => pw (phases d p)) N + sum (fun s => sw (srv d s) + queue d s) M.

Lemma sum_S f n : sum f (S n) = sum f n + f n.
Proof. unfold sum. rewrite seq_S, map_app, list_sum_app. cbn. lia. Qed.
Lemma sum_ext f g n : (forall i, i < n -> f i = g i) -> sum f n = sum g n.
Proof. induction n as [|n IH]; intros H; [reflexivity|]. rewrite !sum_S, IH by (intros; apply H; lia). rewrite H by lia. reflexivity. Qed.
Lemma sum_one f g n i : i < n -> (forall j, j <> i -> g j = f j) -> sum g n + f i = sum f n + g i.
Proof.
  induction n as [|n IH]; intros L H; [lia|]. rewrite !sum_S. destruct (Nat.eq_dec i n) as [->|Ni].
  - rewrite (sum_ext g f n) by (intros j Hj; apply H; lia). lia.
  - rewrite (H n) by lia. specialize (IH ltac:(lia) H). lia.
Qed.
Lemma sum_le f g n : (forall i, g i <= f i) -> sum g n <= sum f n.
Proof. intros H. induction n as [|n IH]; [auto|]. rewrite !sum_S. specialize (H n). lia. Qed.

Lemma vars_weight l : pw (vars_phase l) <= 7 * length l.
Proof. destruct l; cbn; unfold after; cbn; lia. Qed.
Lemma after_weight r : pw (if tabled r then AtTable (todo r) else vars_phase (todo r)) <= after r.
Proof. unfold after. destruct (tabled r); [cbn; lia|apply vars_weight]. Qed.

(** The work after thread [p] moved to [x] and session [s] changed. *)
Lemma work_step N M d d' p x s : p < N -> s < M -> phases d' = upd (phases d) p x -> (forall t, t <> s -> srv d' t = srv d t /\ queue d' t = queue d t) ->
  work N M d' + pw (phases d p) + (sw (srv d s) + queue d s) = work N M d + pw x + (sw (srv d' s) + queue d' s).
Proof.
  intros Hp Hs E1 E2. unfold work.
  pose proof (sum_one (fun p => pw (phases d p)) (fun p => pw (phases d' p)) N p Hp) as A. cbv beta in A. rewrite E1, upd_same in A.
  specialize (A ltac:(intros j Hj; rewrite upd_other by exact Hj; reflexivity)).
  pose proof (sum_one (fun s => sw (srv d s) + queue d s) (fun s => sw (srv d' s) + queue d' s) M s Hs) as B. cbv beta in B.
  specialize (B ltac:(intros j Hj; destruct (E2 j Hj) as [-> ->]; reflexivity)). rewrite E1. lia.
Qed.
Lemma work_phase N M d d' p x : p < N -> phases d' = upd (phases d) p x -> srv d' = srv d -> queue d' = queue d -> work N M d' + pw (phases d p) = work N M d + pw x.
Proof.
  intros Hp E1 E2 E3. unfold work. rewrite E1, E2, E3.
  pose proof (sum_one (fun p => pw (phases d p)) (fun q => pw (upd (phases d) p x q)) N p Hp) as A. cbv beta in A. rewrite upd_same in A.
  specialize (A ltac:(intros j Hj; rewrite upd_other by exact Hj; reflexivity)). lia.
Qed.
Lemma work_srv N M d d' s : s < M -> phases d' = phases d -> (forall t, t <> s -> srv d' t = srv d t /\ queue d' t = queue d t) ->
  work N M d' + (sw (srv d s) + queue d s) = work N M d + (sw (srv d' s) + queue d' s).
Proof.
  intros Hs E1 E2. unfold work. rewrite E1.
  pose proof (sum_one (fun s => sw (srv d s) + queue d s) (fun s => sw (srv d' s) + queue d' s) M s Hs) as B. cbv beta in B.
  specialize (B ltac:(intros j Hj; destruct (E2 j Hj) as [-> ->]; reflexivity)). lia.
Qed.

(** Threads of sessions out of range do nothing. *)
Definition quiet (M : nat) (d : daemon) : Prop := forall s, M <= s -> (srv d s = Serving \/ srv d s = Ended) /\ queue d s = 0.
Lemma quiet_ext M d d' s0 : s0 < M -> (forall t, t <> s0 -> srv d' t = srv d t /\ queue d' t = queue d t) -> quiet M d -> quiet M d'.
Proof. intros L H Q s Hs. destruct (H s ltac:(lia)) as [-> ->]. apply Q. exact Hs. Qed.
Lemma quiet_srv M d s x : s < M \/ x = Serving \/ x = Ended -> quiet M d -> quiet M (srv_to s x d).
Proof. intros H Q t Ht. cbn. unfold upd. destruct (t =? s) eqn:E; [|apply Q; exact Ht]. apply Nat.eqb_eq in E. subst t. split; [|apply Q; exact Ht]. destruct H as [H|H]; [lia|exact H]. Qed.
Lemma session_range N M d p r : Inv N M d -> (phases d p = WantCtl r \/ leaves d p r) -> on r < M /\ p < N.
Proof.
  intros Iv H. pose proof (i_good _ _ _ Iv p) as G. assert (B : ~ at_rest (phases d p)) by (destruct H as [E|[E|(n & E)]]; rewrite E; cbn; auto).
  split; [|exact (i_range _ _ _ Iv p B)]. destruct H as [E|[E|(n & E)]]; rewrite E in G; cbn in G; [exact (proj1 G)|exact (proj1 G)|exact (proj1 (proj1 G))].
Qed.
Lemma step_quiet N M d a d' : Inv N M d -> quiet M d -> step N M d a = Some d' -> quiet M d'.
Proof.
  intros Iv Q H. destruct a as [p q|p|p|p|p|t|p|t|p|p|p|t|t]; cbn [step] in H.
  - destruct (phases d p); try discriminate H; destruct ((p <? N) && in_range M q); try discriminate H; injection H as <-; exact Q.
  - destruct (table d); [discriminate H|]. destruct (phases d p); try discriminate H; injection H as <-; exact Q.
  - destruct (phases d p); try discriminate H. destruct l as [|t l]; [injection H as <-; exact Q|]. destruct (removed d t); injection H as <-; exact Q.
  - destruct (phases d p); try discriminate H. destruct (ctl d (on r)); [discriminate H|]. injection H as <-. exact Q.
  - destruct (phases d p) eqn:P; try discriminate H. destruct (session_range N M d p r Iv ltac:(right; left; exact P)) as [Hs _]. destruct (chan_eqb (via r) Push).
    + assert (E : d' = continue p r (queue_to (on r) (S (queue d (on r))) d)) by (destruct (srv d (on r)); try discriminate H; destruct (queue d (on r) <? push_capacity); congruence).
      subst d'. apply (quiet_ext M d _ (on r) Hs); [|exact Q]. intros t Nt. cbn. rewrite upd_other by exact Nt. auto.
    + destruct (srv d (on r)) eqn:S; try discriminate H. injection H as <-. apply (quiet_ext M d _ (on r) Hs); [|exact Q]. intros t Nt. cbn. rewrite upd_other by exact Nt. auto.
  - destruct (srv d t) eqn:S; try discriminate H. injection H as <-. apply quiet_srv; [|exact Q]. left. destruct (le_lt_dec M t) as [Ht|]; [|assumption].
    destruct (Q t Ht) as [[E|E] _]; congruence.
  - destruct (phases d p) eqn:P; try discriminate H. destruct (session_range N M d p r Iv ltac:(right; right; eauto)) as [Hs _].
    destruct (srv d (on r)) as [|k m e|k m e|] eqn:S; try discriminate H. destruct (chan_eqb k (via r)); [|discriminate H]. injection H as <-.
    apply (quiet_ext M d _ (on r) Hs); [|exact Q]. intros t Nt. cbn. rewrite upd_other by exact Nt. auto.
  - destruct (srv d t); try discriminate H. destruct (queue d t) eqn:E; [discriminate H|]. injection H as <-. apply (quiet_ext M d _ t); [|intros u Nu; cbn; rewrite upd_other by exact Nu; auto|exact Q].
    destruct (le_lt_dec M t) as [Ht|]; [|assumption]. destruct (Q t Ht) as [_ E']. congruence.
  - destruct (phases d p) eqn:P; try discriminate H. destruct (patient r); [discriminate H|]. injection H as <-. unfold fail. destruct (tabled r); exact Q.
  - destruct (phases d p) eqn:P; try discriminate H. destruct (patient r); [discriminate H|]. injection H as <-. unfold fail. destruct (tabled r); exact Q.
  - destruct (phases d p) eqn:P; try discriminate H; destruct (srv d (on r)); try discriminate H; injection H as <-; unfold fail; destruct (tabled r); exact Q.
  - assert (E : d' = srv_to t Ended d) by (destruct (srv d t); congruence). subst d'. apply quiet_srv; auto.
  - destruct (removed d t && _); [|discriminate H]. injection H as <-. apply quiet_srv; auto.
Qed.
Lemma run_quiet N M l : forall d, Inv N M d -> quiet M d -> quiet M (run N M d l).
Proof.
  induction l as [|a l IH]; intros d Iv Q; [exact Q|]. cbn. apply IH; [apply exec_inv; exact Iv|]. unfold exec. destruct (step N M d a) eqn:E; [eapply step_quiet; eassumption|exact Q].
Qed.
Lemma idle_quiet M : quiet M idle.
Proof. intros s _. cbn. auto. Qed.

Lemma step_work N M d a d' : Inv N M d -> quiet M d -> by_itself a -> step N M d a = Some d' -> work N M d' < work N M d.
Proof.
  intros Iv Q B H. destruct a as [p q|p|p|p|p|t|p|t|p|p|p|t|t]; cbn [by_itself] in B; try destruct B; cbn [step] in H.
  - destruct (table d) eqn:T; [discriminate H|]. destruct (phases d p) eqn:P; try discriminate H; injection H as <-.
    + assert (Hp : p < N) by (apply (i_range _ _ _ Iv); rewrite P; cbn; auto).
      pose proof (work_phase N M d (phase_to p (Finished true) (remove_all kills d)) p (Finished true) Hp eq_refl eq_refl eq_refl) as W. rewrite P in W. cbn [pw] in W. lia.
    + assert (Hp : p < N) by (apply (i_range _ _ _ Iv); rewrite P; cbn; auto).
      pose proof (work_phase N M d (phase_to p (AtTable l) (table_to (Some p) d)) p (AtTable l) Hp eq_refl eq_refl eq_refl) as W. rewrite P in W. cbn [pw] in W. lia.
  - destruct (phases d p) eqn:P; try discriminate H. assert (Hp : p < N) by (apply (i_range _ _ _ Iv); rewrite P; cbn; auto). destruct l as [|t l].
    + injection H as <-. pose proof (work_phase N M d (phase_to p (Finished true) (table_to None d)) p (Finished true) Hp eq_refl eq_refl eq_refl) as W. rewrite P in W. cbn [pw length] in W. lia.
    + destruct (removed d t); injection H as <-.
      * pose proof (work_phase N M d (phase_to p (AtTable l) d) p (AtTable l) Hp eq_refl eq_refl eq_refl) as W. rewrite P in W. cbn [pw length] in W. lia.
      * pose proof (work_phase N M d (phase_to p (WantCtl (mkReq t Conn false true true l)) d) p _ Hp eq_refl eq_refl eq_refl) as W. rewrite P in W. cbn [pw length after tabled todo] in W. unfold after in W. cbn [tabled todo] in W. lia.
  - destruct (phases d p) eqn:P; try discriminate H. destruct (ctl d (on r)); [discriminate H|]. injection H as <-.
    assert (Hp : p < N) by (apply (i_range _ _ _ Iv); rewrite P; cbn; auto).
    pose proof (work_phase N M d (phase_to p (Sending r) (ctl_to (on r) (Some p) d)) p _ Hp eq_refl eq_refl eq_refl) as W. rewrite P in W. cbn [pw] in W. lia.
  - destruct (phases d p) eqn:P; try discriminate H. destruct (session_range N M d p r Iv ltac:(right; left; exact P)) as [Hs Hp]. destruct (chan_eqb (via r) Push).
    + assert (E : d' = continue p r (queue_to (on r) (S (queue d (on r))) d)) by (destruct (srv d (on r)); try discriminate H; destruct (queue d (on r) <? push_capacity); congruence).
      subst d'. pose proof (work_step N M d (continue p r (queue_to (on r) (S (queue d (on r))) d)) p _ (on r) Hp Hs eq_refl) as W.
      specialize (W ltac:(intros t Nt; cbn; rewrite upd_other by exact Nt; auto)). rewrite P in W. change (pw (Sending r)) with (5 + after r) in W.
      change (srv (continue p r (queue_to (on r) (S (queue d (on r))) d)) (on r)) with (srv d (on r)) in W.
      assert (X : queue (continue p r (queue_to (on r) (S (queue d (on r))) d)) (on r) = S (queue d (on r))) by (cbn; apply upd_same). rewrite X in W.
      pose proof (after_weight r). lia.
    + destruct (srv d (on r)) eqn:S; try discriminate H. injection H as <-.
      pose proof (work_step N M d (phase_to p (Waiting r (next d)) (srv_to (on r) (Handling (via r) (next d) (last r)) (fresh_message d))) p _ (on r) Hp Hs eq_refl) as W.
      specialize (W ltac:(intros t Nt; cbn; rewrite upd_other by exact Nt; auto)). rewrite P, S in W.
      remember (phase_to p (Waiting r (next d)) (srv_to (on r) (Handling (via r) (next d) (last r)) (fresh_message d))) as d1 eqn:E1.
      assert (X : sw (srv d1 (on r)) = 2 /\ queue d1 (on r) = queue d (on r)) by (rewrite E1; cbn; rewrite upd_same; auto). destruct X as [X1 X2]. rewrite X1, X2 in W. cbn [pw sw] in W. lia.
  - destruct (srv d t) eqn:S; try discriminate H. injection H as <-. assert (Ht : t < M). { destruct (le_lt_dec M t) as [Ht|]; [|assumption]. destruct (Q t Ht) as [[E|E] _]; congruence. }
    pose proof (work_srv N M d (srv_to t (Acking k n last) d) t Ht eq_refl) as W. specialize (W ltac:(intros u Nu; cbn; rewrite upd_other by exact Nu; auto)).
    rewrite S in W.
    remember (srv_to t (Acking k n last) d) as d1 eqn:E1.
    assert (X : sw (srv d1 t) = 1 /\ queue d1 t = queue d t) by (rewrite E1; cbn; rewrite upd_same; auto). destruct X as [X1 X2]. rewrite X1, X2 in W. cbn [sw] in W. lia.
  - destruct (phases d p) eqn:P; try discriminate H. destruct (session_range N M d p r Iv ltac:(right; right; eauto)) as [Hs Hp].
    destruct (srv d (on r)) as [|k m e|k m e|] eqn:S; try discriminate H. destruct (chan_eqb k (via r)); [|discriminate H]. injection H as <-.
    pose proof (work_step N M d (continue p r (record_ack n m (srv_to (on r) (if e then Ended else Serving) d))) p _ (on r) Hp Hs eq_refl) as W.
    specialize (W ltac:(intros t Nt; cbn; rewrite upd_other by exact Nt; auto)). rewrite P, S in W. change (pw (Waiting r n)) with (2 + after r) in W.
    change (queue (continue p r (record_ack n m (srv_to (on r) (if e then Ended else Serving) d))) (on r)) with (queue d (on r)) in W.
    assert (X : sw (srv (continue p r (record_ack n m (srv_to (on r) (if e then Ended else Serving) d))) (on r)) = 0) by (cbn; rewrite upd_same; destruct e; reflexivity). rewrite X in W.
    pose proof (after_weight r). cbn [sw] in W. lia.
  - destruct (srv d t) eqn:S; try discriminate H. destruct (queue d t) eqn:E; [discriminate H|]. injection H as <-.
    assert (Ht : t < M). { destruct (le_lt_dec M t) as [Ht|]; [|assumption]. destruct (Q t Ht) as [_ E']; congruence. }
    pose proof (work_srv N M d (queue_to t n d) t Ht eq_refl) as W. specialize (W ltac:(intros u Nu; cbn; rewrite upd_other by exact Nu; auto)).
    rewrite E in W.
    remember (queue_to t n d) as d1 eqn:E1.
    assert (X : sw (srv d1 t) = sw (srv d t) /\ queue d1 t = n) by (rewrite E1; cbn; rewrite upd_same; auto). destruct X as [X1 X2]. rewrite X1, X2 in W. lia.
  - assert (E : exists r, d' = fail p r d /\ leaves d p r /\ 0 < pw (phases d p)).
    { destruct (phases d p) eqn:P; try discriminate H; destruct (srv d (on r)); try discriminate H; injection H as <-; exists r; (split; [reflexivity|]); (split; [|cbn [pw]; lia]); [left; exact P|right; eauto]. }
    destruct E as (r & -> & L & Z). destruct (session_range N M d p r Iv (or_intror L)) as [_ Hp].
    pose proof (work_phase N M d (fail p r d) p (Finished false) Hp) as W. unfold fail in *. destruct (tabled r); specialize (W eq_refl eq_refl eq_refl); cbn [pw] in W; lia.
Qed.

Lemma path_run N M d l d' : path N M d l d' -> run N M d l = d'.
Proof. induction 1; [reflexivity|]. cbn. unfold exec. rewrite H. exact IHpath. Qed.
Lemma path_work N M d l d' : path N M d l d' -> Inv N M d -> quiet M d -> Forall by_itself l -> length l + work N M d' <= work N M d.
Proof.
  induction 1; intros Iv Q B; [cbn; lia|]. inversion B; subst. pose proof (step_work _ _ _ _ _ Iv Q H3 H). specialize (IHpath (step_inv _ _ _ _ _ Iv H) (step_quiet _ _ _ _ _ Iv Q H) H4). cbn. lia.
Qed.
Lemma live N M : forall w d, work N M d <= w -> Inv N M d -> quiet M d -> (forall s, attended d s) ->
  exists l d', Forall by_itself l /\ path N M d l d' /\ forall p, at_rest (phases d' p).
Proof.
  induction w as [w IH] using lt_wf_ind. intros d Hw Iv Q At.
  assert (D : (forall p, at_rest (phases d p)) \/ exists p, ~ at_rest (phases d p)).
  { destruct (existsb (fun p => match phases d p with Resting | Finished _ => false | _ => true end) (seq 0 N)) eqn:E.
    - right. apply existsb_exists in E as (p & _ & E). exists p. destruct (phases d p); cbn; congruence.
    - left. intros p. destruct (le_lt_dec N p) as [L|L].
      + destruct (phases d p) eqn:P; cbn; auto; (assert (X : p < N) by (apply (i_range _ _ _ Iv); rewrite P; cbn; auto); lia).
      + apply Bool.not_true_iff_false in E. destruct (phases d p) eqn:P; cbn; auto; exfalso; apply E; apply existsb_exists; exists p; (split; [apply in_seq; lia|rewrite P; reflexivity]). }
  destruct D as [D|(p & B)]; [exists [], d; repeat split; auto; constructor|].
  destruct (move_any N M d p Iv At B) as (a & Ba & S). destruct (step N M d a) as [d1|] eqn:E; [|congruence].
  pose proof (step_work _ _ _ _ _ Iv Q Ba E) as L. destruct (IH (work N M d1) ltac:(lia) d1 (le_n _) (step_inv _ _ _ _ _ Iv E) (step_quiet _ _ _ _ _ Iv Q E)) as (l & d2 & Bl & Pl & R).
  { eapply step_attended; [exact Iv| |exact E|exact At]. destruct a; cbn in *; tauto. }
  exists (a :: l), d2. split; [constructor; assumption|]. split; [econstructor; eassumption|exact R].
Qed.
