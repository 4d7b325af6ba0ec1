From Coq Require Import List NArith ZArith Bool Arith Lia.
From Verif Require Import Model.Base Model.Protocol Model.Names Model.Server Spec.ServerSpec
  Proofs.BaseLemmas Proofs.ServerProofs Proofs.ServerEvents.
Import ListNotations.
Open Scope nat_scope.

Lemma lookup_congr_remove {V} (t u : list (rstr * V)) m :
  (forall n, lookup n t = lookup n u) -> forall n, lookup n (remove m t) = lookup n (remove m u).
Proof.
  intros H n. destruct (str_eq_dec n m) as [->|N]; [rewrite !lookup_remove_eq; reflexivity|].
  rewrite !lookup_remove_neq by assumption. apply H.
Qed.

Lemma lookup_congr_insert {V} (t u : list (rstr * V)) m v :
  (forall n, lookup n t = lookup n u) -> forall n, lookup n (insert m v t) = lookup n (insert m v u).
Proof.
  intros H n. destruct (str_eq_dec n m) as [->|N]; [rewrite !lookup_insert_eq; reflexivity|].
  rewrite !lookup_insert_neq by assumption. apply H.
Qed.

Lemma replay_removals rm : forall t u t0,
  (forall n, lookup n t = lookup n u) ->
  forall n, lookup n (fold_left (fun t n => remove n t) rm t) = lookup n (fold_left replay1 (removal_events t0 rm) u).
Proof.
  induction rm as [|m rm IH]; intros t u t0 H n; cbn [fold_left removal_events]; [apply H|].
  apply IH. apply lookup_congr_remove. exact H.
Qed.

Lemma tells_replay st a t es u :
  tells st a t es -> (forall n, lookup n (table st) = lookup n u) ->
  forall n, lookup n t = lookup n (fold_left replay1 es u).
Proof.
  intros T H. destruct T; cbn [fold_left replay1 e_kind e_sid e_name]; auto.
  - destruct (lookup (h_name h) (table st)); cbn [app fold_left replay1 e_kind e_sid e_name].
    + intros n. rewrite (lookup_congr_insert _ _ _ _ H).
      destruct (str_eq_dec n (h_name h)) as [->|N]; [rewrite !lookup_insert_eq; reflexivity|].
      rewrite !lookup_insert_neq, lookup_remove_neq by assumption. reflexivity.
    + apply lookup_congr_insert. exact H.
  - apply lookup_congr_remove. exact H.
  - apply replay_removals. exact H.
  - apply lookup_congr_remove. exact H.
Qed.

(** Names in the table are distinct. *)
Lemma in_remove {V} n m (t : list (rstr * V)) : In n (map fst (remove m t)) -> In n (map fst t) /\ n <> m.
Proof.
  induction t as [|[k v] t IH]; cbn [remove map]; [intros []|].
  destruct (str_eqb m k) eqn:E.
  - intros H. destruct (IH H). cbn. auto.
  - cbn. intros [->|H]; [|destruct (IH H); auto]. apply str_eqb_neq in E. auto.
Qed.

Lemma nodup_remove {V} m (t : list (rstr * V)) : NoDup (map fst t) -> NoDup (map fst (remove m t)).
Proof.
  induction t as [|[k v] t IH]; cbn [remove map fst]; [auto|]. intros H. inversion H; subst.
  destruct (str_eqb m k); [auto|]. cbn. constructor; [|auto]. intros Hin. apply in_remove in Hin as [Hin _]. auto.
Qed.

Lemma nodup_insert {V} m v (t : list (rstr * V)) : NoDup (map fst t) -> NoDup (map fst (insert m v t)).
Proof.
  intros H. unfold insert. cbn. constructor; [|apply nodup_remove; exact H].
  intros Hin. apply in_remove in Hin as [_ Hin]. auto.
Qed.

Lemma remove_absent {V} m (t : list (rstr * V)) : lookup m t = None -> remove m t = t.
Proof.
  induction t as [|[k v] t IH]; cbn [lookup remove]; [reflexivity|].
  destruct (str_eqb m k); [discriminate|]. intros H. rewrite IH by assumption. reflexivity.
Qed.

Lemma lookup_in_keys {V} n (t : list (rstr * V)) : lookup n t = None <-> ~ In n (map fst t).
Proof.
  induction t as [|[k v] t IH]; cbn [lookup map fst In]; [split; auto|].
  destruct (str_eqb n k) eqn:E.
  - apply str_eqb_eq in E. subst. split; [discriminate|]. intros H. exfalso. auto.
  - apply str_eqb_neq in E. rewrite IH. split; intros H; [intros [->|G]; auto|auto].
Qed.

Lemma remove_length {V} m (t : list (rstr * V)) v :
  NoDup (map fst t) -> lookup m t = Some v -> S (length (remove m t)) = length t.
Proof.
  induction t as [|[k w] t IH]; cbn [lookup remove map fst length]; [discriminate|].
  intros H L. inversion H; subst. destruct (str_eqb m k) eqn:E.
  - apply str_eqb_eq in E. subst. rewrite remove_absent; [reflexivity|]. apply lookup_in_keys. assumption.
  - cbn. rewrite IH; auto.
Qed.

Lemma tells_nodup st a t es : tells st a t es -> NoDup (map fst (table st)) -> NoDup (map fst t).
Proof.
  intros T H. destruct T; auto using nodup_insert, nodup_remove.
  generalize dependent (table st). induction (filter (present st) names) as [|m rm IH]; intros t H; cbn; auto using nodup_remove.
Qed.

Lemma nodup_run st : reachable st -> NoDup (map fst (table st)).
Proof.
  intros (d & l & ->). induction l as [|a l IH] using rev_ind; [constructor|].
  unfold run. rewrite fold_left_app. cbn [fold_left]. fold (run (server_new d) l).
  destruct (step_tells (run (server_new d) l) a) as (es & _ & T). eapply tells_nodup; eassumption.
Qed.

Lemma count_app k a b : count k (a ++ b) = count k a + count k b.
Proof. unfold count. rewrite filter_app, app_length. reflexivity. Qed.

Lemma count_cons k e es : count k (e :: es) = (if kind_eqb (e_kind e) k then 1 else 0) + count k es.
Proof. unfold count. cbn [filter]. destruct (kind_eqb (e_kind e) k); reflexivity. Qed.

Lemma removal_counts rm : forall (t : list (rstr * sid)),
  NoDup rm -> NoDup (map fst t) -> (forall n, In n rm -> exists s, lookup n t = Some s) ->
  length (fold_left (fun t n => remove n t) rm t) + count ERemoved (removal_events t rm) = length t /\
  count ECreated (removal_events t rm) = 0.
Proof.
  induction rm as [|m rm IH]; intros t D1 D2 H; cbn [fold_left removal_events]; [cbn; auto|].
  inversion D1; subst. destruct (H m (or_introl eq_refl)) as [s Hs].
  destruct (IH (remove m t)) as [E1 E2]; [assumption|apply nodup_remove; assumption| |].
  - intros n Hn. destruct (H n (or_intror Hn)) as [s' Hs']. exists s'. rewrite lookup_remove_neq; [exact Hs'|]. intros ->. auto.
  - pose proof (remove_length m t s D2 Hs) as L. rewrite !count_cons. cbn [kind_eqb e_kind]. split; [|exact E2]. cbn [plus]. rewrite Nat.add_succ_r. etransitivity; [apply f_equal; exact E1|exact L].
Qed.

Definition kills_nodup (st : server) : Prop := forall c pid names, handlers st c = HAccepted pid (QKill names) -> NoDup names.

(** Requests only come from the connection step. *)
Lemma step_accepted st a c pid q : handlers (step st a) c = HAccepted pid q ->
  handlers st c = HAccepted pid q \/ exists self p, a = AConnect c self p (Some q) /\ check_peer self p = Ok pid.
Proof.
  intros H. destruct (actor a) as [c0|] eqn:A; [|rewrite step_other in H by congruence; auto].
  destruct (Nat.eq_dec c0 c) as [->|N]; [|rewrite step_other in H by congruence; auto].
  destruct a; cbn [actor] in A; try discriminate A; injection A as ->; cbn [step] in H; try (left; exact H).
  { unfold connect in H. destruct (handlers st c) eqn:Hc; try (left; congruence). destruct q0 as [q0|].
    - destruct (check_peer self p) as [pid0|why] eqn:Hp.
      + rewrite goto_same in H. injection H as -> ->. right. eauto.
      + destruct q0; rewrite goto_same in H; discriminate H.
    - rewrite goto_same in H. discriminate H. }
  all: try (match type of H with handlers (handle_kill ?st ?c ?o) _ = _ =>
       destruct (handle_kill_shape st c o) as [E|(pid0 & names & Hc & Hl & [(sg & _ & E)|(sg & nf & rm & Hk & E)])]; rewrite E in H;
       [auto|rewrite goto_same in H; discriminate H|rewrite goto_same in H; discriminate H] end).
  all: unfold attach_select, attach_spawn, attach_insert, attach_fetch, attach_wake, attach_reply, attach_start, attach_end,
       attach_unwind, attach_leave, detach_begin, detach_next, detach_finish, message_begin, message_send, handle_list, handle_log_level,
       handle_get_vars, modify_begin, modify_collect, modify_send in H;
    repeat match type of H with context [match ?e with _ => _ end] => destruct e eqn:? end;
    solve [left; congruence | rewrite goto_same in H; discriminate H].
Qed.

Ltac len L := match type of L with S ?a = ?b => match goal with |- context [length (remove ?m ?t)] =>
  change (length (remove m t)) with a; match goal with E : ?b' + _ = _ |- _ => change b' with b in E; rewrite <- L in E; generalize dependent a; intros end end end;
  cbn [app]; rewrite !count_cons; cbn [kind_eqb e_kind]; change (count ERemoved []) with 0; change (count ECreated []) with 0; lia.

Lemma counts_run d l : no_repeated_kills l ->
  length (table (run (server_new d) l)) + count ERemoved (events (run (server_new d) l)) = count ECreated (events (run (server_new d) l)).
Proof.
  intros HN.
  assert (G : kills_nodup (run (server_new d) l) /\
    length (table (run (server_new d) l)) + count ERemoved (events (run (server_new d) l)) = count ECreated (events (run (server_new d) l))).
  { induction l as [|a l IH] using rev_ind; [split; [intros c pid names; cbn; discriminate|reflexivity]|].
    destruct IH as [K E]. { intros c self p names Hin. apply (HN c self p names). apply in_or_app; auto. }
    assert (R : NoDup (map fst (table (run (server_new d) l)))) by (apply nodup_run; exists d, l; reflexivity).
    unfold run. rewrite fold_left_app. cbn [fold_left]. fold (run (server_new d) l).
    set (st := run (server_new d) l) in *. clearbody st. split.
    - intros c pid names Hc. destruct (step_accepted _ _ _ _ _ Hc) as [Hc'|(self & p & -> & _)]; [eauto|].
      apply (HN c self p names). apply in_or_app. cbn. auto.
    - destruct (step_tells st a) as (es & -> & T). rewrite !count_app. destruct T.
      + unfold count in *. cbn. lia.
      + unfold count in *. cbn. lia.
      + unfold insert. cbn [length]. destruct (lookup (h_name h) (table st)) as [old|] eqn:Hl.
        * pose proof (remove_length _ _ _ R Hl) as L. len L.
        * rewrite remove_absent by assumption. unfold count in *. cbn. lia.
      + pose proof (remove_length _ _ _ R H1) as L. len L.
      + unfold count in *. cbn. lia.
      + destruct (removal_counts (filter (present st) names) (table st)) as [E1 E2].
        * apply NoDup_filter. eapply K. eassumption.
        * exact R.
        * intros n Hn. apply filter_In in Hn as [_ Hn]. unfold present in Hn. destruct (lookup n (table st)); [eauto|discriminate].
        * rewrite E2. match type of E1 with ?a + _ = _ => match goal with |- ?a' + _ = _ => change a' with a; generalize dependent a; intros end end.
          match type of E1 with _ = ?b => match type of E with ?b' + _ = _ => change b' with b in E end end. lia.
      + pose proof (remove_length _ _ _ R H4) as L. len L. }
  apply G.
Qed.
