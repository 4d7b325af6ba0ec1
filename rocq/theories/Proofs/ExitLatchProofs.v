From Coq Require Import List NArith ZArith Bool Lia Arith.
From Verif Require Import Model.Base Model.ExitLatch.
Import ListNotations.

Lemma find_map_wake : forall w l,
  find_waiter w (map (fun p => (fst p, wake (snd p))) l) = option_map wake (find_waiter w l).
Proof.
  intros w. induction l as [|[w' x] l IH]; [reflexivity|]. cbn. destruct (Nat.eqb w w'); [reflexivity|exact IH].
Qed.

Lemma find_drop_eq : forall w l, find_waiter w (drop_waiter w l) = None.
Proof.
  intros w. induction l as [|[w' x] l IH]; [reflexivity|]. cbn. destruct (Nat.eqb w w') eqn:E; [exact IH|].
  cbn. rewrite E. exact IH.
Qed.

Lemma find_drop_neq : forall w w' l, w <> w' -> find_waiter w (drop_waiter w' l) = find_waiter w l.
Proof.
  intros w w' l H. induction l as [|[w2 x] l IH]; [reflexivity|]. cbn.
  destruct (Nat.eqb w' w2) eqn:E.
  - apply Nat.eqb_eq in E. subst w2. destruct (Nat.eqb w w') eqn:E2; [apply Nat.eqb_eq in E2; congruence|exact IH].
  - cbn. destruct (Nat.eqb w w2); [reflexivity|exact IH].
Qed.

Lemma latch_run_app : forall a b s,
  latch_run s (a ++ b) = match latch_run s a with Some s' => latch_run s' b | None => None end.
Proof.
  induction a as [|e a IH]; intros b s; [reflexivity|]. cbn. destruct (latch_step s e); [apply IH|reflexivity].
Qed.

(** The status recorded by a history: that of the last notification. *)
Fixpoint recorded (es : list latch_event) : option Z :=
  match es with
  | [] => None
  | e :: es' => match recorded es' with
                | Some s => Some s
                | None => match e with Notify s => Some s | _ => None end
                end
  end.

Lemma recorded_app : forall a b,
  recorded (a ++ b) = match recorded b with Some s => Some s | None => recorded a end.
Proof.
  induction a as [|e a IH]; intros b; cbn; [destruct (recorded b); reflexivity|].
  rewrite IH. destruct (recorded b); reflexivity.
Qed.

Lemma slot_recorded : forall es s s', latch_run s es = Some s' ->
  slot s' = match recorded es with Some x => Some x | None => slot s end.
Proof.
  induction es as [|e es IH]; intros s s' H; [injection H as <-; reflexivity|]. cbn in H.
  destruct (latch_step s e) as [s1|] eqn:E; [|discriminate]. rewrite (IH _ _ H). cbn.
  destruct (recorded es); [reflexivity|].
  destruct e as [st|w t|w|w]; cbn in E.
  - injection E as <-. reflexivity.
  - destruct (find_waiter w (inside s)); [discriminate|]. destruct (slot s) eqn:Es; injection E as <-; cbn; congruence.
  - destruct (find_waiter w (inside s)) as [[[]| | ]|]; try discriminate. injection E as <-. reflexivity.
  - destruct (find_waiter w (inside s)) as [[|  |]|]; try discriminate; injection E as <-; reflexivity.
Qed.

(** Once the slot is set nobody is parked, and somebody notified implies it is set. *)
Definition latch_ok (s : latch) : Prop :=
  (slot s <> None -> forall w t, find_waiter w (inside s) <> Some (Parked t)) /\
  (forall w, find_waiter w (inside s) = Some Notified -> slot s <> None).

Lemma latch_ok_step : forall s e s', latch_ok s -> latch_step s e = Some s' -> latch_ok s'.
Proof.
  intros s e s' (H1 & H2) E. destruct e as [st|w t|w|w]; cbn in E.
  - injection E as <-. split; cbn.
    + intros _ w t. rewrite find_map_wake. destruct (find_waiter w (inside s)) as [[]|]; cbn; discriminate.
    + intros w _. discriminate.
  - destruct (find_waiter w (inside s)) eqn:Ef; [discriminate|]. destruct (slot s) eqn:Es; injection E as <-.
    + split; cbn; [intros _; apply H1; discriminate|intros; discriminate].
    + split; cbn; [congruence|]. intros w'. destruct (Nat.eqb w' w); [discriminate|]. intros Hn. apply H2 in Hn. congruence.
  - destruct (find_waiter w (inside s)) as [[[]| | ]|] eqn:Ef; try discriminate. injection E as <-. split; cbn.
    + intros Hs. exfalso. apply (H1 Hs w true). assumption.
    + intros w'. destruct (Nat.eqb w' w) eqn:Ew; [discriminate|].
      rewrite find_drop_neq; [apply H2|]. intros ->. rewrite Nat.eqb_refl in Ew. discriminate.
  - destruct (find_waiter w (inside s)) as [[|  |]|] eqn:Ef; try discriminate; injection E as <-; split; cbn.
    + intros Hs w' t. destruct (Nat.eq_dec w' w) as [->|n]; [rewrite find_drop_eq; discriminate|].
      rewrite find_drop_neq by assumption. apply H1. assumption.
    + intros w'. destruct (Nat.eq_dec w' w) as [->|n]; [rewrite find_drop_eq; discriminate|].
      rewrite find_drop_neq by assumption. apply H2.
    + intros Hs w' t. destruct (Nat.eq_dec w' w) as [->|n]; [rewrite find_drop_eq; discriminate|].
      rewrite find_drop_neq by assumption. apply H1. assumption.
    + intros w'. destruct (Nat.eq_dec w' w) as [->|n]; [rewrite find_drop_eq; discriminate|].
      rewrite find_drop_neq by assumption. apply H2.
Qed.

Lemma latch_ok_run : forall es s s', latch_ok s -> latch_run s es = Some s' -> latch_ok s'.
Proof.
  induction es as [|e es IH]; intros s s' H E; [injection E as <-; assumption|]. cbn in E.
  destruct (latch_step s e) eqn:Es; [|discriminate]. eapply IH; [|exact E]. eapply latch_ok_step; eassumption.
Qed.

Lemma latch_ok_new : latch_ok new_latch.
Proof. split; cbn; [congruence|discriminate]. Qed.

(** The log only grows. *)
Lemma returned_grows : forall e s s', latch_step s e = Some s' ->
  exists l, returned s' = returned s ++ l.
Proof.
  intros [st|w t|w|w] s s' E; cbn in E.
  - injection E as <-. exists []. rewrite app_nil_r. reflexivity.
  - destruct (find_waiter w (inside s)); [discriminate|]. destruct (slot s); injection E as <-.
    + eexists. reflexivity.
    + exists []. rewrite app_nil_r. reflexivity.
  - destruct (find_waiter w (inside s)) as [[[]| | ]|]; try discriminate. injection E as <-. exists []. rewrite app_nil_r. reflexivity.
  - destruct (find_waiter w (inside s)) as [[|  |]|]; try discriminate; injection E as <-; eexists; reflexivity.
Qed.
