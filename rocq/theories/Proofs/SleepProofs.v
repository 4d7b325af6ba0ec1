From Coq Require Import List NArith Bool Lia Arith ZifyBool ZifyN ZifyNat.
From Verif Require Import Model.Base Model.Sleep Spec.SleepSpec.
Import ListNotations.
Open Scope N_scope.

Lemma interval_next : forall s i,
  interval s (S i) = match s with
    | Backoff _ grows scale max_interval =>
        if grows then N.min (scale (interval s i)) max_interval else interval s i
    | Uniform _ => interval s i
    end.
Proof. intros [d|d [] f m] i; reflexivity. Qed.

Lemma interval_first : forall s,
  interval s 0 = (if (match s with Uniform d => d | Backoff d _ _ _ => d end) =? 0 then 1000000
                  else match s with Uniform d => d | Backoff d _ _ _ => d end).
Proof. intros [[|p]|[|p] ? ? ?]; reflexivity. Qed.

(** What holds of the accumulated sleeps before iteration [i]. *)
Definition so_far (stop : nat -> bool) (deadline : N) (s : poll_strategy) (i : nat) (done : list (N * N)) : Prop :=
  length done = i /\
  (forall j, (j < i)%nat -> stop j = false) /\
  (forall j now d, nth_error done j = Some (now, d) ->
     now < deadline /\ d = N.min (deadline - now) (interval s j)).

Lemma sleep_loop_spec : forall stop delay fuel i t deadline s done r,
  so_far stop deadline s i done ->
  sleep_loop stop delay fuel i t deadline (interval s i) s done = Some r ->
  polls r = S (length (sleeps r)) /\
  so_far stop deadline s (length (sleeps r)) (sleeps r) /\
  stop (length (sleeps r)) = answer r /\
  (answer r = false -> deadline <= ended r).
Proof.
  intros stop delay. induction fuel as [|fuel IH]; intros i t deadline s done r Hs Hr; [discriminate|].
  cbn [sleep_loop] in Hr. destruct (stop i) eqn:Es.
  - injection Hr as <-. cbn. destruct Hs as (Hl & H). rewrite Hl.
    split; [reflexivity|]. split; [split; assumption|]. split; [assumption|discriminate].
  - destruct (deadline <=? t + delay i) eqn:Ed.
    + injection Hr as <-. cbn. destruct Hs as (Hl & H). rewrite Hl.
      split; [reflexivity|]. split; [split; assumption|]. split; [assumption|]. intros _. lia.
    + rewrite <- interval_next in Hr. eapply IH; [|exact Hr].
      destruct Hs as (Hl & Hf & Hd). split; [rewrite app_length; cbn; lia|]. split.
      * intros j Hj. destruct (Nat.eq_dec j i) as [->|]; [assumption|apply Hf; lia].
      * intros j now d Hn. destruct (Nat.lt_ge_cases j i).
        -- rewrite nth_error_app1 in Hn by lia. apply Hd. assumption.
        -- rewrite nth_error_app2 in Hn by lia. destruct (j - length done)%nat as [|k] eqn:Ek.
           ++ cbn in Hn. injection Hn as <- <-. assert (j = i) by lia. subst j. split; [lia|reflexivity].
           ++ destruct k; discriminate.
Qed.

(** Consecutive sleeps do not overlap. *)
Definition spaced (done : list (N * N)) (t : N) : Prop :=
  (forall j now d, nth_error done j = Some (now, d) ->
     (forall now' d', nth_error done (S j) = Some (now', d') -> now + d <= now') /\
     (nth_error done (S j) = None -> now + d <= t)).

Lemma sleep_loop_spaced : forall stop delay fuel i t deadline n s done r,
  spaced done t ->
  sleep_loop stop delay fuel i t deadline n s done = Some r ->
  spaced (sleeps r) (ended r).
Proof.
  intros stop delay. induction fuel as [|fuel IH]; intros i t deadline n s done r Hs Hr; [discriminate|].
  cbn [sleep_loop] in Hr.
  assert (Hw : forall t', t <= t' -> spaced done t').
  { intros t' Ht j now d Hn. destruct (Hs j now d Hn) as (A & B). split; [exact A|]. intros E. specialize (B E). lia. }
  destruct (stop i); [injection Hr as <-; apply Hw; cbn; lia|].
  destruct (deadline <=? t + delay i) eqn:Ed; [injection Hr as <-; apply Hw; cbn; lia|].
  eapply IH; [|exact Hr].
  intros j now d Hn. destruct (Nat.lt_ge_cases j (length done)).
  - rewrite nth_error_app1 in Hn by assumption. destruct (Hs j now d Hn) as (A & B).
    destruct (Nat.lt_ge_cases (S j) (length done)).
    + rewrite nth_error_app1 by assumption. split; [exact A|].
      intros E. apply nth_error_None in E. lia.
    + rewrite nth_error_app2 by lia. assert (E : (S j - length done = 0)%nat) by lia. rewrite E. cbn.
      split; [|discriminate]. intros now' d' [= <- <-].
      assert (Hx : nth_error done (S j) = None) by (apply nth_error_None; lia). specialize (B Hx). lia.
  - rewrite nth_error_app2 in Hn by lia. destruct (j - length done)%nat as [|k] eqn:Ek; [|destruct k; discriminate].
    cbn in Hn. injection Hn as <- <-. split.
    + intros now' d' E. rewrite nth_error_app2 in E by lia. replace (S j - length done)%nat with 1%nat in E by lia. discriminate.
    + intros _. lia.
Qed.

Lemma sleep_loop_terminates : forall stop delay s deadline, always_pauses s ->
  forall k i t done fuel, (deadline - t < N.of_nat k) -> (k <= fuel)%nat ->
  exists r, sleep_loop stop delay fuel i t deadline (interval s i) s done = Some r.
Proof.
  intros stop delay s deadline Hp. induction k as [|k IH]; intros i t done fuel Hk Hf; [lia|].
  destruct fuel as [|fuel]; [lia|]. cbn [sleep_loop].
  destruct (stop i); [eexists; reflexivity|].
  destruct (deadline <=? t + delay i) eqn:Ed; [eexists; reflexivity|].
  rewrite <- interval_next. apply IH; [|lia]. pose proof (Hp i). lia.
Qed.

(** The first poll is before any sleep. *)
Lemma nth_error_S_None : forall {A} (l : list A) j, nth_error l j = None -> nth_error l (S j) = None.
Proof. intros A l j H. apply nth_error_None in H. apply nth_error_None. lia. Qed.

Lemma always_pauses_iff : forall s, always_pauses s <->
  match s with
  | Uniform _ | Backoff _ false _ _ => True
  | Backoff _ true scale cap => 0 < cap /\ forall i, 0 < scale (interval s i)
  end.
Proof.
  intros [d|d [] f m]; split; auto; intros H.
  - intros i. induction i; [rewrite interval_first|rewrite interval_next]; [|exact IHi]. cbn. destruct (d =? 0) eqn:E; lia.
  - split; [specialize (H 1%nat)|intros i; specialize (H (S i))]; rewrite interval_next in H; lia.
  - intros [|i]; [rewrite interval_first; cbn; destruct (d =? 0) eqn:E; lia|].
    rewrite interval_next. destruct H as (A & B). specialize (B i). lia.
  - intros i. induction i; [rewrite interval_first|rewrite interval_next]; [|exact IHi]. cbn. destruct (d =? 0) eqn:E; lia.
Qed.

(** Zero pauses and a clock that does not move on by itself. *)
Lemma sleep_loop_spins : forall fuel i t deadline d s done, t < deadline ->
  (forall j, (i <= j)%nat -> interval s j = 0) ->
  s = Backoff d true (fun x => 2 * x) 0 ->
  sleep_loop (fun _ => false) (fun _ => 0) fuel i t deadline (interval s i) s done = None.
Proof.
  induction fuel as [|fuel IH]; intros i t deadline d s done Ht Hz Es; [reflexivity|].
  cbn [sleep_loop]. rewrite N.add_0_r. replace (deadline <=? t) with false by (symmetry; lia).
  rewrite <- interval_next. rewrite (Hz i) by lia. rewrite N.min_0_r, N.add_0_r.
  eapply IH; [assumption|intros j Hj; apply Hz; lia|exact Es].
Qed.
