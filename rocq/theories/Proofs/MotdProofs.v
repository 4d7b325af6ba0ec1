From Coq Require Import List NArith ZArith Bool Lia.
From Verif Require Import Model.Base Model.Chunk Model.Protocol Model.Config Model.Duration Model.Pager Model.Motd
  Spec.MotdSpec Spec.SpawnSpec Proofs.BaseLemmas Proofs.NamesProofs.
Import ListNotations.
Open Scope Z_scope.

(** * Debouncer *)

Lemma fire_run_length d calls : length (fire_run d calls) = length calls.
Proof.
  revert d; induction calls as [|[t1 t2] calls IH]; intros d; cbn [fire_run]; [reflexivity|].
  destruct (should_fire d t1 t2) as [[b d']|]; cbn [length]; rewrite IH; reflexivity.
Qed.

Lemma fire_run_dur d t1 t2 b d' : should_fire d t1 t2 = Ok (b, d') -> dur d' = dur d.
Proof.
  unfold should_fire. destruct (t1 <? last_fired d); [discriminate|].
  destruct (dur d <=? t1 - last_fired d); intros H; injection H as _ <-; reflexivity.
Qed.

Lemma fire_run_never_err d calls now : last_fired d <= now -> clock_forward now calls ->
  forall i o, nth_error (fire_run d calls) i = Some o -> exists b, o = Ok b.
Proof.
  revert d now; induction calls as [|[t1 t2] calls IH]; intros d now Hl Hc i o Hn; cbn [fire_run] in Hn.
  - destruct i; discriminate.
  - destruct Hc as (H1 & H2 & Hc). unfold should_fire in Hn.
    destruct (Z.ltb_spec t1 (last_fired d)); [lia|].
    destruct (Z.leb_spec (dur d) (t1 - last_fired d)).
    + destruct i; cbn [nth_error] in Hn; [injection Hn as <-; eauto|].
      eapply IH; [|exact Hc|exact Hn]. cbn [last_fired]. lia.
    + destruct i; cbn [nth_error] in Hn; [injection Hn as <-; eauto|].
      eapply IH; [|exact Hc|exact Hn]. lia.
Qed.

(** A firing is at least [dur] after the stored time. *)
Lemma fire_run_after d calls now : last_fired d <= now -> clock_forward now calls -> 0 <= dur d ->
  forall j t1 t2, answered calls (fire_run d calls) j t1 t2 true -> dur d <= t1 - last_fired d.
Proof.
  revert d now; induction calls as [|[t1 t2] calls IH]; intros d now Hl Hc Hd j u1 u2 [Hj Ho]; cbn [fire_run] in Ho.
  - destruct j; discriminate.
  - destruct Hc as (H1 & H2 & Hc). unfold should_fire in Ho.
    destruct (Z.ltb_spec t1 (last_fired d)); [lia|].
    destruct (Z.leb_spec (dur d) (t1 - last_fired d)).
    + destruct j; cbn [nth_error] in Hj, Ho; [injection Hj as <- <-; assumption|].
      assert (A : dur d <= u1 - t2).
      { change (dur d) with (dur {| last_fired := t2; dur := dur d |}).
        change t2 with (last_fired {| last_fired := t2; dur := dur d |}) at 2.
        eapply IH with (now := t2); cbn [last_fired dur]; [lia|exact Hc|exact Hd|split; eassumption]. }
      lia.
    + destruct j; cbn [nth_error] in Hj, Ho; [discriminate|].
      eapply IH with (now := t2); [lia|exact Hc|exact Hd|split; eassumption].
Qed.

Lemma fire_run_spaced d calls now : last_fired d <= now -> clock_forward now calls -> 0 <= dur d ->
  forall i j a1 a2 b1 b2, (i < j)%nat ->
  answered calls (fire_run d calls) i a1 a2 true -> answered calls (fire_run d calls) j b1 b2 true -> dur d <= b1 - a2.
Proof.
  revert d now; induction calls as [|[t1 t2] calls IH];
    intros d now Hl Hc Hd i j a1 a2 b1 b2 Hij [Hi Hoi] [Hj Hoj]; cbn [fire_run] in Hoi, Hoj.
  - destruct i; discriminate.
  - destruct j; [lia|]. cbn [nth_error] in Hj. destruct Hc as (H1 & H2 & Hc). unfold should_fire in Hoi, Hoj.
    destruct (Z.ltb_spec t1 (last_fired d)); [lia|].
    destruct (Z.leb_spec (dur d) (t1 - last_fired d)); cbn [nth_error] in Hoj.
    + destruct i; cbn [nth_error] in Hi, Hoi.
      * injection Hi as <- <-.
        assert (A := fire_run_after {| last_fired := t2; dur := dur d |} calls t2).
        cbn [last_fired dur] in A. eapply A; [lia|exact Hc|exact Hd|split; eassumption].
      * change (dur d) with (dur {| last_fired := t2; dur := dur d |}).
        eapply IH with (now := t2) (i := i) (j := j); cbn [last_fired dur];
          [lia|exact Hc|exact Hd|lia|split; eassumption|split; eassumption].
    + destruct i; cbn [nth_error] in Hi, Hoi; [discriminate|].
      eapply IH with (now := t2) (i := i) (j := j); [lia|exact Hc|exact Hd|lia|split; eassumption|split; eassumption].
Qed.

(** A refusal means a firing less than [dur] ago, or the stored time is. *)
Lemma fire_run_refused d calls now : last_fired d <= now -> clock_forward now calls ->
  forall j b1 b2, answered calls (fire_run d calls) j b1 b2 false ->
  b1 - last_fired d < dur d \/
  exists i a1 a2, (i < j)%nat /\ answered calls (fire_run d calls) i a1 a2 true /\ b1 - a2 < dur d.
Proof.
  revert d now; induction calls as [|[t1 t2] calls IH]; intros d now Hl Hc j b1 b2 [Hj Ho]; cbn [fire_run] in Ho.
  - destruct j; discriminate.
  - destruct Hc as (H1 & H2 & Hc). unfold answered. cbn [fire_run]. unfold should_fire in Ho |- *.
    destruct (Z.ltb_spec t1 (last_fired d)); [lia|].
    destruct (Z.leb_spec (dur d) (t1 - last_fired d)).
    + destruct j; cbn [nth_error] in Hj, Ho; [discriminate|].
      destruct (IH {| last_fired := t2; dur := dur d |} t2) with (j := j) (b1 := b1) (b2 := b2)
        as [A|(i & a1 & a2 & Hi & [A B] & C)]; cbn [last_fired dur] in *; [lia|exact Hc|split; eassumption| |].
      * right. exists 0%nat, t1, t2. split; [lia|]. split; [split; reflexivity|exact A].
      * right. exists (S i), a1, a2. split; [lia|]. split; [split; assumption|exact C].
    + destruct j; cbn [nth_error] in Hj, Ho.
      * injection Hj as <- <-. left. lia.
      * destruct (IH d t2) with (j := j) (b1 := b1) (b2 := b2)
          as [A|(i & a1 & a2 & Hi & [A B] & C)]; [lia|exact Hc|split; eassumption| |].
        -- left. exact A.
        -- right. exists (S i), a1, a2. split; [lia|]. split; [split; assumption|exact C].
Qed.

(** * Raw conversion *)
Local Open Scope N_scope.

Lemma replaced_line nl new line s r : ~ In nl line -> replaced [nl] new s r ->
  replaced [nl] new (line ++ s) (line ++ r).
Proof.
  intros Hn H. induction line as [|c line IH]; [exact H|].
  cbn [app]. apply rep_miss.
  - intros t Ht. cbn [app] in Ht. injection Ht as -> _. apply Hn. left. reflexivity.
  - apply IH. intros Hi. apply Hn. right. exact Hi.
Qed.

Lemma raw_of_parts cr ps : ps <> [] -> (forall p, In p ps -> ~ In 10 p) ->
  exists r, replaced [10] (10 :: cr) (join_with 10 ps) r /\
            concat (map (fun line => line ++ [10] ++ cr) ps) = r ++ 10 :: cr.
Proof.
  induction ps as [|p ps IH]; [contradiction|]. intros _ Hs.
  assert (Hp : ~ In 10 p) by (apply Hs; left; reflexivity).
  destruct ps as [|p2 ps].
  - cbn [join_with map concat]. exists p. split.
    + rewrite <- (app_nil_r p) at 1. rewrite <- (app_nil_r p) at 2. apply replaced_line; [exact Hp|constructor].
    + rewrite app_nil_r. reflexivity.
  - destruct IH as (r & Hr & Hc); [discriminate|intros q Hq; apply Hs; right; exact Hq|].
    exists (p ++ (10 :: cr) ++ r). split.
    + change (join_with 10 (p :: p2 :: ps)) with (p ++ 10 :: join_with 10 (p2 :: ps)).
      apply replaced_line; [exact Hp|]. change (10 :: join_with 10 (p2 :: ps)) with ([10] ++ join_with 10 (p2 :: ps)).
      apply rep_hit. exact Hr.
    + change (map (fun line => line ++ [10] ++ cr) (p :: p2 :: ps))
        with ((p ++ [10] ++ cr) :: map (fun line => line ++ [10] ++ cr) (p2 :: ps)).
      cbn [concat]. rewrite Hc. rewrite <- !app_assoc. reflexivity.
Qed.

Lemma concat_lines cr : ~ In 10 cr -> forall ps qs,
  (forall p, In p ps -> ~ In 10 p) -> (forall p, In p qs -> ~ In 10 p) -> ps <> [] -> qs <> [] ->
  concat (map (fun line => line ++ [10] ++ cr) ps) = concat (map (fun line => line ++ [10] ++ cr) qs) -> ps = qs.
Proof.
  intros Hcr ps qs Hp Hq Np Nq H.
  assert (Len : forall (a b : list N) x y, ~ In 10 a -> ~ In 10 b -> a ++ 10 :: x = b ++ 10 :: y -> a = b /\ x = y).
  { intros a. induction a as [|c a IH]; intros b x y Ha Hb E; destruct b as [|d b]; cbn [app] in E.
    - injection E as ->. auto.
    - injection E as E _. exfalso. apply Hb. left. symmetry. exact E.
    - injection E as E _. exfalso. apply Ha. left. exact E.
    - injection E as -> E. destruct (IH b x y) as [-> ->]; [intros Hi; apply Ha; right; exact Hi|intros Hi; apply Hb; right; exact Hi|exact E|].
      auto. }
  revert qs Hq Nq H. induction ps as [|p ps IH]; [contradiction|]. intros qs Hq Nq H.
  destruct qs as [|q qs]; [contradiction|]. cbn [map concat] in H.
  change (p ++ [10] ++ cr) with (p ++ 10 :: cr) in H. change (q ++ [10] ++ cr) with (q ++ 10 :: cr) in H.
  rewrite <- !app_assoc in H. cbn [app] in H.
  destruct (Len p q _ _ (Hp p (or_introl eq_refl)) (Hq q (or_introl eq_refl)) H) as [-> E].
  apply app_inv_head in E. f_equal.
  destruct ps as [|p2 ps], qs as [|q2 qs].
  - reflexivity.
  - cbn [map concat] in E. destruct q2; discriminate.
  - cbn [map concat] in E. destruct p2; discriminate.
  - apply IH; try discriminate; try exact E.
    + intros x Hx. apply Hp. right. exact Hx.
    + intros x Hx. apply Hq. right. exact Hx.
Qed.

(** * Pager *)

Lemma last_snoc_sizes es s d : last (sizes_of (es ++ [Resize s])) d = s.
Proof. unfold sizes_of. rewrite flat_map_app. cbn [flat_map]. rewrite app_nil_r. apply last_last. Qed.

Lemma pager_turn_returned_mono s t r : returned s = Some r -> pager_turn s t = s.
Proof. intros H. unfold pager_turn. rewrite H. reflexivity. Qed.

Lemma pager_turn_fields s t :
  slot (pager_turn s t) = slot s /\ tty (pager_turn s t) = tty s /\ pager_winsize (pager_turn s t) = pager_winsize s /\
  shell_resizes (pager_turn s t) = shell_resizes s /\ shell_detaches (pager_turn s t) = shell_detaches s.
Proof.
  unfold pager_turn, pager_input, pager_output, send_client.
  repeat match goal with |- context [match ?x with _ => _ end] => destruct x eqn:? end;
    cbn in *; subst; auto 10.
Qed.

Lemma pager_turn_ok s t sz : returned s = None -> returned (pager_turn s t) = Some (PagerOk sz) -> sz = tty s.
Proof.
  intros Hn H. unfold pager_turn in H. rewrite Hn in H.
  unfold pager_input, pager_output, send_client in H.
  repeat match type of H with context [match ?x with _ => _ end] => destruct x eqn:? end;
    cbn in *; try congruence.
Qed.

(** As long as the loop runs. *)
Record running (init : tty_size) (es : list pager_event) (s : pager_state) : Prop := {
  run_slot : slot s = true;
  run_tty : tty s = last (sizes_of es) init;
  run_win : pager_winsize s = last (sizes_of es) init;
  run_shell : shell_resizes s = [];
  run_typed : typed s = keyed es;
  run_frames : data_of (frames_out s) = printed es
}.

Lemma returned_mono s e r : returned s = Some r -> returned (pager_step s e) = Some r.
Proof.
  intros H. destruct e; cbn [pager_step].
  - rewrite (pager_turn_returned_mono s t r H). exact H.
  - unfold pager_resize. destruct (slot s); exact H.
  - exact H.
  - unfold pager_unregister. rewrite H. reflexivity.
Qed.

Lemma data_of_snoc cs c : data_of (cs ++ [c]) = data_of cs ++ (match c_kind c with Data => c_buf c | _ => [] end).
Proof. unfold data_of. rewrite flat_map_app. cbn [flat_map]. rewrite app_nil_r. reflexivity. Qed.

Lemma turn_running s t : returned s = None -> returned (pager_turn s t) = None ->
  typed (pager_turn s t) = typed s ++ (if client_ready t then ok_bytes (client_read t) else []) /\
  data_of (frames_out (pager_turn s t)) =
    data_of (frames_out s) ++ (if pty_ready t then ok_bytes (pty_read t) else []).
Proof.
  intros Hn H. unfold pager_turn in *. rewrite Hn in *.
  destruct (poll_ok t); cbn [negb] in *; [|cbn in H; discriminate].
  destruct (pager_exited t); [cbn in H; discriminate|].
  destruct (pty_ready t) eqn:Ep, (client_ready t) eqn:Ec; cbn [negb andb] in *.
  - unfold pager_output, pager_input, send_client, ok_bytes in *.
    repeat match type of H with context [match ?x with _ => _ end] => destruct x eqn:? end;
      cbn in *; try congruence; subst; cbn in *; try congruence;
      rewrite ?data_of_snoc; cbn; auto.
  - unfold pager_output, send_client, ok_bytes in *.
    repeat match type of H with context [match ?x with _ => _ end] => destruct x eqn:? end;
      cbn in *; try congruence; subst; cbn in *; try congruence;
      rewrite ?data_of_snoc, ?app_nil_r; cbn; auto.
  - rewrite Hn in *. unfold pager_input, send_client, ok_bytes in *.
    repeat match type of H with context [match ?x with _ => _ end] => destruct x eqn:? end;
      cbn in *; try congruence; subst; cbn in *; try congruence;
      rewrite ?data_of_snoc, ?app_nil_r; cbn; auto.
  - rewrite !app_nil_r.
    destruct (last_heartbeat s + HEARTBEAT_DURATION <=? now t); [|auto].
    unfold send_client in *. destruct (client_write t); cbn in *; try discriminate.
    rewrite data_of_snoc. cbn. rewrite app_nil_r. auto.
Qed.

Lemma pager_running init es now : 
  returned (pager_run (pager_start false true init now) es) = None ->
  running init es (pager_run (pager_start false true init now) es).
Proof.
  induction es as [|e es IH] using rev_ind; intros H.
  - constructor; reflexivity.
  - unfold pager_run in *. rewrite fold_left_app in *. cbn [fold_left] in *.
    set (s := fold_left pager_step es (pager_start false true init now)) in *.
    assert (Hs : returned s = None).
    { destruct (returned s) eqn:E; [|reflexivity]. rewrite (returned_mono s e p E) in H. discriminate. }
    destruct (IH Hs) as [R1 R2 R3 R4 R5 R6].
    destruct e; cbn [pager_step] in *.
    + destruct (pager_turn_fields s t) as (F1 & F2 & F3 & F4 & F5).
      destruct (turn_running s t Hs H) as (G1 & G2).
      constructor.
      * congruence.
      * unfold sizes_of in *. rewrite flat_map_app. cbn [flat_map]. rewrite !app_nil_r. congruence.
      * unfold sizes_of in *. rewrite flat_map_app. cbn [flat_map]. rewrite !app_nil_r. congruence.
      * congruence.
      * rewrite G1, R5. unfold keyed. rewrite flat_map_app. cbn [flat_map]. rewrite app_nil_r. reflexivity.
      * rewrite G2, R6. unfold printed. rewrite flat_map_app. cbn [flat_map]. rewrite app_nil_r. reflexivity.
    + unfold pager_resize in *. rewrite R1 in *. constructor; cbn [slot tty pager_winsize shell_resizes typed frames_out].
      * reflexivity.
      * symmetry. apply last_snoc_sizes.
      * symmetry. apply last_snoc_sizes.
      * exact R4.
      * rewrite R5. unfold keyed. rewrite flat_map_app. cbn [flat_map]. rewrite !app_nil_r. reflexivity.
      * rewrite R6. unfold printed. rewrite flat_map_app. cbn [flat_map]. rewrite !app_nil_r. reflexivity.
    + unfold pager_detach. constructor; cbn [slot tty pager_winsize shell_resizes typed frames_out].
      * exact R1.
      * unfold sizes_of in *. rewrite flat_map_app. cbn [flat_map]. rewrite !app_nil_r. exact R2.
      * unfold sizes_of in *. rewrite flat_map_app. cbn [flat_map]. rewrite !app_nil_r. exact R3.
      * exact R4.
      * rewrite R5. unfold keyed. rewrite flat_map_app. cbn [flat_map]. rewrite !app_nil_r. reflexivity.
      * rewrite R6. unfold printed. rewrite flat_map_app. cbn [flat_map]. rewrite !app_nil_r. reflexivity.
    + unfold pager_unregister in *. rewrite Hs in *. constructor.
      * exact R1.
      * unfold sizes_of in *. rewrite flat_map_app. cbn [flat_map]. rewrite !app_nil_r. exact R2.
      * unfold sizes_of in *. rewrite flat_map_app. cbn [flat_map]. rewrite !app_nil_r. exact R3.
      * exact R4.
      * rewrite R5. unfold keyed. rewrite flat_map_app. cbn [flat_map]. rewrite !app_nil_r. reflexivity.
      * rewrite R6. unfold printed. rewrite flat_map_app. cbn [flat_map]. rewrite !app_nil_r. reflexivity.
Qed.

Lemma returned_run s es r : returned s = Some r -> returned (pager_run s es) = Some r.
Proof.
  unfold pager_run. revert s. induction es as [|e es IH]; intros s H; [exact H|].
  cbn [fold_left]. apply IH. apply returned_mono. exact H.
Qed.

Lemma slot_stays_empty s es r : returned s = Some r -> slot s = false ->
  slot (pager_run s es) = false /\ pager_winsize (pager_run s es) = pager_winsize s /\
  shell_resizes (pager_run s es) = shell_resizes s ++ sizes_of es.
Proof.
  unfold pager_run. revert s. induction es as [|e es IH]; intros s Hr Hs.
  - cbn. rewrite app_nil_r. auto.
  - cbn [fold_left]. destruct (IH (pager_step s e)) as (A & B & C).
    + apply returned_mono. exact Hr.
    + destruct e; cbn [pager_step].
      * rewrite (pager_turn_returned_mono s t r Hr). exact Hs.
      * unfold pager_resize. rewrite Hs. reflexivity.
      * exact Hs.
      * unfold pager_unregister. rewrite Hr. reflexivity.
    + split; [exact A|]. rewrite B, C. destruct e; cbn [pager_step].
      * rewrite (pager_turn_returned_mono s t r Hr). auto.
      * unfold pager_resize. rewrite Hs. cbn. rewrite <- app_assoc. auto.
      * auto.
      * unfold pager_unregister. rewrite Hr. auto.
Qed.

Lemma backoff_spec exited n i ms :
  fst (backoff n i ms exited) = existsb exited (seq i n) /\
  (existsb exited (seq i n) = false -> snd (backoff n i ms exited) = map (fun k => ms * 2 ^ N.of_nat k) (seq 0 n)).
Proof.
  revert i ms. induction n as [|n IH]; intros i ms; [split; reflexivity|].
  cbn [backoff seq existsb]. destruct (exited i).
  - split; [reflexivity|discriminate].
  - cbn [orb]. destruct (IH (S i) (2 * ms)) as [A B]. destruct (backoff n (S i) (2 * ms) exited) as [b l].
    cbn [fst snd] in *. split; [exact A|]. intros H. rewrite (B H). cbn [map].
    f_equal; [lia|]. rewrite <- seq_shift, map_map. apply map_ext. intros k.
    rewrite Nat2N.inj_succ, N.pow_succ_r'. lia.
Qed.

Lemma turn_detaches s t : shell_detaches (pager_turn s t) = shell_detaches s.
Proof.
  unfold pager_turn. destruct (returned s) eqn:Er; [reflexivity|].
  destruct (negb (poll_ok t)); [reflexivity|]. destruct (pager_exited t); [reflexivity|].
  destruct (negb (pty_ready t) && negb (client_ready t)).
  { destruct (last_heartbeat s + HEARTBEAT_DURATION <=? now t); [|reflexivity].
    unfold send_client. destruct (client_write t); reflexivity. }
  cbv zeta. set (s1 := if pty_ready t then pager_output s t else s).
  assert (H1 : shell_detaches s1 = shell_detaches s).
  { unfold s1. destruct (pty_ready t); [|reflexivity]. unfold pager_output.
    destruct (pty_read t) as [[|]|]; try reflexivity. unfold send_client. destruct (client_write t); reflexivity. }
  destruct (returned s1); [exact H1|]. destruct (client_ready t); [|exact H1].
  unfold pager_input. rewrite <- H1. destruct (client_read t) as [[|]|]; try reflexivity.
  destruct (negb (pty_write_ok t)); [reflexivity|]. destruct (negb (pty_flush_ok t)); reflexivity.
Qed.
