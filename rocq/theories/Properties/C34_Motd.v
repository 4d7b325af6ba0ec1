(** C34: the message of the day. *)
From Coq Require Import String List NArith ZArith Bool Lia.
From Verif Require Import Model.Base Model.Chunk Model.Protocol Model.Config Model.Duration Model.Pager Model.Motd
  Model.Restore Model.Sentinel Model.ShellToClient Spec.MotdSpec Spec.SpawnSpec Spec.OutputExamples
  Proofs.BaseLemmas Proofs.SpawnProofs Proofs.MotdProofs Proofs.ShellToClientProofs Proofs.OutputProofs Proofs.FrameProofs.
Import ListNotations.
Open Scope Z_scope.

(** With an interval configured and a clock that does not go back, the first attach
    after the daemon started shows the message; two showings are at least the
    interval apart; and an attach that does not show it comes less than the interval
    after one that did.  No call fails. *)
Theorem C34_first_attach_then_at_most_once_per_interval : forall start dur d calls,
  0 <= dur -> debouncer_new start dur = Some d -> clock_forward start calls ->
  length (fire_run d calls) = length calls /\
  (forall i o, nth_error (fire_run d calls) i = Some o -> exists b, o = Ok b) /\
  (forall t1 t2 b, answered calls (fire_run d calls) 0 t1 t2 b -> b = true) /\
  (forall i j a1 a2 b1 b2, (i < j)%nat ->
     answered calls (fire_run d calls) i a1 a2 true -> answered calls (fire_run d calls) j b1 b2 true -> dur <= b1 - a2) /\
  (forall j b1 b2, answered calls (fire_run d calls) j b1 b2 false ->
     exists i a1 a2, (i < j)%nat /\ answered calls (fire_run d calls) i a1 a2 true /\ b1 - a2 < dur).
Proof.
  intros start du d calls Hd Hn Hc. unfold debouncer_new in Hn.
  destruct (_ <=? _); [discriminate|]. destruct (_ <? _); [discriminate|]. injection Hn as <-.
  set (d := {| last_fired := start - du * 2; dur := du |}).
  assert (Hl : last_fired d <= start) by (cbn [last_fired d]; lia).
  split; [apply fire_run_length|].
  split; [eapply fire_run_never_err; eassumption|].
  assert (First : forall j b1 b2, b1 - last_fired d < dur d -> answered calls (fire_run d calls) j b1 b2 false -> start <= b1 -> False).
  { intros j b1 b2 H _ Hs. cbn [last_fired dur d] in H. lia. }
  assert (After : forall now cs j t1 t2, clock_forward now cs -> nth_error cs j = Some (t1, t2) -> now <= t1).
  { intros now cs. revert now. induction cs as [|[u1 u2] cs IH]; intros now j t1 t2 H Hj; [destruct j; discriminate|].
    destruct H as (A & B & C). destruct j; cbn [nth_error] in Hj.
    - injection Hj as <- <-. exact A.
    - specialize (IH u2 j t1 t2 C Hj). lia. }
  split; [|split].
  - intros t1 t2 b [Hi Ho]. destruct calls as [|[u1 u2] calls]; [discriminate|]. cbn [nth_error] in Hi. injection Hi as <- <-.
    cbn [fire_run] in Ho. destruct Hc as (A & B & C). unfold should_fire in Ho. cbn [last_fired dur d] in Ho.
    destruct (Z.ltb_spec u1 (start - du * 2)); [lia|].
    destruct (Z.leb_spec du (u1 - (start - du * 2))); [|lia]. cbn [nth_error] in Ho. injection Ho as <-. reflexivity.
  - intros i j a1 a2 b1 b2 Hij Hi Hj. change du with (dur d). eapply fire_run_spaced; eassumption.
  - intros j b1 b2 Hj. destruct (fire_run_refused d calls start Hl Hc j b1 b2 Hj) as [A|A]; [|exact A].
    exfalso. eapply First; [exact A|exact Hj|]. destruct Hj as [Hj _]. eapply After; eassumption.
Qed.
Print Assumptions C34_first_attach_then_at_most_once_per_interval.

(** Which start configurations debounce: only a pager with an interval does, with the
    interval the duration language gives it. *)
Theorem C34_messenger_from_configuration : forall u b motd start,
  messenger_new u b motd start =
  match motd with
  | Some (MotdPager _ (Some src)) =>
      match parse u b src with
      | Rejected => MakeFailed
      | Panicked => MakePanicked
      | Secs n => match debouncer_new start (Z.of_N n * 1000000000) with Some d => Made (Some d) | None => MakePanicked end
      end
  | _ => Made None
  end.
Proof. intros u b [[| |bin [src|]]|] start; reflexivity. Qed.
Print Assumptions C34_messenger_from_configuration.

(** A debouncer exists exactly for intervals up to the range of the clock, and
    starts two intervals in the past. *)
Theorem C34_interval_range : forall start dur, 0 <= dur -> 0 <= start ->
  debouncer_new start dur = (if dur * 2 <=? start + 2 ^ 63 * 1000000000 then
    (if dur * 2 <? 2 ^ 64 * 1000000000 then Some {| last_fired := start - dur * 2; Motd.dur := dur |} else None) else None).
Proof.
  intros start du Hd Hs. unfold debouncer_new, NANOS.
  destruct (Z.leb_spec (2 ^ 64 * 1000000000) (du * 2)), (Z.ltb_spec (start - du * 2) (- 2 ^ 63 * 1000000000)),
    (Z.leb_spec (du * 2) (start + 2 ^ 63 * 1000000000)), (Z.ltb_spec (du * 2) (2 ^ 64 * 1000000000)); try reflexivity; lia.
Qed.
Print Assumptions C34_interval_range.

(** The raw text is the message with the terminal's carriage return after every
    newline, and one final newline; it fails only for a terminal without one. *)
Theorem C34_raw_text : forall cr motd,
  (forall r, replaced [10%N] (10%N :: cr) motd r -> convert_to_raw (Some cr) motd = Ok (r ++ 10%N :: cr)) /\
  (exists r, replaced [10%N] (10%N :: cr) motd r) /\
  convert_to_raw None motd = Err tt.
Proof.
  intros cr motd.
  destruct (raw_of_parts cr (split_on 10%N motd)) as (r & Hr & Hc);
    [apply split_on_nonempty|intros p; apply split_no_sep|]. rewrite join_split in Hr.
  split; [|split; [exists r; exact Hr|reflexivity]].
  intros r' Hr'. cbn [convert_to_raw]. rewrite Hc. assert (Hne : [10%N] <> @nil N) by discriminate.
  rewrite (replaced_unique _ _ _ _ Hne Hr r' Hr'). reflexivity.
Qed.
Print Assumptions C34_raw_text.

(** Nothing is lost: different messages look different. *)
Theorem C34_raw_text_is_injective : forall cr m1 m2 r, ~ In 10%N cr ->
  convert_to_raw (Some cr) m1 = Ok r -> convert_to_raw (Some cr) m2 = Ok r -> m1 = m2.
Proof.
  intros cr m1 m2 r Hcr H1 H2. cbn [convert_to_raw] in *. injection H1 as H1. injection H2 as H2.
  rewrite <- (join_split 10%N m1), <- (join_split 10%N m2). f_equal. apply (concat_lines cr Hcr).
  - intros p; apply split_no_sep.
  - intros p; apply split_no_sep.
  - apply split_on_nonempty.
  - apply split_on_nonempty.
  - exact (eq_trans H1 (eq_sym H2)).
Qed.
Print Assumptions C34_raw_text_is_injective.

(** The resolver is told not to update, once, in addition to exactly the configured
    arguments; without configured arguments it works them out itself. *)
Theorem C34_resolver_arguments : forall args,
  resolver_args None = None /\
  exists extra, resolver_args (Some args) = Some (args ++ extra) /\
    (In (lit "noupdate") args -> extra = []) /\ (~ In (lit "noupdate") args -> extra = [lit "noupdate"]).
Proof.
  intros args. split; [reflexivity|]. unfold resolver_args.
  destruct (existsb (fun a => str_eqb a (lit "noupdate")) args) eqn:E.
  - exists []. rewrite app_nil_r. split; [reflexivity|]. split; [reflexivity|]. intros Hn. exfalso. apply Hn.
    apply existsb_exists in E. destruct E as (a & Ha & Ea). apply str_eqb_eq in Ea. subst. exact Ha.
  - exists [lit "noupdate"]. split; [reflexivity|]. split; [|reflexivity]. intros Hi. exfalso.
    assert (A : existsb (fun a => str_eqb a (lit "noupdate")) args = true)
      by (apply existsb_exists; eexists; split; [exact Hi|apply str_eqb_refl]).
    rewrite A in E. discriminate.
Qed.
Print Assumptions C34_resolver_arguments.

(** The mode decides how the message is shown: dumped once into a session created
    while the mode is "dump", in one frame with the raw text. *)
Theorem C34_dump : forall mode cr motd,
  (dump_on_new_session mode = true <-> mode = Some MotdDump) /\
  (mode = Some MotdDump -> dump mode cr motd =
     match motd with Err _ => DumpErr | Ok m => match convert_to_raw cr m with Err _ => DumpErr | Ok r => Dumped (mkChunk Data r) end end).
Proof.
  intros mode cr motd. split.
  - destruct mode as [[| |]|]; cbn; split; intros H; try discriminate; reflexivity.
  - intros ->. reflexivity.
Qed.
Print Assumptions C34_dump.

(** The part of "never prevents an attach" that holds: without a pager mode, the
    attach always goes on, with the size the client sent, and the interval is not
    consumed; with a pager mode in force throughout, a readable message and a clock
    that has not gone back, the attach goes on unless the pager itself fails or the
    client hangs up, with the size the pager ended with. *)
Theorem C34_attach_goes_on_partial : forall d a,
  ((forall bin e, amode a <> Some (MotdPager bin e)) -> attach_motd d a = (Proceed (asize a), d)) /\
  (forall bin e m, amode a = Some (MotdPager bin e) -> amode' a = Some (MotdPager bin e) -> amotd a = Ok m ->
     (forall db, d = Some db -> last_fired db <= at1 a) ->
     let due := match d with None => true | Some db => dur db <=? at1 a - last_fired db end in
     fst (attach_motd d a) =
       if due then match ashow a bin m (asize a) with PagerOk sz => Proceed sz | PagerHangup => Bail | PagerErr => Fail end
       else Proceed (asize a)) /\
  (snd (attach_motd d a) = d \/
   exists db, d = Some db /\ dur db <= at1 a - last_fired db /\
     snd (attach_motd d a) = Some {| last_fired := at2 a; dur := dur db |}).
Proof.
  intros d a. split; [|split].
  - intros H. unfold attach_motd. destruct (amode a) as [[| |bin e]|]; try reflexivity. exfalso. eapply H. reflexivity.
  - intros bin e m H1 H2 H3 Hc. cbv zeta. unfold attach_motd, display_in_pager. rewrite H1, H2, H3. cbn [motd_mode_of].
    destruct d as [db|].
    + specialize (Hc db eq_refl). unfold should_fire.
      destruct (Z.ltb_spec (at1 a) (last_fired db)); [lia|].
      destruct (dur db <=? at1 a - last_fired db); [|reflexivity]. destruct (ashow a bin m (asize a)); reflexivity.
    + destruct (ashow a bin m (asize a)); reflexivity.
  - unfold attach_motd, display_in_pager. destruct (motd_mode_of (amode a)); [left; reflexivity|left; reflexivity|].
    destruct d as [db|]; [|left; cbn; reflexivity].
    unfold should_fire. destruct (at1 a <? last_fired db); [left; reflexivity|].
    destruct (Z.leb_spec (dur db) (at1 a - last_fired db)); [|left; reflexivity].
    right. exists db. cbn. auto.
Qed.
Print Assumptions C34_attach_goes_on_partial.

(** Showing the message does prevent an attach: a system clock set back behind the
    last showing makes every attach fail until it has caught up, even though nothing
    is due. *)
Theorem C34_clock_set_back_refuted : forall db a bin e, amode a = Some (MotdPager bin e) -> at1 a < last_fired db ->
  attach_motd (Some db) a = (Fail, Some db).
Proof.
  intros db a bin e H Ht. unfold attach_motd, display_in_pager, should_fire. rewrite H. cbn [motd_mode_of].
  destruct (Z.ltb_spec (at1 a) (last_fired db)); [reflexivity|lia].
Qed.
Print Assumptions C34_clock_set_back_refuted.

(** An unreadable message prevents the attach, and uses up the interval although
    nothing was shown. *)
Theorem C34_unreadable_message_refuted : forall db a bin e, amode a = Some (MotdPager bin e) -> amotd a = Err tt ->
  dur db <= at1 a - last_fired db -> 0 <= dur db ->
  attach_motd (Some db) a = (Fail, Some {| last_fired := at2 a; dur := dur db |}).
Proof.
  intros db a bin e H Hm Hd H0. unfold attach_motd, display_in_pager, should_fire. rewrite H, Hm. cbn [motd_mode_of].
  destruct (Z.ltb_spec (at1 a) (last_fired db)); [lia|].
  destruct (Z.leb_spec (dur db) (at1 a - last_fired db)); [|lia]. destruct (motd_mode_of (amode' a)); reflexivity.
Qed.
Print Assumptions C34_unreadable_message_refuted.

(** The dump insists on the mode still being "dump" when the first output arrives:
    a reload in between makes the output thread panic. *)
Theorem C34_dump_after_reload_refuted : forall cr motd mode, mode <> Some MotdDump ->
  dump_on_new_session (Some MotdDump) = true /\ dump mode cr motd = DumpPanicked.
Proof. intros cr motd [[| |]|] H; split; try reflexivity. exfalso. apply H. reflexivity. Qed.
Print Assumptions C34_dump_after_reload_refuted.

(** An interval above half the range of durations stops the daemon at start. *)
Theorem C34_huge_interval_refuted : forall start n, (2 ^ 63 <= n)%N ->
  debouncer_new start (Z.of_N n * 1000000000) = None.
Proof.
  intros start n H. unfold debouncer_new, NANOS.
  destruct (Z.leb_spec (2 ^ 64 * 1000000000) (Z.of_N n * 1000000000 * 2)); [reflexivity|].
  exfalso. assert (2 ^ 63 <= Z.of_N n) by (apply N2Z.inj_le in H; exact H). lia.
Qed.
Print Assumptions C34_huge_interval_refuted.

(** The attaches that look while a pager is configured. *)
Definition in_pager_mode (a : motd_attach) : bool := match amode a with Some (MotdPager _ _) => true | _ => false end.

(** What an attach that is to show the message leads to. *)
Definition shows (a : motd_attach) : motd_outcome :=
  match amode' a, amotd a with
  | Some (MotdPager bin _), Ok m =>
      match ashow a bin m (asize a) with PagerOk sz => Proceed sz | PagerHangup => Bail | PagerErr => Fail end
  | _, _ => Fail
  end.

(** Over the whole life of a daemon, through any reloads of the configuration: the
    interval kept is the one configured when the daemon started.  With one, the attaches
    in pager mode are answered as a run of that one debouncer over their clock readings;
    without one, each of them shows the message.  The others go on undisturbed. *)
Theorem C34_life : forall u b motd start d l,
  messenger_new u b motd start = Made d ->
  length (attach_run d l) = length l /\
  (forall i a o, nth_error l i = Some a -> nth_error (attach_run d l) i = Some o -> in_pager_mode a = false -> o = Proceed (asize a)) /\
  match motd with
  | Some (MotdPager _ (Some src)) => exists n, parse u b src = Secs n /\ exists db,
      debouncer_new start (Z.of_N n * 1000000000) = Some db /\
      forall i a o, nth_error l i = Some a -> in_pager_mode a = true -> nth_error (attach_run d l) i = Some o ->
        exists r, nth_error (fire_run db (map (fun a => (at1 a, at2 a)) (filter in_pager_mode l)))
                    (length (filter in_pager_mode (firstn i l))) = Some r /\
        o = match r with Ok true => shows a | Ok false => Proceed (asize a) | Err _ => Fail end
  | _ => forall i a o, nth_error l i = Some a -> in_pager_mode a = true -> nth_error (attach_run d l) i = Some o -> o = shows a
  end.
Proof.
  intros u b motd start d l Hm.
  assert (A : length (attach_run d l) = length l).
  { clear Hm. revert d. induction l as [|a l IH]; intros d; [reflexivity|]. cbn [attach_run]. destruct (attach_motd d a) as [o d']. cbn [length]. rewrite IH. reflexivity. }
  assert (Other : forall d a, in_pager_mode a = false -> attach_motd d a = (Proceed (asize a), d)).
  { intros d0 a H. unfold in_pager_mode in H. unfold attach_motd. destruct (amode a) as [[| |]|]; try discriminate; reflexivity. }
  assert (B : forall i a o, nth_error l i = Some a -> nth_error (attach_run d l) i = Some o -> in_pager_mode a = false -> o = Proceed (asize a)).
  { clear Hm A. revert d. induction l as [|x l IH]; intros d i a o Hi Ho Hp; [destruct i; discriminate|].
    cbn [attach_run] in Ho. destruct (attach_motd d x) as [o' d'] eqn:E. destruct i; cbn [nth_error] in Hi, Ho.
    - injection Hi as ->. injection Ho as <-. rewrite Other in E by exact Hp. injection E as <- _. reflexivity.
    - eapply IH; eassumption. }
  split; [exact A|]. split; [exact B|]. clear A B.
  assert (Never : forall l i a o, nth_error l i = Some a -> in_pager_mode a = true -> nth_error (attach_run None l) i = Some o -> o = shows a).
  { clear. induction l as [|x l IH]; intros i a o Hi Hp Ho; [destruct i; discriminate|].
    cbn [attach_run] in Ho. destruct (attach_motd None x) as [o' d'] eqn:E.
    assert (d' = None).
    { unfold attach_motd, display_in_pager in E. destruct (motd_mode_of (amode x)); injection E as _ <-; reflexivity. }
    subst d'. destruct i; cbn [nth_error] in Hi, Ho.
    - injection Hi as ->. injection Ho as <-. unfold in_pager_mode in Hp. unfold attach_motd, display_in_pager in E. unfold shows.
      destruct (amode a) as [[| |bin ev]|]; try discriminate. cbn [motd_mode_of] in E.
      destruct (amode' a) as [[| |bin' ev']|]; cbn [motd_mode_of] in E; destruct (amotd a) as [m|]; injection E as <-; try reflexivity.
      destruct (ashow a bin' m (asize a)); reflexivity.
    - eapply IH; eassumption. }
  assert (Some_ : forall l db i a o, nth_error l i = Some a -> in_pager_mode a = true -> nth_error (attach_run (Some db) l) i = Some o ->
     exists r, nth_error (fire_run db (map (fun a => (at1 a, at2 a)) (filter in_pager_mode l)))
                    (length (filter in_pager_mode (firstn i l))) = Some r /\
        o = match r with Ok true => shows a | Ok false => Proceed (asize a) | Err _ => Fail end).
  { clear Hm l Never. induction l as [|x l IH]; intros db i a o Hi Hp Ho; [destruct i; discriminate|].
    cbn [attach_run] in Ho. destruct (attach_motd (Some db) x) as [o' d'] eqn:E. cbn [filter].
    destruct (in_pager_mode x) eqn:Px.
    - cbn [map fire_run]. unfold attach_motd, display_in_pager in E.
      assert (Pm : exists bin ev, amode x = Some (MotdPager bin ev)) by (unfold in_pager_mode in Px; destruct (amode x) as [[| |bin ev]|]; try discriminate; eauto).
      destruct Pm as (bin & ev & Pm). rewrite Pm in E. cbn [motd_mode_of] in E.
      assert (F : (exists db', d' = Some db' /\ should_fire db (at1 x) (at2 x) = Ok (true, db') /\ o' = shows x) \/
                  (exists db', d' = Some db' /\ should_fire db (at1 x) (at2 x) = Ok (false, db') /\ o' = Proceed (asize x)) \/
                  (d' = Some db /\ should_fire db (at1 x) (at2 x) = Err tt /\ o' = Fail)).
      { destruct (should_fire db (at1 x) (at2 x)) as [[[|] db']|[]].
        - left. exists db'. unfold shows. destruct (amode' x) as [[| |bin' ev']|]; cbn [motd_mode_of] in E;
            destruct (amotd x) as [m|]; injection E as <- <-; repeat split; destruct (ashow x bin' m (asize x)); reflexivity.
        - right. left. exists db'. injection E as <- <-. auto.
        - right. right. injection E as <- <-. auto. }
      destruct i; cbn [nth_error firstn] in Hi, Ho |- *.
      + injection Hi as ->. injection Ho as <-. cbn [filter length].
        destruct F as [(db' & _ & -> & ->)|[(db' & _ & -> & ->)|(_ & -> & ->)]]; cbn [nth_error]; eexists; split; reflexivity.
      + cbn [filter]. rewrite Px. cbn [length].
        destruct F as [(db' & -> & -> & _)|[(db' & -> & -> & _)|(-> & -> & _)]]; cbn [nth_error]; eapply IH; eassumption.
    - rewrite Other in E by exact Px. injection E as <- <-. destruct i; cbn [nth_error firstn] in Hi, Ho |- *.
      + injection Hi as ->. congruence.
      + cbn [filter]. rewrite Px. eapply IH; eassumption. }
  destruct motd as [[| |bin [src|]]|]; cbn [messenger_new motd_mode_of] in Hm;
    try (injection Hm as <-; intros i a o; apply Never).
  unfold messenger_new in Hm. cbn [motd_mode_of] in Hm. destruct (parse u b src) as [n| |]; try discriminate.
  exists n. split; [reflexivity|]. unfold NANOS in Hm. destruct (debouncer_new start (Z.of_N n * 1000000000)) as [db|]; [|discriminate].
  injection Hm as <-. exists db. split; [reflexivity|]. intros i a o. apply Some_.
Qed.
Print Assumptions C34_life.

(** So an interval is not followed when the configuration is reloaded.  A daemon started
    without one and then told "at most once an hour" shows the message on every attach; a
    daemon started with one hour and then told "every time" still waits for the hour. *)
Definition on_attach (t : Z) (every : option rstr) : motd_attach :=
  {| at1 := t; at2 := t; amode := Some (MotdPager (lit "less") every); amode' := Some (MotdPager (lit "less") every);
     amotd := Ok (lit "hi"); ashow := fun _ _ _ => PagerOk (mkSize 30 100 0 0); asize := mkSize 24 80 0 0 |}.
Theorem C34_reloaded_interval_refuted : forall u b, let hour := Some (lit "01:00:00") in let t0 := 1700000000 * NANOS in
  (exists d, messenger_new u b (Some (MotdPager (lit "less") None)) t0 = Made d /\
     attach_run d [on_attach (t0 + NANOS) hour; on_attach (t0 + 2 * NANOS) hour] = [Proceed (mkSize 30 100 0 0); Proceed (mkSize 30 100 0 0)]) /\
  (exists d, messenger_new u b (Some (MotdPager (lit "less") hour)) t0 = Made d /\
     attach_run d [on_attach (t0 + NANOS) None; on_attach (t0 + 2 * NANOS) None] = [Proceed (mkSize 30 100 0 0); Proceed (mkSize 24 80 0 0)]).
Proof.
  intros u b. cbv zeta. split.
  - exists None. split; [reflexivity|]. vm_compute. reflexivity.
  - exists (Some {| last_fired := 1700000000 * NANOS - 7200 * NANOS; dur := 3600 * NANOS |}). split; [|vm_compute; reflexivity].
    assert (H : parse u b (lit "01:00:00") = Secs 3600) by (destruct b; vm_compute; reflexivity).
    unfold messenger_new. cbn [motd_mode_of]. rewrite H. vm_compute. reflexivity.
Qed.
Print Assumptions C34_reloaded_interval_refuted.

(** One hour interval; attaches after 1 s, 2 s, one hour and 1 s, and two hours. *)
Example C34_nonvacuous :
  let h := 3600 * NANOS in let t0 := 1700000000 * NANOS in
  exists d, debouncer_new t0 h = Some d /\
  let calls := [(t0 + NANOS, t0 + NANOS + 7); (t0 + 2 * NANOS, t0 + 2 * NANOS); (t0 + h + 2 * NANOS, t0 + h + 2 * NANOS);
                (t0 + 2 * h, t0 + 2 * h)] in
  clock_forward t0 calls /\ fire_run d calls = [Ok true; Ok false; Ok true; Ok false].
Proof.
  cbv zeta. eexists. split; [vm_compute; reflexivity|]. split; [|vm_compute; reflexivity].
  unfold clock_forward, NANOS. lia.
Qed.

Example C34_raw_example : convert_to_raw (Some [13%N]) (lit "hi") = Ok (lit "hi" ++ [10; 13])%N /\
  convert_to_raw (Some [13%N]) (lit "hi" ++ [10%N] ++ lit "you") = Ok (lit "hi" ++ [10; 13] ++ lit "you" ++ [10; 13])%N.
Proof. split; reflexivity. Qed.

(** In a running session, a turn that reads output and shows it to a client hands over,
    right before that output and only if the dump is still due, the dumped message (if it
    could be read); from then on it is not due any more.  Output shown to nobody, or not
    shown yet, leaves it due.  [pre] is what the turn's request led to. *)
Theorem C34_dump_comes_before_the_first_output : forall e b sup dump_motd c size (s0 before after : @s2c e) m now ok its it bs g shown,
  s2c_new sup dump_motd c size = Some s0 ->
  before = s2c_run b s0 (First m now ok :: map Iter its) -> finished before = None ->
  after = s2c_run b s0 (First m now ok :: map Iter (its ++ [it])) -> finished after = None ->
  sel it = SelNothing -> poll it = PollRead (Ok bs) -> bs <> [] -> gate_read (out_gate before) bs = Some (g, shown) ->
  match client before, shown with
  | Some id, Some sh =>
      motd_due after = false /\
      log after = log before ++
        (if motd_due before then
           match motd_text it with
           | Ok text => match convert_to_raw (cr it) text with
                        | Ok raw => [mkSent id (mkChunk Data raw) (wrote (w_motd it))]
                        | Err _ => [] end
           | Err _ => [] end
         else []) ++
        [mkSent id (mkChunk Data sh) (wrote (w_data it))]
  | _, _ => motd_due after = motd_due before /\ log after = log before
  end.
Proof.
  intros e b sup dm c size s0 before after m now ok its it bs g shown Hn -> Hf -> Hf' Hs Hp Hne Hg.
  destruct (new_state _ _ _ _ _ Hn) as (g0 & _ & E). clear Hn.
  rewrite ?(life_turns b s0 m now ok) in * by (rewrite E; reflexivity).
  rewrite turns_snoc in *. set (s := turns b _ its) in *. clearbody s. clear E.
  destruct (turn_unfinished b s it Hf') as [_ H1]. rewrite (turn_cases b s it Hf) in *. cbv zeta in *. rewrite H1 in *.
  assert (A : sel_again s it = false) by (unfold sel_again; rewrite Hs; reflexivity). rewrite A in *.
  destruct (mid_keeps b s it Hf H1) as (M1 & M2 & _ & M4 & M5 & _ & _ & M8). unfold sel_client, sel_frames in *. rewrite Hs in *.
  rewrite (poll_log (mid b s it) it M5), M8. assert (P := poll_ok (mid b s it) it M5 Hf'). rewrite Hp in P.
  destruct bs as [|x bs]; [contradiction|]. destruct P as (g' & sh & P1 & _ & _ & _ & _ & _ & _ & _ & P9 & P10). rewrite M1, Hg in P1. injection P1 as <- <-.
  rewrite P9, M4, M2. unfold poll_frames, read_shown, motd_frames, motd_panics in *. rewrite M4, Hp, M1, Hg, M2 in *.
  assert (L : match client s with Some _ => [] | None => @nil sent end = []) by (destruct (client s); reflexivity). rewrite L. clear L.
  rewrite !app_nil_r. destruct (client s) as [id|]; [|rewrite app_nil_r; auto]. destruct shown as [sh|]; [|rewrite app_nil_r; auto].
  split; [reflexivity|]. specialize (P10 id sh eq_refl eq_refl). rewrite P10. f_equal. f_equal.
  destruct (motd_due s); [|reflexivity]. cbn [andb] in P10. unfold dump in *.
  destruct (motd_mode_of (motd (conf it))); try discriminate. destruct (motd_text it) as [t|]; [|reflexivity].
  destruct (convert_to_raw (cr it) t); reflexivity.
Qed.
Print Assumptions C34_dump_comes_before_the_first_output.

(** A session created with the dump due: it comes once, before the first output. *)
Definition dump_config : config :=
  mkConfig None None None None None None None None None None None None None None None None None (Some MotdDump) None None.
Example C34_dump_example :
  let says (s : String.string) := {| sel := SelNothing; t_sel := 0; t_due := 0; oversize_ok := true; shutdown_ok := true; ack_ok := true;
     conf := dump_config; w_sel := WroteAll; w_restore := fun _ => WroteAll; w_motd := WroteAll; w_data := WroteAll; w_exit := WroteAll;
     cr := Some [13%N]; motd_text := Ok (lit "hi"); poll := PollRead (Ok (lit s)) |} in
  option_map (fun s0 : @s2c recorder =>
      let s := s2c_run Release s0 (First (Some (NewConn 0 z80)) 0 true :: map Iter [says "a"%string; says "b"%string]) in
      (map what (log s), motd_due s, finished s)) (s2c_new false true dump_config z80)
  = Some ([mkChunk Data (lit "hi" ++ [10; 13]); mkChunk Data (lit "a"); mkChunk Data (lit "b")]%N, false, None).
Proof. vm_compute. reflexivity. Qed.
