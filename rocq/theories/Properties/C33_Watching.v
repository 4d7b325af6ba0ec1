(** C33: watching the configuration files. *)
From Coq Require Import List NArith ZArith Bool Arith Lia.
From Verif Require Import Model.Base Model.ConfigWatcher Spec.ConfigWatcherSpec Proofs.ConfigWatcherProofs.
Import ListNotations.
Open Scope nat_scope.

(** A path is known by the nearest place above it that exists, its symbolic links
    resolved, and the rest of the path. *)
Theorem C33_canonical : forall f p,
  (forall a rest c, above a p -> p = a ++ rest -> canonical f a = Some c -> (forall b, above b p -> length a < length b -> canonical f b = None) ->
     canonicalize_path f p = match rest with [] => c | _ => c ++ rest end) /\
  ((forall a, above a p -> canonical f a = None) -> canonicalize_path f p = p).
Proof.
  intros f p.
  assert (Hd : exists l, ancestors p = p :: l).
  { unfold ancestors. destruct (rev p) as [|c r] eqn:E; cbn [ups]; [|exists (match r with [] => if str_eqb c slash then [] else ups r | _ => ups r end); rewrite <- E, rev_involutive; reflexivity].
    apply (f_equal (@rev _)) in E. rewrite rev_involutive in E. subst p. exists []. reflexivity. }
  destruct Hd as (l & Hl). unfold canonicalize_path. rewrite Hl. cbn [tl].
  assert (Dl : descending (p :: l)) by (rewrite <- Hl; apply ups_descending). destruct Dl as [D1 D2].
  assert (In_l : forall a, above a p -> a <> p -> In a l).
  { intros a Ha Hn. apply ancestors_iff in Ha. rewrite Hl in Ha. destruct Ha as [Ha|Ha]; [congruence|exact Ha]. }
  assert (Ab : forall a, In a l -> above a p) by (intros a Ha; apply ancestors_iff; rewrite Hl; right; exact Ha). split.
  - intros a rest c Ha Ep Hc Hb. destruct rest as [|r0 rest].
    + rewrite app_nil_r in Ep. subst a. rewrite Hc. reflexivity.
    + assert (Hn : a <> p) by (intros ->; apply (f_equal (@length _)) in Ep; rewrite app_length in Ep; cbn in Ep; lia).
      assert (La : In a l) by (apply In_l; assumption). rewrite (Hb p (above_self p)) by (apply D1; exact La).
      clear Hl D1 In_l. induction l as [|b l IH]; [destruct La|]. destruct D2 as [D2 D3]. cbn [canonicalize_from]. destruct La as [->|La].
      * rewrite Hc. replace (strip_prefix a p) with (Some (r0 :: rest)) by (symmetry; apply strip_prefix_iff; exact Ep). reflexivity.
      * rewrite (Hb b) by (try (apply Ab; left; reflexivity); apply D2; exact La). apply IH; auto. intros x Hx. apply Ab. right. exact Hx.
  - intros H. rewrite (H p (above_self p)). clear Hl D1 D2 In_l. induction l as [|b l IH]; [reflexivity|]. cbn [canonicalize_from]. rewrite (H b) by (apply Ab; left; reflexivity).
    apply IH. intros a Ha. apply Ab. right. exact Ha.
Qed.
Print Assumptions C33_canonical.

(** Adding a path: refused if the file is a target already; otherwise the nearest
    place above it that can be watched is watched, and nothing else changes. *)
Theorem C33_add : forall d st f p w,
  wreachable d st -> let k := canonicalize_path f p in plain f k -> nearest f w k ->
  let (st', answer) := add_watch_by_command f p st in
  (answer = true <-> ~ target st k) /\
  (answer = true ->
     (forall e, In e (paths st') <-> e = (k, (w, firstn (S (length w)) k)) \/ In e (paths st)) /\
     (forall x, In x (watches st') <-> x = w \/ In x (watches st)) /\
     (can_watch f k = true -> deadline st' = match deadline st with Some x => Some x | None => Some (clock st + d) end) /\
     (can_watch f k = false -> deadline st' = deadline st)) /\
  (answer = false -> st' = st).
Proof.
  intros d st f p w R k P Nw. pose proof (wreachable_nodup d st R) as N. pose proof (ti_debounce _ _ (reachable_time d st R)) as Dd.
  assert (Ew : near f k = w) by (apply (above_unique f _ _ k); [apply near_nearest; exact P|exact Nw]).
  unfold add_watch_by_command. fold k. destruct (t_get k (paths st)) eqn:G.
  - split; [|split; [discriminate|reflexivity]]. split; [discriminate|]. intros H. exfalso. apply H. apply target_get. rewrite G. discriminate.
  - rewrite (watch_and_add_near f (watches st) (paths st) k P), Ew. assert (T : ~ target st k) by (apply t_get_none; exact G).
    assert (E : forall e, In e (t_insert k (entry w k) (paths st)) <-> e = (k, (w, firstn (S (length w)) k)) \/ In e (paths st)).
    { intros e. rewrite t_insert_in by exact N. unfold entry. split; [tauto|]. intros [H|H]; [auto|]. right. split; [exact H|]. intros <-. apply T. apply in_map. exact H. }
    destruct (can_watch f k) eqn:C; (split; [tauto|]); (split; [|discriminate]); intros _; cbn [paths watches deadline trigger_reload clock debounce]; rewrite ?Dd;
      (split; [exact E|]); (split; [intros x; apply watch_in|]); split; auto; discriminate.
Qed.
Print Assumptions C33_add.

(** A path above which nothing can be watched is refused and leaves no trace. *)
Theorem C33_add_fails : forall st f p,
  ~ target st (canonicalize_path f p) -> (forall a, above a (canonicalize_path f p) -> can_watch f a = false) ->
  let (st', answer) := add_watch_by_command f p st in
  answer = false /\ (forall e, In e (paths st') <-> In e (paths st)) /\ watches st' = watches st /\ deadline st' = deadline st.
Proof.
  intros st f p T H. unfold add_watch_by_command. apply t_get_none in T. rewrite T. unfold watch_and_add, best_effort_watch. apply first_watchable_none in H. rewrite H.
  cbn. split; [reflexivity|]. split; [|auto]. intros e. rewrite t_remove_in. split; [tauto|]. intros Hin. split; [exact Hin|]. intros E. apply t_get_none in T. apply T. rewrite <- E. apply in_map. exact Hin.
Qed.
Print Assumptions C33_add_fails.

(** What schedules a reload, exactly: an event about a target, a target that has come
    to exist, an existing file newly watched, or notify's request to look at
    everything again. *)
Theorem C33_triggers : forall d st dt o,
  wreachable d st -> stopped st = false -> plainly st o -> deadline st = None ->
  deadline (wstep st (dt, o)) <> None <-> calls_for_reload st o.
Proof. intros d st dt o R S P D. exact (trigger_exact st (dt, o) (wreachable_nodup d st R) S P D). Qed.
Print Assumptions C33_triggers.

(** The deadline is the debounce interval after what scheduled it; nothing
    postpones it, and only the reload takes it away. *)
Theorem C33_deadline : forall d st dt o,
  wreachable d st -> stopped st = false ->
  let st' := wstep st (dt, o) in
  clock st' = clock st + dt /\
  match deadline st with
  | None => reloads st' = reloads st /\ (deadline st' = None \/ deadline st' = Some (clock st' + d))
  | Some x =>
    (o = WTimeout /\ x <= clock st' -> deadline st' = None /\ reloads st' = reloads st ++ [clock st']) /\
    (~ (o = WTimeout /\ x <= clock st') -> deadline st' = Some x /\ reloads st' = reloads st)
  end.
Proof.
  intros d st dt o R S. cbn zeta. destruct (wstep_timing st (dt, o) S) as (T & C & _ & _ & F). cbn [fst snd] in *. rewrite <- (ti_debounce _ _ (reachable_time d st R)).
  split; [exact C|]. unfold timing in T. destruct (deadline st) as [x|]; [|exact T]. split.
  - intros [-> L]. rewrite C in L. specialize (F eq_refl x eq_refl L). destruct T as [[T1 T2]|(_ & _ & T1 & T2)]; [|auto]. exfalso. rewrite T2 in F. apply (f_equal (@length _)) in F. rewrite app_length in F. cbn in F. lia.
  - intros H. destruct T as [T|(T1 & T2 & _)]; [exact T|exfalso; auto].
Qed.
Print Assumptions C33_deadline.

(** So a change is followed by a reload: once the worker runs a debounce interval
    later or more, the configuration has been read again after the change. *)
Lemma reload_stays st l r : In r (reloads st) -> In r (reloads (wrun st l)).
Proof.
  intros H. induction l as [|a l IH] using rev_ind; [exact H|]. rewrite wrun_snoc. destruct (stopped (wrun st l)) eqn:S; [rewrite wstep_stopped by exact S; exact IH|].
  destruct (wstep_timing _ a S) as (T & _). unfold timing in T. destruct (deadline (wrun st l)); [destruct T as [[_ T]|(_ & _ & _ & T)]|destruct T as [T _]]; rewrite T; try exact IH. apply in_or_app. auto.
Qed.
Lemma pending_or_done x l : forall st, deadline st = Some x -> stopped st = false -> (forall a, In a l -> snd a <> WShutdown) ->
  let st' := wrun st l in
  clock st <= clock st' /\ stopped st' = false /\ (deadline st' = Some x \/ exists r, In r (reloads st') /\ clock st <= r <= clock st').
Proof.
  induction l as [|a l IH] using rev_ind; intros st D S N; cbn zeta; [cbn; auto|]. rewrite wrun_snoc.
  destruct (IH st D S) as (I1 & I2 & I3); [intros b Hb; apply N; apply in_or_app; auto|].
  destruct (wstep_timing _ a I2) as (T & C & _ & Q & _). rewrite C. split; [lia|]. split; [apply Q; apply N; apply in_or_app; right; left; reflexivity|].
  destruct I3 as [I3|(r & H1 & H2)].
  - unfold timing in T. rewrite I3 in T. destruct T as [[T _]|(_ & T1 & _ & T2)]; [auto|]. right. exists (clock (wrun st l) + fst a). rewrite T2, C. split; [apply in_or_app; right; left; reflexivity|lia].
  - right. exists r. split; [|lia]. unfold timing in T. destruct (deadline (wrun st l)); [destruct T as [[_ T]|(_ & _ & _ & T)]|destruct T as [T _]]; rewrite T; try exact H1. apply in_or_app. auto.
Qed.
Theorem C33_in_time : forall d st dt o l dt',
  wreachable d st -> stopped st = false -> plainly st o -> calls_for_reload st o ->
  let st1 := wstep st (dt, o) in let st2 := wrun st1 l in let st3 := wstep st2 (dt', WTimeout) in
  (forall a, In a l -> snd a <> WShutdown) -> clock st1 + d <= clock st3 ->
  exists r, In r (reloads st3) /\ clock st1 <= r <= clock st3.
Proof.
  intros d st dt o l dt' R S P Cf. cbn zeta. intros Nl L.
  assert (R1 : wreachable d (wstep st (dt, o))). { destruct R as (l0 & ->). exists (l0 ++ [(dt, o)]). rewrite wrun_snoc. reflexivity. }
  assert (No : o <> WShutdown) by (destruct o; cbn in Cf; try contradiction; discriminate).
  destruct (wstep_timing st (dt, o) S) as (T & C & Dd & Q & _). specialize (Q No). cbn [fst snd] in *.
  assert (D1 : exists x, deadline (wstep st (dt, o)) = Some x).
  { destruct (deadline st) as [x|] eqn:D.
    - unfold timing in T. rewrite D in T. destruct T as [[T _]|(-> & _)]; [eauto|destruct Cf].
    - destruct (deadline (wstep st (dt, o))) eqn:E; [eauto|]. exfalso. apply (C33_triggers d st dt o R S P D); assumption. }
  destruct D1 as (x & D1). destruct (ti_deadline _ _ (reachable_time d _ R1) x D1) as (X & _ & _).
  destruct (pending_or_done x l _ D1 Q Nl) as (I1 & I2 & I3). destruct (wstep_timing _ (dt', WTimeout) I2) as (T3 & C3 & _ & _ & F). cbn [fst snd] in *.
  destruct I3 as [I3|(r & H1 & H2)].
  - rewrite C3 in *. rewrite (F eq_refl x I3) by lia. exists (clock (wrun (wstep st (dt, o)) l) + dt'). split; [apply in_or_app; right; left; reflexivity|lia].
  - exists r. rewrite C3. split; [|lia]. apply (reload_stays _ [(dt', WTimeout)]) in H1. exact H1.
Qed.
Print Assumptions C33_in_time.

(** The watcher ends when it is told to: nothing is reloaded or watched any more. *)
Theorem C33_shutdown : forall st dt l,
  let st' := wrun (wstep st (dt, WShutdown)) l in
  stopped st' = true /\ reloads st' = reloads st /\ paths st' = paths st /\ watches st' = watches st.
Proof.
  intros st dt l. cbn zeta.
  assert (H : stopped (wstep st (dt, WShutdown)) = true /\ reloads (wstep st (dt, WShutdown)) = reloads st /\
              paths (wstep st (dt, WShutdown)) = paths st /\ watches (wstep st (dt, WShutdown)) = watches st).
  { unfold wstep. destruct (stopped st) eqn:S; cbn; auto. }
  revert H. generalize (wstep st (dt, WShutdown)). induction l as [|a l IH]; intros s H; [exact H|]. cbn [wrun fold_left]. apply IH.
  rewrite wstep_stopped by apply H. exact H.
Qed.
Print Assumptions C33_shutdown.

(** Bursts are coalesced: reloads are at least the debounce interval apart. *)
Theorem C33_coalesced : forall d st, wreachable d st -> spaced d (reloads st).
Proof. intros d st R. exact (ti_spaced _ _ (reachable_time d st R)). Qed.
Print Assumptions C33_coalesced.

(** The targets stay watched in a turn that sets up at most one target anew, and one
    that no other target shares its place with; the one set up anew is then watched
    from the nearest place there is. *)
Theorem C33_stays_partial : forall d st dt o,
  wreachable d st -> all_watched st -> plainly st o -> alone st o ->
  let st' := wstep st (dt, o) in
  all_watched st' /\ (forall p, target st p -> target st' p) /\
  (stopped st = false -> forall f p w, meets o (fun f' => f' = f) -> afresh st o p -> nearest f w p -> exists child, In (p, (w, child)) (paths st')).
Proof.
  intros d st dt o R A P Al. cbn zeta. destruct (stays_step st dt o (wreachable_nodup d st R) A P Al) as (H1 & H2 & H3). split; [exact H1|]. split; [exact H2|].
  intros S f p w M Ha Nw. destruct (H3 f p M Ha S) as (c & Hc). replace w with (near f p); [exists c; exact Hc|].
  apply (above_unique f _ _ p); [|exact Nw]. apply near_nearest. destruct P as [P _]. specialize (P p (afresh_target _ _ _ Ha)). destruct o; cbn in *; try contradiction; subst; exact P.
Qed.
Print Assumptions C33_stays_partial.

(** A single configuration file, as with --config-file, stays watched whatever
    happens. *)
Theorem C33_single_partial : forall d dt f p l,
  plain f (canonicalize_path f p) ->
  (forall dt' o, In (dt', o) l -> meets o (fun f' => plain f' (canonicalize_path f p)) /\ forall f' q, o <> WAdd f' q) ->
  let st := wrun (watcher_new d) ((dt, WAdd f p) :: l) in
  watched st (canonicalize_path f p).
Proof.
  intros d dt f p l P H. cbn zeta. set (k := canonicalize_path f p) in *.
  assert (G : let st := wrun (watcher_new d) ((dt, WAdd f p) :: l) in all_watched st /\ map fst (paths st) = [k]).
  { cbn zeta. induction l as [|[dt' o] l IH] using rev_ind.
    - cbn [wrun fold_left]. split.
      + apply (stays_step (watcher_new d) dt (WAdd f p)); [constructor|intros q []|split; [intros q []|exact P]|intros q w c q' w' c' []].
      + unfold wstep. cbn. fold k. rewrite (watch_and_add_near f [] [] k P). destruct (can_watch f k); reflexivity.
    - destruct IH as [I1 I2]; [intros dt0 o0 Hin; apply (H dt0 o0); apply in_or_app; auto|]. change ((dt, WAdd f p) :: l ++ [(dt', o)]) with (((dt, WAdd f p) :: l) ++ [(dt', o)]). rewrite wrun_snoc.
      set (st := wrun (watcher_new d) ((dt, WAdd f p) :: l)) in *. assert (N : NoDup (map fst (paths st))) by (rewrite I2; constructor; [intros []|constructor]).
      destruct (H dt' o) as [Hm Hn]; [apply in_or_app; right; left; reflexivity|].
      assert (Tk : forall q, target st q <-> q = k) by (intros q; unfold target; rewrite I2; cbn; intuition congruence).
      assert (Pl : plainly st o).
      { split; [intros q Hq; apply Tk in Hq; subst q; exact Hm|]. destruct o; auto. exfalso. eapply Hn. reflexivity. }
      assert (Al : alone st o).
      { intros q w c q' w' c' Ha He He' n. exfalso. apply n. apply (in_map fst) in He, He'. assert (target st q) by exact He. assert (target st q') by exact He'. apply Tk in H0, H1. congruence. }
      destruct (stays_step st dt' o N I1 Pl Al) as (S1 & S2 & _). split; [exact S1|].
      (* the targets *)
      assert (Keys : forall q, In q (map fst (paths (wstep st (dt', o)))) -> q = k).
      { intros q Hq. apply Tk. clear - Hq Hn N. unfold wstep in Hq. destruct (stopped st); [exact Hq|]. cbn [fst snd] in Hq. destruct o; cbn [paths] in Hq.
        - pose proof (fun p w => redone_event st f0 ev p w N) as R. destruct (handle_event ev (paths st)) as [rw reload]. cbn [fst] in R.
          rewrite (proj1 (on_event_parts _ _ _ _)) in Hq. cbn [watches paths] in Hq. apply rewatch_keys in Hq as [Hq|Hq]; [exact Hq|].
          rewrite in_map_iff in Hq. destruct Hq as ([q' w] & E & Hin). cbn in E. subst q'. apply R in Hin as [_ (c & He)]. apply (in_map fst) in He. exact He.
        - rewrite (proj1 (on_event_parts _ _ _ _)) in Hq. cbn [watches paths] in Hq. apply rewatch_keys in Hq as [Hq|Hq]; [exact Hq|]. cbn [redone] in Hq. rewrite map_map in Hq. exact Hq.
        - exfalso. eapply Hn. reflexivity.
        - cbn [deadline] in Hq. destruct (deadline st); [destruct (_ <=? _)|]; exact Hq.
        - rewrite swap_map, swap_in in Hq. exact Hq.
        - exact Hq. }
      pose proof (S2 k (proj2 (Tk k) eq_refl)) as Hk. unfold target in Hk. pose proof (wstep_nodup st (dt', o) N) as N'.
      destruct (map fst (paths (wstep st (dt', o)))) as [|a m]; [destruct Hk|]. assert (a = k) by (apply Keys; left; reflexivity). subst a.
      destruct m as [|b m]; [reflexivity|]. exfalso. assert (b = k) by (apply Keys; right; left; reflexivity). subst b. inversion N' as [|? ? X _]. apply X. left. reflexivity. }
  destruct G as [G1 G2]. apply G1. unfold target. rewrite G2. left. reflexivity.
Qed.
Print Assumptions C33_single_partial.

(** Not so with more of them.  Two files that exist; notify reports an error or asks
    for a rescan: the first file looked at calls for a reload, and the second one is
    not looked at and is no longer a target. *)
Definition everything : fs := mkFs (fun _ => true) (fun p => Some p).
Definition etc_file : path := [slash; lit "etc"; lit "c"].
Definition home_file : path := [slash; lit "home"; lit "c"].
Theorem C33_rescan_refuted : exists d l ev,
  let st := wrun (watcher_new d) l in let st' := wstep st (0, WEvent everything ev) in
  all_watched st /\ target st etc_file /\ target st home_file /\ plainly st (WEvent everything ev) /\
  target st' etc_file /\ ~ target st' home_file.
Proof.
  exists 100, [(0, WAdd everything etc_file); (0, WAdd everything home_file)], (mkEvent OtherKind true []). cbn zeta.
  split. { apply all_watched_iff; [vm_compute; repeat (constructor; [cbn; intuition discriminate|]); constructor|]. intros p w c H. vm_compute in H.
    destruct H as [H|[H|[]]]; injection H as <- <- <-; (split; [apply above_self|]); split; vm_compute; auto. }
  split; [vm_compute; auto|]. split; [vm_compute; auto|]. split.
  { split; [|exact I]. intros p Hp. cbn. split; [exists p; split; [apply above_self|reflexivity]|intros a Ha; left; reflexivity]. }
  split; [vm_compute; auto|]. vm_compute. intuition discriminate.
Qed.
Print Assumptions C33_rescan_refuted.

(** Two files missing from one directory, which is watched for both: when one of them
    is created, the directory is no longer watched for the other one. *)
Definition home (names : list rstr) : fs :=
  mkFs (fun p => existsb (fun q => path_eqb q p) ([slash] :: [slash; lit "h"] :: map (fun n => [slash; lit "h"; n]) names)) (fun p => None).
Theorem C33_shared_refuted : exists d l ev f,
  let st := wrun (watcher_new d) l in let st' := wstep st (0, WEvent f ev) in
  all_watched st /\ target st [slash; lit "h"; lit "b"] /\ plainly st (WEvent f ev) /\
  target st' [slash; lit "h"; lit "b"] /\ ~ watched st' [slash; lit "h"; lit "b"].
Proof.
  exists 100, [(0, WAdd (home []) [slash; lit "h"; lit "a"]); (0, WAdd (home []) [slash; lit "h"; lit "b"])], (mkEvent Create false [[slash; lit "h"; lit "a"]]), (home [lit "a"]). cbn zeta.
  assert (Ab : forall n, above [slash; lit "h"] [slash; lit "h"; n]) by (intros n; split; [exists [n]; reflexivity|discriminate]).
  split. { apply all_watched_iff; [vm_compute; repeat (constructor; [cbn; intuition discriminate|]); constructor|]. intros p w c H. vm_compute in H.
    destruct H as [H|[H|[]]]; injection H as <- <- <-; (split; [apply Ab|]); split; vm_compute; auto. }
  split; [vm_compute; auto|]. split.
  { split; [|exact I]. intros p Hp. cbn [meets]. split; [|intros a Ha; right; reflexivity]. vm_compute in Hp. destruct Hp as [<-|[<-|[]]]; (exists [slash; lit "h"]; split; [apply Ab|reflexivity]). }
  split; [vm_compute; auto|]. intros (w & c & H1 & _ & H2 & _). vm_compute in H1, H2. destruct H1 as [H1|[H1|[]]]; [discriminate H1|]. injection H1 as <- <-.
  destruct H2 as [H2|[]]; discriminate H2.
Qed.
Print Assumptions C33_shared_refuted.

(** Two configured paths that lead to one file: the second one is refused, which
    keeps the daemon from starting (config.rs 94-96). *)
Theorem C33_alias_refuted : exists f p q,
  p <> q /\ plain f (canonicalize_path f p) /\ plain f (canonicalize_path f q) /\
  snd (add_watch_by_command f q (fst (add_watch_by_command f p (watcher_new 100)))) = false.
Proof.
  exists (mkFs (fun _ => true) (fun p => if path_eqb p home_file then Some etc_file else Some p)), etc_file, home_file.
  split; [discriminate|]. assert (P : plain (mkFs (fun _ => true) (fun p => if path_eqb p home_file then Some etc_file else Some p)) etc_file).
  { split; [exists etc_file; split; [apply above_self|reflexivity]|]. intros a [(r & Ha) _]. left. cbn. destruct (path_eqb a home_file) eqn:E; [|reflexivity]. apply path_eqb_eq in E. subst a. discriminate Ha. }
  split; [exact P|]. split; [exact P|]. vm_compute. reflexivity.
Qed.
Print Assumptions C33_alias_refuted.

(** A file that does not exist yet, then its directory, then the file. *)
Example C33_appears :
  let f0 := home [] in
  let st := wrun (watcher_new 100) [(0, WAdd f0 [slash; lit "h"; lit "a"]); (5, WEvent (home [lit "a"]) (mkEvent Create false [[slash; lit "h"; lit "a"]]));
                                     (3, WEvent (home [lit "a"]) (mkEvent Modify false [[slash; lit "h"; lit "a"]])); (97, WTimeout)] in
  wreachable 100 st /\ reloads st = [105] /\ deadline st = None /\ watches st = [[slash; lit "h"; lit "a"]].
Proof. cbn zeta. split; [eexists; reflexivity|]. vm_compute. auto. Qed.
