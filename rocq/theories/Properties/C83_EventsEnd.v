(** C83: the end of the events socket. *)
From Coq Require Import List Arith Bool Lia.
From Verif Require Import Model.EventsEnd.
Import ListNotations.

(** What a history says by itself. *)
Definition left_alone (h : list action) : Prop := forall f, ~ In (Other f) h.
Fixpoint handles (n : nat) (h : list action) : nat :=
  match h with
  | [] => n
  | Clone :: h => handles (match n with 0 => 0 | S _ => S n end) h
  | Release :: h => handles (n - 1) h
  | _ :: h => handles n h
  end.

Lemma buses_is : forall h s, buses (run s h) = handles (buses s) h.
Proof.
  induction h as [|a h IH]; intros s; [reflexivity|]. change (run s (a :: h)) with (run (step s a) h). rewrite IH. clear IH.
  destruct a; cbn [step handles].
  - destruct (file s) as [[|]|]; [destruct (running (sink s))|..]; reflexivity.
  - destruct (nobody (buses s)); [|destruct (running (sink s))]; reflexivity.
  - unfold nobody. destruct (buses s) eqn:B; cbn; [rewrite B|]; reflexivity.
  - cbn. f_equal. lia.
  - destruct (main s); reflexivity.
  - destruct (main s); [| destruct (running (sink s)) |]; reflexivity.
  - destruct (sink s); [destruct (_ || _)|..]; reflexivity.
  - destruct (sink s) as [|[] w|]; try reflexivity. destruct w; [|reflexivity]. destruct (nobody (buses (accept_all s))); reflexivity.
  - destruct f as [[|]|]; reflexivity.
Qed.

Lemma drop_dec : forall h, {In DropHandle h} + {~ In DropHandle h}.
Proof. apply in_dec. decide equality; try apply Nat.eq_dec; try apply bool_dec. decide equality. apply Nat.eq_dec. Qed.
(** What holds after every history. *)
Record ok (h : list action) (s : state) : Prop := mkOk {
  k_file : left_alone h -> file s = if running (sink s) then Some 0 else None;
  k_holds : main s = Holds <-> ~ In DropHandle h;
  k_nudge : main s = Holds -> nudge s = false;
  k_seen : main s = Holds -> forall w, sink s <> Woken true w;
  k_told : running (sink s) = true -> main s <> Holds -> nudge s = true;
  k_done : main s = Done -> sink s = Over;
  k_over : sink s = Over -> In DropHandle h \/ buses s = 0;
  k_conns : forall c, c < next s <-> In c (pending s) \/ In c (served s) \/ In c (closed s);
  k_left : sink s = Over -> pending s = [] /\ served s = [];
  k_alive : running (sink s) = true -> closed s = [] }.

Lemma ok_start : ok [] start.
Proof.
  constructor; cbn; try discriminate; auto; try (intros; discriminate).
  - split; [intros _ []|reflexivity].
  - intros c. split; [lia|tauto].
Qed.

Lemma ok_step h s a : ok h s -> ok (h ++ [a]) (step s a).
Proof.
  intros [F Hd Nu Se To Dn Ov Co Le Al].
  assert (LA : left_alone (h ++ [a]) -> left_alone h) by (intros L f I; apply (L f), in_or_app; left; exact I).
  assert (DH : a <> DropHandle -> (In DropHandle (h ++ [a]) <-> In DropHandle h)).
  { intros N. rewrite in_app_iff. cbn. split; [intros [I|[I|[]]]; [exact I|congruence]|auto]. }
  assert (Same : a <> DropHandle -> ok (h ++ [a]) s).
  { intros N. constructor; auto; [rewrite DH by exact N; exact Hd|intros O; rewrite DH by exact N; exact (Ov O)]. }
  destruct a; cbn [step].
  - destruct (file s) as [[|k]|] eqn:Fl; [|apply Same; discriminate|apply Same; discriminate]. destruct (running (sink s)) eqn:R; [|apply Same; discriminate].
    constructor; cbn; auto; try (rewrite DH by discriminate); auto.
    + intros L. rewrite R. reflexivity.
    + clear - Co. intros c. specialize (Co c). rewrite in_app_iff. cbn. split.
      * intros L. destruct (Nat.eq_dec c (next s)); [subst; tauto|]. assert (c < next s) by lia. tauto.
      * intros [[I|[I|[]]]|I]; [apply Nat.lt_lt_succ_r, Co; auto|lia|apply Nat.lt_lt_succ_r, Co; auto].
    + intros O. rewrite O in R. discriminate.
  - destruct (nobody (buses s)); [apply Same; discriminate|]. destruct (running (sink s)) eqn:R; [|apply Same; discriminate].
    constructor; cbn; auto; try (rewrite DH by discriminate); auto; intros; rewrite ?R; auto.
  - unfold nobody. destruct (buses s =? 0) eqn:B; [apply Same; discriminate|]. apply Nat.eqb_neq in B.
    constructor; cbn; auto; try (rewrite DH by discriminate); auto. intros O. destruct (Ov O); [auto|contradiction].
  - constructor; cbn; auto; try (rewrite DH by discriminate); auto. intros O. destruct (Ov O) as [|E]; [auto|right; rewrite E; reflexivity].
  - assert (ID : In DropHandle (h ++ [DropHandle])) by (apply in_or_app; right; left; reflexivity).
    destruct (main s) eqn:M; constructor; cbn; auto; try rewrite M; try (split; [discriminate|intros N; destruct (N ID)]); try discriminate; auto; try (intros; discriminate); try congruence.
  - destruct (main s) eqn:M; [apply Same; discriminate| |apply Same; discriminate]. destruct (running (sink s)) eqn:R; [apply Same; discriminate|].
    constructor; cbn; auto; try (rewrite DH by discriminate); auto; try (intros; discriminate).
    + intros L. rewrite R. auto.
    + split; [discriminate|]. intros N. exfalso. apply Hd in N. discriminate.
    + rewrite R. discriminate.
    + intros _. destruct (sink s); [discriminate|discriminate|reflexivity].
    + rewrite R. discriminate.
  - destruct (sink s) as [|sh w|] eqn:Sk; [|apply Same; discriminate|apply Same; discriminate]. cbn in *. destruct (nudge s || wake s || nobody (buses s) || negb (empty (pending s)) || writable && negb (empty (served s))); [|apply Same; discriminate].
    constructor; cbn; auto; try (rewrite DH by discriminate); auto; try (intros; discriminate).
    + intros M w'. rewrite (Nu M). discriminate.
    + intros D. specialize (Dn D). discriminate.
  - assert (Ret : forall s', (In DropHandle h \/ buses s = 0) -> buses s' = buses s -> main s' = main s -> nudge s' = nudge s -> next s' = next s ->
        (forall c, In c (pending s') \/ In c (served s') \/ In c (closed s') <-> In c (pending s) \/ In c (served s) \/ In c (closed s)) -> ok (h ++ [Turn]) (return_ s')).
    { intros s' W Eb Em En Ex Ec. constructor; cbn; auto; try (rewrite DH by discriminate); rewrite ?Eb, ?Em, ?En, ?Ex; auto; try (intros; discriminate).
      - clear - Co Ec. intros c. rewrite Co, <- Ec, !in_app_iff. tauto.
    }
    destruct (sink s) as [|[] w|] eqn:Sk; [apply Same; discriminate| | |apply Same; discriminate].
    + apply Ret; try reflexivity. left. destruct (main s) eqn:M; [destruct (Se eq_refl w eq_refl)|..].
      * destruct (drop_dec h) as [I|N]; [exact I|apply Hd in N; discriminate].
      * specialize (Dn eq_refl). discriminate.
    + cbn [running] in *. change (buses (accept_all s)) with (buses s). destruct w; [destruct (nobody (buses s)) eqn:B|].
      * apply (Ret (accept_all s)); try reflexivity; [right; apply Nat.eqb_eq; exact B|]. clear. intros c. cbn. rewrite in_app_iff. tauto.
      * constructor; cbn; auto; try (rewrite DH by discriminate); auto; try (intros; discriminate).
        -- intros D. specialize (Dn D). discriminate.
        -- clear - Co. intros c. rewrite Co, in_app_iff. cbn. tauto.
      * constructor; cbn; auto; try (rewrite DH by discriminate); auto; try (intros; discriminate).
        -- intros D. specialize (Dn D). discriminate.
        -- clear - Co. intros c. rewrite Co, in_app_iff. cbn. tauto.
  - assert (NL : left_alone (h ++ [Other f]) -> False) by (intros L; apply (L f), in_or_app; right; left; reflexivity).
    destruct f as [[|k]|]; [apply Same; discriminate|..]; constructor; cbn; auto; try (rewrite DH by discriminate); auto; intros L; destruct (NL L).
Qed.
Lemma ok_run : forall h, ok h (run start h).
Proof. intros h. induction h as [|a h IH] using rev_ind; [exact ok_start|]. unfold run in *. rewrite fold_left_app. apply ok_step. exact IH. Qed.

(** As long as the daemon has its handle and there is a publisher, the socket is served: the
    thread goes on, no connection is closed, and if no other program touches the file a
    subscriber that connects is taken. *)
Theorem C83_served : forall h, ~ In DropHandle h -> handles 1 h > 0 -> let s := run start h in
  sink s <> Over /\ closed s = [] /\ (left_alone h -> file s = Some 0 /\ In (next s) (pending (run start (h ++ [Connect])))).
Proof.
  intros h N B s. destruct (ok_run h) as [F Hd Nu Se To Dn Ov Co Le Al]. fold s in F, Ov, Al.
  assert (NO : sink s <> Over) by (intros O; destruct (Ov O) as [I|E]; [contradiction|]; unfold s in E; rewrite buses_is in E; cbn in E; lia).
  assert (R : running (sink s) = true) by (destruct (sink s); [reflexivity|reflexivity|congruence]).
  split; [exact NO|]. split; [exact (Al R)|]. intros L. specialize (F L). rewrite R in F. split; [exact F|].
  unfold run. rewrite fold_left_app. change (fold_left step h start) with s. cbn. rewrite F, R. cbn. apply in_or_app. right. left. reflexivity.
Qed.

(** When the daemon is through with its handle the thread has returned, every connection
    ever made has been closed, and if no other program touches the file it is gone. *)
Theorem C83_clean : forall h, let s := run start h in main s = Done ->
  sink s = Over /\ (forall c, c < next s -> In c (closed s)) /\ (left_alone h -> file s = None).
Proof.
  intros h s D. destruct (ok_run h) as [F Hd Nu Se To Dn Ov Co Le Al]. fold s in F, Dn, Co, Le.
  specialize (Dn D). destruct (Le Dn) as [P S]. split; [exact Dn|]. split; [|intros L; rewrite (F L), Dn; reflexivity].
  intros c C. apply Co in C. rewrite P, S in C. destruct C as [[]|[[]|C]]; exact C.
Qed.

(** The thread returns only if the handle is dropped or the last publisher has gone. *)
Theorem C83_why : forall h, sink (run start h) = Over -> In DropHandle h \/ handles 1 h = 0.
Proof. intros h O. destruct (k_over _ _ (ok_run h) O) as [I|E]; [auto|]. rewrite buses_is in E. auto. Qed.

(** Dropping the handle does not hang: when the thread has finished the turn it may be in,
    waited once more and taken another turn, whatever else happens, it has returned, and the
    main thread goes on.  So it does when the last publisher has gone. *)
Lemma over_stays : forall l s, sink s = Over -> sink (run s l) = Over.
Proof.
  induction l as [|a l IH]; intros s O; [exact O|]. apply (IH (step s a)). destruct a; cbn [step]; rewrite ?O; cbn [running]; try exact O; try reflexivity.
  - destruct (file s) as [[|]|]; exact O.
  - destruct (nobody (buses s)); exact O.
  - destruct (nobody (buses s)); exact O.
  - destruct (main s); exact O.
  - destruct (main s); exact O.
  - destruct f as [[|]|]; exact O.
Qed.
Definition called (s : state) : Prop := (nudge s = true \/ buses s = 0) /\ running (sink s) = true \/ sink s = Over.
Definition heard (s : state) : Prop := (exists w, sink s = Woken true w) \/ (exists sh, sink s = Woken sh true) /\ buses s = 0 \/ sink s = Over.
Lemma called_step s a : called s -> called (step s a).
Proof.
  intros [[C R]|O]; [|right; exact (over_stays [a] s O)].
  destruct a; cbn [step]; unfold called.
  - destruct (file s) as [[|]|]; [rewrite R|..]; left; cbn; auto.
  - destruct (nobody (buses s)); [left; auto|]. rewrite R. left. cbn. auto.
  - unfold nobody. destruct (buses s =? 0) eqn:B; [left; auto|]. left. cbn. apply Nat.eqb_neq in B. split; [tauto|exact R].
  - left. cbn. split; [destruct C as [C|C]; [auto|right; rewrite C; reflexivity]|exact R].
  - destruct (main s); left; cbn; auto.
  - destruct (main s); rewrite ?R; left; cbn; auto.
  - destruct (sink s) eqn:Sk; [destruct (_ || _)|..]; left; cbn; rewrite ?Sk; auto.
  - destruct (sink s) as [|[] w|] eqn:Sk; [left; rewrite Sk; auto|right; reflexivity| |discriminate]. cbn zeta. change (buses (accept_all s)) with (buses s). destruct w; [destruct (nobody (buses s)) eqn:B|]; [right; reflexivity|left; cbn; auto|left; cbn; auto].
  - destruct f as [[|]|]; left; cbn; auto.
Qed.
Lemma called_run : forall l s, called s -> called (run s l).
Proof. induction l as [|a l IH]; intros s C; [exact C|]. apply (IH (step s a)), called_step, C. Qed.
Lemma heard_step s a : heard s -> heard (step s a).
Proof.
  intros [[w W]|[[[sh W] B]|O]]; [| |right; right; exact (over_stays [a] s O)].
  - destruct a; cbn [step]; rewrite ?W; cbn [running]; unfold heard.
    + destruct (file s) as [[|]|]; left; cbn; eauto.
    + destruct (nobody (buses s)); left; cbn; eauto.
    + destruct (nobody (buses s)); left; cbn; eauto.
    + left; cbn; eauto.
    + destruct (main s); left; cbn; eauto.
    + destruct (main s); left; cbn; eauto.
    + left; eauto.
    + right; right; reflexivity.
    + destruct f as [[|]|]; left; cbn; eauto.
  - destruct a; cbn [step]; rewrite ?W, ?B; cbn [running nobody]; unfold heard.
    + destruct (file s) as [[|]|]; right; left; cbn; eauto.
    + right; left; eauto.
    + right; left; eauto.
    + right; left; cbn; eauto.
    + destruct (main s); right; left; cbn; eauto.
    + destruct (main s); right; left; cbn; eauto.
    + right; left; eauto.
    + right; right. destruct sh; [reflexivity|]. cbn. rewrite B. reflexivity.
    + destruct f as [[|]|]; right; left; cbn; eauto.
Qed.
Lemma heard_run : forall l s, heard s -> heard (run s l).
Proof. induction l as [|a l IH]; intros s C; [exact C|]. apply (IH (step s a)), heard_step, C. Qed.
Lemma run_app s a b : run s (a ++ b) = run (run s a) b. Proof. unfold run. apply fold_left_app. Qed.
(** After a turn the thread waits until it polls, and then it hears the call. *)
Definition ready (s : state) : Prop := called s /\ sink s = Waiting \/ heard s.
Lemma ready_step s a : ready s -> ready (step s a).
Proof.
  intros [[C W]|H]; [|right; apply heard_step, H].
  assert (K : (forall w, a <> Poll w) -> sink (step s a) = Waiting -> ready (step s a)) by (intros _ K; left; split; [apply called_step, C|exact K]).
  destruct a; try (apply K; [discriminate|]; clear K).
  - cbn. destruct (file s) as [[|]|]; rewrite ?W; (exact W || reflexivity).
  - cbn. destruct (nobody (buses s)); rewrite ?W; (exact W || reflexivity).
  - cbn. destruct (nobody (buses s)); (exact W || reflexivity).
  - (exact W || reflexivity).
  - cbn. destruct (main s); (exact W || reflexivity).
  - cbn. destruct (main s); rewrite ?W; (exact W || reflexivity).
  - right. destruct C as [[C _]|O]; [|congruence]. cbn. rewrite W. destruct C as [C|C]; rewrite C.
    + left. cbn. eauto.
    + rewrite orb_true_r. cbn. right. left. split; [|exact C]. cbn. rewrite orb_true_r. eauto.
  - cbn. rewrite W. (exact W || reflexivity).
  - cbn. destruct f as [[|]|]; (exact W || reflexivity).
Qed.
Lemma poll_hears s w : ready s -> heard (step s (Poll w)).
Proof.
  intros [[C W]|H]; [|apply heard_step, H]. destruct C as [[C _]|O]; [|congruence]. cbn. rewrite W. destruct C as [C|C]; rewrite C.
  - left. cbn. eauto.
  - rewrite orb_true_r. cbn. right. left. split; [|exact C]. cbn. rewrite orb_true_r. eauto.
Qed.
Lemma turn_ends s : heard s -> sink (step s Turn) = Over.
Proof.
  intros [[v W]|[[[sh W] B]|O]]; [cbn; rewrite W; reflexivity| |exact (over_stays [Turn] _ O)].
  cbn. rewrite W. destruct sh; [reflexivity|]. cbn. rewrite B. reflexivity.
Qed.
Lemma ready_run : forall l s, ready s -> ready (run s l).
Proof. induction l as [|a l IH]; intros s C; [exact C|]. apply (IH (step s a)), ready_step, C. Qed.
Theorem C83_ends : forall h a w b c, In DropHandle h \/ handles 1 h = 0 ->
  let l := Turn :: a ++ Poll w :: b ++ Turn :: c in
  sink (run start (h ++ l)) = Over /\ (In DropHandle h -> main (run start (h ++ l ++ [Join])) = Done).
Proof.
  intros h a w b c Why l.
  assert (C : called (run start h)).
  { destruct (sink (run start h)) eqn:Sk; [left|left|right; exact Sk]; (rewrite Sk; split; [|reflexivity]; destruct Why as [I|Z]; [left|right; rewrite buses_is; exact Z];
      apply (k_told _ _ (ok_run h)); [rewrite Sk; reflexivity|intros M; apply (k_holds _ _ (ok_run h)) in M; contradiction]). }
  assert (R1 : ready (step (run start h) Turn)).
  { pose proof (called_step _ Turn C) as C'. destruct (sink (step (run start h) Turn)) eqn:Sk; [left; auto| |right; right; right; exact Sk].
    exfalso. cbn in Sk. destruct (sink (run start h)) as [|[] v|] eqn:S0; [rewrite S0 in Sk; discriminate|discriminate| |rewrite S0 in Sk; discriminate]. cbn in Sk. destruct v; [destruct (buses (run start h) =? 0)|]; discriminate. }
  assert (E : run start (h ++ l) = run (step (run (step (run (step (run start h) Turn) a) (Poll w)) b) Turn) c).
  { unfold l. rewrite run_app. change (Turn :: a ++ Poll w :: b ++ Turn :: c) with ([Turn] ++ a ++ [Poll w] ++ b ++ [Turn] ++ c). rewrite !run_app. reflexivity. }
  assert (H : heard (step (run (step (run start h) Turn) a) (Poll w))).
  { apply poll_hears, ready_run, R1. }
  assert (O : sink (run start (h ++ l)) = Over).
  { rewrite E. apply over_stays, turn_ends, heard_run, H. }
  split; [exact O|]. intros I. rewrite app_assoc, run_app. cbn. rewrite O.
  destruct (main (run start (h ++ l))) eqn:M; [|reflexivity|exact M].
  apply (k_holds _ _ (ok_run (h ++ l))) in M. exfalso. apply M, in_or_app. left. exact I.
Qed.

(** What is published while the socket is served is sent to all who have connected by then,
    when the thread has finished its turn and taken another; and nothing else is sent. *)
Record told (h : list action) (s : state) : Prop := mkTold {
  t_wake : sink s <> Over -> (channel s <> [] <-> wake s = true);
  t_channel : forall e, In e (channel s) -> In (Publish e) h;
  t_sent : forall c e, In (c, e) (sent s) -> c < next s /\ In (Publish e) h }.
Lemma told_step h s a : ok h s -> told h s -> told (h ++ [a]) (step s a).
Proof.
  intros K [W Ch Se].
  assert (Up : forall e, In (Publish e) h -> In (Publish e) (h ++ [a])) by (intros e I; apply in_or_app; left; exact I).
  assert (Same : told (h ++ [a]) s) by (constructor; [exact W|auto|intros c e I; destruct (Se c e I); auto]).
  assert (Ret : forall s', sent s' = sent s -> next s' = next s -> told (h ++ [a]) (return_ s')).
  { intros s' E1 E2. constructor; cbn; [congruence|intros e []|]. rewrite E1, E2. intros c e I. destruct (Se c e I). auto. }
  destruct a; cbn [step].
  - destruct (file s) as [[|]|]; [destruct (running (sink s))|..]; try exact Same. constructor; cbn; [exact W|auto|]. intros c e I. destruct (Se c e I). split; [lia|auto].
  - destruct (nobody (buses s)); [exact Same|]. destruct (running (sink s)); [|exact Same]. constructor; cbn; [intros _; split; [reflexivity|intros _ X; destruct (channel s); discriminate]| |intros c e I; destruct (Se c e I); auto].
    intros e I. apply in_app_or in I as [I|[<-|[]]]; [auto|]. apply in_or_app. right. left. reflexivity.
  - destruct (nobody (buses s)); [exact Same|]. destruct Same. constructor; auto.
  - destruct Same. constructor; auto.
  - destruct (main s); try exact Same. destruct Same. constructor; auto.
  - destruct (main s); try exact Same. destruct (running (sink s)); [exact Same|]. destruct Same. constructor; auto.
  - destruct (sink s) eqn:Sk; [destruct (_ || _)|..]; try exact Same. destruct Same. constructor; auto. cbn. intros _. apply W. congruence.
  - destruct (sink s) as [|[] v|] eqn:Sk; [exact Same|apply Ret; reflexivity| |exact Same]. cbn zeta. destruct v; [destruct (nobody (buses (accept_all s))); [apply Ret; reflexivity|]|destruct Same; constructor; auto; cbn; intros _; apply W; congruence].
    constructor; cbn; [intros _; split; [congruence|discriminate]|intros e []|]. intros c e I. apply in_app_or in I as [I|I]; [destruct (Se c e I); auto|].
    apply in_flat_map in I as (e' & I1 & I2). apply in_map_iff in I2 as (c' & E & I2). injection E as -> ->. split; [|auto].
    apply (k_conns _ _ K). apply in_app_or in I2 as [I2|I2]; auto.
  - destruct f as [[|]|]; [exact Same|..]; destruct Same; constructor; auto.
Qed.
Lemma told_run : forall h, told h (run start h).
Proof.
  intros h. induction h as [|a h IH] using rev_ind; [constructor; cbn; [intros _; split; [congruence|discriminate]|intros e []|intros c e []]|].
  unfold run in *. rewrite fold_left_app. apply told_step; [exact (ok_run h)|exact IH].
Qed.
Lemma all_sent s c e : In c (served s) -> In e (channel s) -> In (c, e) (sent (broadcast s)).
Proof. intros C E. cbn. apply in_or_app. right. apply in_flat_map. exists e. split; [exact E|]. apply in_map_iff. exists c. auto. Qed.
Theorem C83_told : forall h e w c, ~ In DropHandle h -> handles 1 h > 0 -> c < next (run start h) ->
  In (c, e) (sent (run start (h ++ [Publish e; Turn; Poll w; Turn]))).
Proof.
  intros h e w c N B C. set (h1 := h ++ [Publish e]).
  assert (N1 : ~ In DropHandle h1) by (unfold h1; intros I; apply in_app_or in I as [I|[I|[]]]; [contradiction|discriminate]).
  assert (B1 : buses (run start h1) > 0).
  { unfold h1. rewrite run_app, buses_is. cbn. rewrite buses_is. exact B. }
  destruct (C83_served h N B) as (NO & _ & _).
  assert (Nx : next (run start h1) = next (run start h) /\ In e (channel (run start h1)) /\ wake (run start h1) = true /\ sink (run start h1) = sink (run start h)).
  { unfold h1. rewrite run_app. cbn. unfold nobody. rewrite buses_is. cbn. destruct (handles 1 h) eqn:Hn; [lia|]. cbn.
    destruct (sink (run start h)) eqn:Sk; [| |congruence]; cbn; (split; [reflexivity|]; split; [apply in_or_app; right; left; reflexivity|split; auto]). }
  destruct Nx as (Nx & Ie & Wk & Sk1). rewrite <- Nx in C. rewrite <- Sk1 in NO.
  replace (h ++ [Publish e; Turn; Poll w; Turn]) with (h1 ++ [Turn; Poll w; Turn]) by (unfold h1; rewrite <- app_assoc; reflexivity). rewrite run_app.
  pose proof (ok_run h1) as K. set (s := run start h1) in *. clearbody s.
  assert (M : main s = Holds) by (apply (k_holds _ _ K), N1).
  pose proof (k_nudge _ _ K M) as Nu. pose proof (k_seen _ _ K M) as Sn.
  assert (Cn : In c (served s) \/ In c (pending s)).
  { apply (k_conns _ _ K) in C. assert (R : running (sink s) = true) by (destruct (sink s); [reflexivity|reflexivity|congruence]). rewrite (k_alive _ _ K R) in C. destruct C as [C|[C|[]]]; auto. }
  assert (Bz : nobody (buses s) = false) by (unfold nobody; apply Nat.eqb_neq; lia).
  assert (Late : forall t, sink t = Waiting -> nudge t = false -> wake t = true -> nobody (buses t) = false -> In e (channel t) -> (In c (served t) \/ In c (pending t)) ->
    In (c, e) (sent (step (step t (Poll w)) Turn))).
  { intros t S1 S2 S3 S4 S5 S6. cbn [step]. rewrite S1, S2, S3. cbn [orb]. cbn [sink set_sink]. cbn zeta. change (buses (accept_all (set_sink t (Woken false true)))) with (buses t). rewrite S4.
    apply all_sent; [|exact S5]. cbn. apply in_or_app. exact S6. }
  change (run s [Turn; Poll w; Turn]) with (step (step (step s Turn) (Poll w)) Turn).
  destruct (sink s) as [|[] v|] eqn:Sk; [|destruct (Sn v eq_refl)| |congruence].
  - assert (E : step s Turn = s) by (cbn [step]; rewrite Sk; reflexivity). rewrite E. apply Late; auto.
  - destruct v.
    + assert (E : step s Turn = broadcast (accept_all s)) by (cbn [step]; rewrite Sk; cbn zeta; change (buses (accept_all s)) with (buses s); rewrite Bz; reflexivity). rewrite E.
      assert (D : In (c, e) (sent (broadcast (accept_all s)))) by (apply all_sent; [cbn; apply in_or_app; exact Cn|exact Ie]).
      assert (G : forall t a, In (c, e) (sent t) -> In (c, e) (sent (step t a))).
      { intros t a I. destruct a; cbn [step]; try exact I.
        - destruct (file t) as [[|]|]; [destruct (running (sink t))|..]; exact I.
        - destruct (nobody (buses t)); [|destruct (running (sink t))]; exact I.
        - destruct (nobody (buses t)); exact I.
        - destruct (main t); exact I.
        - destruct (main t); [|destruct (running (sink t))|]; exact I.
        - destruct (sink t); [destruct (_ || _)|..]; exact I.
        - destruct (sink t) as [|[] u|]; try exact I. cbn zeta. destruct u; [|exact I]. destruct (nobody (buses (accept_all t))); [exact I|]. cbn. apply in_or_app. left. exact I.
        - destruct f as [[|]|]; exact I. }
      apply G, G, D.
    + assert (E : step s Turn = set_sink (accept_all s) Waiting) by (cbn [step]; rewrite Sk; reflexivity). rewrite E. apply Late; auto. left. cbn. apply in_or_app. exact Cn.
Qed.
Theorem C83_nothing_else : forall h c e, In (c, e) (sent (run start h)) -> c < next (run start h) /\ In (Publish e) h.
Proof. intros h. apply (t_sent _ _ (told_run h)). Qed.

(** Connections are taken in the order they are made, all of them in every turn, and kept. *)
Lemma in_turn : forall h s, ok h s -> (running (sink s) = true -> served s ++ pending s = seq 0 (next s)) ->
  forall a, running (sink (step s a)) = true -> served (step s a) ++ pending (step s a) = seq 0 (next (step s a)).
Proof.
  intros h s K I a. destruct a; cbn [step]; try exact I.
  - destruct (file s) as [[|]|]; [|exact I|exact I]. destruct (running (sink s)) eqn:R; [|rewrite R; exact I]. cbn [sink served pending next]. intros _.
    rewrite app_assoc, (I eq_refl), seq_S. reflexivity.
  - destruct (nobody (buses s)); [exact I|]. destruct (running (sink s)) eqn:R; [|rewrite R; exact I]. cbn. auto.
  - destruct (nobody (buses s)); exact I.
  - destruct (main s); exact I.
  - destruct (main s); [exact I| |exact I]. destruct (running (sink s)) eqn:R; cbn [sink served pending next set_main]; rewrite R; exact I.
  - destruct (sink s) eqn:Sk; [destruct (_ || _)|..]; try (rewrite Sk; exact I). cbn. intros _. apply I. reflexivity.
  - destruct (sink s) as [|[] v|] eqn:Sk; [rewrite Sk; exact I|discriminate| |rewrite Sk; exact I]. cbn zeta.
    destruct v; [destruct (nobody (buses (accept_all s))); [discriminate|]|]; cbn; intros _; rewrite app_nil_r; apply I; reflexivity.
  - destruct f as [[|]|]; exact I.
Qed.
Lemma in_turns : forall h, running (sink (run start h)) = true -> served (run start h) ++ pending (run start h) = seq 0 (next (run start h)).
Proof.
  intros h. induction h as [|a h IH] using rev_ind; [reflexivity|]. rewrite run_app. apply (in_turn h); [apply ok_run|exact IH].
Qed.
Theorem C83_taken : forall h, ~ In DropHandle h -> handles 1 h > 0 -> let s := run start h in
  served s ++ pending s = seq 0 (next s) /\
  (sink s <> Waiting -> let s' := run start (h ++ [Turn]) in sink s' = Waiting /\ served s' = seq 0 (next s') /\ pending s' = [] /\ next s' = next s).
Proof.
  intros h N B s. destruct (C83_served h N B) as (NO & _ & _). fold s in NO.
  assert (R : running (sink s) = true) by (destruct (sink s); [reflexivity|reflexivity|congruence]).
  pose proof (in_turns h R) as I. fold s in I. split; [exact I|]. intros NW. cbn zeta. rewrite run_app. fold s.
  pose proof (ok_run h) as K. fold s in K. assert (M : main s = Holds) by (apply (k_holds _ _ K), N). pose proof (k_seen _ _ K M) as Sn.
  change (run s [Turn]) with (step s Turn). cbn [step]. destruct (sink s) as [|[] v|] eqn:Sk; [congruence|destruct (Sn v eq_refl)| |congruence]. cbn zeta.
  assert (Bz : nobody (buses (accept_all s)) = false) by (unfold nobody; apply Nat.eqb_neq; change (buses (accept_all s)) with (buses s); unfold s; rewrite buses_is; change (buses start) with 1; lia).
  destruct v; [rewrite Bz|]; cbn; repeat split; exact I.
Qed.

(** The thread does not wake up for nothing. *)
Theorem C83_idle : forall h, ~ In DropHandle h -> handles 1 h > 0 -> let s := run start h in
  sink s = Waiting -> channel s = [] -> pending s = [] -> run start (h ++ [Poll false]) = s.
Proof.
  intros h N B s W C P. rewrite run_app. fold s. pose proof (ok_run h) as K. pose proof (told_run h) as T. fold s in K, T.
  assert (M : main s = Holds) by (apply (k_holds _ _ K), N). cbn. rewrite W, (k_nudge _ _ K M), P.
  assert (Wk : wake s = false) by (destruct (wake s) eqn:E; [exfalso; apply (t_wake _ _ T) in E; [contradiction|rewrite W; discriminate]|reflexivity]). rewrite Wk.
  assert (Bz : nobody (buses s) = false) by (unfold nobody, s; apply Nat.eqb_neq; rewrite buses_is; change (buses start) with 1; lia). rewrite Bz. reflexivity.
Qed.

(** After the thread's end nobody is sent anything and nobody is taken. *)
Theorem C83_silent : forall h l, sink (run start h) = Over -> let s := run start h in let s' := run start (h ++ l) in
  sink s' = Over /\ sent s' = sent s /\ next s' = next s /\ closed s' = closed s /\ (left_alone l -> file s' = file s).
Proof.
  intros h l O s s'. unfold s'. rewrite run_app. fold s. fold s in O. clearbody s. clear s' h. revert s O.
  induction l as [|a l IH]; intros s O; [repeat split; auto|].
  change (run s (a :: l)) with (run (step s a) l).
  assert (St : sink (step s a) = Over /\ sent (step s a) = sent s /\ next (step s a) = next s /\ closed (step s a) = closed s /\ (left_alone [a] -> file (step s a) = file s)).
  { split; [exact (over_stays [a] s O)|]. destruct a; cbn [step]; rewrite ?O; cbn [running].
    - destruct (file s) as [[|]|] eqn:F; rewrite ?F; auto.
    - destruct (nobody (buses s)); auto.
    - destruct (nobody (buses s)); auto.
    - auto.
    - destruct (main s); auto.
    - destruct (main s); auto.
    - auto.
    - auto.
    - destruct f as [[|]|]; repeat split; auto; intros L; exfalso; eapply L; left; reflexivity. }
  destruct St as (O1 & S1 & N1 & C1 & F1). destruct (IH _ O1) as (O2 & S2 & N2 & C2 & F2). rewrite S2, N2, C2. repeat split; auto.
  intros L. rewrite F2 by (intros f I; apply (L f); right; exact I). apply F1. intros f [I|[]]. apply (L f). left. exact I.
Qed.

(** False: that what was published before the handle is dropped (or the last publisher goes)
    still reaches a subscriber; and that the thread removes its own file only. *)
Theorem C83_last_words_refuted :
  ~ (forall h l e c, In (Publish e) h -> In c (served (run start h)) -> sink (run start (h ++ DropHandle :: l)) = Over -> In (c, e) (sent (run start (h ++ DropHandle :: l)))) /\
  ~ (forall h l e c, In (Publish e) h -> In c (served (run start h)) -> sink (run start (h ++ Release :: l)) = Over -> In (c, e) (sent (run start (h ++ Release :: l)))).
Proof.
  split; intros H; specialize (H [Connect; Poll false; Turn; Publish 7] [Poll false; Turn] 7 0); cbn in H; destruct H; auto.
Qed.
Theorem C83_own_file_refuted : ~ (forall h a, file (run start h) = Some 1 -> (forall f, a <> Other f) -> file (run start (h ++ [a])) = Some 1).
Proof. intros H. specialize (H [DropHandle; Other (Some 1); Poll false] Turn eq_refl). cbn in H. discriminate H. discriminate. Qed.

(** A daemon that has started its events socket and its server, whose reaper thread is a
    publisher, too, and that cannot listen at its control socket. *)
Definition failed_start : list action := [Clone; Connect; Poll false; Turn; Publish 7; Poll false; Turn; Release; DropHandle].
Example C83_holds :
  In DropHandle failed_start /\ main (run start failed_start) = Joins /\ sent (run start failed_start) = [(0, 7)] /\ handles 1 failed_start = 1 /\
  let s := run start (failed_start ++ [Turn; Poll false; Turn; Join]) in
  main s = Done /\ file s = None /\ closed s = [0] /\ sent s = [(0, 7)].
Proof. repeat split; cbn; auto 20. Qed.

Print Assumptions C83_served.
Print Assumptions C83_clean.
Print Assumptions C83_why.
Print Assumptions C83_ends.
Print Assumptions C83_told.
Print Assumptions C83_nothing_else.
Print Assumptions C83_idle.
Print Assumptions C83_taken.
Print Assumptions C83_silent.
Print Assumptions C83_last_words_refuted.
Print Assumptions C83_own_file_refuted.
