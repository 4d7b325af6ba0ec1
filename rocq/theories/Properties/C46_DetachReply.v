(** C46: the reply to a detach request. *)
From Coq Require Import List NArith ZArith Bool Arith Lia.
From Verif Require Import Model.Base Model.Protocol Model.Names Model.Server Spec.ServerSpec Spec.ServerExamples
  Proofs.BaseLemmas Proofs.ServerProofs Proofs.ServerEvents Proofs.ServerMoves Proofs.ServerGossip.
Import ListNotations.
Open Scope nat_scope.

(** What a detach request can find out about a name. *)
Inductive fate := NotFound | NotAttached | Detached.
Definition fate_eqb (a b : fate) : bool :=
  match a, b with NotFound, NotFound | NotAttached, NotAttached | Detached, Detached => true | _, _ => false end.
(** The names that met a fate, in the order they were given. *)
Definition which (f : fate) (names : list rstr) (fates : list fate) : list rstr :=
  map fst (filter (fun p => fate_eqb (snd p) f) (combine names fates)).

(** What must have been so, at some point of the schedule [l] run from [st] on, for
    name [n] to meet its fate at the hands of request [c].  A session whose output
    thread still waits for its first message is being attached to. *)
Definition deserved (st : server) (l : list action) (c : conn) (n : rstr) (f : fate) : Prop :=
  match f with
  | NotFound => lookup n (table st) = None
  | NotAttached => exists s x l1 l2, listed st n s /\ l = l1 ++ l2 /\
      session_at (run st l1) s = Some x /\ s_thread x = TRunning /\ s_client x = None
  | Detached => exists s x x' now l1 l2, listed st n s /\ l = l1 ++ ADetachNext c now :: l2 /\
      session_at (run st l1) s = Some x /\ (s_thread x = TWaiting \/ s_client x <> None) /\
      session_at (run st (l1 ++ [ADetachNext c now])) s = Some x' /\
      (s_thread x = TWaiting \/ s_client x' = None) /\ s_attachment x' = None /\ s_disconnected x' = Some now /\ s_exit x' = s_exit x
  end.

Lemma deserved_more st l a c n f : deserved st l c n f -> deserved st (l ++ [a]) c n f.
Proof.
  destruct f; cbn; auto.
  - intros (s & x & l1 & l2 & L & -> & H). exists s, x, l1, (l2 ++ [a]). rewrite <- app_assoc. auto.
  - intros (s & x & x' & now & l1 & l2 & L & -> & H). exists s, x, x', now, l1, (l2 ++ [a]). rewrite <- app_assoc. auto.
Qed.

Lemma combine_snoc {A B} (l : list A) : forall (m : list B) a b, length m = length l -> combine (l ++ [a]) (m ++ [b]) = combine l m ++ [(a, b)].
Proof. induction l as [|x l IH]; intros [|y m] a b E; try discriminate E; cbn; [reflexivity|]. rewrite IH; [reflexivity|]. injection E as E. exact E. Qed.
Lemma which_snoc f l m a b : length m = length l -> which f (l ++ [a]) (m ++ [b]) = which f l m ++ (if fate_eqb b f then [a] else []).
Proof. intros E. unfold which. rewrite (combine_snoc l m a b E), filter_app, map_app. cbn. destruct (fate_eqb b f); reflexivity. Qed.

(** While a detach request holds the table lock nothing enters or leaves the table. *)
Lemma locked_table st a c : locked st = Some c -> table (step st a) = table st.
Proof. intros L. destruct (step_tells st a) as (es & _ & T). destruct T; congruence. Qed.

Lemma detach_progress st0 c names l : reachable st0 -> handlers st0 c = HDetach names [] [] ->
  let st := run st0 l in
  handlers st c = HDone \/
  exists past todo fates, handlers st c = HDetach todo (which NotFound past fates) (which NotAttached past fates) /\
    past ++ todo = names /\ length fates = length past /\ table st = table st0 /\ Forall2 (deserved st0 l c) past fates.
Proof.
  intros R0 H0. cbn zeta. induction l as [|a l IH] using rev_ind.
  { right. exists [], names, []. repeat split; auto. }
  rewrite run_step.
  assert (R : reachable (run st0 l)).
  { destruct R0 as (d & l0 & ->). exists d, (l0 ++ l). unfold run. rewrite fold_left_app. reflexivity. }
  destruct IH as [D|(past & todo & fates & D & Sp & Ln & Tb & Fa)]; [left; apply step_done; exact D|].
  assert (Lk : locked (run st0 l) = Some c) by (apply (i_lock _ (reachable_inv _ R)); rewrite D; reflexivity).
  pose proof (locked_table _ a _ Lk) as Tb'.
  assert (Fa' : Forall2 (deserved st0 (l ++ [a]) c) past fates).
  { clear - Fa. induction Fa; constructor; auto using deserved_more. }
  assert (Snoc : forall n todo' f, todo = n :: todo' -> deserved st0 (l ++ [a]) c n f ->
     handlers (step (run st0 l) a) c = HDetach todo' (which NotFound past fates ++ if fate_eqb f NotFound then [n] else []) (which NotAttached past fates ++ if fate_eqb f NotAttached then [n] else []) ->
     handlers (step (run st0 l) a) c = HDone \/
     exists past todo fates, handlers (step (run st0 l) a) c = HDetach todo (which NotFound past fates) (which NotAttached past fates) /\
     past ++ todo = names /\ length fates = length past /\ table (step (run st0 l) a) = table st0 /\ Forall2 (deserved st0 (l ++ [a]) c) past fates).
  { intros n todo' f -> Df E. right. exists (past ++ [n]), todo', (fates ++ [f]). rewrite !which_snoc by exact Ln.
    split; [exact E|]. split; [rewrite <- app_assoc; exact Sp|]. split; [rewrite !app_length; cbn; lia|]. split; [congruence|].
    apply Forall2_app; auto. }
  destruct (step_moves (run st0 l) a c) as [M|M].
  { right. exists past, todo, fates. rewrite M. repeat split; auto; congruence. }
  remember (handlers (step (run st0 l) a) c) as h' eqn:Eh'. destruct M; try congruence; auto;
    rewrite D in H; injection H; clear H; intros E1 E2 E3; subst.
  - apply (Snoc n rest NotFound); [reflexivity|cbn; congruence|cbn; rewrite app_nil_r; reflexivity].
  - apply (Snoc n rest NotAttached); [reflexivity| |cbn; rewrite app_nil_r; reflexivity].
    exists s, x, l, [ADetachNext c now]. unfold listed. rewrite <- Tb. auto.
  - apply (Snoc n rest Detached); [reflexivity| |cbn; rewrite !app_nil_r; reflexivity].
    clear Snoc Eh'. match goal with H : _ = TWaiting \/ _ |- _ => destruct H as [Ht|[Ht Hk]] end.
    + exists s, x, (record_detached (set_thread x TRunning) now), now, l, []. rewrite run_step. unfold listed. rewrite <- Tb.
      split; [exact H1|]. split; [reflexivity|]. split; [exact H2|]. split; [auto|]. split.
      { cbn [step]. unfold detach_next. rewrite D, H1, H2, Ht. at_simp. rewrite Nat.eqb_refl, H2. reflexivity. }
      cbn. auto.
    + exists s, x, (record_detached (set_client x None) now), now, l, []. rewrite run_step. unfold listed. rewrite <- Tb.
      split; [exact H1|]. split; [reflexivity|]. split; [exact H2|]. split; [auto|]. split.
      { cbn [step]. unfold detach_next. rewrite D, H1, H2, Ht. destruct (s_client x); [|congruence]. at_simp. rewrite Nat.eqb_refl, H2. reflexivity. }
      cbn. auto.
Qed.

(** Whatever else happens meanwhile, when a detach request is answered, every name
    it was given has met exactly one fate, the reply lists exactly the names that
    met the first two, in order, and each fate was deserved. *)
Theorem C46_reply_partial : forall st c pid names l nf na,
  reachable st -> handlers st c = HAccepted pid (QDetach names) -> locked st = None ->
  let st1 := step st (ADetach c) in
  let st2 := run st1 l in
  replies (step st2 (ADetachFinish c)) = replies st2 ++ [(c, RDetach nf na)] ->
  table st2 = table st /\
  exists fates, length fates = length names /\ nf = which NotFound names fates /\ na = which NotAttached names fates /\
    Forall2 (deserved st1 l c) names fates.
Proof.
  intros st c pid names l nf na R Hc Hl. cbn zeta. intros E.
  assert (R1 : reachable (step st (ADetach c))) by (apply reachable_step; exact R).
  assert (H1 : handlers (step st (ADetach c)) c = HDetach names [] []).
  { cbn [step]. unfold detach_begin. rewrite Hc, Hl. apply goto_same. }
  assert (T1 : table (step st (ADetach c)) = table st).
  { cbn [step]. unfold detach_begin. rewrite Hc, Hl. reflexivity. }
  revert R1 H1 T1 E. generalize (step st (ADetach c)). intros st1 R1 H1 T1 E.
  apply new_reply in E. inversion E; subst.
  match goal with H : handlers _ c = HDetach [] _ _ |- _ => rename H into D end.
  destruct (detach_progress st1 c names l R1 H1) as [Q|(past & todo & fates & Q & Sp & Ln & Tb & Fa)]; cbn zeta in *; [congruence|].
  rewrite D in Q. injection Q as Q1 Q2 Q3. subst todo nf na. rewrite app_nil_r in Sp. subst past.
  split; [congruence|]. exists fates. auto.
Qed.
Print Assumptions C46_reply_partial.

(** So the names without a session are reported exactly. *)
Theorem C46_not_found_exact : forall st c pid names l nf na,
  reachable st -> handlers st c = HAccepted pid (QDetach names) -> locked st = None ->
  let st2 := run (step st (ADetach c)) l in
  replies (step st2 (ADetachFinish c)) = replies st2 ++ [(c, RDetach nf na)] ->
  nf = filter (fun n => match lookup n (table st) with Some _ => false | None => true end) names.
Proof.
  intros st c pid names l nf na R Hc Hl st2 E. destruct (C46_reply_partial st c pid names l nf na R Hc Hl E) as (_ & fates & _ & -> & _ & F).
  assert (T1 : table (step st (ADetach c)) = table st).
  { cbn [step]. unfold detach_begin. rewrite Hc, Hl. reflexivity. }
  clear E Hc st2. unfold which. induction F as [|n f names fates D F IH]; [reflexivity|]. cbn [combine filter snd].
  destruct f; unfold deserved in D; cbn [fate_eqb].
  - rewrite T1 in D. rewrite D. cbn. f_equal. exact IH.
  - destruct D as (s & _ & _ & _ & L & _). unfold listed in L. rewrite T1 in L. rewrite L. exact IH.
  - destruct D as (s & _ & _ & _ & _ & _ & L & _). unfold listed in L. rewrite T1 in L. rewrite L. exact IH.
Qed.
Print Assumptions C46_not_found_exact.

(** It goes on to the next name, or to its reply, unless the session it comes to
    has lost its output thread. *)
Theorem C46_goes_on : forall st c n rest nf na now,
  reachable st -> handlers st c = HDetach (n :: rest) nf na ->
  (exists nf' na', handlers (step st (ADetachNext c now)) c = HDetach rest nf' na') \/
  (exists s x, listed st n s /\ session_at st s = Some x /\ is_live (s_thread x) = false).
Proof.
  intros st c n rest nf na now R Hc. cbn [step]. unfold detach_next. rewrite Hc.
  destruct (lookup n (table st)) as [s|] eqn:L; [|left; rewrite goto_same; eauto].
  destruct (i_tab _ (reachable_inv _ R) n s L) as (x & Hx & _). rewrite Hx.
  destruct (s_thread x) eqn:Ht; [left; rewrite goto_same; eauto| | |];
    [destruct (s_client x); left; rewrite goto_same; eauto|right; exists s, x; rewrite Ht; auto|right; exists s, x; rewrite Ht; auto].
Qed.
Print Assumptions C46_goes_on.

(** So, left to itself with no such session among those named, it is answered. *)
Theorem C46_answered : forall st c pid names now,
  reachable st -> handlers st c = HAccepted pid (QDetach names) -> locked st = None ->
  (forall n s x, In n names -> listed st n s -> session_at st s = Some x -> is_live (s_thread x) = true) ->
  let st2 := run (step st (ADetach c)) (repeat (ADetachNext c now) (length names)) in
  exists nf na, replies (step st2 (ADetachFinish c)) = replies st2 ++ [(c, RDetach nf na)].
Proof.
  intros st c pid names now R Hc Hl Lv. cbn zeta.
  assert (R1 : reachable (step st (ADetach c))) by (apply reachable_step; exact R).
  assert (H1 : exists nf na, handlers (step st (ADetach c)) c = HDetach names nf na).
  { exists [], []. cbn [step]. unfold detach_begin. rewrite Hc, Hl. apply goto_same. }
  assert (Lv1 : forall n s x, In n names -> listed (step st (ADetach c)) n s -> session_at (step st (ADetach c)) s = Some x -> is_live (s_thread x) = true).
  { cbn [step]. unfold detach_begin. rewrite Hc, Hl. exact Lv. }
  revert R1 H1 Lv1. generalize (step st (ADetach c)). clear. revert now. induction names as [|n names IH]; intros now st R (nf & na & Hc) Lv.
  - exists nf, na. cbn. unfold detach_finish. rewrite Hc. reflexivity.
  - cbn [length repeat]. change (run st (ADetachNext c now :: repeat (ADetachNext c now) (length names))) with
      (run (step st (ADetachNext c now)) (repeat (ADetachNext c now) (length names))).
    apply IH; [apply reachable_step; exact R| |].
    + destruct (C46_goes_on st c n names nf na now R Hc) as [H|(s & x & L & Hx & D)]; [exact H|].
      rewrite (Lv n s x (or_introl eq_refl) L Hx) in D. discriminate D.
    + intros m s x Hin L Hx.
      assert (Lk : locked st = Some c) by (apply (i_lock _ (reachable_inv _ R)); rewrite Hc; reflexivity).
      unfold listed in L. rewrite (locked_table _ _ _ Lk) in L.
      destruct (i_tab _ (reachable_inv _ R) m s L) as (x0 & Hx0 & _). specialize (Lv m s x0 (or_intror Hin) L Hx0).
      destruct (step_alters st (ADetachNext c now) s x0 Hx0) as [K|(x' & K & A)]; rewrite Hx in K; injection K as <-; [exact Lv|].
      inversion A; subst; cbn; [reflexivity|assumption].
Qed.
Print Assumptions C46_answered.

Example C46_nonvacuous :
  let st := run fresh (creates 1 work None ++ creates 2 play None ++ goes 2 30 ++ [asks 3 (QDetach [play; lit "gone"; work])]) in
  let st2 := run (step st (ADetach 3)) [ADetachNext 3 40; ADetachNext 3 41; ADropClient 0; ADetachNext 3 42] in
  let st3 := run (step st (ADetach 3)) [ADetachNext 3 40; ADetachNext 3 41; ADetachNext 3 42] in
  replies (step st2 (ADetachFinish 3)) = replies st2 ++ [(3, RDetach [lit "gone"] [play; work])] /\
  replies (step st3 (ADetachFinish 3)) = replies st3 ++ [(3, RDetach [lit "gone"] [play])].
Proof. vm_compute. auto. Qed.

(** A named session whose shell exited while nobody was attached: no reply, and
    the sessions named after it stay attached. *)
Definition dead_first : list action :=
  creates 1 work None ++ creates 2 play None ++ goes 2 30 ++ [AExit 1 0; AThreadEnd 1 true] ++
  [asks 3 (QDetach [play; work]); ADetach 3; ADetachNext 3 40].
Theorem C46_no_reply_refuted : exists l,
  let st := run fresh l in
  handlers st 3 = HDone /\ map fst (replies st) = [1; 2] /\ table st = [(play, 1); (work, 0)] /\ connected st 1 0.
Proof.
  exists dead_first. cbn zeta. do 3 (split; [vm_compute; reflexivity|]). exists 1, (hdr work None). vm_compute. reflexivity.
Qed.
Print Assumptions C46_no_reply_refuted.

(** A session whose first client is still being set up: reported as detached, but
    the client is connected afterwards. *)
Definition early : list action :=
  [asks 1 (QAttach (hdr work None)); AAttach 1 true 10; ASpawn 1 true 11 1000; AInsert 1; AFetch 1; AReply 1 true true;
   asks 2 (QDetach [work]); ADetach 2; ADetachNext 2 20; ADetachFinish 2; AStart 1 true].
Theorem C46_starting_refuted : exists l,
  let st := run fresh l in
  In (2, RDetach [] []) (replies st) /\ connected st 1 0 /\ map s_client (sessions st) = [Some 1] /\ map s_attachment (sessions st) = [None].
Proof.
  exists early. cbn zeta. split; [vm_compute; auto|]. split; [exists 1, (hdr work None); vm_compute; reflexivity|]. vm_compute. auto.
Qed.
Print Assumptions C46_starting_refuted.

(** A session whose second client is still reading the message of the day:
    reported as not attached, although a further attach would be told it is busy. *)
Definition paging : list action :=
  creates 1 work None ++ goes 1 30 ++ [asks 2 (QAttach (hdr work None)); AAttach 2 true 40] ++
  [asks 3 (QDetach [work]); ADetach 3; ADetachNext 3 50; ADetachFinish 3].
Theorem C46_paging_refuted : exists l,
  let st := run fresh l in
  In (3, RDetach [] [work]) (replies st) /\ attached st 2 0.
Proof. exists paging. cbn zeta. split; [vm_compute; auto|]. vm_compute. reflexivity. Qed.
Print Assumptions C46_paging_refuted.
