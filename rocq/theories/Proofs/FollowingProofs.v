From Coq Require Import List NArith ZArith Bool Arith Lia.
From Verif Require Import Model.Base Model.Names Model.Protocol Model.Server Model.EventBus Model.Following Spec.ServerSpec Spec.EventBusSpec Spec.FollowingSpec
  Proofs.BaseLemmas Proofs.ServerProofs Proofs.ServerEvents Proofs.ServerMoves Proofs.ServerGossip Proofs.EventBusProofs Proofs.EventBusMore Proofs.ServerCounts.
From Verif Require Properties.C20_Events Properties.C28_Events.
Import ListNotations.
Open Scope nat_scope.

(** ** The daemon by itself *)

Lemma more_events st l : exists es, events (run st l) = events st ++ es.
Proof.
  revert st. induction l as [|a l IH]; intros st; [exists []; rewrite app_nil_r; reflexivity|].
  change (run st (a :: l)) with (run (step st a) l). destruct (step_tells st a) as (es & E & _). destruct (IH (step st a)) as (es' & E').
  exists (es ++ es'). rewrite E', E, app_assoc. reflexivity.
Qed.

(** While nothing is published every step is a quiet one. *)
Lemma quiet_run (P : server -> server -> Prop) : (forall st, P st st) -> (forall a b c, P a b -> P b c -> P a c) ->
  (forall st a, reachable st -> events (step st a) = events st -> P st (step st a)) ->
  forall l st, reachable st -> events (run st l) = events st -> P st (run st l).
Proof.
  intros P1 P2 P3. induction l as [|a l IH]; intros st R E; [apply P1|].
  change (run st (a :: l)) with (run (step st a) l) in *. destruct (step_tells st a) as (es & E1 & _). destruct (more_events (step st a) l) as (es' & E2).
  assert (es = [] /\ es' = []) as (-> & ->).
  { rewrite E2, E1, <- app_assoc in E. rewrite <- (app_nil_r (events st)) in E at 2. apply app_inv_head in E. apply app_eq_nil in E. exact E. }
  rewrite app_nil_r in E1, E2. apply P2 with (step st a); [apply P3; assumption|]. apply IH; [apply reachable_step; exact R|congruence].
Qed.

Definition same_start (a b : server) : Prop :=
  table b = table a /\ forall s x, session_at a s = Some x -> exists x', session_at b s = Some x' /\ s_started x' = s_started x.
Lemma quiet_start st l : reachable st -> events (run st l) = events st -> same_start st (run st l).
Proof.
  intros R. revert l st R. apply quiet_run.
  - intros st. split; [reflexivity|]. intros s x H. eauto.
  - intros a b c (T1 & S1) (T2 & S2). split; [congruence|]. intros s x H. destruct (S1 s x H) as (x' & H' & E'). destruct (S2 s x' H') as (x'' & H'' & E''). exists x''. split; [exact H''|congruence].
  - intros st a R E. split; [apply C20_Events.C20_no_silent_change; exact E|]. intros s x H.
    destruct (step_alters st a s x H) as [H'|(x' & H' & A)]; [eauto|]. exists x'. split; [exact H'|].
    destruct A; try reflexivity. cbn. destruct (s_exit x); reflexivity.
Qed.

Definition calm (st : server) : Prop := forall c,
  match handlers st c with
  | HFetch _ _ | HWaitInner _ _ | HReply _ _ _ => False
  | HLeave s _ => forall n, lookup n (table st) <> Some s
  | _ => True
  end.
Definition same_inner (a b : server) : Prop :=
  calm a -> calm b /\ table b = table a /\ forall n s x, lookup n (table a) = Some s -> session_at a s = Some x ->
    exists x', session_at b s = Some x' /\ s_inner x' = s_inner x /\ s_started x' = s_started x.
Lemma quiet_inner st l : reachable st -> events (run st l) = events st -> same_inner st (run st l).
Proof.
  intros R. revert l st R. apply quiet_run.
  - intros st K. split; [exact K|]. split; [reflexivity|]. intros n s x _ H. eauto.
  - intros a b c S1 S2 K. destruct (S1 K) as (K1 & T1 & X1). destruct (S2 K1) as (K2 & T2 & X2). split; [exact K2|]. split; [congruence|].
    intros n s x L H. destruct (X1 n s x L H) as (x' & H' & E' & F'). rewrite <- T1 in L. destruct (X2 n s x' L H') as (x'' & H'' & E'' & F''). exists x''. split; [exact H''|split; congruence].
  - intros st a R E K. assert (T := C20_Events.C20_no_silent_change st a E). pose proof (reachable_inv _ R) as I. split; [|split; [exact T|]].
    + intros c. specialize (K c). destruct (step_gossip st a c) as (es & E1 & _ & G). rewrite E in E1. rewrite <- (app_nil_r (events st)) in E1 at 1. apply app_inv_head in E1. subst es.
      destruct G as [(_ & G)|[(_ & M & N1 & N2 & N3)|[(hd & s & pid & _ & _ & F)|[(hd & s & _ & _ & F)|(hd & s0 & s & _ & _ & F)]]]]; try discriminate F.
      * rewrite G. destruct (handlers st c); auto. rewrite T. exact K.
      * destruct (handlers (step st a) c) eqn:H; auto.
        -- destruct (N2 _ _ eq_refl).
        -- inversion M; match goal with X : handlers st c = _ |- _ => rewrite X in K; exact K end.
        -- destruct created; [|destruct (N1 _ _ eq_refl)]. inversion M; match goal with X : handlers st c = _ |- _ => rewrite X in K; exact K end.
        -- destruct (N3 _ _ eq_refl) as (hd & Hu & Hl). intros n L. rewrite T in *. destruct (i_tab _ I _ _ L) as (x & Hx & <-).
           destruct (i_hdr _ I c hd s) as ((x' & Hx' & Ex') & _); [rewrite Hu; reflexivity|]. congruence.
    + intros n s x L H. destruct (step_alters st a s x H) as [H'|(x' & H' & A)]; [eauto|]. exists x'. split; [exact H'|].
      destruct A; try (split; reflexivity);
        try (match goal with X : handlers st ?c = _ |- _ => specialize (K c); rewrite X in K; first [destruct K|destruct (K n L)] end; fail).
      * (* an attach is published *)
        exfalso. assert (E2 : events (step st (AAttach c true now)) = events st ++ [mkEvent EAttached (h_name h) (Some s) (Some c)]).
        { cbn [step]. unfold attach_select. repeat match goal with X : _ = _ |- _ => rewrite X end. reflexivity. }
        rewrite E in E2. rewrite <- (app_nil_r (events st)) in E2 at 1. apply app_inv_head in E2. discriminate E2.
      * cbn. destruct (s_exit x); split; reflexivity.
Qed.

(** ** The daemon and the events *)

Lemma publish_all l : forall b,
  (exists es, published (bus_run b (map BPublish l)) = published b ++ es) /\ (exists es, lost (bus_run b (map BPublish l)) = lost b ++ es) /\
  (lost (bus_run b (map BPublish l)) = [] -> published (bus_run b (map BPublish l)) = published b ++ l).
Proof.
  induction l as [|e l IH]; intros b.
  - cbn. rewrite app_nil_r. split; [exists []; rewrite app_nil_r; reflexivity|]. split; [exists []; rewrite app_nil_r; reflexivity|reflexivity].
  - cbn [map]. change (bus_run b (BPublish e :: map BPublish l)) with (bus_run (bus_step b (BPublish e)) (map BPublish l)).
    destruct (IH (bus_step b (BPublish e))) as ((p & P) & (q & Q) & F). clear IH.
    assert (S : (published (bus_step b (BPublish e)) = published b ++ [e] /\ lost (bus_step b (BPublish e)) = lost b) \/
                (published (bus_step b (BPublish e)) = published b /\ lost (bus_step b (BPublish e)) = lost b ++ [e])).
    { cbn [bus_step]. destruct (sink_at b); try (destruct (_ <? _)); cbn; auto. }
    destruct S as [(S1 & S2)|(S1 & S2)].
    + split; [exists ([e] ++ p); rewrite P, S1, app_assoc; reflexivity|]. split; [exists q; rewrite Q, S2; reflexivity|].
      intros L. rewrite (F L), S1, <- app_assoc. reflexivity.
    + split; [exists p; rewrite P, S1; reflexivity|]. split; [exists ([e] ++ q); rewrite Q, S2, app_assoc; reflexivity|].
      intros L. rewrite Q, S2 in L. destruct (lost b); discriminate L.
Qed.

Lemma bus_step_keeps b a : match a with BPublish _ => False | _ => True end ->
  published (bus_step b a) = published b /\ lost (bus_step b a) = lost b.
Proof.
  intros N. destruct a; try contradiction; cbn [bus_step]; unfold after_accepts, set_sink;
    repeat (match goal with |- context [match ?x with _ => _ end] => destruct x; cbn end); auto.
Qed.

Definition kinds (st : server) : list ev_kind := map e_kind (events st).
Lemma act_grows w d : (exists l, daemon (act w d) = run (daemon w) l /\ forall e, In e l -> exists a, e = a /\ d = Daemon a) /\
  (exists es, published (bus_of (act w d)) = published (bus_of w) ++ es) /\ (exists es, lost (bus_of (act w d)) = lost (bus_of w) ++ es) /\
  (lost (bus_of (act w d)) = [] -> published (bus_of w) = kinds (daemon w) -> published (bus_of (act w d)) = kinds (daemon (act w d))) /\
  exists l, bus_of (act w d) = bus_run (bus_of w) l.
Proof.
  destruct d as [a|a]; cbn [act].
  - cbn [daemon bus_of]. destruct (publish_all (new_events (daemon w) (step (daemon w) a)) (bus_of w)) as (P & Q & F).
    split; [exists [a]; split; [reflexivity|]; intros e [<-|[]]; eauto|]. split; [exact P|]. split; [exact Q|]. split; [|eauto].
    intros L E. rewrite (F L), E. unfold kinds, new_events. destruct (step_tells (daemon w) a) as (es & -> & _).
    rewrite skipn_app, skipn_all, Nat.sub_diag, !map_app. reflexivity.
  - assert (X : match a with BPublish _ => False | _ => True end ->
      (exists l, daemon (mkWorld (daemon w) (bus_step (bus_of w) a)) = run (daemon w) l /\ forall e, In e l -> exists a', e = a' /\ Events a = Daemon a') /\
      (exists es, published (bus_step (bus_of w) a) = published (bus_of w) ++ es) /\ (exists es, lost (bus_step (bus_of w) a) = lost (bus_of w) ++ es) /\
      (lost (bus_step (bus_of w) a) = [] -> published (bus_of w) = kinds (daemon w) -> published (bus_step (bus_of w) a) = kinds (daemon w)) /\
      exists l, bus_step (bus_of w) a = bus_run (bus_of w) l).
    { intros N. destruct (bus_step_keeps (bus_of w) a N) as (-> & ->).
      split; [exists []; split; [reflexivity|intros e []]|]. split; [exists []; rewrite app_nil_r; reflexivity|]. split; [exists []; rewrite app_nil_r; reflexivity|].
      split; [auto|]. exists [a]. reflexivity. }
    destruct a; try exact (X I).
    split; [exists []; split; [reflexivity|intros e0 []]|]. split; [exists []; rewrite app_nil_r; reflexivity|]. split; [exists []; rewrite app_nil_r; reflexivity|].
    split; [auto|]. exists []. reflexivity.
Qed.

Lemma acts_grow l : forall w,
  (exists k, daemon (acts w l) = run (daemon w) k) /\
  (exists es, published (bus_of (acts w l)) = published (bus_of w) ++ es) /\ (exists es, lost (bus_of (acts w l)) = lost (bus_of w) ++ es) /\
  (lost (bus_of (acts w l)) = [] -> published (bus_of w) = kinds (daemon w) -> published (bus_of (acts w l)) = kinds (daemon (acts w l))) /\
  exists k, bus_of (acts w l) = bus_run (bus_of w) k.
Proof.
  induction l as [|d l IH]; intros w.
  - cbn. split; [exists []; reflexivity|]. split; [exists []; rewrite app_nil_r; reflexivity|]. split; [exists []; rewrite app_nil_r; reflexivity|]. split; [auto|]. exists []. reflexivity.
  - change (acts w (d :: l)) with (acts (act w d) l). destruct (IH (act w d)) as ((k & K) & (p & P) & (q & Q) & F & (m & M)).
    destruct (act_grows w d) as ((k' & K' & _) & (p' & P') & (q' & Q') & F' & (m' & M')).
    split; [exists (k' ++ k); rewrite K, K'; unfold run; rewrite fold_left_app; reflexivity|].
    split; [exists (p' ++ p); rewrite P, P', app_assoc; reflexivity|]. split; [exists (q' ++ q); rewrite Q, Q', app_assoc; reflexivity|]. split.
    + intros L E. apply F; [exact L|]. apply F'; [|exact E]. rewrite Q in L. apply app_eq_nil in L. apply L.
    + exists (m' ++ m). rewrite M, M'. unfold bus_run. rewrite fold_left_app. reflexivity.
Qed.

Lemma possible_parts w : possible w -> reachable (daemon w) /\ bus_reachable (bus_of w) /\ (lost (bus_of w) = [] -> published (bus_of w) = kinds (daemon w)).
Proof.
  intros (d & l & ->). destruct (acts_grow l (world_new d)) as ((k & K) & _ & _ & F & (m & M)). split; [exists d, k; exact K|]. split; [exists m; exact M|].
  intros L. apply F; [exact L|reflexivity].
Qed.

Lemma since_run i b l : forall st, bus_reachable st -> subscriber st i b -> exists b', subscriber (bus_run st l) i b' /\ b_since b' = b_since b.
Proof.
  induction l as [|a l IH] using rev_ind; intros st R S; [exists b; auto|]. destruct (IH st R S) as (b' & S' & E'). rewrite bus_run_step.
  assert (R' : bus_reachable (bus_run st l)).
  { destruct R as (l0 & ->). exists (l0 ++ l). unfold bus_run. rewrite fold_left_app. reflexivity. }
  destruct (since_stays _ a i b' (bus_reachable_inv _ R') S') as (b'' & S'' & E''). exists b''. split; [exact S''|congruence].
Qed.

(** If nothing more has been sent, nothing more has been published. *)
Lemma nothing_more w l i b : possible w -> subscriber (bus_of w) i b -> nothing_to_come (acts w l) i (b_sent b) ->
  exists k, daemon (acts w l) = run (daemon w) k /\ events (run (daemon w) k) = events (daemon w).
Proof.
  intros W S (L & C & b' & Hf & D & Pd & Bs). destruct (possible_parts w W) as (R & Br & F).
  destruct (acts_grow l w) as ((k & K) & (p & P) & (q & Q) & F' & (m & M)). exists k. split; [exact K|].
  assert (L0 : lost (bus_of w) = []) by (rewrite Q in L; apply app_eq_nil in L; apply L).
  specialize (F L0). specialize (F' L F).
  assert (Br' : bus_reachable (bus_of (acts w l))).
  { rewrite M. destruct Br as (l0 & ->). exists (l0 ++ m). unfold bus_run. rewrite fold_left_app. reflexivity. }
  assert (Sn : b_since b' = b_since b).
  { destruct (since_run i b m _ Br S) as (b2 & S2 & E2). rewrite <- M in S2. rewrite <- E2. f_equal.
    eapply subscriber_unique; [apply bus_reachable_inv; exact Br'|left; exact Hf|exact S2]. }
  pose proof (C28_Events.C28_no_gap _ i b' Br' (or_introl Hf) D) as G. rewrite Pd, C in G. cbn [concat] in G. rewrite skipn_nil in G. cbn [app wire map concat] in G.
  rewrite app_nil_r, Bs, P in G.
  destruct (subscriber_ok _ i b Br S) as (T & _). pose proof (v_pub _ (bus_reachable_inv _ Br)) as V.
  assert (Le : b_since b <= length (published (bus_of w))) by (rewrite V, app_length; lia).
  rewrite Sn, skipn_app in G. replace (b_since b - length (published (bus_of w))) with 0 in G by lia. cbn [skipn] in G. rewrite wire_app in G.
  destruct (C28_Events.C28_prefix _ i b Br S) as ((rest & Px) & _). rewrite Px in G.
  assert (Z : wire p = []).
  { apply (f_equal (@length _)) in G. rewrite !app_length in G. destruct (wire p); [reflexivity|cbn in G; lia]. }
  assert (p = []) as ->.
  { destruct p as [|e p]; [reflexivity|]. change (wire (e :: p)) with (line e ++ wire p) in Z. apply app_eq_nil in Z. destruct Z as (Z & _). pose proof (line_pos e). rewrite Z in H. cbn in H. lia. }
  rewrite app_nil_r in P. rewrite F', F, K in P. destruct (more_events (daemon w) k) as (es & E). unfold kinds in P. rewrite E, map_app in P.
  rewrite E. assert (es = []) as ->; [|apply app_nil_r]. apply (f_equal (@length _)) in P. rewrite app_length, !map_length in P. destruct es; [reflexivity|cbn in P; lia].
Qed.

(** ** Listings *)
Lemma lists_is st l : lists st l -> map_opt (list_entry st) (table st) = Some l.
Proof.
  intros (c & E). cbn [step] in E. unfold handle_list in E. assert (N : forall r : list (conn * reply), r <> r ++ [(c, RList l)]).
  { intros r H. apply (f_equal (@length _)) in H. rewrite app_length in H. cbn in H. lia. }
  destruct (handlers st c); try (destruct (N _ E); fail). destruct q; try (destruct (N _ E); fail). destruct (locked st); [destruct (N _ E)|].
  destruct (map_opt (list_entry st) (table st)) as [l'|]; [|destruct (N _ E)]. cbn in E. apply app_inv_head in E. injection E as ->. reflexivity.
Qed.

Lemma map_opt_same {A B C} (f g : A -> option B) (p : B -> C) (l : list A) : forall r r',
  map_opt f l = Some r -> map_opt g l = Some r' -> (forall a x y, In a l -> f a = Some x -> g a = Some y -> p x = p y) -> map p r = map p r'.
Proof.
  induction l as [|a l IH]; intros r r' E E' H; cbn in E, E'.
  - injection E as <-. injection E' as <-. reflexivity.
  - destruct (f a) as [x|] eqn:Fa; [|discriminate]. destruct (map_opt f l) as [xs|] eqn:Fl; [|discriminate]. injection E as <-.
    destruct (g a) as [y|] eqn:Ga; [|discriminate]. destruct (map_opt g l) as [ys|] eqn:Gl; [|discriminate]. injection E' as <-.
    cbn [map]. f_equal; [apply (H a); auto; left; reflexivity|]. apply IH; auto. intros a0 x0 y0 I. apply H. right. exact I.
Qed.

Lemma lookup_in_nodup {V} (t : list (rstr * V)) n v : NoDup (map fst t) -> In (n, v) t -> lookup n t = Some v.
Proof.
  induction t as [|[k w] t IH]; intros N I; [destruct I|]. cbn in N. inversion N as [|? ? N1 N2]; subst. cbn [lookup]. destruct I as [[= -> ->]|I].
  - rewrite str_eqb_refl. reflexivity.
  - destruct (str_eqb n k) eqn:E; [apply str_eqb_eq in E; subst k; destruct N1; apply in_map_iff; exists (n, v); auto|auto].
Qed.
