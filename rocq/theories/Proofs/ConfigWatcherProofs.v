(** Proofs about the configuration watcher. *)
From Coq Require Import List NArith ZArith Bool Arith Lia.
From Verif Require Import Model.Base Model.ConfigWatcher Spec.ConfigWatcherSpec Proofs.BaseLemmas.
Import ListNotations.
Open Scope nat_scope.

Lemma path_eqb_eq a : forall b, path_eqb a b = true <-> a = b.
Proof.
  induction a as [|x a IH]; intros [|y b]; cbn; try (split; [discriminate|discriminate]); [tauto|].
  rewrite andb_true_iff, str_eqb_eq, IH. split; [intros [-> ->]; reflexivity|intros H; injection H; auto].
Qed.
Lemma path_eqb_refl a : path_eqb a a = true.
Proof. apply path_eqb_eq. reflexivity. Qed.
Lemma path_eqb_neq a b : path_eqb a b = false <-> a <> b.
Proof. rewrite <- path_eqb_eq. destruct (path_eqb a b); split; congruence. Qed.
Lemma path_dec (a b : path) : {a = b} + {a <> b}.
Proof. destruct (path_eqb a b) eqn:E; [left; apply path_eqb_eq; exact E|right; apply path_eqb_neq; exact E]. Qed.

(** Ancestors. *)
Lemma ups_in r : forall a, In a (ups r) -> (exists x, rev r = a ++ x) /\ (hd_error (rev r) = Some slash -> a <> []) /\ length a <= length r.
Proof.
  induction r as [|c r IH]; intros a Hin.
  - destruct Hin as [<-|[]]. cbn. split; [exists []; reflexivity|]. split; [discriminate|auto].
  - cbn [ups] in Hin. destruct Hin as [<-|Hin].
    + split; [exists []; rewrite app_nil_r; reflexivity|]. split; [|rewrite rev_length; reflexivity]. intros _ E. apply (f_equal (@length _)) in E. rewrite rev_length in E. discriminate E.
    + destruct r as [|c' r].
      * destruct (str_eqb c slash) eqn:E; [destruct Hin|]. destruct Hin as [<-|[]]. split; [exists [c]; reflexivity|]. split; [|cbn; lia].
        cbn. intros H. injection H as ->. rewrite str_eqb_refl in E. discriminate E.
      * destruct (IH a Hin) as ((x & Hx) & Hh & Hl). change (rev (c :: c' :: r)) with (rev (c' :: r) ++ [c]).
        split; [exists (x ++ [c]); rewrite Hx, app_assoc; reflexivity|]. split; [|cbn [length] in *; lia].
        intros H. apply Hh. rewrite Hx in *. destruct a; [|exact H]. destruct x as [|y x]; [|exact H].
        apply (f_equal (@length _)) in Hx. rewrite rev_length in Hx. discriminate Hx.
Qed.
Lemma ups_all r : forall a x, rev r = a ++ x -> (hd_error (rev r) = Some slash -> a <> []) -> In a (ups r).
Proof.
  induction r as [|c r IH]; intros a x E H.
  - cbn in E. symmetry in E. apply app_eq_nil in E as [-> _]. left. reflexivity.
  - destruct x as [|y x _] using rev_ind.
    + rewrite app_nil_r in E. left. exact E.
    + right. cbn [rev] in E. rewrite app_assoc in E. apply app_inj_tail in E as [E <-]. destruct r as [|c' r].
      * cbn in E. symmetry in E. apply app_eq_nil in E as [-> ->]. destruct (str_eqb c slash) eqn:Ec; [|left; reflexivity].
        apply str_eqb_eq in Ec. subst. exfalso. apply H; reflexivity.
      * apply (IH a x E). intros Hh. apply H. change (rev (c :: c' :: r)) with (rev (c' :: r) ++ [c]). rewrite E in *. destruct a; [|exact Hh]. destruct x; [|exact Hh].
        apply (f_equal (@length _)) in E. rewrite rev_length in E. discriminate E.
Qed.
Lemma ancestors_iff a p : In a (ancestors p) <-> above a p.
Proof.
  unfold ancestors, above. split.
  - intros H. apply ups_in in H as (H1 & H2 & _). rewrite rev_involutive in *. auto.
  - intros [(x & H1) H2]. apply (ups_all (rev p) a x); rewrite rev_involutive; assumption.
Qed.
Fixpoint descending (l : list path) : Prop :=
  match l with [] => True | a :: r => (forall b, In b r -> length b < length a) /\ descending r end.
Lemma ups_descending r : descending (ups r).
Proof.
  induction r as [|c r IH]; cbn [ups descending]; [split; [intros b []|exact I]|].
  assert (L : length (rev (c :: r)) = S (length r)) by (rewrite rev_length; reflexivity).
  destruct r as [|c' r].
  - destruct (str_eqb c slash); cbn; [split; [intros b []|exact I]|]. split; [intros b [<-|[]]; cbn; lia|]. split; [intros b []|exact I].
  - split; [|exact IH]. intros b Hb. apply ups_in in Hb as (_ & _ & Hb). rewrite L. lia.
Qed.
Lemma first_watchable_desc f l : descending l ->
  match first_watchable f l with
  | Some a => In a l /\ can_watch f a = true /\ forall b, In b l -> length a < length b -> can_watch f b = false
  | None => forall b, In b l -> can_watch f b = false
  end.
Proof.
  induction l as [|a l IH]; cbn; [intros _ b []|]. intros [H1 H2]. destruct (can_watch f a) eqn:E.
  - split; [auto|]. split; [exact E|]. intros b [<-|Hb] Hl; [lia|]. apply H1 in Hb. lia.
  - specialize (IH H2). destruct (first_watchable f l).
    + destruct IH as (I1 & I2 & I3). split; [auto|]. split; [exact I2|]. intros b [<-|Hb]; auto.
    + intros b [<-|Hb]; auto.
Qed.
Lemma above_unique f a b p : nearest f a p -> nearest f b p -> a = b.
Proof.
  intros (((x & Ea) & Ha) & Wa & Na) (((y & Eb) & Hb) & Wb & Nb).
  destruct (lt_eq_lt_dec (length a) (length b)) as [[L|L]|L].
  - rewrite Na in Wb; [discriminate Wb| |exact L]. split; [eauto|exact Hb].
  - rewrite Ea in Eb. apply (f_equal (firstn (length a))) in Eb. rewrite firstn_app, firstn_all, Nat.sub_diag in Eb. cbn in Eb. rewrite app_nil_r, L, firstn_app, firstn_all, Nat.sub_diag in Eb. cbn in Eb. rewrite app_nil_r in Eb. exact Eb.
  - rewrite Nb in Wa; [discriminate Wa| |exact L]. split; [eauto|exact Ha].
Qed.
Lemma first_watchable_iff f p a : first_watchable f (ancestors p) = Some a <-> nearest f a p.
Proof.
  pose proof (first_watchable_desc f (ancestors p) (ups_descending _)) as D. split.
  - intros E. rewrite E in D. destruct D as (D1 & D2 & D3). split; [apply ancestors_iff; exact D1|]. split; [exact D2|].
    intros b Hb. apply D3. apply ancestors_iff. exact Hb.
  - intros N. destruct (first_watchable f (ancestors p)) as [b|].
    + destruct D as (D1 & D2 & D3). f_equal. apply (above_unique f b a p); [|exact N]. split; [apply ancestors_iff; exact D1|]. split; [exact D2|].
      intros c Hc. apply D3. apply ancestors_iff. exact Hc.
    + destruct N as (N1 & N2 & _). rewrite D in N2; [discriminate N2|]. apply ancestors_iff. exact N1.
Qed.
Lemma first_watchable_none f p : first_watchable f (ancestors p) = None <-> forall a, above a p -> can_watch f a = false.
Proof.
  pose proof (first_watchable_desc f (ancestors p) (ups_descending _)) as D. split.
  - intros E a Ha. rewrite E in D. apply D. apply ancestors_iff. exact Ha.
  - intros H. destruct (first_watchable f (ancestors p)) as [b|]; [|reflexivity]. destruct D as (D1 & D2 & _). rewrite H in D2; [discriminate D2|]. apply ancestors_iff. exact D1.
Qed.
Lemma strip_prefix_iff a : forall p rest, strip_prefix a p = Some rest <-> p = a ++ rest.
Proof.
  induction a as [|x a IH]; intros p rest; cbn.
  - split; [intros H; injection H; auto|intros ->; reflexivity].
  - destruct p as [|y p]; [split; discriminate|]. destruct (str_eqb x y) eqn:E.
    + apply str_eqb_eq in E. subst y. rewrite IH. split; [intros ->; reflexivity|intros H; injection H; auto].
    + split; [discriminate|]. intros H. injection H as -> _. rewrite str_eqb_refl in E. discriminate E.
Qed.
Lemma above_self p : above p p.
Proof. split; [exists []; rewrite app_nil_r; reflexivity|]. intros H ->. discriminate H. Qed.

(** The watches of notify. *)
Lemma unwatch_in x w ws : In x (unwatch w ws) <-> In x ws /\ x <> w.
Proof. unfold unwatch. rewrite filter_In, negb_true_iff, path_eqb_neq. reflexivity. Qed.
Lemma watch_in x w ws : In x (watch w ws) <-> x = w \/ In x ws.
Proof.
  unfold watch. rewrite in_app_iff, unwatch_in. cbn. split; [intros [[H _]|[H|[]]]; auto|].
  intros [->|H]; [auto|]. destruct (path_dec x w); [subst; auto|auto].
Qed.

(** The table. *)
Lemma t_insert_keys k v t x : In x (map fst (t_insert k v t)) <-> x = k \/ In x (map fst t).
Proof.
  induction t as [|e t IH]; cbn; [intuition congruence|]. destruct (path_eqb (fst e) k) eqn:E; cbn.
  - apply path_eqb_eq in E. subst k. intuition congruence.
  - rewrite IH. intuition congruence.
Qed.
Lemma t_insert_in k v t e : NoDup (map fst t) -> In e (t_insert k v t) <-> e = (k, v) \/ (In e t /\ fst e <> k).
Proof.
  induction t as [|e0 t IH]; cbn; intros N; [intuition congruence|]. inversion N as [|? ? N1 N2]; subst. destruct (path_eqb (fst e0) k) eqn:E.
  - apply path_eqb_eq in E. subst k. cbn. split.
    + intros [<-|H]; [auto|]. right. split; [auto|]. intros Ek. apply N1. rewrite <- Ek. apply in_map. exact H.
    + intros [->|[[<-|H] Hn]]; [auto|congruence|auto].
  - apply path_eqb_neq in E. cbn. rewrite (IH N2). split; [intros [<-|[->|[H Hn]]]; auto|intros [->|[[<-|H] Hn]]; auto].
Qed.
Lemma t_insert_nodup k v t : NoDup (map fst t) -> NoDup (map fst (t_insert k v t)).
Proof.
  induction t as [|e t IH]; cbn; intros N; [constructor; [intros []|constructor]|]. inversion N as [|? ? N1 N2]; subst. destruct (path_eqb (fst e) k) eqn:E; cbn.
  - apply path_eqb_eq in E. subst k. exact N.
  - constructor; [|apply IH; exact N2]. rewrite t_insert_keys. intros [H|H]; [|auto]. apply path_eqb_neq in E. congruence.
Qed.
Lemma t_remove_in k t e : In e (t_remove k t) <-> In e t /\ fst e <> k.
Proof. unfold t_remove. rewrite filter_In, negb_true_iff, path_eqb_neq. reflexivity. Qed.
Lemma nodup_map_filter {A B} (h : A -> B) f l : NoDup (map h l) -> NoDup (map h (filter f l)).
Proof.
  induction l as [|a l IH]; cbn; intros N; [constructor|]. inversion N as [|? ? N1 N2]; subst. destruct (f a); cbn; [|auto]. constructor; [|auto].
  intros H. apply N1. rewrite in_map_iff in *. destruct H as (x & Hx & Hin). apply filter_In in Hin as [Hin _]. eauto.
Qed.
Lemma t_get_some k t v : t_get k t = Some v -> In (k, v) t.
Proof. unfold t_get. destruct (find _ t) as [e|] eqn:F; [|discriminate]. intros H. injection H as <-. apply find_some in F as [F E]. apply path_eqb_eq in E. subst. destruct e; exact F. Qed.
Lemma t_get_none k t : t_get k t = None <-> ~ In k (map fst t).
Proof.
  unfold t_get. split.
  - intros H Hin. rewrite in_map_iff in Hin. destruct Hin as (e & E & Hin). destruct (find _ t) eqn:F; [discriminate H|]. apply find_none with (x := e) in F; [|exact Hin]. rewrite E, path_eqb_refl in F. discriminate F.
  - intros H. destruct (find _ t) as [e|] eqn:F; [|reflexivity]. apply find_some in F as [F E]. apply path_eqb_eq in E. exfalso. apply H. rewrite <- E. apply in_map. exact F.
Qed.

(** watch_and_add. *)
Definition entry (w p : path) : path * path := (w, firstn (S (length w)) p).
Lemma firstn_next {A} (w rest : list A) : firstn (S (length w)) (w ++ rest) = w ++ match rest with [] => [] | c :: _ => [c] end.
Proof.
  rewrite firstn_app. replace (S (length w) - length w) with 1 by lia. rewrite firstn_all2 by lia. destruct rest; reflexivity.
Qed.
Lemma watch_and_add_plain f ws t k : plain f k ->
  exists w, nearest f w k /\ watch_and_add f ws t k = (Some (path_eqb w k), watch w ws, t_insert k (entry w k) t) /\ path_eqb w k = can_watch f k.
Proof.
  intros [(a & Ha & Wa) C]. destruct (first_watchable f (ancestors k)) as [w|] eqn:E.
  2: { rewrite first_watchable_none in E. rewrite E in Wa by exact Ha. discriminate Wa. }
  exists w. pose proof (proj1 (first_watchable_iff f k w) E) as N. split; [exact N|]. pose proof N as ([(rest & Er) Hh] & Ww & Nw).
  unfold watch_and_add, best_effort_watch. rewrite E. destruct (strip_prefix w k) as [r'|] eqn:Es.
  2: { rewrite (proj2 (strip_prefix_iff w k rest) Er) in Es. discriminate Es. }
  apply strip_prefix_iff in Es. rewrite Er in Es. apply app_inv_head in Es. subst r'.
  replace (match canonical f w with Some c => c | None => w end) with w.
  2: { destruct (C w) as [->| ->]; [split; [eauto|exact Hh]|reflexivity|reflexivity]. }
  split.
  - assert (En : entry w k = (w, w ++ match rest with [] => [] | c :: _ => [c] end)) by (unfold entry; rewrite Er, firstn_next; reflexivity).
    rewrite En. destruct rest; reflexivity.
  - destruct (path_eqb w k) eqn:Ek.
    + apply path_eqb_eq in Ek. subst w. symmetry. exact Ww.
    + symmetry. apply Nw; [apply above_self|]. apply path_eqb_neq in Ek. rewrite Er in *. rewrite app_length. destruct rest; [rewrite app_nil_r in Ek; congruence|]. cbn. lia.
Qed.

Definition near (f : fs) (p : path) : path := match first_watchable f (ancestors p) with Some w => w | None => [] end.
Lemma near_nearest f p : plain f p -> nearest f (near f p) p.
Proof.
  intros [(a & Ha & Wa) _]. unfold near. destruct (first_watchable f (ancestors p)) as [w|] eqn:E; [apply first_watchable_iff; exact E|].
  rewrite first_watchable_none in E. rewrite E in Wa by exact Ha. discriminate Wa.
Qed.
Lemma watch_and_add_near f ws t k : plain f k ->
  watch_and_add f ws t k = (Some (can_watch f k), watch (near f k) ws, t_insert k (entry (near f k) k) t).
Proof.
  intros P. destruct (watch_and_add_plain f ws t k P) as (w & N & E & C). rewrite E, C.
  rewrite (above_unique f w (near f k) k N (near_nearest f k P)). reflexivity.
Qed.

Definition redo_table (f : fs) (l : list (path * path)) (t : table) : table :=
  fold_left (fun t pw => t_insert (fst pw) (entry (near f (fst pw)) (fst pw)) t) l t.
Definition redo_watches (f : fs) (l : list (path * path)) (ws : list path) : list path :=
  fold_left (fun ws pw => watch (near f (fst pw)) (unwatch (snd pw) ws)) l ws.

Lemma rewatch_each_none f l : forall ws t, (forall p w, In (p, w) l -> plain f p /\ can_watch f p = false) ->
  rewatch_each f l ws t = (false, redo_watches f l ws, redo_table f l t).
Proof.
  induction l as [|[p w] l IH]; intros ws t H; [reflexivity|]. cbn [rewatch_each]. destruct (H p w (or_introl eq_refl)) as [P C].
  rewrite (watch_and_add_near f _ t p P), C. rewrite IH; [reflexivity|]. intros q v Hq. apply (H q v). right. exact Hq.
Qed.
Lemma rewatch_each_first f l p w r : forall ws t, (forall q v, In (q, v) l -> plain f q /\ can_watch f q = false) -> plain f p -> can_watch f p = true ->
  rewatch_each f (l ++ (p, w) :: r) ws t = (true, redo_watches f (l ++ [(p, w)]) ws, redo_table f (l ++ [(p, w)]) t).
Proof.
  induction l as [|[q v] l IH]; intros ws t H P C; cbn [app rewatch_each].
  - rewrite (watch_and_add_near f _ t p P), C. reflexivity.
  - destruct (H q v (or_introl eq_refl)) as [Pq Cq]. rewrite (watch_and_add_near f _ t q Pq), Cq. rewrite IH; [reflexivity| |exact P|exact C].
    intros q' v' Hq. apply (H q' v'). right. exact Hq.
Qed.
Lemma rewatch_split f (l : list (path * path)) : (forall p w, In (p, w) l -> can_watch f p = false) \/
  exists l1 p w r, l = l1 ++ (p, w) :: r /\ (forall q v, In (q, v) l1 -> can_watch f q = false) /\ can_watch f p = true.
Proof.
  induction l as [|[p w] l IH]; [left; intros p w []|]. destruct (can_watch f p) eqn:E.
  - right. exists [], p, w, l. split; [reflexivity|]. split; [intros q v []|exact E].
  - destruct IH as [IH|(l1 & q & v & r & -> & H1 & H2)].
    + left. intros q v [H|H]; [injection H as -> ->; exact E|eauto].
    + right. exists ((p, w) :: l1), q, v, r. split; [reflexivity|]. split; [|exact H2]. intros q' v' [H|H]; [injection H as -> ->; exact E|eauto].
Qed.
Lemma redo_table_keys f l : forall t x, In x (map fst (redo_table f l t)) <-> In x (map fst t) \/ In x (map fst l).
Proof.
  induction l as [|[p w] l IH]; intros t x; [cbn; tauto|]. change (redo_table f ((p, w) :: l) t) with (redo_table f l (t_insert p (entry (near f p) p) t)).
  rewrite IH, t_insert_keys. cbn. intuition congruence.
Qed.
Lemma redo_table_nodup f l : forall t, NoDup (map fst t) -> NoDup (map fst (redo_table f l t)).
Proof. induction l as [|[p w] l IH]; intros t N; [exact N|]. apply (IH (t_insert p (entry (near f p) p) t)). apply t_insert_nodup. exact N. Qed.
Lemma watch_and_add_nodup f ws t k : NoDup (map fst t) -> NoDup (map fst (snd (watch_and_add f ws t k))).
Proof.
  intros N. unfold watch_and_add. destruct (best_effort_watch f ws k) as [[[w ic] ws']|]; cbn [snd]; [apply t_insert_nodup; exact N|apply nodup_map_filter; exact N].
Qed.
Lemma rewatch_each_nodup f l : forall ws t, NoDup (map fst t) -> NoDup (map fst (snd (rewatch_each f l ws t))).
Proof.
  induction l as [|[p w] l IH]; intros ws t N; [exact N|]. cbn [rewatch_each]. pose proof (watch_and_add_nodup f (unwatch w ws) t p N) as N'.
  destruct (watch_and_add f (unwatch w ws) t p) as [[[[|]|] ws'] t']; cbn [snd] in *; auto.
Qed.
Lemma rewatch_nodup f rw ws t : NoDup (map fst t) -> NoDup (map fst (snd (rewatch f rw ws t))).
Proof. intros N. destruct rw; cbn; apply rewatch_each_nodup; [exact N|constructor]. Qed.

Lemma swap_in {A} (x : A) : forall n l, In x (swap n l) <-> In x l.
Proof.
  induction n as [|n IH]; intros [|a l]; cbn; try tauto; [destruct l; cbn; tauto|]. destruct l as [|b l]; [cbn; destruct n; cbn; tauto|].
  specialize (IH (b :: l)). cbn [In] in *. rewrite IH. tauto.
Qed.
Lemma swap_map {A B} (h : A -> B) : forall n l, map h (swap n l) = swap n (map h l).
Proof.
  induction n as [|n IH]; intros [|a l]; try reflexivity; [destruct l; reflexivity|]. destruct l as [|b l]; [destruct n; reflexivity|].
  specialize (IH (b :: l)). change (swap (S n) (a :: b :: l)) with (a :: swap n (b :: l)). cbn [map] in *. rewrite IH. reflexivity.
Qed.
Lemma swap_nodup {A} : forall n (l : list A), NoDup l -> NoDup (swap n l).
Proof.
  induction n as [|n IH]; intros [|a l] N; cbn; try exact N.
  - destruct l as [|b l]; [exact N|]. inversion N as [|? ? N1 N2]; subst. inversion N2 as [|? ? N3 N4]; subst. cbn in *. constructor; [cbn; intuition congruence|constructor; [intuition|exact N4]].
  - inversion N as [|? ? N1 N2]; subst. destruct l as [|b l]; [destruct n; cbn; constructor; auto|]. constructor; [rewrite swap_in; exact N1|apply IH; exact N2].
Qed.

Lemma trigger_paths st : paths (trigger_reload st) = paths st /\ watches (trigger_reload st) = watches st.
Proof. split; reflexivity. Qed.

Lemma wstep_nodup st a : NoDup (map fst (paths st)) -> NoDup (map fst (paths (wstep st a))).
Proof.
  intros N. unfold wstep. destruct (stopped st); [exact N|]. destruct a as [dt o]. cbn [fst snd]. destruct o; cbn [paths].
  - destruct (handle_event ev (paths st)) as [rw reload]. unfold on_event. cbn [watches paths].
    pose proof (rewatch_nodup f rw (forget ev (watches st)) (paths st) N) as N'. destruct (rewatch _ _ _ _) as [[again ws] t]. destruct (reload || again); exact N'.
  - unfold on_event. cbn [watches paths]. pose proof (rewatch_nodup f All (watches st) (paths st) N) as N'. destruct (rewatch _ _ _ _) as [[again ws] t]. destruct again; exact N'.
  - unfold add_watch_by_command. cbn [paths watches]. destruct (t_get _ _); [exact N|]. pose proof (watch_and_add_nodup f (watches st) (paths st) (canonicalize_path f p) N) as N'.
    destruct (watch_and_add _ _ _ _) as [[[[|]|] ws] t]; exact N'.
  - cbn [deadline]. destruct (deadline st); [destruct (_ <=? _)|]; exact N.
  - rewrite swap_map. apply swap_nodup. exact N.
  - exact N.
Qed.
Lemma wrun_snoc st l a : wrun st (l ++ [a]) = wstep (wrun st l) a.
Proof. unfold wrun. rewrite fold_left_app. reflexivity. Qed.
Lemma wreachable_nodup d st : wreachable d st -> NoDup (map fst (paths st)).
Proof.
  intros (l & ->). induction l as [|a l IH] using rev_ind; [constructor|]. rewrite wrun_snoc. apply wstep_nodup. exact IH.
Qed.

(** What is set up anew. *)
Lemma mentions_in ps p : mentions ps p = true <-> In p ps.
Proof.
  unfold mentions. rewrite existsb_exists. split; [intros (x & H & E); apply path_eqb_eq in E; subst; exact H|intros H; exists p; split; [exact H|apply path_eqb_refl]].
Qed.
Definition redone (rw : rewatching) (t : table) : list (path * path) := match rw with Some_of l => l | All => map (fun e => (fst e, fst (snd e))) t end.
Definition kept (rw : rewatching) (t : table) : table := match rw with Some_of _ => t | All => [] end.
Lemma rewatch_redone f rw ws t : rewatch f rw ws t = rewatch_each f (redone rw t) ws (kept rw t).
Proof. destruct rw; reflexivity. Qed.
Lemma redone_event st f ev p w : NoDup (map fst (paths st)) ->
  In (p, w) (redone (fst (handle_event ev (paths st))) (paths st)) <-> afresh st (WEvent f ev) p /\ exists c, In (p, (w, c)) (paths st).
Proof.
  intros N. unfold handle_event, afresh. destruct (e_rescan ev); cbn [fst redone].
  - rewrite in_map_iff. unfold target. split.
    + intros ([q [v c]] & E & H). cbn in E. injection E as -> ->. split; [apply (in_map fst) in H; exact H|exists c; exact H].
    + intros (_ & c & H). exists (p, (w, c)). auto.
  - assert (G : In (p, w) (map (fun e : path * (path * path) => (fst e, fst (snd e)))
        (filter (fun e => existsb (fun p => path_eqb p (fst (snd e)) || path_eqb p (snd (snd e))) (e_paths ev)) (paths st))) <->
      concerns ev st p /\ exists c, In (p, (w, c)) (paths st)).
    { rewrite in_map_iff. split.
      - intros ([q [v c]] & E & H). cbn in E. injection E as -> ->. apply filter_In in H as [H1 H2]. cbn in H2. split; [|exists c; exact H1]. exists w, c. split; [exact H1|].
        apply existsb_exists in H2 as (x & Hx & E). apply orb_true_iff in E as [E|E]; apply path_eqb_eq in E; subst; auto.
      - intros [(v & c & H1 & H2) (c' & H3)]. exists (p, (w, c')). split; [reflexivity|]. apply filter_In. split; [exact H3|].
        assert (E : (v, c) = (w, c')).
        { clear - N H1 H3. induction (paths st) as [|e t IH]; [destruct H1|]. cbn in N. inversion N as [|? ? N1 N2]; subst. destruct H1 as [->|H1], H3 as [H3|H3].
          - congruence. - exfalso. apply N1. apply (in_map fst) in H3. exact H3. - subst e. exfalso. apply N1. apply (in_map fst) in H1. exact H1. - auto. }
        injection E as -> ->. apply existsb_exists. cbn. destruct H2 as [H2|H2]; eexists; (split; [exact H2|]); rewrite path_eqb_refl, ?orb_true_r; reflexivity. }
    destruct (e_kind ev); cbn [fst redone]; rewrite ?G; [intuition congruence|intuition congruence|intuition congruence|cbn; intuition congruence|cbn; intuition congruence].
Qed.

(** Time. *)
Definition timing (st st' : watcher) (o : outcome) : Prop :=
  match deadline st with
  | Some d => (deadline st' = Some d /\ reloads st' = reloads st) \/
              (o = WTimeout /\ d <= clock st' /\ deadline st' = None /\ reloads st' = reloads st ++ [clock st'])
  | None => reloads st' = reloads st /\ (deadline st' = None \/ deadline st' = Some (clock st' + debounce st))
  end.
Lemma wstep_timing st a : stopped st = false ->
  timing st (wstep st a) (snd a) /\ clock (wstep st a) = clock st + fst a /\ debounce (wstep st a) = debounce st /\ (snd a <> WShutdown -> stopped (wstep st a) = false) /\
  (snd a = WTimeout -> forall d, deadline st = Some d -> d <= clock st + fst a -> reloads (wstep st a) = reloads st ++ [clock st + fst a]).
Proof.
  intros S. unfold wstep, timing. rewrite S. destruct a as [dt o]. cbn [fst snd]. destruct o; cbn [paths].
  - destruct (handle_event ev (paths st)) as [rw reload]. unfold on_event. cbn [watches paths].
    destruct (rewatch _ _ _ _) as [[again ws] t]. unfold trigger_reload. destruct (reload || again); cbn; destruct (deadline st); repeat split; auto; discriminate.
  - unfold on_event. cbn [watches paths]. destruct (rewatch _ _ _ _) as [[again ws] t]. unfold trigger_reload. destruct again; cbn; destruct (deadline st); repeat split; auto; discriminate.
  - unfold add_watch_by_command. cbn [paths watches]. destruct (t_get _ _); cbn; [destruct (deadline st); repeat split; auto; discriminate|].
    destruct (watch_and_add _ _ _ _) as [[[[|]|] ws] t]; cbn; destruct (deadline st); repeat split; auto; discriminate.
  - cbn [deadline]. destruct (deadline st) as [d|] eqn:D; cbn [clock].
    + destruct (d <=? clock st + dt) eqn:E; cbn; rewrite ?D.
      * apply Nat.leb_le in E. repeat split; auto 6.
      * apply Nat.leb_gt in E. repeat split; auto. intros _ d' H. injection H as <-. lia.
    + cbn. rewrite ?D. repeat split; auto; discriminate.
  - cbn. destruct (deadline st); repeat split; auto; discriminate.
  - cbn. destruct (deadline st); repeat split; auto; try discriminate; congruence.
Qed.
Lemma wstep_stopped st a : stopped st = true -> wstep st a = st.
Proof. intros S. unfold wstep. rewrite S. reflexivity. Qed.

Definition last_reload (st : watcher) : nat := last (reloads st) 0.
Record time_inv (d : nat) (st : watcher) : Prop := {
  ti_debounce : debounce st = d;
  ti_deadline : forall x, deadline st = Some x -> x <= clock st + d /\ (reloads st = [] \/ last_reload st + d <= x) /\ d <= x;
  ti_spaced : spaced d (reloads st);
  ti_past : forall r, In r (reloads st) -> d <= r <= clock st
}.
Lemma spaced_snoc d l x : spaced d l -> (l = [] \/ last l 0 + d <= x) -> spaced d (l ++ [x]).
Proof.
  induction l as [|a l IH]; intros S H; cbn; [auto|]. destruct H as [H|H]; [discriminate H|]. destruct S as [S1 S2]. destruct l as [|b l].
  - cbn in *. auto.
  - cbn [app] in *. split; [exact S1|]. apply IH; [exact S2|]. right. exact H.
Qed.
Lemma last_in {A} (l : list A) d : l <> [] -> In (last l d) l.
Proof. induction l as [|a l IH]; [congruence|]. intros _. destruct l as [|b l]; [left; reflexivity|]. right. apply IH. discriminate. Qed.
Lemma time_inv_step d st a : time_inv d st -> time_inv d (wstep st a).
Proof.
  intros [I1 I2 I3 I4]. destruct (stopped st) eqn:S; [rewrite wstep_stopped by exact S; constructor; auto|].
  destruct (wstep_timing st a S) as (T & C & D & _ & _). unfold timing in T. destruct (deadline st) as [x|] eqn:Dl.
  - destruct (I2 x eq_refl) as (B1 & B2 & B3). destruct T as [[T1 T2]|(T0 & T1 & T2 & T3)].
    + constructor; [congruence| |rewrite T2; exact I3|intros r; rewrite T2, C; intros Hr; apply I4 in Hr; lia].
      intros y Hy. rewrite T1 in Hy. injection Hy as <-. unfold last_reload in *. rewrite T2, C. split; [lia|]. split; [exact B2|exact B3].
    + constructor; [congruence|intros y Hy; congruence| |].
      * rewrite T3. apply spaced_snoc; [exact I3|]. destruct B2 as [B2|B2]; [auto|right; unfold last_reload in B2; lia].
      * intros r. rewrite T3. intros Hr. apply in_app_or in Hr as [Hr|[<-|[]]]; [apply I4 in Hr; lia|lia].
  - destruct T as [T1 T2]. constructor; [congruence| |rewrite T1; exact I3|intros r; rewrite T1, C; intros Hr; apply I4 in Hr; lia].
    intros y Hy. destruct T2 as [T2|T2]; [congruence|]. rewrite T2 in Hy. injection Hy as <-. unfold last_reload. rewrite T1, I1. split; [lia|]. split; [|lia].
    destruct (reloads st) as [|r0 rs] eqn:R; [auto|]. right. assert (In (last (reloads st) 0) (reloads st)) by (apply last_in; rewrite R; discriminate). rewrite R in *. apply I4 in H. lia.
Qed.
Lemma time_inv_run d l st : time_inv d st -> time_inv d (wrun st l).
Proof. intros I. induction l as [|a l IH] using rev_ind; [exact I|]. rewrite wrun_snoc. apply time_inv_step. exact IH. Qed.
Lemma reachable_time d st : wreachable d st -> time_inv d st.
Proof. intros (l & ->). apply time_inv_run. constructor; cbn; auto; [discriminate|intros r []]. Qed.

(** Which turns schedule a reload. *)
Definition again_of (x : bool * list path * table) : bool := fst (fst x).
Lemma on_event_deadline f rw reload st : deadline (on_event f rw reload st) =
  match deadline st with Some d => Some d | None => if reload || again_of (rewatch f rw (watches st) (paths st)) then Some (clock st + debounce st) else None end.
Proof.
  unfold on_event, again_of. destruct (rewatch _ _ _ _) as [[again ws] t]. cbn [fst]. destruct (reload || again); cbn; destruct (deadline st); reflexivity.
Qed.
Lemma again_iff f l ws t : (forall p w, In (p, w) l -> plain f p) -> again_of (rewatch_each f l ws t) = true <-> exists p w, In (p, w) l /\ can_watch f p = true.
Proof.
  intros P. destruct (rewatch_split f l) as [H|(l1 & p & w & r & -> & H1 & H2)].
  - rewrite rewatch_each_none; [|intros p w Hin; split; [exact (P p w Hin)|exact (H p w Hin)]]. cbn. split; [discriminate|].
    intros (p & w & Hin & C). rewrite (H p w Hin) in C. discriminate C.
  - rewrite rewatch_each_first; [|intros q v Hq; split; [apply (P q v); apply in_or_app; auto|eauto]|apply (P p w); apply in_or_app; right; left; reflexivity|exact H2].
    cbn. split; [|reflexivity]. intros _. exists p, w. split; [apply in_or_app; right; left; reflexivity|exact H2].
Qed.
Lemma target_get st p : target st p <-> t_get p (paths st) <> None.
Proof.
  unfold target. split.
  - intros H E. apply t_get_none in E. auto.
  - intros H. destruct (t_get p (paths st)) as [v|] eqn:E; [|congruence]. apply t_get_some in E. apply (in_map fst) in E. exact E.
Qed.
Lemma target_entry st p : target st p -> exists w c, In (p, (w, c)) (paths st).
Proof. unfold target. rewrite in_map_iff. intros ([q [w c]] & E & H). cbn in E. subst q. eauto. Qed.
Lemma afresh_target st o p : afresh st o p -> target st p.
Proof.
  destruct o; cbn; try tauto. destruct (e_rescan ev); [tauto|]. intros [_ (w & c & H & _)]. apply (in_map fst) in H. exact H.
Qed.
Lemma trigger_exact st a : NoDup (map fst (paths st)) -> stopped st = false -> plainly st (snd a) -> deadline st = None ->
  deadline (wstep st a) <> None <-> calls_for_reload st (snd a).
Proof.
  intros N S [P1 P2] D. unfold wstep. rewrite S. destruct a as [dt o]. cbn [fst snd] in *. destruct o; cbn [paths].
  - pose proof (fun p w => redone_event st f ev p w N) as R. unfold calls_for_reload.
    destruct (handle_event ev (paths st)) as [rw reload] eqn:H. cbn [fst] in R. rewrite on_event_deadline. cbn [deadline watches paths]. rewrite D, rewatch_redone.
    assert (A : again_of (rewatch_each f (redone rw (paths st)) (forget ev (watches st)) (kept rw (paths st))) = true <-> exists p, afresh st (WEvent f ev) p /\ can_watch f p = true).
    { rewrite again_iff.
      - split.
        + intros (p & w & Hin & C). apply R in Hin as [Hin _]. eauto.
        + intros (p & Ha & C). destruct (target_entry st p (afresh_target _ _ _ Ha)) as (w & c & He). exists p, w. split; [apply R; split; [exact Ha|exists c; exact He]|exact C].
      - intros p w Hin. apply R in Hin as [Ha _]. apply afresh_target in Ha. apply (P1 p Ha). }
    assert (B : reload = true <-> e_rescan ev = true \/ changes (e_kind ev) /\ exists p, target st p /\ In p (e_paths ev)).
    { unfold handle_event in H. destruct (e_rescan ev); [injection H as _ <-; tauto|].
      assert (O : existsb (fun p => match t_get p (paths st) with Some _ => true | None => false end) (e_paths ev) = true <-> exists p, target st p /\ In p (e_paths ev)).
      { rewrite existsb_exists. split; intros (p & Hp).
        - exists p. destruct Hp as [Hp Hg]. split; [apply target_get; destruct (t_get p (paths st)); congruence|exact Hp].
        - exists p. destruct Hp as [Hp Hg]. split; [exact Hg|]. apply target_get in Hp. destruct (t_get p (paths st)); congruence. }
      unfold changes. destruct (e_kind ev); injection H as _ <-; rewrite ?O; intuition congruence. }
    rewrite <- A. destruct reload; cbn [orb].
    + split; [intros _|intros _; discriminate]. apply proj1 in B. specialize (B eq_refl). tauto.
    + destruct (again_of _); split; intros X; try tauto; try discriminate. exfalso. destruct X as [X|[X|X]]; [| |discriminate X]; assert (false = true) by (apply B; auto); discriminate.
  - rewrite on_event_deadline. cbn [deadline watches paths orb]. rewrite D, rewatch_redone. cbn [calls_for_reload].
    assert (A : again_of (rewatch_each f (redone All (paths st)) (watches st) (kept All (paths st))) = true <-> exists p, target st p /\ can_watch f p = true).
    { rewrite again_iff.
      - cbn [redone]. split.
        + intros (p & w & Hin & C). rewrite in_map_iff in Hin. destruct Hin as (e & E & Hin). injection E as <- <-. exists (fst e). split; [apply in_map; exact Hin|exact C].
        + intros (p & Ht & C). destruct (target_entry st p Ht) as (w & c & He). exists p, w. split; [|exact C]. rewrite in_map_iff. exists (p, (w, c)). auto.
      - cbn [redone]. intros p w Hin. rewrite in_map_iff in Hin. destruct Hin as (e & E & Hin). injection E as <- <-. apply (P1 (fst e)). apply in_map. exact Hin. }
    rewrite <- A. destruct (again_of _); split; congruence.
  - cbn [calls_for_reload]. unfold add_watch_by_command. cbn [paths watches]. rewrite target_get. destruct (t_get (canonicalize_path f p) (paths st)) eqn:G.
    + cbn. rewrite D. split; [congruence|]. intros [X _]. exfalso. apply X. discriminate.
    + rewrite (watch_and_add_near f (watches st) (paths st) _ P2). destruct (can_watch f (canonicalize_path f p)); cbn; rewrite D; (split; [intros X|intros [X1 X2]]); [split; [congruence|reflexivity]|discriminate|congruence|discriminate X2].
  - cbn [deadline]. rewrite D. cbn. rewrite ?D. split; [congruence|intros []].
  - cbn. rewrite D. split; [congruence|intros []].
  - cbn. rewrite D. split; [congruence|intros []].
Qed.

(** Staying watched. *)
Lemma watch_keeps x w ws : In x ws -> In x (watch w ws).
Proof. intros H. apply watch_in. auto. Qed.
Lemma entry_unique (t : table) p v v' : NoDup (map fst t) -> In (p, v) t -> In (p, v') t -> v = v'.
Proof.
  intros N H1 H3. induction t as [|e t IH]; [destruct H1|]. cbn in N. inversion N as [|? ? N1 N2]; subst. destruct H1 as [->|H1], H3 as [H3|H3].
  - congruence.
  - exfalso. apply N1. apply (in_map fst) in H3. exact H3.
  - subst e. exfalso. apply N1. apply (in_map fst) in H1. exact H1.
  - auto.
Qed.
Lemma redone_alone p w (l : list (path * path)) : NoDup (map fst l) -> In (p, w) l -> (forall q v, In (q, v) l -> q = p) -> l = [(p, w)].
Proof.
  intros N Hin H. destruct l as [|[q v] l]; [destruct Hin|]. destruct l as [|[q' v'] l].
  - destruct Hin as [E|[]]. rewrite E. reflexivity.
  - exfalso. assert (q = p) by (apply (H q v); left; reflexivity). assert (q' = p) by (apply (H q' v'); right; left; reflexivity). subst. cbn in N. inversion N as [|? ? N1 _]; subst. apply N1. left. reflexivity.
Qed.
Lemma redone_nodup rw t : NoDup (map fst t) -> (forall l, rw = Some_of l -> NoDup (map fst l)) -> NoDup (map fst (redone rw t)).
Proof. intros N H. destruct rw; cbn; [apply H; reflexivity|]. rewrite map_map. cbn. exact N. Qed.
Lemma handle_event_nodup ev t : NoDup (map fst t) -> NoDup (map fst (redone (fst (handle_event ev t)) t)).
Proof.
  intros N. apply redone_nodup; [exact N|]. intros l E. unfold handle_event in E. destruct (e_rescan ev); [discriminate E|].
  destruct (e_kind ev); injection E as <-; try constructor; rewrite map_map; cbn; apply nodup_map_filter; exact N.
Qed.
(** Setting up one target anew. *)
Lemma rewatch_one f rw ws t p w c : NoDup (map fst t) -> redone rw t = [(p, w)] -> In (p, (w, c)) t -> plain f p ->
  let r := rewatch f rw ws t in
  snd (fst r) = watch (near f p) (unwatch w ws) /\
  forall e, In e (snd r) <-> e = (p, entry (near f p) p) \/ (In e t /\ fst e <> p).
Proof.
  intros N E Hin P. cbn zeta. rewrite rewatch_redone, E. cbn [rewatch_each]. rewrite (watch_and_add_near f _ _ p P).
  assert (G : snd (fst (if can_watch f p then (true, watch (near f p) (unwatch w ws), t_insert p (entry (near f p) p) (kept rw t))
                       else (false, watch (near f p) (unwatch w ws), t_insert p (entry (near f p) p) (kept rw t)))) = watch (near f p) (unwatch w ws) /\
    snd (if can_watch f p then (true, watch (near f p) (unwatch w ws), t_insert p (entry (near f p) p) (kept rw t))
         else (false, watch (near f p) (unwatch w ws), t_insert p (entry (near f p) p) (kept rw t))) = t_insert p (entry (near f p) p) (kept rw t)).
  { destruct (can_watch f p); split; reflexivity. }
  destruct (can_watch f p); cbn [fst snd] in *; (split; [reflexivity|]); intros e; (destruct rw as [l|]; cbn [kept];
    [rewrite t_insert_in by exact N; reflexivity|]);
    (rewrite t_insert_in by constructor; split; [intros [H|[[] _]]; auto|intros [H|[H Hn]]; [auto|]]; exfalso; apply Hn;
     cbn [redone] in E; apply (in_map (fun e => (fst e, fst (snd e)))) in H; rewrite E in H; destruct H as [H|[]]; congruence).
Qed.
Lemma rewatch_nothing f rw ws t : redone rw t = [] -> rewatch f rw ws t = (false, ws, t).
Proof.
  intros E. rewrite rewatch_redone, E. cbn. destruct rw; [reflexivity|]. cbn in E. apply map_eq_nil in E. subst t. reflexivity.
Qed.
Lemma list_cases {A B} (l : list (A * B)) : l = [] \/ exists p w, In (p, w) l.
Proof. destruct l as [|[p w] l]; [auto|]. right. exists p, w. left. reflexivity. Qed.

Lemma rewatched_all f rw ws t : NoDup (map fst t) -> NoDup (map fst (redone rw t)) ->
  (forall p w, In (p, w) (redone rw t) -> plain f p /\ exists c, In (p, (w, c)) t) ->
  (forall p w q w' c', In (p, w) (redone rw t) -> In (q, (w', c')) t -> q <> p -> (forall v, ~ In (q, v) (redone rw t)) /\ w' <> w) ->
  (forall p w c, In (p, (w, c)) t -> (forall v, ~ In (p, v) (redone rw t)) -> In w ws) ->
  (forall p w c, In (p, (w, c)) t -> above w p /\ c = firstn (S (length w)) p) ->
  let r := rewatch f rw ws t in
  (forall x, In x (map fst (snd r)) <-> In x (map fst t)) /\
  (forall p w c, In (p, (w, c)) (snd r) -> above w p /\ In w (snd (fst r)) /\ c = firstn (S (length w)) p) /\
  (forall p w, In (p, w) (redone rw t) -> exists c, In (p, (near f p, c)) (snd r)).
Proof.
  intros N Nr R A W G. cbn zeta. destruct (list_cases (redone rw t)) as [E|(p & w & Hin)].
  - rewrite (rewatch_nothing _ _ _ _ E). cbn [fst snd]. split; [tauto|]. split; [|intros p w; rewrite E; intros []].
    intros p w c H. destruct (G p w c H). split; [auto|]. split; [|auto]. apply (W p w c H). intros v. rewrite E. intros [].
  - destruct (R p w Hin) as [P (c & Hc)].
    assert (E : redone rw t = [(p, w)]).
    { apply redone_alone; [exact Nr|exact Hin|]. intros q v Hq. destruct (path_dec q p) as [|n]; [assumption|]. exfalso. destruct (R q v Hq) as [_ (c' & Hc')].
      destruct (A p w q v c' Hin Hc' n) as [X _]. apply (X v). exact Hq. }
    destruct (rewatch_one f rw ws t p w c N E Hc P) as [E1 E2]. rewrite E1. split; [|split].
    + intros x. rewrite !in_map_iff. split.
      * intros (e & Ex & He). apply E2 in He as [->|[He Hn]]; [exists (p, (w, c)); auto|eauto].
      * intros (e & Ex & He). destruct (path_dec x p) as [->|n]; [exists (p, entry (near f p) p); split; [reflexivity|apply E2; auto]|].
        exists e. split; [exact Ex|]. apply E2. right. split; [exact He|congruence].
    + intros q w' c' He. apply E2 in He as [He|[He Hn]].
      * injection He as -> -> ->. pose proof (near_nearest f p P) as (Na & _ & _). split; [exact Na|]. split; [apply watch_in; auto|reflexivity].
      * cbn in Hn. destruct (G q w' c' He). split; [auto|]. split; [|auto]. destruct (A p w q w' c' Hin He Hn) as [X1 X2]. apply watch_keeps, unwatch_in. split; [|exact X2].
        apply (W q w' c' He). exact X1.
    + rewrite E. intros q v [H|[]]. injection H as <- <-. eexists. apply E2. left. reflexivity.
Qed.

Definition good_table (st : watcher) : Prop :=
  forall p w c, In (p, (w, c)) (paths st) -> above w p /\ In w (watches st) /\ c = firstn (S (length w)) p.
Lemma all_watched_iff st : NoDup (map fst (paths st)) -> all_watched st <-> good_table st.
Proof.
  intros N. split.
  - intros A p w c H. destruct (A p) as (w' & c' & H' & X); [apply (in_map fst) in H; exact H|]. pose proof (entry_unique _ _ _ _ N H H') as E. injection E as -> ->. exact X.
  - intros G p H. destruct (target_entry st p H) as (w & c & He). exists w, c. split; [exact He|]. apply G. exact He.
Qed.
Lemma forget_in ev ws w : In w (forget ev ws) <-> In w ws /\ ~ (e_kind ev = Remove /\ In w (e_paths ev)).
Proof.
  unfold forget. destruct (e_kind ev); try (split; [intros H; split; [exact H|intros [X _]; discriminate X]|tauto]).
  rewrite filter_In, negb_true_iff. split.
  - intros [H1 H2]. split; [exact H1|]. intros [_ X]. apply mentions_in in X. congruence.
  - intros [H1 H2]. split; [exact H1|]. destruct (mentions (e_paths ev) w) eqn:E; [|reflexivity]. apply mentions_in in E. exfalso. auto.
Qed.
Lemma trigger_same st : paths (trigger_reload st) = paths st /\ watches (trigger_reload st) = watches st.
Proof. split; reflexivity. Qed.
Lemma on_event_parts f rw reload st :
  paths (on_event f rw reload st) = snd (rewatch f rw (watches st) (paths st)) /\ watches (on_event f rw reload st) = snd (fst (rewatch f rw (watches st) (paths st))).
Proof. unfold on_event. destruct (rewatch _ _ _ _) as [[again ws] t]. destruct (reload || again); split; reflexivity. Qed.

Lemma stays_step st dt o : NoDup (map fst (paths st)) -> all_watched st -> plainly st o -> alone st o ->
  let st' := wstep st (dt, o) in
  all_watched st' /\ (forall p, target st p -> target st' p) /\ (forall f p, meets o (fun f' => f' = f) -> afresh st o p -> stopped st = false -> exists c, In (p, (near f p, c)) (paths st')).
Proof.
  intros N A [P1 P2] Al. cbn zeta. pose proof (wstep_nodup st (dt, o) N) as N'. rewrite (all_watched_iff _ N'). apply (all_watched_iff _ N) in A. clear N'.
  unfold wstep. destruct (stopped st) eqn:S; [split; [exact A|]; split; [auto|intros; discriminate]|]. cbn [fst snd]. destruct o; cbn [paths].
  - pose proof (fun p w => redone_event st f ev p w N) as R. pose proof (handle_event_nodup ev (paths st) N) as Nr. destruct (handle_event ev (paths st)) as [rw reload] eqn:H. cbn [fst] in R, Nr.
    assert (Q := rewatched_all f rw (forget ev (watches st)) (paths st) N Nr).
    destruct Q as (Q1 & Q2 & Q3).
    + intros p w Hin. apply R in Hin as [Ha He]. split; [|exact He]. apply (P1 p (afresh_target _ _ _ Ha)).
    + intros p w q w' c' Hin Hq n. apply R in Hin as [Ha (c & He)]. destruct (Al p w c q w' c' Ha He Hq n) as [X1 X2]. split; [|exact X2]. intros v Hv. apply R in Hv as [Hv _]. auto.
    + intros p w c Hin Hn. destruct (A p w c Hin) as (_ & X & _). apply forget_in. split; [exact X|]. intros [K M]. apply (Hn w). apply R. split; [|exists c; exact Hin].
      unfold afresh. destruct (e_rescan ev); [apply (in_map fst) in Hin; exact Hin|]. split; [auto|]. exists w, c. auto.
    + intros p w c Hin. destruct (A p w c Hin) as (X & _ & Y). auto.
    + unfold good_table, target. destruct (on_event_parts f rw reload {| debounce := debounce st; clock := clock st + dt; deadline := deadline st; watches := forget ev (watches st); paths := paths st; reloads := reloads st; stopped := stopped st |}) as [E1 E2].
      cbn [paths watches debounce clock deadline reloads stopped] in *. rewrite S in *. rewrite E1, E2. split; [exact Q2|]. split; [intros p; apply Q1|].
      intros f' p Hm Ha _. cbn in Hm. subst f'. destruct (target_entry st p (afresh_target _ _ _ Ha)) as (w & c & He). apply (Q3 p w). apply R. split; [exact Ha|exists c; exact He].
  - assert (R : forall p w, In (p, w) (redone All (paths st)) <-> exists c, In (p, (w, c)) (paths st)).
    { intros p w. cbn [redone]. rewrite in_map_iff. split; [intros ([q [v c]] & E & H); cbn in E; injection E as -> ->; eauto|intros (c & H); exists (p, (w, c)); auto]. }
    assert (Q := rewatched_all f All (watches st) (paths st) N).
    destruct Q as (Q1 & Q2 & Q3).
    + cbn [redone]. rewrite map_map. exact N.
    + intros p w Hin. apply R in Hin as (c & He). split; [|exists c; exact He]. apply (P1 p). apply (in_map fst) in He. exact He.
    + intros p w q w' c' Hin Hq n. apply R in Hin as (c & He). assert (Tp : target st p) by (apply (in_map fst) in He; exact He). destruct (Al p w c q w' c' Tp He Hq n) as [X1 X2]. exfalso. apply X1. cbn. apply (in_map fst) in Hq. exact Hq.
    + intros p w c Hin Hn. exfalso. apply (Hn w). apply R. eauto.
    + intros p w c Hin. destruct (A p w c Hin) as (X & _ & Y). auto.
    + unfold good_table, target. destruct (on_event_parts f All false {| debounce := debounce st; clock := clock st + dt; deadline := deadline st; watches := watches st; paths := paths st; reloads := reloads st; stopped := stopped st |}) as [E1 E2].
      cbn [paths watches debounce clock deadline reloads stopped] in *. rewrite S in *. rewrite E1, E2. split; [exact Q2|]. split; [intros p; apply Q1|].
      intros f' p Hm Ha _. cbn in Hm. subst f'. destruct (target_entry st p Ha) as (w & c & He). apply (Q3 p w). apply R. eauto.
  - unfold add_watch_by_command. cbn [paths watches].
    set (k := canonicalize_path f p) in *. destruct (t_get k (paths st)) eqn:G; [cbn; split; [exact A|]; split; [auto|intros ? ? _ []]|].
    rewrite (watch_and_add_near f (watches st) (paths st) k P2).
    assert (X : good_table {| debounce := debounce st; clock := clock st + dt; deadline := deadline st; watches := watch (near f k) (watches st); paths := t_insert k (entry (near f k) k) (paths st); reloads := reloads st; stopped := stopped st |}).
    { intros q w c. cbn [paths watches]. rewrite t_insert_in by exact N. intros [E|[H _]].
      - injection E as -> -> ->. pose proof (near_nearest f k P2) as (Na & _ & _). split; [exact Na|]. split; [apply watch_in; auto|reflexivity].
      - destruct (A q w c H) as (X1 & X2 & X3). split; [exact X1|]. split; [apply watch_keeps; exact X2|exact X3]. }
    assert (Y : forall q, target st q -> In q (map fst (t_insert k (entry (near f k) k) (paths st)))) by (intros q Hq; apply t_insert_keys; auto).
    destruct (can_watch f k); cbn [fst]; (split; [exact X|]; split; [exact Y|intros ? ? _ []]).
  - cbn [deadline]. destruct (deadline st); [destruct (_ <=? _)|]; (split; [exact A|]; split; [auto|intros ? ? _ []]).
  - split; [|split].
    + intros p w c H. cbn in H. apply swap_in in H. apply A. exact H.
    + intros p H. unfold target. cbn [paths]. rewrite swap_map, swap_in. exact H.
    + intros ? ? _ [].
  - split; [exact A|]. split; [auto|intros ? ? _ []].
Qed.

Lemma rewatch_keys f rw ws t : forall x, In x (map fst (snd (rewatch f rw ws t))) -> In x (map fst t) \/ In x (map fst (redone rw t)).
Proof.
  intros x. rewrite rewatch_redone. assert (K : forall y, In y (map fst (kept rw t)) -> In y (map fst t)) by (destruct rw; cbn; [auto|intros y []]).
  intros H. assert (G : In x (map fst (kept rw t)) \/ In x (map fst (redone rw t))).
  2: { destruct G as [G|G]; auto. }
  clear K. revert H. generalize (kept rw t) ws. generalize (redone rw t) as l. clear.
  induction l as [|[p w] l IH]; intros t0 ws H; cbn [rewatch_each] in H; [auto|].
  assert (W : forall y, In y (map fst (snd (watch_and_add f (unwatch w ws) t0 p))) -> y = p \/ In y (map fst t0)).
  { intros y. unfold watch_and_add. destruct (best_effort_watch _ _ _) as [[[a b] c]|]; cbn [snd]; [rewrite t_insert_keys; auto|].
    rewrite !in_map_iff. intros (e & E & H'). apply t_remove_in in H' as [H' _]. right. eauto. }
  cbn [map fst In]. destruct (watch_and_add f (unwatch w ws) t0 p) as [[[[|]|] ws'] t']; cbn [snd] in *.
  - apply W in H as [->|H]; auto.
  - apply IH in H as [H|H]; [apply W in H as [->|H]; auto|auto].
  - apply W in H as [->|H]; auto.
Qed.
