From Coq Require Import List NArith ZArith Bool Arith Lia.
From Verif Require Import Model.Base Model.Protocol Model.Names Model.Server Spec.ServerSpec Proofs.BaseLemmas.
Import ListNotations.
Open Scope nat_scope.

Lemma nth_change {A} (l : list A) n f m :
  nth_error (change_nth l n f) m = if m =? n then option_map f (nth_error l m) else nth_error l m.
Proof.
  revert n m; induction l as [|x l IH]; intros [|n] [|m]; cbn; try reflexivity.
  - destruct (m =? n); reflexivity.
  - apply IH.
Qed.

Lemma change_length {A} (l : list A) n f : length (change_nth l n f) = length l.
Proof. revert n; induction l as [|x l IH]; intros [|n]; cbn; auto. Qed.

Lemma at_change st s f m :
  session_at (change st s f) m = if m =? s then option_map f (session_at st m) else session_at st m.
Proof. apply nth_change. Qed.

Lemma nth_app_new {A} (l : list A) x m :
  nth_error (l ++ [x]) m = if m =? length l then Some x else nth_error l m.
Proof.
  destruct (m =? length l) eqn:E.
  - apply Nat.eqb_eq in E. subst. rewrite nth_error_app2, Nat.sub_diag by lia. reflexivity.
  - apply Nat.eqb_neq in E. destruct (Nat.lt_ge_cases m (length l)).
    + apply nth_error_app1; assumption.
    + rewrite nth_error_app2 by lia. rewrite (proj2 (nth_error_None l m)) by lia.
      destruct (m - length l) as [|k] eqn:Ek; [lia|]. cbn. destruct k; reflexivity.
Qed.

(** A kill loop only adds to the signalled sessions. *)
Lemma kill_loop_frame todo : forall st oks nf rm,
  exists sg, fst (kill_loop st todo oks nf rm) = with_signalled st sg.
Proof.
  induction todo as [|n todo IH]; intros st oks nf rm; cbn [kill_loop fst].
  - exists (signalled st). destruct st; reflexivity.
  - destruct (lookup n (table st)) as [s|]; [|apply IH].
    destruct oks as [|[|] oks]; cbn [fst tl].
    + destruct (IH (with_signalled st (signalled st ++ [s])) [] nf (rm ++ [n])) as [sg ->].
      exists sg. reflexivity.
    + destruct (IH (with_signalled st (signalled st ++ [s])) oks nf (rm ++ [n])) as [sg ->].
      exists sg. reflexivity.
    + eexists. reflexivity.
Qed.

Lemma remove_one_frame l : forall st,
  exists t e, fold_left remove_one l st = with_events (with_table st t) e /\
    t = fold_left (fun t n => remove n t) l (table st).
Proof.
  induction l as [|n l IH]; intros st; cbn [fold_left].
  - exists (table st), (events st). destruct st; auto.
  - destruct (IH (remove_one st n)) as (t & e & -> & ->). exists (fold_left (fun t n => remove n t) l (remove n (table st))), e.
    split; reflexivity.
Qed.

(** What a kill request does, leaving open which names were found. *)
Lemma handle_kill_shape st c oks :
  handle_kill st c oks = st \/
  exists pid names, handlers st c = HAccepted pid (QKill names) /\ locked st = None /\
   ((exists sg, kill_loop st names oks [] [] = (with_signalled st sg, None) /\
     handle_kill st c oks = goto (with_signalled st sg) c HDone) \/
    (exists sg nf rm, kill_loop st names oks [] [] = (with_signalled st sg, Some (nf, rm)) /\
      handle_kill st c oks = goto (say (fold_left remove_one rm (with_signalled st sg)) c (RKill nf)) c HDone)).
Proof.
  unfold handle_kill. destruct (handlers st c) eqn:Hc; auto. destruct q; auto. destruct (locked st) eqn:Hl; auto.
  right. exists pid, names. split; [reflexivity|]. split; [reflexivity|].
  destruct (kill_loop_frame names st oks [] []) as [sg Hsg].
  destruct (kill_loop st names oks [] []) as [st1 [[nf rm]|]]; cbn [fst] in Hsg; subst st1.
  - right. exists sg, nf, rm. auto.
  - left. exists sg. auto.
Qed.

Lemma lookup_fold_remove {V} l : forall (t : list (rstr * V)) n,
  lookup n (fold_left (fun t n => remove n t) l t) = if existsb (str_eqb n) l then None else lookup n t.
Proof.
  induction l as [|m l IH]; intros t n; cbn [fold_left existsb]; [reflexivity|].
  rewrite IH. destruct (str_eqb n m) eqn:E; cbn [orb].
  - apply str_eqb_eq in E. subst. rewrite lookup_remove_eq. destruct (existsb _ _); reflexivity.
  - apply str_eqb_neq in E. rewrite lookup_remove_neq by assumption. reflexivity.
Qed.

Definition waiting_lock (h : handler) : bool :=
  match h with HWaitInner _ _ | HDetach _ _ _ => true | _ => false end.

(** The request and session of an attach handler. *)
Definition attach_of (h : handler) : option (attach_header * sid) :=
  match h with
  | HInsert a s | HFetch a s | HWaitInner a s | HReply a s _ | HStart a s | HStream a s _ | HUnwind a s _ => Some (a, s)
  | _ => None
  end.

Record inv (st : server) : Prop := {
  i_tab : forall n s, lookup n (table st) = Some s -> exists x, session_at st s = Some x /\ s_name x = n;
  i_inner : forall s x c, session_at st s = Some x ->
            (s_inner x = Some c <-> attached_session (handlers st c) = Some s);
  i_lock : forall c, locked st = Some c <-> waiting_lock (handlers st c) = true;
  i_exists : forall c s, attached_session (handlers st c) = Some s -> exists x, session_at st s = Some x;
  i_hdr : forall c h s, attach_of (handlers st c) = Some (h, s) ->
          (exists x, session_at st s = Some x /\ s_name x = h_name h) /\ daemon_rejects (h_name h) = false;
  i_spawn : forall c h pid, handlers st c = HSpawn h pid -> daemon_rejects (h_name h) = false;
  i_new : forall c h s, handlers st c = HInsert h s ->
          (exists x, session_at st s = Some x /\ s_born x = c) /\ forall n, lookup n (table st) <> Some s;
  i_done : forall c s, (exists h, handlers st c = HUnwind h s true) \/ handlers st c = HLeave s true ->
           exists x v, session_at st s = Some x /\ s_exit x = Some v
}.

Lemma inv_new defaults : inv (server_new defaults).
Proof.
  constructor; cbn.
  - discriminate.
  - intros [|s]; discriminate.
  - intros c. split; discriminate.
  - discriminate.
  - discriminate.
  - discriminate.
  - discriminate.
  - intros c s [[h H]|H]; discriminate H.
Qed.

Definition osid_eqb (o : option sid) (s : sid) : bool := match o with Some t => t =? s | None => false end.
Lemma osid_eqb_true o s : osid_eqb o s = true <-> o = Some s.
Proof.
  destruct o as [t|]; cbn; [|split; discriminate]. rewrite Nat.eqb_eq. split; congruence.
Qed.

Lemma inv_update st st' c h' :
  inv st ->
  (forall c', handlers st' c' = if c' =? c then h' else handlers st c') ->
  (forall s x, session_at st s = Some x -> exists x', session_at st' s = Some x' /\ s_name x' = s_name x /\ s_born x' = s_born x /\
                (forall v, s_exit x = Some v -> s_exit x' = Some v)) ->
  (forall s x', session_at st' s = Some x' ->
     s_inner x' = if osid_eqb (attached_session h') s then Some c
                  else if osid_eqb (attached_session (handlers st c)) s then None
                  else match session_at st s with Some x => s_inner x | None => None end) ->
  (forall s, attached_session h' = Some s ->
     exists x, session_at st s = Some x /\ (s_inner x = None \/ s_inner x = Some c)) ->
  (forall n s, lookup n (table st') = Some s ->
     lookup n (table st) = Some s \/ exists h0, handlers st c = HInsert h0 s /\ n = h_name h0 /\ forall h1, h' <> HInsert h1 s) ->
  locked st' = (if waiting_lock h' then Some c else if waiting_lock (handlers st c) then None else locked st) ->
  (waiting_lock h' = true -> locked st = None \/ locked st = Some c) ->
  (forall h s, attach_of h' = Some (h, s) -> attach_of (handlers st c) = Some (h, s) \/
     ((exists x', session_at st' s = Some x' /\ s_name x' = h_name h) /\ daemon_rejects (h_name h) = false)) ->
  (forall h pid, h' = HSpawn h pid -> daemon_rejects (h_name h) = false) ->
  (forall h s, h' = HInsert h s -> handlers st c = h' \/ (exists x', session_at st' s = Some x' /\ s_born x' = c) /\ session_at st s = None) ->
  (forall s, (exists h, h' = HUnwind h s true) \/ h' = HLeave s true ->
     handlers st c = h' \/ exists x v, session_at st' s = Some x /\ s_exit x = Some v) ->
  inv st'.
Proof.
  intros I Hh He Hin Hst Ht Hl Hlw Ha Hs Hn Hd.
  assert (Old : forall s x, session_at st s = Some x -> exists x', session_at st' s = Some x' /\ s_name x' = s_name x).
  { intros s x Hx. destruct (He s x Hx) as (x' & ? & ? & _). eauto. }
  constructor.
  - intros n s E. destruct (Ht n s E) as [E'|(h0 & E' & -> & _)].
    + destruct (i_tab _ I _ _ E') as (x & Hx & <-). destruct (Old s x Hx) as (x' & ? & ?). eauto.
    + assert (X : attach_of (handlers st c) = Some (h0, s)) by (rewrite E'; reflexivity).
      destruct (i_hdr _ I _ _ _ X) as [(x & Hx & Hnm) _]. destruct (Old s x Hx) as (x' & ? & ?). exists x'. split; congruence.
  - intros s x' c' Hx'. rewrite (Hin s x' Hx'), Hh.
    destruct (osid_eqb (attached_session h') s) eqn:E1.
    + apply osid_eqb_true in E1. destruct (Nat.eqb_spec c' c) as [->|N]; [split; auto|].
      split; [congruence|]. intros A. exfalso.
      destruct (Hst s E1) as (x & Hx & Hor). apply (i_inner _ I s x c' Hx) in A. destruct Hor; congruence.
    + destruct (osid_eqb (attached_session (handlers st c)) s) eqn:E2.
      * apply osid_eqb_true in E2. destruct (Nat.eqb_spec c' c) as [->|N].
        -- split; [discriminate|]. intros A. apply osid_eqb_true in A. congruence.
        -- split; [discriminate|]. intros A. exfalso.
           destruct (i_exists _ I _ _ A) as [x Hx].
           apply (i_inner _ I s x c' Hx) in A. apply (i_inner _ I s x c Hx) in E2. congruence.
      * destruct (session_at st s) as [x|] eqn:Hx.
        -- rewrite (i_inner _ I s x c' Hx). destruct (Nat.eqb_spec c' c) as [->|N]; [|reflexivity].
           split; intros A; apply osid_eqb_true in A; congruence.
        -- split; [discriminate|]. destruct (Nat.eqb_spec c' c) as [->|N]; intros A.
           ++ apply osid_eqb_true in A. congruence.
           ++ destruct (i_exists _ I _ _ A) as [x Hx2]. congruence.
  - intros c'. rewrite Hl, Hh. destruct (waiting_lock h') eqn:E1.
    + destruct (Nat.eqb_spec c' c) as [->|N]; [rewrite E1; split; auto|].
      split; [congruence|]. intros A. apply (i_lock _ I) in A. destruct (Hlw eq_refl); congruence.
    + destruct (waiting_lock (handlers st c)) eqn:E2.
      * split; [discriminate|]. destruct (Nat.eqb_spec c' c) as [->|N]; [congruence|].
        intros A. apply (i_lock _ I) in A, E2. congruence.
      * rewrite (i_lock _ I). destruct (Nat.eqb_spec c' c) as [->|N]; [|reflexivity]. split; congruence.
  - intros c' s. rewrite Hh. destruct (Nat.eqb_spec c' c) as [->|N]; intros A.
    + destruct (Hst s A) as (x & Hx & _). destruct (Old s x Hx) as (x' & ? & _). eauto.
    + destruct (i_exists _ I _ _ A) as [x Hx]. destruct (Old s x Hx) as (x' & ? & _). eauto.
  - intros c' h s. rewrite Hh. destruct (Nat.eqb_spec c' c) as [->|N]; intros A.
    + destruct (Ha h s A) as [B|B]; [|exact B].
      destruct (i_hdr _ I _ _ _ B) as [(x & Hx & Hnm) V]. split; [|exact V].
      destruct (Old s x Hx) as (x' & ? & ?). exists x'. split; congruence.
    + destruct (i_hdr _ I _ _ _ A) as [(x & Hx & Hnm) V]. split; [|exact V].
      destruct (Old s x Hx) as (x' & ? & ?). exists x'. split; congruence.
  - intros c' h pid. rewrite Hh. destruct (Nat.eqb_spec c' c) as [->|N]; intros A; [eapply Hs; eassumption|eapply (i_spawn _ I); eassumption].
  - intros c' h s. rewrite Hh. destruct (Nat.eqb_spec c' c) as [->|N]; intros A.
    + assert (G : (exists x', session_at st' s = Some x' /\ s_born x' = c) /\ forall n, lookup n (table st) <> Some s).
      { destruct (Hn h s A) as [B|[B1 B2]].
        - rewrite A in B. destruct (i_new _ I _ _ _ B) as [(x & Hx & Hb) Hno].
          destruct (He s x Hx) as (x' & ? & _ & ? & _). split; [exists x'; split; congruence|exact Hno].
        - split; [exact B1|]. intros n E. destruct (i_tab _ I _ _ E) as (x & Hx & _). congruence. }
      destruct G as [G1 G2]. split; [exact G1|]. intros n E. destruct (Ht n s E) as [E'|(h0 & E' & _ & Hne)].
      * exact (G2 n E').
      * exact (Hne h A).
    + destruct (i_new _ I _ _ _ A) as [(x & Hx & Hb) Hno].
      destruct (He s x Hx) as (x' & Hx' & _ & Hb' & _). split; [exists x'; split; congruence|].
      intros n E. destruct (Ht n s E) as [E'|(h0 & E' & _ & _)]; [exact (Hno n E')|].
      destruct (i_new _ I _ _ _ E') as [(y & Hy & Hyb) _]. congruence.
  - intros c' s. rewrite Hh. destruct (Nat.eqb_spec c' c) as [->|N]; intros A.
    + destruct (Hd s A) as [B|B]; [|exact B].
      rewrite <- B in A. destruct (i_done _ I _ _ A) as (x & v & Hx & Hv).
      destruct (He s x Hx) as (x' & ? & _ & _ & Hv'). exists x', v. split; auto.
    + destruct (i_done _ I _ _ A) as (x & v & Hx & Hv).
      destruct (He s x Hx) as (x' & ? & _ & _ & Hv'). exists x', v. split; auto.
Qed.

(** The fields of a session that a change keeps. *)
Lemma at_some_lt st s x : session_at st s = Some x -> s < length (sessions st).
Proof. intros H. apply nth_error_Some. unfold session_at in H. congruence. Qed.

Ltac srv := cbn [table sessions locked handlers events replies vars signalled mailbox heap gens goto publish say change
                 with_table with_sessions with_locked with_handlers with_events with_replies with_vars with_signalled with_reaper remove_one] in *.

Ltac eqbs := repeat match goal with
  | H : (?a =? ?b) = true |- _ => apply Nat.eqb_eq in H; subst
  | H : (?a =? ?b) = false |- _ => apply Nat.eqb_neq in H
  | |- context [?a =? ?b] => destruct (Nat.eqb_spec a b); subst
  | H : context [?a =? ?b] |- _ => destruct (Nat.eqb_spec a b); subst
  end.

(** The part of a step that concerns neither locks nor new sessions: one session
    changed by a function that keeps its name, origin, inner lock and exit status. *)
Definition mild (f : session -> session) : Prop :=
  forall y, s_name (f y) = s_name y /\ s_born (f y) = s_born y /\ s_inner (f y) = s_inner y /\
            (forall v, s_exit y = Some v -> s_exit (f y) = Some v).

(** A step that changes no lock: handler [c] moves, one session changes mildly. *)
Lemma inv_mild st st' c h' ss f :
  inv st -> mild f ->
  (forall c', handlers st' c' = if c' =? c then h' else handlers st c') ->
  sessions st' = change_nth (sessions st) ss f ->
  (forall n s, lookup n (table st') = Some s ->
     lookup n (table st) = Some s \/ exists h0, handlers st c = HInsert h0 s /\ n = h_name h0 /\ forall h1, h' <> HInsert h1 s) ->
  attached_session h' = attached_session (handlers st c) ->
  waiting_lock h' = waiting_lock (handlers st c) -> locked st' = locked st ->
  (forall h s, attach_of h' = Some (h, s) -> attach_of (handlers st c) = Some (h, s)) ->
  (forall h pid, h' = HSpawn h pid -> handlers st c = h' \/ daemon_rejects (h_name h) = false) ->
  (forall h s, h' = HInsert h s -> handlers st c = h') ->
  (forall s, (exists h, h' = HUnwind h s true) \/ h' = HLeave s true ->
     handlers st c = h' \/ exists x v, session_at st s = Some x /\ s_exit x = Some v) ->
  inv st'.
Proof.
  intros I Hf Hh Hse Ht Hat Hw Hl Ha Hs Hn Hd.
  assert (E : forall s, session_at st' s = if s =? ss then option_map f (session_at st s) else session_at st s).
  { intros s. unfold session_at. rewrite Hse. apply nth_change. }
  assert (He : forall s x, session_at st s = Some x -> exists x', session_at st' s = Some x' /\ s_name x' = s_name x /\ s_born x' = s_born x /\
                (forall v, s_exit x = Some v -> s_exit x' = Some v)).
  { intros s x Hx. rewrite E, Hx. destruct (s =? ss); cbn; eexists; (split; [reflexivity|]); [|auto].
    destruct (Hf x) as (? & ? & ? & ?). auto. }
  apply (inv_update st st' c h'); try assumption.
  - intros s x' Hx'. rewrite E in Hx'. rewrite Hat.
    destruct (session_at st s) as [x|] eqn:Hx; [|destruct (s =? ss); discriminate Hx'].
    assert (Hi : s_inner x' = s_inner x).
    { destruct (s =? ss); cbn in Hx'; injection Hx' as <-; [apply Hf|reflexivity]. }
    rewrite Hi. destruct (osid_eqb (attached_session (handlers st c)) s) eqn:Q; [|reflexivity].
    apply osid_eqb_true in Q. apply (i_inner _ I s x c Hx). exact Q.
  - intros s A. rewrite Hat in A. destruct (i_exists _ I _ _ A) as [x Hx]. exists x. split; [exact Hx|].
    right. apply (i_inner _ I s x c Hx). exact A.
  - rewrite Hl, Hw. destruct (waiting_lock (handlers st c)) eqn:W; [|reflexivity]. apply (i_lock _ I). exact W.
  - intros W. rewrite Hw in W. right. apply (i_lock _ I). exact W.
  - intros h s A. left. auto.
  - intros h pid A. destruct (Hs h pid A) as [B|B]; [|exact B]. rewrite A in B. eapply (i_spawn _ I); eassumption.
  - intros h s A. left. eauto.
  - intros s A. destruct (Hd s A) as [B|(x & v & Hx & Hv)]; [left; exact B|right].
    destruct (He s x Hx) as (x' & ? & _ & _ & ?). exists x', v. auto.
Qed.

Lemma mild_id : mild (fun y => y).
Proof. intros y. auto. Qed.
Lemma change_nth_id {A} (l : list A) n : change_nth l n (fun y => y) = l.
Proof. revert n; induction l as [|x l IH]; intros [|n]; cbn; congruence. Qed.
Lemma change_nth_twice {A} (l : list A) n f g : change_nth (change_nth l n f) n g = change_nth l n (fun y => g (f y)).
Proof. revert n; induction l as [|x l IH]; intros [|n]; cbn; congruence. Qed.

Ltac mildt := intros y; cbn; repeat match goal with |- context [match ?e with _ => _ end] => destruct e eqn:? end; cbn; repeat split; intros; congruence || auto.

(** Solve the side conditions of [inv_mild] once handler, session and function are known. *)
Ltac mild_side := srv; first
  [ assumption
  | intros; reflexivity
  | solve [mildt]
  | solve [symmetry; apply change_nth_id]
  | solve [rewrite change_nth_twice; reflexivity]
  | solve [intros; left; assumption]
  | solve [intros; congruence]
  | solve [match goal with H : handlers _ _ = _ |- _ => rewrite H; reflexivity end]
  | solve [cbn; intros; repeat match goal with H : handlers _ _ = _ |- _ => rewrite H in * end; cbn in *; congruence]
  | idtac ].

Lemma inv_connect st c self p q : inv st -> inv (connect st c self p q).
Proof.
  intros I. unfold connect. destruct (handlers st c) eqn:Hc; try exact I.
  destruct q as [q|].
  - destruct (check_peer self p) as [pid|why].
    + apply (inv_mild st _ c (HAccepted pid q) 0 (fun y => y) I); mild_side.
      intros s [[h A]|A]; discriminate A.
    + assert (G : forall r, inv (goto (say st c r) c HDone)).
      { intros r. apply (inv_mild st _ c HDone 0 (fun y => y) I); mild_side. intros s [[h A]|A]; discriminate A. }
      assert (G' : inv (goto st c HDone)).
      { apply (inv_mild st _ c HDone 0 (fun y => y) I); mild_side. intros s [[h A]|A]; discriminate A. }
      destruct q; auto.
  - apply (inv_mild st _ c HDone 0 (fun y => y) I); mild_side. intros s [[h A]|A]; discriminate A.
Qed.

Definition plain (h : handler) : bool :=
  match h with
  | HIdle | HAccepted _ _ | HMessage _ | HCollect _ | HSends _ _ _ | HDone => true
  | _ => false
  end.

(** Handler [c], which holds nothing, moves to a place where it holds nothing. *)
Lemma inv_plain st st' c h' ss f :
  inv st -> mild f ->
  (forall c', handlers st' c' = if c' =? c then h' else handlers st c') ->
  sessions st' = change_nth (sessions st) ss f ->
  (forall n s, lookup n (table st') = Some s -> lookup n (table st) = Some s) ->
  plain h' = true -> attached_session (handlers st c) = None -> waiting_lock (handlers st c) = false ->
  locked st' = locked st ->
  inv st'.
Proof.
  intros I Hf Hh Hse Ht Hp Hat Hw Hl.
  apply (inv_mild st st' c h' ss f I Hf Hh Hse); try assumption; destruct h'; try discriminate Hp;
    cbn; auto; try discriminate; intros ? [[? A]|A]; discriminate A.
Qed.

(** No handler moves. *)
Lemma inv_still st st' ss f :
  inv st -> mild f ->
  (forall c', handlers st' c' = handlers st c') ->
  sessions st' = change_nth (sessions st) ss f ->
  (forall n s, lookup n (table st') = Some s -> lookup n (table st) = Some s) ->
  locked st' = locked st -> inv st'.
Proof.
  intros I Hf Hh Hse Ht Hl.
  apply (inv_mild st st' 0 (handlers st 0) ss f I Hf); auto.
  intros c'. rewrite Hh. destruct (Nat.eqb_spec c' 0) as [->|]; reflexivity.
Qed.

Lemma lookup_remove_some {V} n m (t : list (rstr * V)) s : lookup n (remove m t) = Some s -> lookup n t = Some s.
Proof.
  destruct (str_eq_dec n m) as [->|N].
  - rewrite lookup_remove_eq. discriminate.
  - rewrite lookup_remove_neq by assumption. auto.
Qed.

Ltac still := srv; first
  [ assumption | intros; reflexivity | solve [mildt] | solve [symmetry; apply change_nth_id]
  | solve [rewrite ?change_nth_twice; reflexivity]
  | solve [intros ? ?; auto using lookup_remove_some] | solve [eauto using lookup_remove_some]
  | solve [match goal with H : handlers _ _ = _ |- _ => rewrite H; reflexivity end]
  | solve [repeat match goal with H : handlers _ _ = _ |- _ => rewrite H in * end; cbn in *; congruence] | idtac ].

(** Handler [c] takes the inner lock of session [ss]. *)
Lemma inv_acquire st st' c h h' ss f x :
  inv st -> mild f ->
  (forall c', handlers st' c' = if c' =? c then h' else handlers st c') ->
  sessions st' = change_nth (sessions st) ss (fun y => set_inner (f y) (Some c)) ->
  table st' = table st -> attached_session (handlers st c) = None ->
  session_at st ss = Some x -> s_inner x = None ->
  attached_session h' = Some ss -> waiting_lock h' = false ->
  locked st' = (if waiting_lock (handlers st c) then None else locked st) ->
  attach_of h' = Some (h, ss) -> s_name x = h_name h -> daemon_rejects (h_name h) = false ->
  (forall s, h' <> HLeave s true) -> (forall h1 s, h' <> HUnwind h1 s true) ->
  inv st'.
Proof.
  intros I Hf Hh Hse Ht Hat Hx Hi Hat' Hw Hl Ha Hnm Hrj Hd1 Hd2.
  assert (E : forall s, session_at st' s = if s =? ss then option_map (fun y => set_inner (f y) (Some c)) (session_at st s) else session_at st s).
  { intros s. unfold session_at. rewrite Hse. apply nth_change. }
  apply (inv_update st st' c h' I Hh).
  - intros s y Hy. rewrite E, Hy. destruct (s =? ss); cbn; eexists; (split; [reflexivity|]); [|auto].
    destruct (Hf y) as (? & ? & ? & ?). cbn. auto.
  - intros s x' Hx'. rewrite E in Hx'. rewrite Hat', Hat. cbn. rewrite Nat.eqb_sym.
    destruct (Nat.eqb_spec s ss) as [->|N].
    + rewrite Hx in Hx'. cbn in Hx'. injection Hx' as <-. reflexivity.
    + rewrite Hx'. reflexivity.
  - intros s A. rewrite Hat' in A. injection A as <-. eauto.
  - rewrite Ht. auto.
  - rewrite Hw. exact Hl.
  - rewrite Hw. discriminate.
  - intros h1 s A. right. rewrite Ha in A. injection A as <- <-. split; [|exact Hrj].
    rewrite E, Hx, Nat.eqb_refl. cbn. eexists. split; [reflexivity|]. cbn. destruct (Hf x) as (-> & _). exact Hnm.
  - intros h1 pid A. subst. discriminate Hat'.
  - intros h1 s A. subst. discriminate Hat'.
  - intros s [[h1 A]|A]; [destruct (Hd2 h1 s A)|destruct (Hd1 s A)].
Qed.

(** Handler [c] lets go of the inner lock of its session and ends. *)
Lemma inv_release st st' c ss f :
  inv st -> mild f ->
  (forall c', handlers st' c' = if c' =? c then HDone else handlers st c') ->
  sessions st' = change_nth (sessions st) ss (fun y => set_inner (f y) None) ->
  table st' = table st -> attached_session (handlers st c) = Some ss -> waiting_lock (handlers st c) = false ->
  locked st' = locked st ->
  inv st'.
Proof.
  intros I Hf Hh Hse Ht Hat Hw Hl.
  assert (E : forall s, session_at st' s = if s =? ss then option_map (fun y => set_inner (f y) None) (session_at st s) else session_at st s).
  { intros s. unfold session_at. rewrite Hse. apply nth_change. }
  apply (inv_update st st' c HDone I Hh).
  - intros s y Hy. rewrite E, Hy. destruct (s =? ss); cbn; eexists; (split; [reflexivity|]); [|auto].
    destruct (Hf y) as (? & ? & ? & ?). cbn. auto.
  - intros s x' Hx'. rewrite E in Hx'. rewrite Hat. cbn. rewrite Nat.eqb_sym.
    destruct (Nat.eqb_spec s ss) as [->|N].
    + destruct (session_at st ss); [|discriminate Hx']. cbn in Hx'. injection Hx' as <-. reflexivity.
    + rewrite Hx'. reflexivity.
  - discriminate.
  - rewrite Ht. auto.
  - cbn. rewrite Hw. exact Hl.
  - discriminate.
  - discriminate.
  - discriminate.
  - discriminate.
  - intros s [[h1 A]|A]; discriminate A.
Qed.

Lemma inv_select st c e now : inv st -> inv (attach_select st c e now).
Proof.
  intros I. unfold attach_select. destruct (handlers st c) eqn:Hc; try exact I. destruct q; try exact I.
  destruct (daemon_rejects (h_name h)) eqn:Hr.
  { apply (inv_plain st _ c HDone 0 (fun y => y) I); still. }
  destruct e; cbn [negb].
  2:{ apply (inv_plain st _ c HDone 0 (fun y => y) I); still. }
  destruct (locked st) eqn:Hl; [exact I|].
  destruct (lookup (h_name h) (table st)) as [s|] eqn:Hlk.
  2:{ apply (inv_mild st _ c (HSpawn h pid) 0 (fun y => y) I); mild_side.
      - intros h1 pid1 [= <- <-]. auto.
      - intros s [[h1 A]|A]; discriminate A. }
  destruct (session_at st s) as [x|] eqn:Hx; [|exact I].
  destruct (i_tab _ I _ _ Hlk) as (x0 & Hx0 & Hnm). rewrite Hx in Hx0. injection Hx0 as <-.
  destruct (s_inner x) eqn:Hi.
  { apply (inv_plain st _ c HDone 0 (fun y => y) I); still. }
  assert (Sp : forall f, mild f -> inv (goto (change st s f) c (HSpawn h pid))).
  { intros f Hf. apply (inv_mild st _ c (HSpawn h pid) s f I); mild_side.
    - intros h1 pid1 [= <- <-]. auto.
    - intros s1 [[h1 A]|A]; discriminate A. }
  assert (Qu : forall f, mild f -> inv (goto (change st s f) c HDone)).
  { intros f Hf. apply (inv_plain st _ c HDone s f I); still. }
  assert (Tw : forall f g k, goto (change (change st s f) s g) c k = goto (change st s (fun y => g (f y))) c k).
  { intros f g k. unfold goto, change. srv. rewrite change_nth_twice. reflexivity. }
  assert (Id : forall k, goto st c k = goto (change st s (fun y => y)) c k).
  { intros k. unfold change. rewrite change_nth_id. destruct st; reflexivity. }
  destruct (s_exit x) eqn:Hex.
  - destruct (s_thread x) as [| |[|]|]; cbn [is_finished].
    + rewrite Id. apply Sp. mildt.
    + rewrite Id. apply Sp. mildt.
    + apply Sp. mildt.
    + apply Qu. mildt.
    + rewrite Id. apply Sp. mildt.
  - assert (Ac : forall e, inv (goto (publish (change (change st s (fun y => record_attached (set_stream y (Some c)) now (h_name_template h, pid))) s (fun y => set_inner y (Some c))) e) c (HReply h s false))).
    { intros e. apply (inv_acquire st _ c h (HReply h s false) s (fun y => record_attached (set_stream y (Some c)) now (h_name_template h, pid)) x I); still; discriminate || auto. }
    destruct (s_thread x) as [| |[|]|]; cbn [is_finished]; auto.
    + rewrite Tw. apply Sp. mildt.
    + rewrite Tw. apply Qu. mildt.
Qed.

Lemma inv_spawn st c ok now inst : inv st -> inv (attach_spawn st c ok now inst).
Proof.
  intros I. unfold attach_spawn. destruct (handlers st c) eqn:Hc; try exact I.
  destruct ok; cbn [negb].
  2:{ apply (inv_plain st _ c HDone 0 (fun y => y) I); still. }
  assert (G : forall st1 d, sessions st1 = sessions st -> table st1 = table st -> locked st1 = locked st -> handlers st1 = handlers st ->
    inv (goto (with_sessions st1 (sessions st1 ++ [mkSession (h_name h) c now None TWaiting None (Some c) None (Some now) None (Some (h_name_template h, pid)) [] [] d])) c
       (HInsert h (length (sessions st))))).
  { intros st1 d E1 E2 E3 E4.
    match goal with |- inv ?S => set (st' := S) end.
    assert (E : forall s, session_at st' s = if s =? length (sessions st) then Some (mkSession (h_name h) c now None TWaiting None (Some c) None (Some now) None (Some (h_name_template h, pid)) [] [] d) else session_at st s).
    { intros s. unfold session_at, st'. srv. rewrite E1. apply nth_app_new. }
    assert (None_ : session_at st (length (sessions st)) = None) by (apply nth_error_None; lia).
    apply (inv_update st st' c (HInsert h (length (sessions st))) I).
    - intros c'. unfold st'. srv. rewrite E4. reflexivity.
    - intros s x Hx. rewrite E, Hx. destruct (Nat.eqb_spec s (length (sessions st))) as [->|N]; [congruence|]. eauto.
    - intros s x' Hx'. rewrite E in Hx'. cbn. rewrite Hc. cbn.
      destruct (Nat.eqb_spec s (length (sessions st))) as [->|N].
      + injection Hx' as <-. rewrite None_. reflexivity.
      + rewrite Hx'. reflexivity.
    - discriminate.
    - intros n s H. left. unfold st' in H. srv. rewrite E2 in H. exact H.
    - cbn. rewrite E3, Hc. reflexivity.
    - discriminate.
    - intros h1 s [= <- <-]. right. split; [|eapply (i_spawn _ I); eassumption].
      rewrite E, Nat.eqb_refl. eexists. split; reflexivity.
    - discriminate.
    - intros h1 s [= <- <-]. right. split; [|exact None_]. rewrite E, Nat.eqb_refl. eexists. split; reflexivity.
    - intros s [[h1 A]|A]; discriminate A. }
  destruct (h_ttl_secs h) as [ttl|].
  - destruct (instant_max <? _)%N. { apply (inv_plain st _ c HDone 0 (fun y => y) I); still. }
    destruct (length (mailbox st) <? 10); [|exact I]. apply G; reflexivity.
  - apply G; reflexivity.
Qed.

Lemma inv_insert st c : inv st -> inv (attach_insert st c).
Proof.
  intros I. unfold attach_insert. destruct (handlers st c) eqn:Hc; try exact I. destruct (locked st) eqn:Hl; [exact I|].
  assert (G : forall st1, sessions st1 = sessions st -> table st1 = table st -> locked st1 = locked st -> handlers st1 = handlers st ->
    forall e1 e2, inv (goto (publish (publish (with_table st1 (insert (h_name h) s (table st1))) e1) e2) c (HFetch h s))).
  { intros st1 E1 E2 E3 E4 e1 e2.
    apply (inv_mild st _ c (HFetch h s) 0 (fun y => y) I); mild_side.
    - rewrite E1. symmetry. apply change_nth_id.
    - intros n s0 H. rewrite E2 in H. destruct (str_eq_dec n (h_name h)) as [->|N].
      + rewrite lookup_insert_eq in H. injection H as <-. right. exists h. repeat split; [exact Hc|discriminate].
      + rewrite lookup_insert_neq in H by assumption. left; exact H.
    - intros s1 [[h1 A]|A]; discriminate A. }
  destruct (lookup (h_name h) (table st)); apply G; reflexivity.
Qed.

Lemma inv_fetch st c : inv st -> inv (attach_fetch st c).
Proof.
  intros I. unfold attach_fetch. destruct (handlers st c) eqn:Hc; try exact I. destruct (locked st) eqn:Hl; [exact I|].
  assert (A0 : attach_of (handlers st c) = Some (h, s)) by (rewrite Hc; reflexivity).
  destruct (i_hdr _ I _ _ _ A0) as [_ Hrj].
  destruct (lookup (h_name h) (table st)) as [s'|] eqn:Hlk.
  2:{ apply (inv_plain st _ c HDone 0 (fun y => y) I); still. }
  destruct (session_at st s') as [x|] eqn:Hx; [|exact I].
  destruct (i_tab _ I _ _ Hlk) as (x0 & Hx0 & Hnm). rewrite Hx in Hx0. injection Hx0 as <-.
  destruct (s_inner x) eqn:Hi.
  - apply (inv_update st _ c (HWaitInner h s') I); srv; auto.
    + intros s0 y Hy. unfold session_at in *. cbn. eauto.
    + intros s0 y Hy. cbn. unfold session_at in *. cbn in Hy. rewrite Hc. cbn. rewrite Hy. reflexivity.
    + discriminate.
    + intros h1 s1 [= <- <-]. right. split; [|exact Hrj]. exists x. split; [exact Hx|exact Hnm].
    + discriminate.
    + discriminate.
    + intros s0 [[h1 A]|A]; discriminate A.
  - apply (inv_acquire st _ c h (HReply h s' true) s' (fun y => y) x I); still; auto; try discriminate.
Qed.

Lemma inv_wake st c : inv st -> inv (attach_wake st c).
Proof.
  intros I. unfold attach_wake. destruct (handlers st c) eqn:Hc; try exact I.
  assert (A0 : attach_of (handlers st c) = Some (h, s)) by (rewrite Hc; reflexivity).
  destruct (i_hdr _ I _ _ _ A0) as [(x0 & Hx0 & Hnm) Hrj]. rewrite Hx0.
  destruct (s_inner x0) eqn:Hi; [exact I|].
  apply (inv_acquire st _ c h (HReply h s true) s (fun y => y) x0 I); still; auto; try discriminate.
Qed.

Lemma inv_reply st c l p : inv st -> inv (attach_reply st c l p).
Proof.
  intros I. unfold attach_reply. destruct (handlers st c) eqn:Hc; try exact I.
  destruct l; cbn [negb].
  2:{ apply (inv_release st _ c s (fun y => y) I); still. }
  destruct (session_at st s) as [x|] eqn:Hx; [|exact I].
  destruct (s_stream x).
  2:{ apply (inv_release st _ c s (fun y => y) I); still. }
  destruct p.
  2:{ apply (inv_release st _ c s (fun y => y) I); still. }
  apply (inv_mild st _ c (HStart h s) 0 (fun y => y) I); mild_side.
  intros s1 [[h1 A]|A]; discriminate A.
Qed.

Lemma inv_start st c ok : inv st -> inv (attach_start st c ok).
Proof.
  intros I. unfold attach_start. destruct (handlers st c) eqn:Hc; try exact I.
  destruct (session_at st s) as [x|] eqn:Hx; [|exact I].
  destruct (s_stream x) as [k|].
  2:{ apply (inv_mild st _ c (HUnwind h s false) 0 (fun y => y) I); mild_side.
      intros s1 [[h1 A]|A]; discriminate A. }
  destruct (ok && is_live (s_thread x)).
  - apply (inv_mild st _ c (HStream h s k) s (fun y => set_thread (set_client (set_stream y None) (Some k)) TRunning) I); mild_side.
    intros s1 [[h1 A]|A]; discriminate A.
  - apply (inv_mild st _ c (HUnwind h s false) s (fun y => set_stream y None) I); mild_side.
    intros s1 [[h1 A]|A]; discriminate A.
Qed.

Lemma inv_end st c d1 d2 d3 : inv st -> inv (attach_end st c d1 d2 d3).
Proof.
  intros I. unfold attach_end. destruct (handlers st c) eqn:Hc; try exact I.
  destruct (session_at st s) as [x|] eqn:Hx; [|exact I].
  destruct (d1 && match s_exit x with None => true | Some _ => false end) eqn:Hd; [exact I|].
  assert (D : forall s1, (exists h1, HUnwind h s (d1 && d3) = HUnwind h1 s1 true) \/ HUnwind h s (d1 && d3) = HLeave s1 true ->
     handlers st c = HUnwind h s (d1 && d3) \/ exists x v, session_at st s1 = Some x /\ s_exit x = Some v).
  { intros s1 [[h1 A]|A]; [|discriminate A]. injection A as _ <- A. right. exists x.
    destruct d1; [|discriminate A]. destruct (s_exit x) as [v|]; [|discriminate Hd]. eauto. }
  destruct (d2 && is_live (s_thread x)).
  - apply (inv_mild st _ c (HUnwind h s (d1 && d3)) s (fun y => set_client (if d1 then set_thread y (TFinished true) else y) None) I); mild_side.
    all: exact D.
  - apply (inv_mild st _ c (HUnwind h s (d1 && d3)) 0 (fun y => y) I); mild_side. all: exact D.
Qed.

Lemma inv_unwind st c now : inv st -> inv (attach_unwind st c now).
Proof.
  intros I. unfold attach_unwind. destruct (handlers st c) eqn:Hc; try exact I. destruct (locked st) eqn:Hl; [exact I|].
  assert (D : forall s1, (exists h1, HLeave s done = HUnwind h1 s1 true) \/ HLeave s done = HLeave s1 true ->
     handlers st c = HLeave s done \/ exists x v, session_at st s1 = Some x /\ s_exit x = Some v).
  { intros s1 [[h1 A]|A]; [discriminate A|]. injection A as <- ->. right.
    apply (i_done _ I c). left. eauto. }
  destruct (lookup (h_name h) (table st)) as [s'|].
  2:{ apply (inv_mild st _ c (HLeave s done) 0 (fun y => y) I); mild_side. all: exact D. }
  destruct done.
  - apply (inv_mild st _ c (HLeave s true) 0 (fun y => y) I); mild_side; eauto using lookup_remove_some.
  - apply (inv_mild st _ c (HLeave s false) s' (fun y => record_detached y now) I); mild_side. all: exact D.
Qed.

Lemma inv_leave st c : inv st -> inv (attach_leave st c).
Proof.
  intros I. unfold attach_leave. destruct (handlers st c) eqn:Hc; try exact I.
  destruct (session_at st s) as [x|]; [|exact I].
  destruct (done && is_live (s_thread x)); [exact I|].
  destruct done.
  - apply (inv_release st _ c s (fun y => set_thread y TJoined) I); still.
  - apply (inv_release st _ c s (fun y => y) I); still.
Qed.

Lemma inv_kill st c oks : inv st -> inv (handle_kill st c oks).
Proof.
  intros I. destruct (handle_kill_shape st c oks) as [->|(pid & names & Hc & Hl & [(sg & _ & ->)|(sg & nf & rm & _ & ->)])]; [exact I| |].
  - apply (inv_plain st _ c HDone 0 (fun y => y) I); still.
  - destruct (remove_one_frame rm (with_signalled st sg)) as (t & e & -> & Ht).
    apply (inv_plain st _ c HDone 0 (fun y => y) I); still.
    intros n s. rewrite Ht. rewrite lookup_fold_remove. destruct (existsb _ _); [discriminate|auto].
Qed.

Lemma inv_detach_begin st c : inv st -> inv (detach_begin st c).
Proof.
  intros I. unfold detach_begin. destruct (handlers st c) eqn:Hc; try exact I. destruct q; try exact I. destruct (locked st) eqn:Hl; [exact I|].
  apply (inv_update st _ c (HDetach names [] []) I); srv; auto; try discriminate.
  - intros s0 y Hy. unfold session_at in *. cbn. eauto.
  - intros s0 y Hy. cbn. unfold session_at in *. cbn in Hy. rewrite Hc. cbn. rewrite Hy. reflexivity.
  - intros s0 [[h1 A]|A]; discriminate A.
Qed.

Lemma inv_unlock st st' c :
  inv st -> waiting_lock (handlers st c) = true -> attached_session (handlers st c) = None ->
  (forall c', handlers st' c' = if c' =? c then HDone else handlers st c') ->
  sessions st' = sessions st -> table st' = table st -> locked st' = None -> inv st'.
Proof.
  intros I Hw Hat Hh Hs Ht Hl.
  apply (inv_update st st' c HDone I Hh); auto; try discriminate.
  - intros s0 y Hy. unfold session_at in *. rewrite Hs. eauto.
  - intros s0 y Hy. cbn. unfold session_at in *. rewrite Hs in Hy. rewrite Hat, Hy. reflexivity.
  - rewrite Ht. auto.
  - cbn. rewrite Hw. exact Hl.
  - intros s0 [[h1 A]|A]; discriminate A.
Qed.

Lemma inv_detach_next st c now : inv st -> inv (detach_next st c now).
Proof.
  intros I. unfold detach_next. destruct (handlers st c) eqn:Hc; try exact I. destruct todo as [|n rest]; [exact I|].
  assert (G : forall nf na ss f, mild f -> inv (goto (change st ss f) c (HDetach rest nf na))).
  { intros nf na ss f Hf. apply (inv_mild st _ c (HDetach rest nf na) ss f I); mild_side.
    intros s0 [[h1 A]|A]; discriminate A. }
  assert (Id : forall k, goto st c k = goto (change st 0 (fun y => y)) c k).
  { intros k. unfold change. rewrite change_nth_id. destruct st; reflexivity. }
  destruct (lookup n (table st)) as [s|]; [|rewrite Id; apply G; mildt].
  destruct (session_at st s) as [x|]; [|exact I].
  destruct (s_thread x); [apply G; mildt| | |].
  - destruct (s_client x); [apply G; mildt|rewrite Id; apply G; mildt].
  - apply (inv_unlock st _ c I); srv; auto; rewrite Hc; reflexivity.
  - apply (inv_unlock st _ c I); srv; auto; rewrite Hc; reflexivity.
Qed.

Lemma inv_detach_finish st c : inv st -> inv (detach_finish st c).
Proof.
  intros I. unfold detach_finish. destruct (handlers st c) eqn:Hc; try exact I. destruct todo; [|exact I].
  apply (inv_unlock st _ c I); srv; auto; rewrite Hc; reflexivity.
Qed.

Ltac plain_step I :=
  repeat match goal with |- inv (match ?e with _ => _ end) => destruct e eqn:?; try exact I end;
  match goal with |- inv (goto (say (change ?st ?s ?f) _ _) ?c ?h) => apply (inv_plain st _ c h s f I); still
             | |- inv (goto (change ?st ?s ?f) ?c ?h) => apply (inv_plain st _ c h s f I); still
             | |- inv (goto (say ?st _ _) ?c ?h) => apply (inv_plain st _ c h 0 (fun y => y) I); still
             | |- inv (goto (with_vars ?st _) ?c ?h) => apply (inv_plain st _ c h 0 (fun y => y) I); still
             | |- inv (goto ?st ?c ?h) => apply (inv_plain st _ c h 0 (fun y => y) I); still end.

Lemma inv_fire st k inst : inv st -> inv (reaper_fire st k inst).
Proof.
  intros I. unfold reaper_fire.
  repeat match goal with |- inv (match ?e with _ => _ end) => destruct e eqn:?; try exact I end;
    apply (inv_still st _ 0 (fun y => y) I); still.
Qed.

Lemma inv_step st a : inv st -> inv (step st a).
Proof.
  destruct a; cbn [step].
  - apply inv_connect.
  - apply inv_select.
  - apply inv_spawn.
  - apply inv_insert.
  - apply inv_fetch.
  - apply inv_wake.
  - apply inv_reply.
  - apply inv_start.
  - apply inv_end.
  - apply inv_unwind.
  - apply inv_leave.
  - intros I. apply (inv_still st _ s (fun y => match s_exit y with None => set_exit y (Some status) | Some _ => y end) I); still.
  - intros I. apply (inv_still st _ s (fun y => if is_live (s_thread y) then set_client (set_thread y (TFinished ok)) None else y) I); still.
  - intros I. apply (inv_still st _ s (fun y => if is_live (s_thread y) then set_client y None else y) I); still.
  - apply inv_kill.
  - apply inv_detach_begin.
  - apply inv_detach_next.
  - apply inv_detach_finish.
  - intros I. unfold message_begin. plain_step I.
  - intros I. unfold message_send. plain_step I.
  - intros I. unfold handle_list. plain_step I.
  - intros I. unfold handle_log_level. plain_step I.
  - intros I. unfold handle_get_vars. plain_step I.
  - intros I. unfold modify_begin. plain_step I.
  - intros I. unfold modify_collect. plain_step I.
  - intros I. unfold modify_send. plain_step I.
  - intros I. unfold thread_switch. match goal with |- inv (change st s ?f) => apply (inv_still st _ s f I); still end.
  - intros I. unfold reaper_register. destruct (mailbox st) as [|[[n at_] s] rest]; [exact I|].
    apply (inv_still st _ 0 (fun y => y) I); still.
  - apply inv_fire.
Qed.

Lemma inv_run l : forall st, inv st -> inv (run st l).
Proof. induction l as [|a l IH]; intros st I; cbn; [exact I|]. apply IH. apply inv_step. exact I. Qed.

Lemma reachable_inv st : reachable st -> inv st.
Proof. intros (d & l & ->). apply inv_run. apply inv_new. Qed.

(** Every reply and the step that writes it. *)
Inductive says (st : server) : action -> conn -> reply -> Prop :=
| says_forbidden c self p h why : handlers st c = HIdle -> check_peer self p = Err why ->
    says st (AConnect c self p (Some (QAttach h))) c (RAttach (Forbidden why))
| says_invalid c pid h e now : handlers st c = HAccepted pid (QAttach h) -> daemon_rejects (h_name h) = true ->
    says st (AAttach c e now) c (RAttach (UnexpectedError (lit "invalid session name '" ++ h_name h ++ lit "'")))
| says_busy c pid h now s x c0 : handlers st c = HAccepted pid (QAttach h) -> daemon_rejects (h_name h) = false ->
    locked st = None -> lookup (h_name h) (table st) = Some s -> session_at st s = Some x -> s_inner x = Some c0 ->
    says st (AAttach c true now) c (RAttach Busy)
| says_attached c h s created p x k : handlers st c = HReply h s created -> session_at st s = Some x -> s_stream x = Some k ->
    says st (AReply c true p) k (RAttach (if created then Created [] else Attached []))
| says_kill c oks pid names sg nf rm : handlers st c = HAccepted pid (QKill names) -> locked st = None ->
    kill_loop st names oks [] [] = (with_signalled st sg, Some (nf, rm)) ->
    says st (AKill c oks) c (RKill nf)
| says_detach c nf na : handlers st c = HDetach [] nf na -> says st (ADetachFinish c) c (RDetach nf na)
| says_not_found c pid n : handlers st c = HAccepted pid (QMessageDetach n) -> locked st = None -> lookup n (table st) = None ->
    says st (AMessage c) c (RMessage false)
| says_message c s x : handlers st c = HMessage s -> session_at st s = Some x -> is_live (s_thread x) = true ->
    says st (AMessageSend c true) c (RMessage true)
| says_list c pid l : handlers st c = HAccepted pid QList -> locked st = None -> map_opt (list_entry st) (table st) = Some l ->
    says st (AList c) c (RList l)
| says_log c pid : handlers st c = HAccepted pid QLogLevel -> says st (ALogLevel c) c RLogLevel
| says_vars c pid : handlers st c = HAccepted pid QGetVars -> says st (AGetVars c) c (RVars (vars st))
| says_modify c vs sent late : handlers st c = HSends vs sent [] -> says st (ASend c late) c RModify.

Ltac no_reply := left; repeat match goal with |- context [match ?e with _ => _ end] => destruct e end; reflexivity.

Lemma step_says st a :
  replies (step st a) = replies st \/ exists c r, replies (step st a) = replies st ++ [(c, r)] /\ says st a c r.
Proof.
  destruct a; cbn [step].
  - unfold connect. destruct (handlers st c) eqn:Hc; auto. destruct q as [q|]; auto.
    destruct (check_peer self p) eqn:Hp; auto. destruct q; auto. right. do 2 eexists. split; [reflexivity|]. constructor; assumption.
  - unfold attach_select. destruct (handlers st c) eqn:Hc; auto. destruct q; auto.
    destruct (daemon_rejects (h_name h)) eqn:Hr. { right. do 2 eexists. split; [reflexivity|]. econstructor; eassumption. }
    destruct env_ok; cbn [negb]; auto. destruct (locked st) eqn:Hl; auto.
    destruct (lookup (h_name h) (table st)) as [s|] eqn:Hlk; auto. destruct (session_at st s) as [x|] eqn:Hx; auto.
    destruct (s_inner x) as [c1|] eqn:Hi. { right. do 2 eexists. split; [reflexivity|]. eapply says_busy; eassumption. }
    left. destruct (s_exit x), (s_thread x) as [| |[|]|]; reflexivity.
  - unfold attach_spawn. no_reply.
  - unfold attach_insert. left. destruct (handlers st c); auto. destruct (locked st); auto. destruct (lookup _ _); reflexivity.
  - unfold attach_fetch. no_reply.
  - unfold attach_wake. no_reply.
  - unfold attach_reply. destruct (handlers st c) eqn:Hc; auto. destruct link_ok; cbn [negb]; auto.
    destruct (session_at st s) as [x|] eqn:Hx; auto. destruct (s_stream x) as [k|] eqn:Hk; auto.
    right. exists k, (RAttach (if created then Created [] else Attached [])). split; [destruct pager_ok; reflexivity|].
    econstructor; eassumption.
  - unfold attach_start. no_reply.
  - unfold attach_end. no_reply.
  - unfold attach_unwind. no_reply.
  - unfold attach_leave. no_reply.
  - auto.
  - auto.
  - auto.
  - destruct (handle_kill_shape st c kill_ok) as [->|(pid & names & Hc & Hl & [(sg & _ & ->)|(sg & nf & rm & Hk & ->)])]; auto.
    destruct (remove_one_frame rm (with_signalled st sg)) as (t & ev & -> & _).
    right. do 2 eexists. split; [reflexivity|]. econstructor; eassumption.
  - unfold detach_begin. no_reply.
  - unfold detach_next. no_reply.
  - unfold detach_finish. destruct (handlers st c) eqn:Hc; auto. destruct todo; auto.
    right. do 2 eexists. split; [reflexivity|]. econstructor; eassumption.
  - unfold message_begin. destruct (handlers st c) eqn:Hc; auto. destruct q; auto. destruct (locked st) eqn:Hl; auto.
    destruct (lookup _ _) eqn:Hlk; auto. right. do 2 eexists. split; [reflexivity|]. econstructor; eassumption.
  - unfold message_send. destruct (handlers st c) eqn:Hc; auto. destruct (session_at st s) as [x|] eqn:Hx; auto.
    destruct ok; auto. cbn [andb]. destruct (is_live (s_thread x)) eqn:Hv; auto.
    right. do 2 eexists. split; [reflexivity|]. econstructor; eassumption.
  - unfold handle_list. destruct (handlers st c) eqn:Hc; auto. destruct q; auto. destruct (locked st) eqn:Hl; auto.
    destruct (map_opt _ _) eqn:Hm; auto. right. do 2 eexists. split; [reflexivity|]. econstructor; eassumption.
  - unfold handle_log_level. destruct (handlers st c) eqn:Hc; auto. destruct q; auto.
    right. do 2 eexists. split; [reflexivity|]. econstructor; eassumption.
  - unfold handle_get_vars. destruct (handlers st c) eqn:Hc; auto. destruct q; auto.
    right. do 2 eexists. split; [reflexivity|]. econstructor; eassumption.
  - unfold modify_begin. left. destruct (handlers st c); auto. destruct q; reflexivity.
  - unfold modify_collect. no_reply.
  - unfold modify_send. destruct (handlers st c) eqn:Hc; auto. destruct todo as [|s rest].
    + right. do 2 eexists. split; [reflexivity|]. econstructor; eassumption.
    + no_reply.
  - auto.
  - unfold reaper_register. left. destruct (mailbox st) as [|[[n t] s] rest]; reflexivity.
  - unfold reaper_fire. no_reply.
Qed.

Lemma new_reply st a c r : replies (step st a) = replies st ++ [(c, r)] -> says st a c r.
Proof.
  intros E. destruct (step_says st a) as [H|(c1 & r1 & H & S)]; rewrite H in E.
  - apply (f_equal (@length _)) in E. rewrite app_length in E. cbn in E. lia.
  - apply app_inv_head in E. injection E as <- <-. exact S.
Qed.

(** Whose step it is. *)
Definition actor (a : action) : option conn :=
  match a with
  | AConnect c _ _ _ | AAttach c _ _ | ASpawn c _ _ _ | AInsert c | AFetch c | AWake c | AReply c _ _ | AStart c _
  | AEnd c _ _ _ | AUnwind c _ | ALeave c | AKill c _ | ADetach c | ADetachNext c _ | ADetachFinish c | AMessage c
  | AMessageSend c _ | AList c | ALogLevel c | AGetVars c | AModify c | ACollect c | ASend c _ => Some c
  | AExit _ _ | AThreadEnd _ _ | ADropClient _ | ASwitch _ | ARegister | AFire _ _ => None
  end.

Lemma goto_other st c h c' : c' <> c -> handlers (goto st c h) c' = handlers st c'.
Proof. intros N. cbn. destruct (Nat.eqb_spec c' c); [contradiction|reflexivity]. Qed.

Lemma goto_same st c h : handlers (goto st c h) c = h.
Proof. cbn. rewrite Nat.eqb_refl. reflexivity. Qed.

(** Only the thread that acts moves. *)
Lemma step_other st a c : actor a <> Some c -> handlers (step st a) c = handlers st c.
Proof.
  intros N.
  assert (K : forall c0 st0 h, Some c0 <> Some c -> handlers st0 = handlers st -> handlers (goto st0 c0 h) c = handlers st c).
  { intros c0 st0 h N0 E. rewrite goto_other by congruence. rewrite E. reflexivity. }
  destruct a; cbn [step actor] in *;
    try (match goal with
         | |- handlers (handle_kill _ _ _) _ = _ =>
           destruct (handle_kill_shape st c0 kill_ok) as [->|(pid & names & Hc & Hl & [(sg & _ & ->)|(sg & nf & rm & Hk & ->)])];
           [reflexivity|apply K; [exact N|reflexivity]|];
           destruct (remove_one_frame rm (with_signalled st sg)) as (t & ev & -> & _); apply K; [exact N|reflexivity]
         | _ => unfold connect, attach_select, attach_spawn, attach_insert, attach_fetch, attach_wake, attach_reply, attach_start, attach_end,
                attach_unwind, attach_leave, detach_begin, detach_next, detach_finish, message_begin, message_send, handle_list, handle_log_level,
                handle_get_vars, modify_begin, modify_collect, modify_send;
           repeat match goal with |- context [match ?e with _ => _ end] => destruct e end;
           first [reflexivity | apply K; [exact N|reflexivity]]
         end).
  - unfold reaper_register. destruct (mailbox st) as [|[[n t] s] rest]; reflexivity.
  - unfold reaper_fire. repeat match goal with |- context [match ?e with _ => _ end] => destruct e end; reflexivity.
Qed.

(** A connection leaves its initial state only through the peer check. *)
Lemma step_idle st a c : handlers st c = HIdle ->
  handlers (step st a) c = HIdle \/
  exists self p q, a = AConnect c self p q /\
    (handlers (step st a) c = HDone \/ exists pid q', check_peer self p = Ok pid /\ q = Some q' /\ handlers (step st a) c = HAccepted pid q').
Proof.
  intros Hc. destruct (actor a) as [c0|] eqn:A; [|left; rewrite step_other by congruence; exact Hc].
  destruct (Nat.eq_dec c0 c) as [->|N]; [|left; rewrite step_other by congruence; exact Hc].
  destruct a; cbn [actor] in A; try discriminate A; injection A as ->; cbn [step].
  { right. exists self, p, q. split; [reflexivity|]. unfold connect. rewrite Hc. destruct q as [q|].
    - destruct (check_peer self p) as [pid|why].
      + right. exists pid, q. rewrite goto_same. auto.
      + left. destruct q; rewrite goto_same; reflexivity.
    - left. rewrite goto_same. reflexivity. }
  all: left; unfold attach_select, attach_spawn, attach_insert, attach_fetch, attach_wake, attach_reply, attach_start, attach_end,
                attach_unwind, attach_leave, handle_kill, detach_begin, detach_next, detach_finish, message_begin, message_send, handle_list, handle_log_level,
                handle_get_vars, modify_begin, modify_collect, modify_send; rewrite Hc; exact Hc.
Qed.

Lemma step_done st a c : handlers st c = HDone -> handlers (step st a) c = HDone.
Proof.
  intros Hc. destruct (actor a) as [c0|] eqn:A; [|rewrite step_other by congruence; exact Hc].
  destruct (Nat.eq_dec c0 c) as [->|N]; [|rewrite step_other by congruence; exact Hc].
  destruct a; cbn [actor] in A; try discriminate A; injection A as ->; cbn [step];
    unfold connect, attach_select, attach_spawn, attach_insert, attach_fetch, attach_wake, attach_reply, attach_start, attach_end,
                attach_unwind, attach_leave, handle_kill, detach_begin, detach_next, detach_finish, message_begin, message_send, handle_list, handle_log_level,
                handle_get_vars, modify_begin, modify_collect, modify_send; rewrite Hc; exact Hc.
Qed.
