(** Proofs about the logs, for C81. *)
From Coq Require Import String List NArith ZArith Bool Arith Lia.
From Verif Require Import Model.Base Model.Msgpack Model.Messages Spec.WireSpec Proofs.BaseLemmas Proofs.WireProofs Model.Logging Spec.LoggingSpec.
Import ListNotations.
Open Scope N_scope.

Lemma passes_shown l s : passes (filter_at l) s = true <-> In s (shown l).
Proof. destruct l, s; cbn; split; intros H; auto 10; try discriminate; repeat destruct H as [H|H]; try discriminate; contradiction. Qed.
Lemma passes_hidden l s : passes (filter_at l) s = false <-> ~ In s (shown l).
Proof. rewrite <- passes_shown. destruct (passes _ _); split; intros H; congruence || (destruct (H eq_refl)) || auto. Qed.
Lemma initial_begins v l : begins_at v l <-> initial_filter v = filter_at l.
Proof.
  unfold initial_filter. split.
  - intros [| |n H]; [reflexivity|reflexivity|]. destruct (N.eqb_spec n 0); [lia|]. destruct (N.eqb_spec n 1); [lia|]. reflexivity.
  - destruct (N.eqb_spec v 0) as [->|]; [destruct l; try discriminate; constructor|]. destruct (N.eqb_spec v 1) as [->|]; [destruct l; try discriminate; constructor|].
    destruct l; try discriminate. constructor. lia.
Qed.
Lemma asked_wants v f : asked_filter v = Some f <-> exists l, wants v l /\ f = filter_at l.
Proof.
  split.
  - unfold asked_filter. destruct v as [| | | | | | |r o]; try discriminate. destruct o as [[| | | | | |fs|]|]; try discriminate. 
    destruct fs as [|x [|]]; try discriminate; destruct x as [| | | | | | |n [|]]; try discriminate.
    destruct (str_eqb r _) eqn:Er; [|discriminate]. apply str_eqb_eq in Er. subst r.
    destruct (str_eqb n (lit "Off")) eqn:EOff; [apply str_eqb_eq in EOff; intros H; exists LOff; split; [rewrite EOff; reflexivity|injection H as <-; reflexivity]|].
    destruct (str_eqb n (lit "Error")) eqn:EError; [apply str_eqb_eq in EError; intros H; exists LError; split; [rewrite EError; reflexivity|injection H as <-; reflexivity]|].
    destruct (str_eqb n (lit "Warn")) eqn:EWarn; [apply str_eqb_eq in EWarn; intros H; exists LWarn; split; [rewrite EWarn; reflexivity|injection H as <-; reflexivity]|].
    destruct (str_eqb n (lit "Info")) eqn:EInfo; [apply str_eqb_eq in EInfo; intros H; exists LInfo; split; [rewrite EInfo; reflexivity|injection H as <-; reflexivity]|].
    destruct (str_eqb n (lit "Debug")) eqn:EDebug; [apply str_eqb_eq in EDebug; intros H; exists LDebug; split; [rewrite EDebug; reflexivity|injection H as <-; reflexivity]|].
    destruct (str_eqb n (lit "Trace")) eqn:ETrace; [apply str_eqb_eq in ETrace; intros H; exists LTrace; split; [rewrite ETrace; reflexivity|injection H as <-; reflexivity]|].
    discriminate.
  - intros (l & -> & ->). destruct l; reflexivity.
Qed.

(** *** What a step does to each program and file *)
Definition moved (g : program) (b : list byte) : program :=
  mkProgram (p_filter g) (option_map (fun x => (fst x, snd x + length b)%nat) (p_file g)) (p_daemon g)
            (p_stderr g ++ match p_file g with None => if p_daemon g then b else [] | Some _ => [] end) (p_status g).
Lemma moved_nil g : moved g [] = g.
Proof. destruct g as [f [[]|] [] e st]; unfold moved; cbn; rewrite ?app_nil_r, ?Nat.add_0_r; reflexivity. Qed.
Lemma emit_program w p g b q : programs w p = Some g -> programs (emit w p g b) q = if Nat.eqb q p then Some (moved g b) else programs w q.
Proof.
  intros H. unfold emit, moved. destruct g as [f [[path place]|] d e st]; cbn; [rewrite app_nil_r; reflexivity|]. destruct d; cbn; [reflexivity|].
  destruct (Nat.eqb_spec q p); [|reflexivity]. subst. rewrite H, app_nil_r. reflexivity.
Qed.
Lemma emit_disk w p g b f : disk (emit w p g b) f =
  match p_file g with
  | Some (path, place) => if str_eqb f path then Some (write_at match disk w path with Some c => c | None => [] end place b) else disk w f
  | None => disk w f
  end.
Proof. unfold emit. destruct (p_file g) as [[path place]|]; [reflexivity|]. destruct (p_daemon g); reflexivity. Qed.

Definition running (g : program) : Prop := p_status g = None.
(** What a program writes in a step. *)
Definition writes (g : program) (p : nat) (a : action) : option (list byte) :=
  match p_status g, a with
  | Some _, _ => None
  | None, Log q s b => if Nat.eqb q p && passes (p_filter g) s then Some b else None
  | None, Finish q (Some b) => if Nat.eqb q p && passes (p_filter g) SError then Some b else None
  | None, Level q v false => if Nat.eqb q p && p_daemon g && (match asked_filter v with Some _ => true | None => false end) && passes (p_filter g) SError then Some no_change else None
  | None, _ => None
  end.
(** What becomes of it. *)
Definition next (g : program) (p : nat) (a : action) : program :=
  let g' := match writes g p a with Some b => moved g b | None => g end in
  match p_status g, a with
  | None, Level q v true => match asked_filter v with
                            | Some f => if Nat.eqb q p && p_daemon g then mkProgram f (p_file g) (p_daemon g) (p_stderr g) None else g'
                            | None => g'
                            end
  | None, Finish q e => if Nat.eqb q p then mkProgram (p_filter g') (p_file g') (p_daemon g') (p_stderr g') (Some match e with Some _ => 1%Z | None => 0%Z end) else g'
  | _, _ => g'
  end.
Lemma log_program w p q g s b : programs w p = Some g -> programs (log w q s b) p = Some (next g p (Log q s b)).
Proof.
  intros H. unfold log, next, writes. destruct (Nat.eqb_spec q p) as [->|N].
  - rewrite H. cbn [andb]. destruct (p_status g) eqn:S; [rewrite H; reflexivity|]. destruct (passes _ _); [|exact H]. rewrite emit_program by exact H. rewrite Nat.eqb_refl. reflexivity.
  - cbn [andb]. destruct (p_status g); destruct (programs w q) as [k|] eqn:K; try exact H; destruct (p_status k); try exact H; destruct (passes _ s); try exact H;
      rewrite emit_program by exact K; destruct (Nat.eqb_spec p q); congruence.
Qed.
Lemma step_program w p g a : programs w p = Some g -> programs (step w a) p = Some (next g p a).
Proof.
  intros H. destruct a as [q d f v c|q s b|q v t|q e]; cbn [step].
  - assert (X : next g p (Start q d f v c) = g) by (unfold next, writes; destruct (p_status g); reflexivity). rewrite X. unfold start.
    destruct (programs w q) eqn:E; [exact H|]. assert (N : Nat.eqb p q = false) by (apply Nat.eqb_neq; intros ->; congruence). destruct f as [path|]; [destruct c|]; cbn; rewrite N; exact H.
  - apply log_program. exact H.
  - unfold level. destruct (programs w q) as [k|] eqn:K; [|assert (N : Nat.eqb q p = false) by (apply Nat.eqb_neq; intros ->; congruence); unfold next, writes; rewrite N; destruct (p_status g), t, (asked_filter v); exact H].
    unfold next. destruct (Nat.eqb_spec q p) as [->|N].
    + rewrite H in K. injection K as <-. unfold writes. rewrite Nat.eqb_refl. destruct (asked_filter v); [|destruct (p_status g), t; cbn [andb]; rewrite ?andb_false_r; exact H].
      destruct (p_daemon g) eqn:D; [|destruct (p_status g), t; cbn [andb]; exact H]. destruct (p_status g) eqn:S; [destruct t; exact H|]. destruct t; cbn [andb programs set_program].
      * rewrite Nat.eqb_refl. reflexivity.
      * rewrite log_program with (g := g) by exact H. unfold next, writes. rewrite S, Nat.eqb_refl. reflexivity.
    + assert (Y : programs match asked_filter v with Some f => match p_daemon k, p_status k with true, None => let w' := if t then set_program w q (mkProgram f (p_file k) true (p_stderr k) None) else log w q SError no_change in mkWorld (disk w') (programs w') (confirmed w' ++ [q]) | _, _ => w end | None => w end p = Some g).
      { destruct (asked_filter v); [|exact H]. destruct (p_daemon k), (p_status k); try exact H. cbn. destruct t; cbn.
        - destruct (Nat.eqb_spec p q); [congruence|exact H].
        - rewrite log_program with (g := g) by exact H. unfold next, writes. destruct (Nat.eqb_spec q p); [congruence|]. destruct (p_status g); reflexivity. }
      transitivity (Some g); [exact Y|]. unfold writes. destruct (Nat.eqb_spec q p); [congruence|]. destruct (p_status g), t, (asked_filter v); reflexivity.
  - unfold finish. 
    set (w' := match e with Some b => log w q SError b | None => w end).
    assert (W : programs w' p = Some match writes g p (Finish q e) with Some b => moved g b | None => g end).
    { unfold w', writes. destruct e as [b|]; [|destruct (p_status g); exact H]. rewrite log_program with (g := g) by exact H. unfold next, writes. destruct (p_status g); reflexivity. }
    assert (St : p_status match writes g p (Finish q e) with Some b => moved g b | None => g end = p_status g) by (destruct (writes _ _ _); reflexivity).
    unfold next. destruct (Nat.eqb_spec q p) as [->|N].
    + rewrite W, St. destruct (p_status g); [exact W|]. cbn. rewrite Nat.eqb_refl. reflexivity.
    + assert (X : programs w' p = programs match programs w' q with Some k => match p_status k with None => set_program w' q (mkProgram (p_filter k) (p_file k) (p_daemon k) (p_stderr k) (Some match e with Some _ => 1%Z | None => 0%Z end)) | Some _ => w' end | None => w' end p).
      { destruct (programs w' q) as [k|]; [|reflexivity]. destruct (p_status k); [reflexivity|]. cbn. destruct (Nat.eqb_spec p q); [congruence|reflexivity]. }
      rewrite <- X, W. destruct (p_status g); reflexivity.
Qed.

Definition old (w : world) (f : rstr) : list byte := match disk w f with Some c => c | None => [] end.
(** Whose step it is. *)
Definition subject (a : action) : nat := match a with Start p _ _ _ _ | Log p _ _ | Level p _ _ | Finish p _ => p end.
Lemma writes_subject g p a b : writes g p a = Some b -> subject a = p.
Proof.
  unfold writes. destruct (p_status g); [discriminate|]. destruct a as [q d f v c|q s x|q v []|q [x|]]; try discriminate; cbn [subject]; destruct (Nat.eqb_spec q p); try discriminate; auto.
Qed.
Lemma log_disk w p s b f : disk (log w p s b) f =
  match programs w p with
  | Some g => match writes g p (Log p s b), p_file g with
              | Some b, Some (path, place) => if str_eqb f path then Some (write_at (old w path) place b) else disk w f
              | _, _ => disk w f
              end
  | None => disk w f
  end.
Proof.
  unfold log, writes, old. destruct (programs w p) as [g|]; [|reflexivity]. rewrite Nat.eqb_refl. cbn [andb]. destruct (p_status g); [reflexivity|].
  destruct (passes _ _); [|reflexivity]. rewrite emit_disk. destruct (p_file g) as [[path place]|]; reflexivity.
Qed.
Lemma step_disk w a f : (forall q d v c, a <> Start q d (Some f) v c) -> disk (step w a) f =
  match programs w (subject a) with
  | Some g => match writes g (subject a) a, p_file g with
              | Some b, Some (path, place) => if str_eqb f path then Some (write_at (old w path) place b) else disk w f
              | _, _ => disk w f
              end
  | None => disk w f
  end.
Proof.
  intros N. destruct a as [q d o v c|q s b|q v t|q e]; cbn [step subject].
  - unfold start. destruct (programs w q) as [g|] eqn:E; [unfold writes; destruct (p_status g); reflexivity|]. destruct o as [path|]; [destruct c|]; cbn; try reflexivity.
    destruct (str_eqb f path) eqn:X; [|reflexivity]. apply str_eqb_eq in X. subst. destruct (N q d v true eq_refl).
  - apply log_disk.
  - unfold level. destruct (programs w q) as [g|] eqn:E; [|reflexivity]. unfold writes. rewrite Nat.eqb_refl. destruct (asked_filter v).
    + destruct (p_daemon g) eqn:D; [|destruct (p_status g), t; cbn [andb]; reflexivity]. destruct (p_status g) eqn:S; [reflexivity|]. destruct t; [reflexivity|]. cbn [andb disk].
      rewrite log_disk, E. unfold writes. rewrite S, Nat.eqb_refl. reflexivity.
    + destruct (p_status g), t; cbn [andb]; rewrite ?andb_false_r; reflexivity.
  - unfold finish. set (w' := match e with Some b => log w q SError b | None => w end).
    transitivity (disk w' f). { destruct (programs w' q) as [k|]; [|reflexivity]. destruct (p_status k); reflexivity. }
    unfold w'. destruct e as [b|].
    + rewrite log_disk. destruct (programs w q) as [g|]; [|reflexivity]. unfold writes. destruct (p_status g); reflexivity.
    + destruct (programs w q) as [g|]; [|reflexivity]. unfold writes. destruct (p_status g); reflexivity.
Qed.
Lemma write_end content b : write_at content (length content) b = content ++ b.
Proof. unfold write_at. rewrite firstn_all, Nat.sub_diag, skipn_all2 by lia. cbn. rewrite app_nil_r. reflexivity. Qed.

(** *** The record of a program *)
Definition at_level (now : option WireSpec.level) (g : program) : Prop :=
  match now with Some l => p_status g = None /\ p_filter g = filter_at l | None => p_status g <> None end.
Definition wrote (g : program) (p : nat) (a : action) : list byte := match writes g p a with Some b => b | None => [] end.
Lemma next_moved g p a : p_file (next g p a) = p_file (moved g (wrote g p a)) /\ p_stderr (next g p a) = p_stderr (moved g (wrote g p a)) /\ p_daemon (next g p a) = p_daemon g.
Proof.
  unfold next, wrote. assert (Z : moved g [] = g) by apply moved_nil.
  destruct (p_status g) eqn:S.
  - assert (W : writes g p a = None) by (unfold writes; rewrite S; reflexivity). rewrite W, Z. destruct a as [| | ? ? []|]; repeat split.
  - destruct a as [q d o v c|q s b|q v t|q e].
    + unfold writes. rewrite S, Z. repeat split.
    + destruct (writes _ _ _); rewrite ?Z; repeat split.
    + destruct t; [|destruct (writes _ _ _); rewrite ?Z; repeat split]. assert (W : writes g p (Level q v true) = None) by (unfold writes; rewrite S; reflexivity). rewrite W, Z.
      destruct (asked_filter v); [|repeat split]. destruct (_ && _); repeat split.
    + destruct (Nat.eqb q p); destruct (writes _ _ _); rewrite ?Z; repeat split.
Qed.
Lemma wrote_other g p a : (forall s b, a <> Log p s b) -> (forall e, a <> Finish p e) -> ~ sets p (p_daemon g) a -> wrote g p a = [] /\ next g p a = g.
Proof.
  intros NL NF NS. assert (W : writes g p a = None).
  { unfold writes. destruct (p_status g); [reflexivity|]. destruct a as [q d o v c|q s b|q v []|q [b|]]; try reflexivity; destruct (Nat.eqb_spec q p) as [->|]; try reflexivity.
    - destruct (NL _ _ eq_refl).
    - destruct (p_daemon g) eqn:D; [|reflexivity]. destruct (asked_filter v) eqn:A; [|reflexivity]. apply asked_wants in A as (l & X & _). destruct NS. split; [auto|]. exists v, l, false. auto.
    - destruct (NF _ eq_refl). }
  unfold wrote, next. rewrite W. split; [reflexivity|]. destruct (p_status g); [reflexivity|]. destruct a as [q d o v c|q s b|q v []|q e]; try reflexivity; destruct (Nat.eqb_spec q p) as [->|]; try (destruct (asked_filter v); reflexivity).
  - destruct (asked_filter v) eqn:A; [|reflexivity]. destruct (p_daemon g) eqn:D; [|reflexivity]. apply asked_wants in A as (l & X & _). destruct NS. split; [auto|]. exists v, l, true. auto.
  - destruct (NF _ eq_refl).
  - reflexivity.
Qed.
Lemma wrote_over g p a : p_status g <> None -> wrote g p a = [] /\ next g p a = g.
Proof. intros N. unfold wrote, next, writes. destruct (p_status g); [split; reflexivity|congruence]. Qed.

(** One step of a record. *)
Lemma record_cons p d now a h r later : record p d now (a :: h) r later ->
  forall g, p_daemon g = d -> at_level now g -> exists now' r', r = wrote g p a ++ r' /\ record p d now' h r' later /\ at_level now' (next g p a).
Proof.
  intros R g D A. inversion R; subst; clear R; cbn [at_level] in A.
  - exists None, []. destruct (wrote_over g p a A) as [-> ->]. auto.
  - destruct A as [S F]. match goal with H : In _ _ |- _ => apply passes_shown in H; rewrite <- F in H; rename H into P end. eexists _, _.
    unfold wrote, next, writes. rewrite S, Nat.eqb_refl, P. cbn [andb]. split; [reflexivity|]. split; [eassumption|]. split; [exact S|exact F].
  - destruct A as [S F]. match goal with H : ~ In _ _ |- _ => apply passes_hidden in H; rewrite <- F in H; rename H into P end. eexists _, _.
    unfold wrote, next, writes. rewrite S, Nat.eqb_refl, P. cbn [andb]. split; [reflexivity|]. split; [eassumption|]. split; [exact S|exact F].
  - destruct A as [S F]. match goal with H : wants _ ?l |- _ => assert (Q : asked_filter v = Some (filter_at l)) by (apply asked_wants; eauto) end. eexists _, _.
    unfold wrote, next, writes. rewrite S, Q, Nat.eqb_refl. match goal with H : p_daemon g = true, X : record _ _ _ _ _ _ |- _ => rewrite H in X; rewrite H end. cbn [andb app]. split; [reflexivity|]. split; [eassumption|]. split; reflexivity.
  - destruct A as [S F]. match goal with H : In _ _ |- _ => apply passes_shown in H; rewrite <- F in H; rename H into P end.
    match goal with H : wants _ ?l |- _ => assert (Q : asked_filter v = Some (filter_at l)) by (apply asked_wants; eauto) end. eexists _, _.
    unfold wrote, next, writes. rewrite S, Q, Nat.eqb_refl, P. match goal with H : p_daemon g = true, X : record _ _ _ _ _ _ |- _ => rewrite H in X; rewrite H end. cbn [andb]. split; [reflexivity|]. split; [eassumption|]. split; [exact S|exact F].
  - destruct A as [S F]. match goal with H : wants _ ?l |- _ => assert (Q : asked_filter v = Some (filter_at l)) by (apply asked_wants; eauto) end. eexists _, _.
    unfold wrote, next, writes. rewrite S, Q, Nat.eqb_refl, F. match goal with H : p_daemon g = true, X : record _ _ _ _ _ _ |- _ => rewrite H in X; rewrite H end. cbn [andb]. split; [reflexivity|]. split; [eassumption|]. split; [exact S|exact F].
  - destruct A as [S F]. match goal with H : In _ _ |- _ => apply passes_shown in H; rewrite <- F in H; rename H into P end. eexists _, _.
    unfold wrote, next, writes. rewrite S, Nat.eqb_refl, P. cbn [andb]. split; [symmetry; apply app_nil_r|]. split; [eassumption|]. discriminate.
  - destruct A as [S F]. eexists _, _. unfold wrote, next, writes. rewrite S, Nat.eqb_refl, F. cbn [andb]. split; [reflexivity|]. split; [eassumption|]. discriminate.
  - destruct A as [S F]. eexists _, _. unfold wrote, next, writes. rewrite S, Nat.eqb_refl. split; [reflexivity|]. split; [eassumption|]. discriminate.
  - eexists _, _. destruct (wrote_other g p a) as [-> ->]; try assumption. split; [reflexivity|]. split; [eassumption|]. exact A.
Qed.

(** There is one, and only one. *)
Lemma shown_dec s l : {In s (shown l)} + {~ In s (shown l)}.
Proof. apply in_dec. decide equality. Qed.
Lemma error_shown l : ~ In SError (shown l) -> l = LOff.
Proof. destruct l; cbn; intros H; auto; destruct H; auto. Qed.
Lemma record_over p d h : record p d None h [] None.
Proof. induction h; constructor; assumption. Qed.
Lemma record_exists p d : forall h now, exists r later, record p d now h r later.
Proof.
  induction h as [|a h IH]; intros now; [eexists _, _; constructor|]. destruct now as [now|].
  - destruct a as [q dm o v c|q s b|q v t|q e].
    + destruct (IH (Some now)) as (r & later & R). eexists _, _. apply r_other; [discriminate|discriminate| |exact R]. intros (_ & v' & l & t & X & _). discriminate.
    + destruct (Nat.eq_dec q p) as [->|N].
      * destruct (IH (Some now)) as (r & later & R). destruct (shown_dec s now); eexists _, _; [eapply r_shown|eapply r_hidden]; eassumption.
      * destruct (IH (Some now)) as (r & later & R). eexists _, _. apply r_other; [congruence|discriminate| |exact R]. intros (_ & v' & l & t & X & _). discriminate.
    + assert (Dec : sets p d (Level q v t) \/ ~ sets p d (Level q v t)).
      { destruct (Nat.eq_dec q p) as [->|N]; [|right; intros (_ & v' & l & t' & X & _); congruence]. destruct d; [|right; intros [X _]; discriminate].
        destruct (asked_filter v) eqn:A; [left|right; intros (_ & v' & l & t' & X & Y); injection X as <- <-; assert (Z : asked_filter v = Some (filter_at l)) by (apply asked_wants; eauto); congruence].
        apply asked_wants in A as (l & X & _). split; [reflexivity|]. exists v, l, t. auto. }
      destruct Dec as [(-> & v' & l & t' & X & Y)|N].
      * injection X as -> <- <-. destruct t.
        -- destruct (IH (Some l)) as (r & later & R). eexists _, _. eapply r_level; eauto.
        -- destruct (IH (Some now)) as (r & later & R). destruct (shown_dec SError now) as [E|E]; [eexists _, _; eapply r_stuck; eauto|]. apply error_shown in E. subst. eexists _, _. eapply r_stuck_hidden; eauto.
      * destruct (IH (Some now)) as (r & later & R). eexists _, _. apply r_other; [discriminate|discriminate|exact N|exact R].
    + pose proof (record_over p d h) as O.
      destruct (Nat.eq_dec q p) as [->|N].
      * destruct e as [b|]; [|eexists _, _; apply r_done; exact O]. destruct (shown_dec SError now) as [E|E]; [eexists _, _; eapply r_error; eauto|]. apply error_shown in E. subst. eexists _, _. apply r_error_hidden. exact O.
      * destruct (IH (Some now)) as (r & later & R). eexists _, _. apply r_other; [discriminate|congruence| |exact R]. intros (_ & v' & l & t & X & _). discriminate.
  - exists [], None. apply record_over.
Qed.

(** What becomes of a program, and of its file. *)
Lemma follow p d : forall h now r later, record p d now h r later -> forall w g, programs w p = Some g -> p_daemon g = d -> at_level now g ->
  exists g', programs (fold_left step h w) p = Some g' /\ p_daemon g' = d /\ at_level later g' /\ p_file g' = p_file (moved g r) /\ p_stderr g' = p_stderr (moved g r).
Proof.
  induction h as [|a h IH]; intros now r later R w g G D A.
  - inversion R; subst. exists g. rewrite moved_nil. auto.
  - destruct (record_cons p d now a h r later R g D A) as (now' & r' & -> & R' & A'). cbn [fold_left].
    destruct (next_moved g p a) as (F & E & D'). rewrite D in D'.
    destruct (IH now' r' later R' (step w a) (next g p a) (step_program w p g a G) D' A') as (g' & G' & D2 & A2 & F2 & E2).
    exists g'. split; [exact G'|]. split; [exact D2|]. split; [exact A2|]. rewrite F2, E2. unfold moved. cbn [p_file p_stderr]. rewrite F, E, D'. cbn [moved p_file p_stderr]. rewrite D.
    destruct (p_file g) as [[path place]|]; cbn; split; rewrite ?app_length, ?app_nil_r; try reflexivity.
    + f_equal. f_equal. lia.
    + rewrite <- app_assoc. destruct d; [reflexivity|]. reflexivity.
Qed.
Lemma run_app before h1 h2 : run before (h1 ++ h2) = fold_left step h2 (run before h1).
Proof. unfold run. apply fold_left_app. Qed.
Lemma start_at w p d o v lvl : programs w p = None -> begins_at v lvl -> exists g, programs (start w p d o v true) p = Some g /\ p_daemon g = d /\ at_level (Some lvl) g /\
  p_file g = option_map (fun f => (f, O)) o /\ p_stderr g = [].
Proof. intros N B. apply initial_begins in B. unfold start. rewrite N. destruct o as [path|]; cbn; rewrite Nat.eqb_refl; eexists; repeat split; exact B. Qed.

(** Nobody else who still runs has the file. *)
Definition own_file (p : nat) (path : rstr) (w : world) : Prop :=
  forall q g place, q <> p -> programs w q = Some g -> p_file g = Some (path, place) -> p_status g <> None.
Lemma next_file g p a path place : p_file (next g p a) = Some (path, place) -> exists place', p_file g = Some (path, place').
Proof. intros H. destruct (next_moved g p a) as (F & _). rewrite H in F. unfold moved in F. cbn [p_file] in F. destruct (p_file g) as [[f k]|]; [|discriminate]. injection F as -> _. eauto. Qed.
Lemma next_status g p a : p_status g <> None -> p_status (next g p a) <> None.
Proof. intros H. destruct (wrote_over g p a H) as [_ ->]. exact H. Qed.
Lemma own_step p path w a : own_file p path w -> (forall q d v c, a <> Start q d (Some path) v c) -> own_file p path (step w a).
Proof.
  intros O N q g place Q G F. destruct (programs w q) as [k|] eqn:K.
  - rewrite (step_program w q k a K) in G. injection G as <-. apply next_file in F as [place' F]. apply next_status. exact (O q k place' Q K F).
  - assert (X : exists d f v c, a = Start q d f v c).
    { destruct a as [q' d f v c|q' s b|q' v t|q' e]; cbn [step] in G.
      - destruct (Nat.eq_dec q q') as [->|M]; [eauto|]. unfold start in G. destruct (programs w q'); [congruence|]. destruct f; [destruct c|]; cbn in G; destruct (Nat.eqb_spec q q'); congruence.
      - exfalso. revert G. unfold log. destruct (programs w q') as [k|] eqn:E; [|congruence]. destruct (p_status k); [congruence|]. destruct (passes _ _); [|congruence]. rewrite emit_program by exact E. destruct (Nat.eqb_spec q q'); congruence.
      - exfalso. revert G. unfold level. destruct (programs w q') as [k|] eqn:E; [|congruence]. destruct (asked_filter v); [|congruence]. destruct (p_daemon k), (p_status k) eqn:S; try congruence. cbn [programs]. destruct t.
        + cbn. destruct (Nat.eqb_spec q q'); congruence.
        + unfold log. rewrite E, S. destruct (passes _ _); [|congruence]. rewrite emit_program by exact E. destruct (Nat.eqb_spec q q'); congruence.
      - exfalso. revert G. unfold finish. set (w' := match e with Some b => log w q' SError b | None => w end).
        assert (W : programs w' q = None).
        { unfold w'. destruct e as [b|]; [|exact K]. unfold log. destruct (programs w q') as [k|] eqn:E; [|exact K]. destruct (p_status k); [exact K|]. destruct (passes _ _); [|exact K]. rewrite emit_program by exact E. destruct (Nat.eqb_spec q q'); congruence. }
        destruct (programs w' q') as [k|] eqn:E; [|congruence]. destruct (p_status k); [congruence|]. cbn. destruct (Nat.eqb_spec q q'); congruence. }
    destruct X as (d & f & v & c & ->). cbn [step] in G. unfold start in G. rewrite K in G. destruct f as [f|]; [destruct c|]; cbn in G; rewrite Nat.eqb_refl in G; injection G as <-; cbn in F.
    + injection F as -> _. destruct (N q d v true eq_refl).
    + discriminate.
    + discriminate.
Qed.
Lemma follow_file p d path : forall h now r later, record p d now h r later -> alone path h -> forall w g c, programs w p = Some g -> p_daemon g = d -> at_level now g ->
  own_file p path w -> disk w path = Some c -> p_file g = Some (path, length c) -> disk (fold_left step h w) path = Some (c ++ r).
Proof.
  induction h as [|a h IH]; intros now r later R Al w g c G D A O K F.
  - inversion R; subst. rewrite app_nil_r. exact K.
  - destruct (record_cons p d now a h r later R g D A) as (now' & r' & -> & R' & A'). cbn [fold_left].
    assert (Na : forall q dm v cr, a <> Start q dm (Some path) v cr) by (intros q dm v cr ->; apply (Al q dm v cr); left; reflexivity).
    assert (Al' : alone path h) by (intros q dm v cr X; apply (Al q dm v cr); right; exact X).
    destruct (next_moved g p a) as (F' & E & D'). rewrite D in D'. rewrite app_assoc.
    apply (IH now' r' later R' Al' (step w a) (next g p a) (c ++ wrote g p a) (step_program w p g a G) D' A' (own_step p path w a O Na)).
    + rewrite step_disk by exact Na. destruct (Nat.eq_dec (subject a) p) as [Sp|Sp].
      * rewrite Sp, G. unfold wrote. destruct (writes g p a) as [b|]; [|rewrite app_nil_r; exact K]. rewrite F, str_eqb_refl. unfold old. rewrite K, write_end. reflexivity.
      * assert (W : wrote g p a = []) by (unfold wrote; destruct (writes g p a) eqn:W; [apply writes_subject in W; contradiction|reflexivity]). rewrite W, app_nil_r.
        destruct (programs w (subject a)) as [k|] eqn:Ek; [|exact K]. destruct (writes k (subject a) a) as [b|] eqn:Wk; [|exact K]. destruct (p_file k) as [[f place]|] eqn:Fk; [|exact K].
        destruct (str_eqb path f) eqn:X; [|exact K]. apply str_eqb_eq in X. subst f. exfalso. apply (O (subject a) k place Sp Ek Fk). unfold writes in Wk. destruct (p_status k); [discriminate|reflexivity].
    + rewrite F'. unfold moved. cbn [p_file]. rewrite F. cbn. rewrite app_length. reflexivity.
Qed.

Lemma record_unique p d : forall h now r1 r2 l1 l2, record p d now h r1 l1 -> record p d now h r2 l2 -> r1 = r2 /\ l1 = l2.
Proof.
  induction h as [|a h IH]; intros now r1 r2 l1 l2 R1 R2; [inversion R1; inversion R2; subst; auto|].
  assert (X : exists g, p_daemon g = d /\ at_level now g).
  { destruct now as [l|]; [exists (mkProgram (filter_at l) None d [] None)|exists (mkProgram FOff None d [] (Some 0%Z))]; cbn; repeat split; discriminate. }
  destruct X as (g & D & A). destruct (record_cons _ _ _ _ _ _ _ R1 g D A) as (n1 & s1 & -> & Q1 & A1). destruct (record_cons _ _ _ _ _ _ _ R2 g D A) as (n2 & s2 & -> & Q2 & A2).
  assert (N : n1 = n2).
  { destruct n1 as [x|], n2 as [y|]; cbn in A1, A2; try reflexivity; try (destruct A1; congruence); try (destruct A2; congruence).
    destruct A1 as [_ A1], A2 as [_ A2]. rewrite A1 in A2. destruct x, y; try discriminate; reflexivity. }
  subst n2. destruct (IH _ _ _ _ _ Q1 Q2) as [-> ->]. auto.
Qed.
Lemma write_over content place bytes : overwritten content place bytes (write_at content place bytes).
Proof.
  unfold overwritten, write_at. split.
  - rewrite !app_length, firstn_length, repeat_length, skipn_length. lia.
  - intros i. split; [|split].
    + intros H. rewrite nth_error_app2 by (rewrite firstn_length; lia). rewrite nth_error_app2 by (rewrite firstn_length, repeat_length; lia).
      rewrite nth_error_app1 by (rewrite firstn_length, repeat_length; lia). f_equal. rewrite firstn_length, repeat_length. lia.
    + intros [H|H] L.
      * rewrite nth_error_app1 by (rewrite firstn_length; lia). rewrite <- (firstn_skipn place content) at 2. rewrite nth_error_app1 by (rewrite firstn_length; lia). reflexivity.
      * rewrite nth_error_app2 by (rewrite firstn_length; lia). rewrite nth_error_app2 by (rewrite firstn_length, repeat_length; lia).
        rewrite nth_error_app2 by (rewrite firstn_length, repeat_length; lia). rewrite <- (firstn_skipn (place + length bytes) content) at 4.
        rewrite nth_error_app2 by (rewrite firstn_length; lia). f_equal. rewrite !firstn_length, repeat_length. lia.
    + intros H. rewrite nth_error_app2 by (rewrite firstn_length; lia). rewrite nth_error_app1 by (rewrite firstn_length, repeat_length; lia).
      rewrite nth_error_repeat; [reflexivity|]. rewrite firstn_length. lia.
Qed.
