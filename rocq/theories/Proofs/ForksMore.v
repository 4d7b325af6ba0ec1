(** Consequences of the invariant of ForksProofs.v. *)
From Coq Require Import List NArith ZArith Bool Arith Lia.
From Verif Require Import Model.Base Model.Json Model.Forks Spec.ForksSpec Proofs.ForksProofs.
Import ListNotations.
Open Scope nat_scope.

Lemma others_step st a : others (step st a) = others st.
Proof.
  destruct a as [s|p ok n|p log|n|p t| |p]; cbn [step].
  - destruct (negb _); reflexivity.
  - unfold turn. destruct (procs st p) as [x|]; [|reflexivity]. unfold finish, unlock.
    destruct (at_ x); repeat (match goal with |- context [match ?e with _ => _ end] => destruct e end); reflexivity.
  - unfold watch_turn. repeat (match goal with |- context [match ?e with _ => _ end] => destruct e end); reflexivity.
  - reflexivity.
  - repeat (match goal with |- context [match ?e with _ => _ end] => destruct e end); reflexivity.
  - reflexivity.
  - unfold finish, unlock. repeat (match goal with |- context [match ?e with _ => _ end] => destruct e end); reflexivity.
Qed.

Lemma cut st p x k : inv st -> procs st p = Some x -> at_ x = PServe k ->
  exists l s, descends st p l s /\ (s_auto s = true -> cut_off st p x l s /\ forked x) /\ (s_auto s = false -> p = l /\ as_started p x s).
Proof.
  intros I P A. pose proof (i_fine _ I p x P) as F. unfold fine in F. destruct (born x) as [s| |] eqn:B.
  - destruct F as (F1 & F2 & F3 & F4 & F5 & F6 & F). rewrite A in F. destruct F as (Au & H & M & D & Ch).
    exists p, s. split; [exact (Itself st p x s P B)|]. split; [congruence|]. intros _. split; [reflexivity|].
    split; try assumption. intros n. rewrite (H n). unfold tab, sane. change (n <? 0) with false. cbv iota.
    destruct (s_files s n) as [f|]; [left; reflexivity|]. destruct (n <? 3) eqn:L; [right|left; reflexivity].
    apply Nat.ltb_lt in L. auto.
  - rewrite A in F. destruct F as (_ & _ & _ & l & yl & s & _ & _ & _ & _ & _ & _ & []).
  - rewrite A in F. destruct F as (W & M & D & T & G & S & Ch & m & ym & l & yl & s & Pm & Ym & Bm & Lm & Pl & Yl & Bl & Au & Ll & Fd & H).
    exists l, s. pose proof (i_fine _ I l yl Yl) as Fl. unfold fine in Fl. rewrite Bl in Fl. destruct Fl as (_ & _ & _ & _ & Og & Os & _).
    pose proof (i_in _ I m ym Ym) as Im. pose proof (i_in _ I l yl Yl) as Il.
    split; [apply (From st p x l s P ltac:(congruence)); rewrite Pm; apply (From st m ym l s Ym ltac:(congruence)); rewrite Pl; exact (Itself st l yl s Yl Bl)|].
    split; [|congruence]. intros _. split; [|unfold forked; rewrite B; exact Coq.Init.Logic.I].
    split; try assumption; try lia.
    + intros q y Q _ E. rewrite S, G, Pm in E. pose proof (i_fine _ I q y Q) as Fq. unfold fine in Fq. pose proof (i_in _ I q y Q) as Iq.
      destruct (born y) as [s'| |] eqn:Bq.
      * destruct Fq as (_ & Gq & Sq & _ & Ogq & Osq & _). destruct E as [E|E]; [lia|].
        destruct (s_leads s'); [|lia]. assert (Qm : q = m) by congruence. rewrite Qm, Ym in Q. congruence.
      * destruct Fq as (_ & _ & _ & l' & yl' & s' & P' & Y' & B' & _ & _ & Gq & _).
        destruct Gq as [(Gq & Sq & _)|(Gq & Sq)]; [right; rewrite Pm; destruct E; congruence|].
        pose proof (i_fine _ I l' yl' Y') as F'. unfold fine in F'. rewrite B' in F'. destruct F' as (_ & G' & S' & _ & Og' & Os' & _).
        destruct E as [E|E]; [lia|]. destruct (s_leads s'); [|lia]. assert (Qm : l' = m) by congruence. rewrite Qm, Ym in Y'. congruence.
      * destruct Fq as (_ & _ & _ & _ & Gq & Sq & _). left. apply (i_one _ I q p y x Q P).
        -- unfold forked. rewrite Bq. exact Coq.Init.Logic.I.
        -- unfold forked. rewrite B. exact Coq.Init.Logic.I.
        -- destruct E; congruence.
    + intros n Hn. rewrite (H n). unfold tab. apply Nat.ltb_lt in Hn. rewrite Hn. reflexivity.
    + intros n Hn. rewrite (H n). unfold tab, sane. destruct (n <? 3) eqn:L; [apply Nat.ltb_lt in L; lia|]. destruct (s_files s n); reflexivity.
    + intros n o Nf. rewrite (H n). unfold tab, sane. destruct (n <? 3); [discriminate|]. destruct (s_files s n); [exact Nf|discriminate].
Qed.

Lemma descends_one st : inv st -> forall p l s, descends st p l s -> forall l' s', descends st p l' s' -> l = l' /\ s = s'.
Proof.
  intros I p l s H. induction H as [l y s Y B|p x l s X N H IH]; intros l' s' H'; inversion H'; subst.
  - split; congruence.
  - rewrite Y in H. injection H as <-. destruct (H0 s B).
  - rewrite X in H0. injection H0 as <-. destruct (N s' H1).
  - rewrite X in H0. injection H0 as <-. apply IH. assumption.
Qed.

Lemma one_serving st p x q y l s : inv st -> serving st p x -> serving st q y -> descends st p l s -> descends st q l s -> p = q.
Proof.
  intros I (P & k & A) (Q & k' & A') D D'.
  assert (G : forall p x k, procs st p = Some x -> at_ x = PServe k -> descends st p l s ->
    (born x = Started s /\ p = l /\ s_auto s = false) \/ (born x = Forked2 /\ s_auto s = true /\ exists ym, procs st (parent x) = Some ym /\ born ym = Forked1 /\ parent ym = l)).
  { clear - I. intros p x k P A D. pose proof (i_fine _ I p x P) as F. unfold fine in F. destruct (born x) as [s'| |] eqn:B.
    - rewrite A in F. inversion D; subst; [left; repeat split; try congruence|destruct (H0 s'); congruence].
      assert (s' = s) by congruence. subst. destruct F as (_ & _ & _ & _ & _ & _ & F & _). exact F.
    - rewrite A in F. destruct F as (_ & _ & _ & l' & yl & s' & _ & _ & _ & _ & _ & _ & []).
    - rewrite A in F. destruct F as (W & M & Dd & T & G & S & Ch & m & ym & l' & yl & s' & Pm & Ym & Bm & Lm & Pl & Yl & Bl & Au & _).
      right. assert (D' : descends st p l' s').
      { apply (From st p x l' s' P ltac:(congruence)); rewrite Pm; apply (From st m ym l' s' Ym ltac:(congruence)); rewrite Pl; exact (Itself st l' yl s' Yl Bl). }
      destruct (descends_one st I p l s D l' s' D') as (-> & ->). split; [reflexivity|]. split; [exact Au|].
      exists ym. rewrite Pm. auto. }
  destruct (G p x k P A D) as [(B & -> & N)|(B & N & ym & Ym & Bm & Pm)]; destruct (G q y k' Q A' D') as [(B' & -> & N')|(B' & N' & ym' & Ym' & Bm' & Pm')]; try congruence.
  assert (Fk : forall z, born z = Forked1 \/ born z = Forked2 -> forked z) by (intros z [E|E]; unfold forked; rewrite E; exact Coq.Init.Logic.I).
  apply (i_one _ I p q x y P Q); auto. apply (i_one _ I _ _ ym ym' Ym Ym'); auto. congruence.
Qed.

(** ** The status *)

Lemma status st l yl s e : inv st -> procs st l = Some yl -> born yl = Started s -> s_auto s = true -> at_ yl = Exited e ->
  (e = 0 /\ exists p x, procs st p = Some x /\ born x = Forked2 /\ descends st p l s) \/
  (e = 1 /\ ((forall p x, procs st p = Some x -> born x = Forked2 -> ~ descends st p l s) \/
             exists m y, procs st m = Some y /\ parent y = l /\ born y = Forked1 /\ at_ y = Killed)).
Proof.
  intros I L B Au A. pose proof (i_fine _ I l yl L) as F. unfold fine in F. rewrite B, A in F.
  destruct F as (_ & _ & _ & _ & _ & _ & _ & F).
  assert (U : forall p x, procs st p = Some x -> born x = Forked2 -> descends st p l s -> exists ym, procs st (parent x) = Some ym /\ born ym = Forked1 /\ parent ym = l).
  { intros p x P Bx D. pose proof (i_fine _ I p x P) as Fx. unfold fine in Fx. rewrite Bx in Fx.
    destruct Fx as (_ & _ & _ & _ & _ & _ & _ & m & ym & l' & yl' & s' & Pm & Ym & Bm & _ & Pl & Yl & Bl & _).
    assert (D' : descends st p l' s') by (apply (From st p x l' s' P ltac:(congruence)); rewrite Pm; apply (From st m ym l' s' Ym ltac:(congruence)); rewrite Pl; exact (Itself st l' yl' s' Yl Bl)).
    destruct (descends_one st I p l s D l' s' D') as (-> & ->). exists ym. rewrite Pm. auto. }
  assert (Fk : forall z, born z = Forked1 \/ born z = Forked2 -> forked z) by (intros z [E|E]; unfold forked; rewrite E; exact Coq.Init.Logic.I).
  destruct F as [(-> & Ch)|(c & y & C & Bc & Pc & [Ac|(Ac & ->)])].
  - right. split; [reflexivity|]. left. intros p x P Bx D. destruct (U p x P Bx D) as (ym & Ym & Bm & Pm). exact (Ch _ ym Ym (Fk _ (or_introl Bm)) Pm).
  - pose proof (i_fine _ I c y C) as Fc. unfold fine in Fc. rewrite Bc, Ac in Fc. destruct Fc as (_ & _ & _ & l' & yl' & s' & _ & _ & _ & _ & _ & _ & [(-> & q & z & Q & Bz & Pz)|(-> & Ch)]).
    + left. split; [reflexivity|]. exists q, z. split; [exact Q|]. split; [exact Bz|]. apply (From st q z l s Q ltac:(congruence)). rewrite Pz. apply (From st c y l s C ltac:(congruence)). rewrite Pc. exact (Itself st l yl s L B).
    + right. split; [reflexivity|]. left. intros p x P Bx D. destruct (U p x P Bx D) as (ym & Ym & Bm & Pm).
      assert (parent x = c) by (apply (i_one _ I _ _ ym y Ym C); auto; congruence). exact (Ch p x P (Fk _ (or_intror Bx)) H).
  - right. split; [reflexivity|]. right. eauto 8.
Qed.

(** ** Going on *)

Definition rank (p : nat) (a : place) : nat :=
  let n := length (pid_text p) in
  match a with
  | PRuntime _ => 30 + n | PUmask => 29 + n | PChdir => 28 + n | PFork1 => 27 + n | PSetsid => 26 + n | PLogSid => 25 + n | POpen => 24 + n
  | PLock => 23 + n | PFork2 => 22 + n | PTruncate => 21 + n | PSeek => 20 + n | PWrite rest => 15 + length rest | PNull => 14
  | PDup _ i => 13 - i | PClose _ => 10 | PUnlock => 9 | PStarting => 3 | PFail => 2 | PWait _ | PExit => 1 | PServe _ | Exited _ | Killed => 0
  end.

Definition put_at (st : world) (p : nat) (x : process) : procs (put st p x) p = Some x.
Proof. cbn [put procs]. unfold upd. rewrite Nat.eqb_refl. reflexivity. Qed.

Ltac next_place := eexists; split; [apply put_at|cbn [at_ go]; unfold rank; lia].

Lemma goes_on st p x ok n : inv st -> procs st p = Some x -> live x = true -> log_held x = false ->
  (forall c, at_ x <> PWait c) -> (forall k, at_ x <> PServe k) ->
  exists x', procs (turn st p ok n) p = Some x' /\ rank p (at_ x') < rank p (at_ x).
Proof.
  intros I P L H W S. pose proof (i_fine _ I p x P) as F. unfold turn. rewrite P, H. unfold live in L.
  assert (Pd : forall T U : Prop, match at_ x with PLock | PTruncate | PSeek | PWrite _ | PUnlock => True | _ => False end -> exists k i d, pid_fd x = Some (k, i, d)).
  { intros _ _ Q. unfold fine in F. destruct (born x).
    - destruct F as (_ & _ & _ & _ & _ & _ & F). destruct (at_ x); contradiction.
    - destruct F as (_ & _ & _ & l & yl & s & _ & _ & _ & _ & _ & _ & F). destruct (at_ x); try contradiction. destruct F as (_ & _ & _ & _ & k & i & K & _). eauto.
    - destruct F as (_ & _ & _ & _ & _ & _ & _ & m & ym & l & yl & s & _ & _ & _ & _ & _ & _ & _ & _ & _ & F). destruct (at_ x); try contradiction; destruct F as (k & i & K & _); eauto. }
  specialize (Pd True True). pose proof (i_in _ I p x P) as Ip.
  destruct (at_ x) eqn:A; try discriminate; try (destruct (W _ eq_refl)); try (destruct (S _ eq_refl)).
  - destruct auto; next_place.
  - next_place.
  - destruct ok; next_place.
  - destruct ok; [|next_place]. exists (go x (PWait (next st))). split; [apply fork_self; assumption|]. cbn [at_ go]. unfold rank. lia.
  - destruct (negb ok || (group x =? p)); next_place.
  - next_place.
  - destruct ok, (files x n); next_place.
  - destruct (Pd Logic.I) as (k & i & d & ->). destruct (_ || _); next_place.
  - destruct ok; [|next_place]. exists (go x PExit). split; [apply fork_self; assumption|]. cbn [at_ go]. unfold rank. lia.
  - unfold finish. next_place.
  - destruct (Pd Logic.I) as (k & i & d & ->). destruct ok; next_place.
  - destruct (Pd Logic.I) as (k & i & d & ->). destruct ok; next_place.
  - destruct (Pd Logic.I) as (k & i & d & ->). destruct ok; [|next_place]. eexists; split; [apply put_at|]. cbn [at_ go].
    assert (R : rest <> []).
    { unfold fine in F. rewrite A in F. destruct (born x).
      - destruct F as (_ & _ & _ & _ & _ & _ & []).
      - destruct F as (_ & _ & _ & ? & ? & ? & _ & _ & _ & _ & _ & _ & []).
      - destruct F as (_ & _ & _ & _ & _ & _ & _ & m & ym & l & yl & s & _ & _ & _ & _ & _ & _ & _ & _ & _ & k' & i' & _ & _ & _ & _ & _ & _ & R & _). exact R. }
    destruct rest as [|b rest]; [destruct (R eq_refl)|]. cbn [skipn]. pose proof (skipn_length n rest) as Sk. destruct (skipn n rest) as [|c t]; unfold rank; cbn [length] in *; lia.
  - destruct ok, (files x n); next_place.
  - destruct ok; [|eexists; split; [apply put_at|cbn [at_ go]; unfold rank]].
    + eexists; split; [apply put_at|]. cbn [at_ go]. destruct (target <? 2) eqn:T; unfold rank; [apply Nat.ltb_lt in T; lia|].
      assert (target < 3); [|lia]. unfold fine in F. rewrite A in F. destruct (born x).
      * destruct F as (_ & _ & _ & _ & _ & _ & []).
      * destruct F as (_ & _ & _ & ? & ? & ? & _ & _ & _ & _ & _ & _ & []).
      * destruct F as (_ & _ & _ & _ & _ & _ & _ & m & ym & l & yl & s & _ & _ & _ & _ & _ & _ & _ & _ & _ & k' & i' & _ & _ & _ & _ & _ & _ & _ & _ & _ & T' & _). exact T'.
    + assert (target < 3); [|lia]. unfold fine in F. rewrite A in F. destruct (born x).
      * destruct F as (_ & _ & _ & _ & _ & _ & []).
      * destruct F as (_ & _ & _ & ? & ? & ? & _ & _ & _ & _ & _ & _ & []).
      * destruct F as (_ & _ & _ & _ & _ & _ & _ & m & ym & l & yl & s & _ & _ & _ & _ & _ & _ & _ & _ & _ & k' & i' & _ & _ & _ & _ & _ & _ & _ & _ & _ & T' & _). exact T'.
  - next_place.
  - destruct (Pd Logic.I) as (k & i & d & ->). next_place.
  - next_place.
  - destruct (pid_fd x) as [[[k i] d]|]; next_place.
Qed.

Lemma waits st p x c : inv st -> procs st p = Some x -> at_ x = PWait c -> exists y, procs st c = Some y /\ parent y = p /\ born y = Forked1 /\
  (live y = true -> forall ok n, turn st p ok n = st) /\
  (live y = false -> forall ok n, exists x', procs (turn st p ok n) p = Some x' /\ at_ x' = Exited (match at_ y with Exited e => e | _ => 1 end)).
Proof.
  intros I P A. pose proof (i_fine _ I p x P) as F. unfold fine in F. rewrite A in F. destruct (born x).
  - destruct F as (_ & _ & _ & _ & _ & _ & _ & y & C & B & Pa). exists y. split; [exact C|]. split; [exact Pa|]. split; [exact B|]. split.
    + intros L ok n. unfold turn. rewrite P, A, C. unfold live in L. destruct (at_ y); congruence.
    + intros L ok n. unfold turn. rewrite P, A, C. unfold live in L. destruct (at_ y); try discriminate; unfold finish; eexists; (split; [apply put_at|reflexivity]).
  - destruct F as (_ & _ & _ & ? & ? & ? & _ & _ & _ & _ & _ & _ & []).
  - destruct F as (_ & _ & _ & _ & _ & _ & _ & m & ym & l & yl & s & _ & _ & _ & _ & _ & _ & _ & _ & _ & []).
Qed.

(** Nothing fails by itself. *)
Lemma fails_only st p x n x' : inv st -> procs st p = Some x -> at_ x <> PFail ->
  (at_ x = POpen \/ at_ x = PNull -> files x n = None) ->
  procs (turn st p true n) p = Some x' -> at_ x' = PFail ->
  at_ x = PLock /\ exists k i d e, pid_fd x = Some (k, i, d) /\ locks st i = Some e /\ e <> d.
Proof.
  intros I P N Fr T E. pose proof (i_fine _ I p x P) as F. unfold turn in T. rewrite P in T. pose proof (i_in _ I p x P) as Ip.
  destruct (at_ x) eqn:A; try congruence;
    try (rewrite put_at in T; injection T as <-; cbn [at_ go] in E; discriminate);
    try (destruct (log_held x); [congruence|rewrite put_at in T; injection T as <-; discriminate]).
  - rewrite put_at in T. injection T as <-. destruct auto; discriminate.
  - rewrite fork_self in T by assumption. injection T as <-. discriminate.
  - destruct (procs st child) as [y|]; [|congruence]. destruct (at_ y); try congruence; unfold finish in T; rewrite put_at in T; injection T as <-; discriminate.
  - cbn [negb orb] in T. destruct (group x =? p) eqn:G; [|rewrite put_at in T; injection T as <-; discriminate].
    exfalso. apply Nat.eqb_eq in G. unfold fine in F. rewrite A in F. destruct (born x).
    + destruct F as (_ & _ & _ & _ & _ & _ & []).
    + destruct F as (_ & _ & _ & l & yl & s & Pl & Yl & Bl & _ & Lt & _ & Gl & _). pose proof (i_fine _ I l yl Yl) as Fl. unfold fine in Fl. rewrite Bl in Fl.
      destruct Fl as (_ & Gs & _ & _ & Og & _). destruct (s_leads s); lia.
    + destruct F as (_ & _ & _ & _ & _ & _ & _ & m & ym & l & yl & s & _ & _ & _ & _ & _ & _ & _ & _ & _ & []).
  - rewrite (Fr (or_introl eq_refl)) in T. rewrite put_at in T. injection T as <-. discriminate.
  - split; [reflexivity|]. destruct (pid_fd x) as [[[k i] d]|] eqn:K; [|congruence]. cbn [negb orb] in T.
    destruct (locks st i) as [e|] eqn:L; [|rewrite put_at in T; injection T as <-; discriminate].
    destruct (e =? d) eqn:Ed; cbn [negb] in T; [rewrite put_at in T; injection T as <-; discriminate|]. apply Nat.eqb_neq in Ed. exists k, i, d, e. auto.
  - rewrite fork_self in T by assumption. injection T as <-. discriminate.
  - unfold finish in T. rewrite put_at in T. injection T as <-. discriminate.
  - destruct (pid_fd x) as [[[k i] d]|]; [|congruence]. rewrite put_at in T; injection T as <-; discriminate.
  - destruct (pid_fd x) as [[[k i] d]|]; [|congruence]. rewrite put_at in T; injection T as <-; discriminate.
  - destruct (pid_fd x) as [[[k i] d]|]; [|congruence]. rewrite put_at in T; injection T as <-. cbn [at_ go] in E. match type of E with match ?e with _ => _ end = _ => destruct e end; discriminate.
  - rewrite (Fr (or_intror eq_refl)) in T. rewrite put_at in T. injection T as <-. discriminate.
  - rewrite put_at in T; injection T as <-. cbn [at_ go] in E. destruct (target <? 2); discriminate.
  - destruct (pid_fd x) as [[[k i] d]|]; [|congruence]. rewrite put_at in T; injection T as <-; discriminate.
  - destruct (log_held x || config_held x); [congruence|]. rewrite put_at in T; injection T as <-; discriminate.
Qed.
