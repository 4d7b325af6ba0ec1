(** Proofs about becoming a daemon. *)
From Coq Require Import List NArith ZArith Bool Arith Lia.
From Verif Require Import Model.Base Model.Json Model.Forks.
Import ListNotations.
Open Scope nat_scope.

Definition forked (y : process) : Prop := match born y with Started _ => False | _ => True end.
Definition childless (st : world) (p : nat) : Prop := forall q y, procs st q = Some y -> forked y -> parent y <> p.
Definition has_child (st : world) (p : nat) (b : birth) : Prop := exists q y, procs st q = Some y /\ born y = b /\ parent y = p.

(** The descriptors of a daemonizing process: those of the start, the pid file at [k], and
    /dev/null in the first [m] places. *)
Definition tab (f : table) (k : option (nat * nat)) (m : nat) : table :=
  fun n => if n <? m then Some (Null false)
           else match k with Some (j, o) => if n =? j then Some (PidFile o) else sane f n | None => sane f n end.
Definition has (x : process) (f : table) (k : option (nat * nat)) (m : nat) : Prop := forall n, files x n = tab f k m n.

Definition fine (st : world) (p : nat) (x : process) : Prop :=
  match born x with
  | Started s =>
    pid_fd x = None /\ group x = (if s_leads s then p else s_group s) /\ session x = s_session s /\ tty x = s_tty s /\
    s_group s < others st /\ s_session s < others st /\
    match at_ x with
    | PRuntime a => a = s_auto s /\ (forall n, files x n = s_files s n) /\ dir x = s_dir s /\ mask x = s_mask s /\ childless st p
    | PUmask => s_auto s = true /\ has x (s_files s) None 0 /\ childless st p
    | PChdir => s_auto s = true /\ has x (s_files s) None 0 /\ mask x = 0%N /\ childless st p
    | PFork1 => s_auto s = true /\ has x (s_files s) None 0 /\ mask x = 0%N /\ dir x = lit "/" /\ childless st p
    | PWait c => s_auto s = true /\ exists y, procs st c = Some y /\ born y = Forked1 /\ parent y = p
    | PStarting | PServe _ => s_auto s = false /\ has x (s_files s) None 0 /\ mask x = s_mask s /\ dir x = s_dir s /\ childless st p
    | PFail => s_auto s = true /\ childless st p
    | Exited e => s_auto s = true /\
        ((e = 1 /\ childless st p) \/
         exists c y, procs st c = Some y /\ born y = Forked1 /\ parent y = p /\ (at_ y = Exited e \/ (at_ y = Killed /\ e = 1)))
    | Killed => True
    | _ => False
    end
  | Forked1 =>
    watch x = WNone /\ mask x = 0%N /\ dir x = lit "/" /\
    exists l yl s, parent x = l /\ procs st l = Some yl /\ born yl = Started s /\ s_auto s = true /\ l < p /\
    ((group x = p /\ session x = p /\ tty x = None) \/ (group x = group yl /\ session x = session yl)) /\
    match at_ x with
    | PSetsid => group x = group yl /\ has x (s_files s) None 0 /\ pid_fd x = None /\ childless st p
    | PLogSid | POpen => group x = p /\ session x = p /\ tty x = None /\ has x (s_files s) None 0 /\ pid_fd x = None /\ childless st p
    | PLock => group x = p /\ session x = p /\ tty x = None /\ childless st p /\
        exists k i, pid_fd x = Some (k, i, p) /\ 3 <= k /\ s_files s k = None /\ has x (s_files s) (Some (k, p)) 0 /\ i < inodes st
    | PFork2 => group x = p /\ session x = p /\ tty x = None /\ childless st p /\
        exists k i, pid_fd x = Some (k, i, p) /\ 3 <= k /\ s_files s k = None /\ has x (s_files s) (Some (k, p)) 0 /\ i < inodes st /\ locks st i = Some p
    | PExit => has_child st p Forked2 /\ exists k i, pid_fd x = Some (k, i, p)
    | PFail => childless st p /\ (pid_fd x = None \/ exists k i, pid_fd x = Some (k, i, p))
    | Exited e => (e = 0 /\ has_child st p Forked2) \/ (e = 1 /\ childless st p)
    | Killed => True
    | _ => False
    end
  | Forked2 =>
    watch x = WNone /\ mask x = 0%N /\ dir x = lit "/" /\ tty x = None /\ group x = parent x /\ session x = parent x /\ childless st p /\
    exists m ym l yl s, parent x = m /\ procs st m = Some ym /\ born ym = Forked1 /\ m < p /\
    parent ym = l /\ procs st l = Some yl /\ born yl = Started s /\ s_auto s = true /\ l < m /\
    match at_ x with
    | PTruncate | PSeek | PWrite _ | PNull | PDup _ _ | PClose _ | PUnlock =>
        exists k i, pid_fd x = Some (k, i, m) /\ 3 <= k /\ s_files s k = None /\ i < inodes st /\ locks st i = Some m /\
        match at_ x with
        | PTruncate => has x (s_files s) (Some (k, m)) 0
        | PSeek => has x (s_files s) (Some (k, m)) 0 /\ data st i = []
        | PWrite rest => has x (s_files s) (Some (k, m)) 0 /\ rest <> [] /\ data st i ++ rest = pid_text p /\ offset st m = length (data st i)
        | PNull => has x (s_files s) (Some (k, m)) 0 /\ data st i = pid_text p
        | PDup null t => data st i = pid_text p /\ 3 <= null /\ s_files s null = None /\ null <> k /\ t < 3 /\
            (forall n, files x n = if n =? null then Some (Null false) else tab (s_files s) (Some (k, m)) t n)
        | PClose null => data st i = pid_text p /\ 3 <= null /\ s_files s null = None /\ null <> k /\
            (forall n, files x n = if n =? null then Some (Null false) else tab (s_files s) (Some (k, m)) 3 n)
        | _ => data st i = pid_text p /\ has x (s_files s) (Some (k, m)) 3
        end
    | PStarting | PServe _ => pid_fd x = None /\ has x (s_files s) None 3
    | PFail => exists k i, pid_fd x = Some (k, i, m)
    | Exited e => e = 1
    | Killed => True
    | _ => False
    end
  end.

Record inv (st : world) : Prop := {
  i_low : others st <= next st;
  i_in : forall q y, procs st q = Some y -> others st <= q < next st;
  i_one : forall q q' y y', procs st q = Some y -> procs st q' = Some y' -> forked y -> forked y' -> parent y = parent y' -> q = q';
  i_name : forall i, name st = Some i -> i < inodes st;
  i_fine : forall q y, procs st q = Some y -> fine st q y
}.

(** ** Frames *)

Definition later (st st' : world) : Prop :=
  forall q y, procs st q = Some y -> exists y', procs st' q = Some y' /\ born y' = born y /\ parent y' = parent y /\
    group y' = group y /\ session y' = session y /\ (live y = false -> at_ y' = at_ y).
Definition no_new (st st' : world) (q : nat) : Prop :=
  forall r z, procs st' r = Some z -> forked z -> parent z = q -> exists z', procs st r = Some z' /\ forked z' /\ parent z' = q.

(** The description a process relies on. *)
Definition claims (x : process) (i d : nat) : Prop :=
  exists k, pid_fd x = Some (k, i, d) /\
  match born x, at_ x with
  | Forked1, PFork2 => True
  | Forked2, (PTruncate | PSeek | PWrite _ | PNull | PDup _ _ | PClose _ | PUnlock) => True
  | _, _ => False
  end.

Lemma childless_frame st st' q : no_new st st' q -> childless st q -> childless st' q.
Proof.
  intros N C r z R F E. destruct (N r z R F E) as (z' & Z1 & Z2 & Z3). exact (C r z' Z1 Z2 Z3).
Qed.
Lemma has_child_frame st st' q b : later st st' -> has_child st q b -> has_child st' q b.
Proof.
  intros L (c & y & C & B & P). destruct (L c y C) as (y' & C' & B' & P' & _). exists c, y'. repeat split; congruence.
Qed.

(** Of ids only the middle process changes its own, so [later] is too strong for it: *)
Lemma fine_frame st st' q y : fine st q y -> others st' = others st -> inodes st <= inodes st' -> no_new st st' q ->
  (forall r z, procs st r = Some z -> exists z', procs st' r = Some z' /\ born z' = born z /\ parent z' = parent z /\
     (forall s, born z = Started s -> group z' = group z /\ session z' = session z) /\ (live z = false -> at_ z' = at_ z)) ->
  (forall i d, claims y i d -> locks st' i = locks st i /\ data st' i = data st i /\ offset st' d = offset st d) ->
  fine st' q y.
Proof.
  intros F O I N L C. unfold fine in *. destruct (born y) as [s| |] eqn:B.
  - destruct F as (F1 & F2 & F3 & F4 & F5 & F6 & F). rewrite O. repeat (split; [assumption|]).
    destruct (at_ y); try contradiction; try (exact I0); try exact F;
      try (decompose [and] F; repeat split; try assumption; eapply childless_frame; eassumption).
    + destruct F as (F & z & Z1 & Z2 & Z3). split; [exact F|]. destruct (L _ _ Z1) as (z' & Z' & B' & P' & _).
      exists z'. repeat split; congruence.
    + destruct F as (F & [[E Ch]|(c & z & Z1 & Z2 & Z3 & Z4)]); (split; [exact F|]).
      * left. split; [exact E|]. eapply childless_frame; eassumption.
      * right. destruct (L _ _ Z1) as (z' & Z' & B' & P' & _ & Lv). exists c, z'. repeat split; try congruence.
        destruct Z4 as [Z4|[Z4 Z5]]; [left|right; split; [|exact Z5]]; rewrite Lv; auto; unfold live; rewrite Z4; reflexivity.
  - destruct F as (F1 & F2 & F3 & l & yl & s & P & Yl & Bl & A & Lt & G & F). repeat (split; [assumption|]).
    destruct (L _ _ Yl) as (yl' & Yl' & Bl' & _ & Gl & _). destruct (Gl s Bl) as (Gl1 & Gl2).
    exists l, yl', s. rewrite Gl1, Gl2. repeat (split; [assumption || congruence|]).
    destruct (at_ y) eqn:At; try contradiction; try exact F.
    + decompose [and] F. repeat split; try assumption. eapply childless_frame; eassumption.
    + decompose [and] F. repeat split; try assumption. eapply childless_frame; eassumption.
    + decompose [and] F. repeat split; try assumption. eapply childless_frame; eassumption.
    + destruct F as (E1 & E2 & E3 & Ch & k & i & K1 & K2 & K3 & K4 & K5). repeat (split; [assumption|]).
      split; [eapply childless_frame; eassumption|]. exists k, i. repeat split; try assumption. lia.
    + destruct F as (E1 & E2 & E3 & Ch & k & i & K1 & K2 & K3 & K4 & K5 & K6). repeat (split; [assumption|]).
      split; [eapply childless_frame; eassumption|]. destruct (C i q) as (C1 & _); [exists k; rewrite B, At; auto|].
      exists k, i. repeat split; try assumption; try lia. congruence.
    + destruct F as ((c & z & Z1 & Z2 & Z3) & F). split; [|exact F]. destruct (L _ _ Z1) as (z' & Z' & B' & P' & _).
      exists c, z'. repeat split; congruence.
    + destruct F as (Ch & F). split; [|exact F]. eapply childless_frame; eassumption.
    + destruct F as [[E (c & z & Z1 & Z2 & Z3)]|[E Ch]]; [left|right]; (split; [exact E|]).
      * destruct (L _ _ Z1) as (z' & Z' & B' & P' & _). exists c, z'. repeat split; congruence.
      * eapply childless_frame; eassumption.
  - destruct F as (F1 & F2 & F3 & F4 & F5 & F6 & Ch & m & ym & l & yl & s & P & Ym & Bm & Lm & Pm & Yl & Bl & A & Ll & F).
    repeat (split; [assumption|]). split; [eapply childless_frame; eassumption|].
    destruct (L _ _ Ym) as (ym' & Ym' & Bm' & Pm' & _). destruct (L _ _ Yl) as (yl' & Yl' & Bl' & _).
    exists m, ym', l, yl', s. repeat (split; [assumption || congruence|]).
    destruct (at_ y) eqn:At; try contradiction; try exact F.
    all: destruct F as (k & i & K1 & K2 & K3 & K4 & K5 & F);
      destruct (C i m) as (C1 & C2 & C3); [exists k; rewrite B, At; auto|];
      exists k, i; rewrite ?C1, ?C2, ?C3; repeat (split; [assumption || lia|]); exact F.
Qed.

(** ** Claims *)

Lemma claims_opener st p x i d : fine st p x -> claims x i d ->
  locks st i = Some d /\ i < inodes st /\
  ((born x = Forked1 /\ d = p /\ childless st p) \/ (born x = Forked2 /\ d = parent x)).
Proof.
  intros F (k & K & C). unfold fine in F. destruct (born x) eqn:B; [contradiction| |].
  - destruct (at_ x) eqn:A; try contradiction. destruct F as (_ & _ & _ & l & yl & s & _ & _ & _ & _ & _ & _ & _ & _ & _ & Ch & k' & i' & K1 & _ & _ & _ & K5 & K6).
    rewrite K in K1. injection K1 as <- <- ->. repeat split; auto.
  - destruct F as (_ & _ & _ & _ & _ & _ & _ & m & ym & l & yl & s & P & _ & _ & _ & _ & _ & _ & _ & _ & F).
    destruct (at_ x) eqn:A; try contradiction; destruct F as (k' & i' & K1 & _ & _ & K4 & K5 & _); rewrite K in K1; injection K1 as <- <- ->; repeat split; auto.
Qed.
Lemma claims_one st p x q y i i' d : inv st -> procs st p = Some x -> procs st q = Some y -> claims x i d -> claims y i' d -> p = q.
Proof.
  intros I P Q Cx Cy. destruct (claims_opener _ _ _ _ _ (i_fine _ I _ _ P) Cx) as (_ & _ & Ox).
  destruct (claims_opener _ _ _ _ _ (i_fine _ I _ _ Q) Cy) as (_ & _ & Oy).
  destruct Ox as [(Bx & Dx & Chx)|(Bx & Dx)], Oy as [(By & Dy & Chy)|(By & Dy)].
  - congruence.
  - exfalso. apply (Chx q y Q); [unfold forked; rewrite By; exact Logic.I|congruence].
  - exfalso. apply (Chy p x P); [unfold forked; rewrite Bx; exact Logic.I|congruence].
  - apply (i_one _ I p q x y P Q); unfold forked; rewrite ?Bx, ?By; try exact Logic.I. congruence.
Qed.

(** ** One process changes *)

Lemma inv_set st st' p x x' : inv st -> procs st p = Some x ->
  (forall q, procs st' q = upd (procs st) p (Some x') q) -> others st' = others st -> next st' = next st -> inodes st <= inodes st' ->
  (forall i, name st' = Some i -> i < inodes st') ->
  born x' = born x -> parent x' = parent x -> (forall s, born x = Started s -> group x' = group x /\ session x' = session x) ->
  live x = true ->
  (forall q y i d, q <> p -> procs st q = Some y -> claims y i d -> locks st' i = locks st i /\ data st' i = data st i /\ offset st' d = offset st d) ->
  fine st' p x' -> inv st'.
Proof.
  intros I P E O Nx In Nm B Pa G Lv C F.
  assert (E' : forall q y, procs st' q = Some y -> (q = p /\ y = x') \/ (q <> p /\ procs st q = Some y)).
  { intros q y Q. rewrite E in Q. unfold upd in Q. destruct (q =? p) eqn:D; [apply Nat.eqb_eq in D|apply Nat.eqb_neq in D]; [left|right]; split; congruence. }
  constructor.
  - rewrite O, Nx. apply (i_low _ I).
  - intros q y Q. rewrite O, Nx. destruct (E' q y Q) as [[-> ->]|[_ Q']]; [exact (i_in _ I _ _ P)|exact (i_in _ I _ _ Q')].
  - intros q q' y y' Q Q' Fy Fy' Pp. destruct (E' q y Q) as [[-> ->]|[_ Q1]], (E' q' y' Q') as [[-> ->]|[_ Q1']].
    + reflexivity.
    + apply (i_one _ I p q' x y' P Q1'); unfold forked in *; try assumption; rewrite ?B in *; congruence || assumption.
    + apply (i_one _ I q p y x Q1 P); unfold forked in *; try assumption; rewrite ?B in *; congruence || assumption.
    + exact (i_one _ I q q' y y' Q1 Q1' Fy Fy' Pp).
  - exact Nm.
  - intros q y Q. destruct (E' q y Q) as [[-> ->]|[Ne Q1]]; [exact F|].
    apply (fine_frame st st' q y (i_fine _ I _ _ Q1) O In).
    + intros r z R Fz Pz. destruct (E' r z R) as [[-> ->]|[_ R1]]; [|exists z; auto].
      exists x. repeat split; [exact P|unfold forked in *; rewrite <- B; exact Fz|congruence].
    + intros r z R. destruct (Nat.eq_dec r p) as [->|Nr].
      * rewrite P in R. injection R as <-. exists x'. rewrite E. unfold upd. rewrite Nat.eqb_refl. repeat (split; [assumption || reflexivity|]). intros Z. congruence.
      * exists z. rewrite E. unfold upd. apply Nat.eqb_neq in Nr. rewrite Nr. repeat split; auto.
    + intros i d Cl. exact (C q y i d Ne Q1 Cl).
Qed.

Lemma fine_put st p x x' : procs st p = Some x -> born x' = born x -> parent x' = parent x ->
  (forall s, born x = Started s -> group x' = group x /\ session x' = session x) -> live x = true ->
  fine st p x' -> fine (put st p x') p x'.
Proof.
  intros P B Pa G Lv F. apply (fine_frame st (put st p x') p x' F).
  - reflexivity.
  - cbn. lia.
  - intros r z R Fz Pz. cbn in R. unfold upd in R. destruct (r =? p) eqn:D.
    + apply Nat.eqb_eq in D. injection R as <-. subst r. exists x. repeat split; [exact P|unfold forked in *; rewrite <- B; exact Fz|congruence].
    + exists z. auto.
  - intros r z R. cbn. unfold upd. destruct (r =? p) eqn:D; [|exists z; repeat split; auto].
    apply Nat.eqb_eq in D. subst r. rewrite P in R. injection R as <-. exists x'. repeat (split; [assumption || reflexivity|]). intros Z. congruence.
  - auto.
Qed.
Lemma inv_put st p x x' : inv st -> procs st p = Some x -> born x' = born x -> parent x' = parent x ->
  (forall s, born x = Started s -> group x' = group x /\ session x' = session x) -> live x = true ->
  fine st p x' -> inv (put st p x').
Proof.
  intros I P B Pa G Lv F. apply (inv_set st (put st p x') p x x' I P); try reflexivity; auto.
  - exact (i_name _ I).
  - apply (fine_put st p x x'); assumption.
Qed.

(** With another change of the world first: [st1] is [st] but for locks and contents. *)
Lemma inv_put_after st st1 p x x' : inv st -> procs st p = Some x ->
  procs st1 = procs st -> others st1 = others st -> next st1 = next st -> inodes st <= inodes st1 ->
  (forall i, name st1 = Some i -> i < inodes st1) ->
  born x' = born x -> parent x' = parent x -> (forall s, born x = Started s -> group x' = group x /\ session x' = session x) -> live x = true ->
  (forall q y i d, q <> p -> procs st q = Some y -> claims y i d -> locks st1 i = locks st i /\ data st1 i = data st i /\ offset st1 d = offset st d) ->
  fine st1 p x' -> inv (put st1 p x').
Proof.
  intros I P E O Nx In Nm B Pa G Lv C F. apply (inv_set st (put st1 p x') p x x' I P); auto.
  - intros q. cbn. rewrite E. reflexivity.
  - apply (fine_put st1 p x x'); try assumption. rewrite E. exact P.
Qed.

(** ** Locks *)

Lemma unlock_same st i d : procs (unlock st i d) = procs st /\ others (unlock st i d) = others st /\ next (unlock st i d) = next st /\
  inodes (unlock st i d) = inodes st /\ name (unlock st i d) = name st /\ data (unlock st i d) = data st /\ offset (unlock st i d) = offset st /\ disk (unlock st i d) = disk st.
Proof. unfold unlock. destruct (locks st i) as [e|]; [destruct (e =? d)|]; repeat split; reflexivity. Qed.
Lemma unlock_other st i d j e : locks st j = Some e -> e <> d -> locks (unlock st i d) j = locks st j.
Proof.
  intros L N. unfold unlock. destruct (locks st i) as [f|] eqn:Li; [|reflexivity]. destruct (f =? d) eqn:D; [|reflexivity].
  cbn. unfold upd. destruct (j =? i) eqn:J; [|reflexivity]. apply Nat.eqb_eq in J, D. subst. congruence.
Qed.
Lemma unlock_elsewhere st i d j : j <> i -> locks (unlock st i d) j = locks st j.
Proof.
  intros N. unfold unlock. destruct (locks st i) as [f|]; [|reflexivity]. destruct (f =? d); [|reflexivity].
  cbn. unfold upd. apply Nat.eqb_neq in N. rewrite N. reflexivity.
Qed.
Lemma unlock_opener st d p x : inv st -> procs st p = Some x -> born x = Forked1 /\ d = p /\ childless st p \/ born x = Forked2 /\ d = parent x ->
  forall q y j e, q <> p -> procs st q = Some y -> claims y j e -> e <> d.
Proof.
  intros I P O q y j e N Q C ->. destruct (claims_opener _ _ _ _ _ (i_fine _ I _ _ Q) C) as (_ & _ & Oy).
  destruct O as [(Bx & Dx & Chx)|(Bx & Dx)], Oy as [(By & Dy & Chy)|(By & Dy)].
  - congruence.
  - apply (Chx q y Q); [unfold forked; rewrite By; exact Logic.I|congruence].
  - apply (Chy p x P); [unfold forked; rewrite Bx; exact Logic.I|congruence].
  - apply N. apply (i_one _ I q p y x Q P); unfold forked; rewrite ?Bx, ?By; try exact Logic.I. congruence.
Qed.

Lemma shared_in st p d q y k i : procs st q = Some y -> q < next st -> q <> p -> live y = true -> pid_fd y = Some (k, i, d) -> shared st p d = true.
Proof.
  intros Q L N Lv K. unfold shared. apply existsb_exists. exists q. split; [apply in_seq; lia|].
  rewrite Q, Lv, K, Nat.eqb_refl. apply Nat.eqb_neq in N. rewrite N. reflexivity.
Qed.
Lemma claims_live x i d : claims x i d -> live x = true.
Proof. intros (k & _ & C). unfold live. destruct (born x), (at_ x); try contradiction; reflexivity. Qed.

Lemma inv_finish st p x a : inv st -> procs st p = Some x -> live x = true -> (forall st1, procs st1 = procs st -> others st1 = others st -> inodes st1 = inodes st -> fine st1 p (go x a)) -> inv (finish st p x a).
Proof.
  intros I P Lv F. unfold finish. set (st1 := match pid_fd x with Some (_, i, d) => if shared st p d then st else unlock st i d | None => st end).
  assert (S1 : procs st1 = procs st /\ others st1 = others st /\ next st1 = next st /\ inodes st1 = inodes st /\ name st1 = name st /\ data st1 = data st /\ offset st1 = offset st).
  { unfold st1. destruct (pid_fd x) as [[[k i] d]|]; [|repeat split; reflexivity]. destruct (shared st p d); [repeat split; reflexivity|].
    destruct (unlock_same st i d) as (H1 & H2 & H3 & H4 & H5 & H6 & H7 & _). repeat split; assumption. }
  destruct S1 as (H1 & H2 & H3 & H4 & H5 & H6 & H7).
  apply (inv_put_after st st1 p x (go x a) I P); auto; try lia.
  - intros i Hi. rewrite H5 in Hi. rewrite H4. exact (i_name _ I _ Hi).
  - intros q y j e N Q C. rewrite H6, H7. split; [|auto].
    destruct (claims_opener _ _ _ _ _ (i_fine _ I _ _ Q) C) as (Lj & _ & _).
    unfold st1. destruct (pid_fd x) as [[[k i] d]|]; [|reflexivity]. destruct (shared st p d) eqn:Sh; [reflexivity|].
    apply (unlock_other st i d j e Lj). intros ->. destruct C as (k' & K & C').
    rewrite (shared_in st p d q y k' j Q (proj2 (i_in _ I _ _ Q)) N (claims_live _ _ _ (ex_intro _ k' (conj K C'))) K) in Sh. discriminate.
Qed.

(** ** Forks *)

Lemma inv_fork st p x pa b ca : inv st -> procs st p = Some x -> childless st p -> live x = true ->
  (match b with Started _ => False | _ => True end) ->
  fine (fork st p x pa b ca) p (go x pa) -> fine (fork st p x pa b ca) (next st) (child_of p x b ca) -> inv (fork st p x pa b ca).
Proof.
  intros I P Ch Lv B Fp Fc. set (st' := fork st p x pa b ca) in *.
  assert (New : procs st (next st) = None).
  { destruct (procs st (next st)) eqn:E; [|reflexivity]. destruct (i_in _ I _ _ E). lia. }
  assert (Np : p <> next st) by (intros ->; congruence).
  assert (E' : forall q y, procs st' q = Some y -> (q = next st /\ y = child_of p x b ca) \/ (q = p /\ y = go x pa) \/ (q <> p /\ q <> next st /\ procs st q = Some y)).
  { intros q y Q. cbn in Q. unfold upd in Q. destruct (q =? next st) eqn:D; [apply Nat.eqb_eq in D; left; split; congruence|].
    apply Nat.eqb_neq in D. right. destruct (q =? p) eqn:D'; [apply Nat.eqb_eq in D'; left; split; congruence|]. apply Nat.eqb_neq in D'. right. auto. }
  constructor.
  - cbn. pose proof (i_low _ I). lia.
  - intros q y Q. cbn [others next st' fork]. pose proof (i_low _ I). destruct (E' q y Q) as [[-> ->]|[[-> ->]|(_ & _ & Q')]]; [lia| |].
    + destruct (i_in _ I _ _ P). lia.
    + destruct (i_in _ I _ _ Q'). lia.
  - intros q q' y y' Q Q' Fy Fy' Pp.
    destruct (E' q y Q) as [[-> ->]|[[-> ->]|(_ & _ & Q1)]], (E' q' y' Q') as [[-> ->]|[[-> ->]|(_ & _ & Q1')]]; try reflexivity.
    + exfalso. exact (Ch p x P Fy' (eq_sym Pp)).
    + exfalso. exact (Ch q' y' Q1' Fy' (eq_sym Pp)).
    + exfalso. exact (Ch p x P Fy Pp).
    + exact (i_one _ I p q' x y' P Q1' Fy Fy' Pp).
    + exfalso. exact (Ch q y Q1 Fy Pp).
    + exact (i_one _ I q p y x Q1 P Fy Fy' Pp).
    + exact (i_one _ I q q' y y' Q1 Q1' Fy Fy' Pp).
  - exact (i_name _ I).
  - intros q y Q. destruct (E' q y Q) as [[-> ->]|[[-> ->]|(N1 & N2 & Q1)]]; [exact Fc|exact Fp|].
    apply (fine_frame st st' q y (i_fine _ I _ _ Q1)); [reflexivity|cbn; lia| | |auto].
    + intros r z R Fz Pz. destruct (E' r z R) as [[-> ->]|[[-> ->]|(_ & _ & R1)]].
      * exfalso. apply N1. symmetry. exact Pz.
      * exists x. auto.
      * exists z. auto.
    + intros r z R. cbn. unfold upd. destruct (r =? next st) eqn:D; [apply Nat.eqb_eq in D; congruence|].
      destruct (r =? p) eqn:D'; [|exists z; repeat split; auto]. apply Nat.eqb_eq in D'. subst r. rewrite P in R. injection R as <-.
      exists (go x pa). repeat (split; [reflexivity|]). split; [intros s Hs; split; reflexivity|]. intros Z. congruence.
Qed.

Lemma fork_old st p x pa b ca q y : inv st -> procs st q = Some y -> q <> p -> procs (fork st p x pa b ca) q = Some y.
Proof.
  intros I Q N. cbn. unfold upd. destruct (i_in _ I _ _ Q). assert (D : q <> next st) by lia. apply Nat.eqb_neq in N, D. rewrite N, D. exact Q.
Qed.
Lemma fork_self st p x pa b ca : inv st -> procs st p = Some x -> procs (fork st p x pa b ca) p = Some (go x pa).
Proof.
  intros I P. cbn. unfold upd. destruct (i_in _ I _ _ P). assert (D : p <> next st) by lia. apply Nat.eqb_neq in D. rewrite D, Nat.eqb_refl. reflexivity.
Qed.
Lemma fork_new st p x pa b ca : procs (fork st p x pa b ca) (next st) = Some (child_of p x b ca).
Proof. cbn. unfold upd. rewrite Nat.eqb_refl. reflexivity. Qed.
Lemma fork_childless st p x pa b ca : inv st -> procs st p = Some x -> p <> next st -> childless (fork st p x pa b ca) (next st).
Proof.
  intros I P N q y Q F E. cbn in Q. unfold upd in Q. destruct (q =? next st) eqn:D.
  - injection Q as <-. cbn in E. congruence.
  - assert (Q1 : exists y', procs st q = Some y' /\ parent y' = parent y /\ forked y').
    { destruct (q =? p) eqn:D'; [apply Nat.eqb_eq in D'; subst q; injection Q as <-; exists x; auto|exists y; auto]. }
    destruct Q1 as (y' & Q1 & Pq & Fq). pose proof (i_fine _ I _ _ Q1) as Fy. pose proof (i_in _ I _ _ Q1). unfold fine in Fy. unfold forked in Fq.
    destruct (born y') eqn:By; [contradiction| |].
    + destruct Fy as (_ & _ & _ & l & yl & s & Pl & _ & _ & _ & Lt & _). lia.
    + destruct Fy as (_ & _ & _ & _ & _ & _ & _ & m & ym & l & yl & s & Pm & _ & _ & Lt & _). lia.
Qed.

(** ** Descriptors *)

Lemma free_is_high f k m n : tab f k m n = None -> 3 <= n /\ f n = None /\ (forall j o, k = Some (j, o) -> n <> j).
Proof.
  unfold tab, sane. destruct (n <? m); [discriminate|]. intros H.
  assert (S : (match f n with Some x => Some x | None => if n <? 3 then Some (Null true) else None end) = None).
  { destruct k as [[j o]|]; [|exact H]. destruct (n =? j); [discriminate|exact H]. }
  destruct (f n) eqn:Fn; [discriminate|]. destruct (n <? 3) eqn:L; [discriminate|]. apply Nat.ltb_ge in L. repeat split; auto.
  intros j o -> ->. rewrite Nat.eqb_refl in H. discriminate.
Qed.
Lemma has_open x f n o g : has x f None 0 -> g = upd (files x) n (Some (PidFile o)) -> forall j, g j = tab f (Some (n, o)) 0 j.
Proof. intros H -> j. unfold upd, tab. cbn. destruct (j =? n); [reflexivity|]. rewrite H. reflexivity. Qed.
Lemma dup_next f k m null t g (h : table) : 3 <= null -> t < 3 -> (forall n, g n = if n =? null then Some (Null false) else tab f (Some (k, m)) t n) ->
  h = upd g t (g null) -> forall n, h n = if n =? null then Some (Null false) else tab f (Some (k, m)) (S t) n.
Proof.
  intros L T G -> n. unfold upd. destruct (n =? t) eqn:Nt.
  - apply Nat.eqb_eq in Nt. subst n. rewrite (G null), Nat.eqb_refl. replace (t =? null) with false by (symmetry; apply Nat.eqb_neq; lia).
    unfold tab. replace (t <? S t) with true by (symmetry; apply Nat.ltb_lt; lia). reflexivity.
  - rewrite G. destruct (n =? null); [reflexivity|]. unfold tab. apply Nat.eqb_neq in Nt.
    replace (n <? S t) with (n <? t); [reflexivity|]. destruct (n <? t) eqn:E; symmetry; [apply Nat.ltb_lt in E; apply Nat.ltb_lt; lia|apply Nat.ltb_ge in E; apply Nat.ltb_ge; lia].
Qed.
Lemma tab_close f k m null g h : 3 <= null -> f null = None -> null <> k ->
  (forall n, g n = if n =? null then Some (Null false) else tab f (Some (k, m)) 3 n) -> h = upd g null None -> forall n, h n = tab f (Some (k, m)) 3 n.
Proof.
  intros L Fn Nk G -> n. unfold upd. destruct (n =? null) eqn:E; [|rewrite G, E; reflexivity]. apply Nat.eqb_eq in E. subst n.
  unfold tab, sane. replace (null <? 3) with false by (symmetry; apply Nat.ltb_ge; lia). apply Nat.eqb_neq in Nk. rewrite Nk, Fn. reflexivity.
Qed.
Lemma tab_unlock f k m g h : 3 <= k -> f k = None -> (forall n, g n = tab f (Some (k, m)) 3 n) -> h = upd g k None -> forall n, h n = tab f None 3 n.
Proof.
  intros L Fk G -> n. unfold upd. destruct (n =? k) eqn:E.
  - apply Nat.eqb_eq in E. subst n. unfold tab, sane. replace (k <? 3) with false by (symmetry; apply Nat.ltb_ge; lia). rewrite Fk. reflexivity.
  - rewrite G. unfold tab. rewrite E. reflexivity.
Qed.

(** ** Writing *)

Lemma write_append old bs : write_at old (length old) bs = old ++ bs.
Proof.
  unfold write_at. rewrite Nat.sub_diag. cbn [repeat]. rewrite app_nil_r, firstn_all, skipn_all2 by lia. rewrite app_nil_r. reflexivity.
Qed.
Lemma pid_text_some p : pid_text p <> [].
Proof. unfold pid_text. destruct (integer (Z.of_nat p)); discriminate. Qed.

(** ** Every turn *)

Ltac sp := repeat (split; [first [assumption | reflexivity]|]); first [assumption | reflexivity | solve [auto]].

Ltac flds := cbn [born parent group session tty files dir mask pid_fd config watch changed log_held config_held at_ go with_files with_pid with_env with_ids with_mind child_of
  procs others next name inodes data offset locks disk put with_locks with_data].
Ltac lv := unfold live; match goal with A : at_ _ = _ |- _ => rewrite A; reflexivity end.
Ltac quiet I P := apply (inv_put _ _ _ _ I P); [reflexivity|reflexivity|intros ? ?; split; reflexivity|lv|unfold fine; flds].

Lemma inv_turn st p ok n : inv st -> inv (turn st p ok n).
Proof.
  intros I. unfold turn. destruct (procs st p) as [x|] eqn:P; [|exact I]. pose proof (i_fine _ I _ _ P) as F.
  destruct (at_ x) as [auto| | | |c| | | | | | | | |rest| |null t|null| | |a| |e|] eqn:A; unfold fine in F; rewrite A in F; try exact I.
  - (* PRuntime *) destruct (born x) as [s| |] eqn:B; [|exfalso; decompose [and ex] F; assumption|exfalso; decompose [and ex] F; assumption].
    destruct F as (F1 & F2 & F3 & F4 & F5 & F6 & Fa & Ff & Fd & Fm & Ch).
    assert (H : forall j, sane (files x) j = tab (s_files s) None 0 j) by (intros j; unfold tab, sane; cbn; rewrite Ff; reflexivity).
    quiet I P. rewrite B. repeat (split; [assumption|]). subst auto. destruct (s_auto s) eqn:Au; sp.
  - (* PUmask *) destruct (log_held x); [exact I|]. destruct (born x) as [s| |] eqn:B; [|exfalso; decompose [and ex] F; assumption|exfalso; decompose [and ex] F; assumption].
    quiet I P. rewrite B. decompose [and] F. sp.
  - (* PChdir *) destruct (born x) as [s| |] eqn:B; [|exfalso; decompose [and ex] F; assumption|exfalso; decompose [and ex] F; assumption].
    destruct ok; quiet I P; rewrite B; decompose [and] F; sp.
  - (* PFork1 *) destruct (born x) as [s| |] eqn:B; [|exfalso; decompose [and ex] F; assumption|exfalso; decompose [and ex] F; assumption].
    destruct F as (F1 & F2 & F3 & F4 & F5 & F6 & Fa & Ff & Fm & Fd & Ch).
    destruct ok; [|quiet I P; rewrite B; sp].
    assert (Np : p <> next st) by (destruct (i_in _ I _ _ P); lia).
    apply inv_fork; auto; [lv| |].
    + unfold fine. flds. rewrite B. repeat (split; [assumption|]). exists (child_of p x Forked1 PSetsid). rewrite fork_new. auto.
    + unfold fine. flds. split; [reflexivity|]. split; [exact Fm|]. split; [exact Fd|].
      exists p, (go x (PWait (next st))), s. rewrite (fork_self st p x _ _ _ I P). flds.
      destruct (i_in _ I _ _ P). repeat (split; [reflexivity || assumption || (right; split; reflexivity)|]).
      apply (fork_childless _ _ _ _ _ _ I P Np).
  - (* PWait *) destruct (born x) as [s| |] eqn:B; [|exfalso; decompose [and ex] F; assumption|exfalso; decompose [and ex] F; assumption].
    destruct F as (F1 & F2 & F3 & F4 & F5 & F6 & Fa & y & Y & By & Py). rewrite Y.
    destruct (at_ y) eqn:Ay; try exact I; (apply inv_finish; [exact I|exact P|lv|]); intros st1 E1 E2 E3; unfold fine; flds; rewrite B, E2, E1;
      repeat (split; [assumption|]); right; exists c, y; repeat (split; [assumption|]); auto.
  - (* PSetsid *) destruct (born x) as [s| |] eqn:B; [exfalso; decompose [and ex] F; assumption| |exfalso; decompose [and ex] F; assumption].
    destruct F as (F1 & F2 & F3 & l & yl & s & Pl & Yl & Bl & Fa & Lt & G & Ge & Ff & K & Ch).
    destruct (negb ok || (group x =? p)).
    + quiet I P. rewrite B. repeat (split; [assumption|]). exists l, yl, s. repeat (split; [assumption|]). auto.
    + apply (inv_put _ _ _ _ I P); [reflexivity|reflexivity|intros s0 E0; congruence|lv|unfold fine; flds]. rewrite B. repeat (split; [assumption|]). exists l, yl, s.
      repeat (split; [assumption || (left; auto)|]). sp.
  - (* PLogSid *) destruct (log_held x); [exact I|]. destruct (born x) as [s| |] eqn:B; [exfalso; decompose [and ex] F; assumption| |exfalso; decompose [and ex] F; assumption].
    quiet I P. rewrite B. exact F.
  - (* POpen *) destruct (born x) as [s| |] eqn:B; [exfalso; decompose [and ex] F; assumption| |exfalso; decompose [and ex] F; assumption].
    destruct F as (F1 & F2 & F3 & l & yl & s & Pl & Yl & Bl & Fa & Lt & G & Ge & Gs & Gt & Ff & K & Ch).
    assert (Fail : inv (put st p (go x PFail))).
    { quiet I P. rewrite B. repeat (split; [assumption|]). exists l, yl, s. repeat (split; [assumption|]). auto. }
    destruct ok; [|exact Fail]. destruct (files x n) eqn:Fn; [exact Fail|].
    rewrite Ff in Fn. destruct (free_is_high _ _ _ _ Fn) as (H1 & H2 & _).
    set (i := match name st with Some i => i | None => inodes st end).
    apply (inv_put_after st _ p x _ I P); flds; try reflexivity; [destruct (name st); lia| |intros s0 E0; congruence|lv| |].
    + intros j Hj. injection Hj as <-. unfold i. destruct (name st) eqn:Nm; [exact (i_name _ I _ Nm)|lia].
    + intros q y j d N Q C. destruct (claims_opener _ _ _ _ _ (i_fine _ I _ _ Q) C) as (_ & Lj & O). repeat split.
      * unfold i. destruct (name st); [reflexivity|]. unfold upd. replace (j =? inodes st) with false by (symmetry; apply Nat.eqb_neq; lia). reflexivity.
      * unfold upd. destruct (d =? p) eqn:D; [|reflexivity]. apply Nat.eqb_eq in D. exfalso. destruct O as [(_ & O & _)|(By & O)]; [congruence|].
        apply (Ch q y Q); [unfold forked; rewrite By; exact Logic.I|congruence].
    + unfold fine. flds. rewrite B. repeat (split; [assumption|]). exists l, yl, s. repeat (split; [assumption|]).
      exists n, i. repeat (split; [assumption || reflexivity|]). split; [exact (has_open x _ _ _ _ Ff eq_refl)|].
      unfold i. destruct (name st) eqn:Nm; [exact (i_name _ I _ Nm)|lia].
  - (* PLock *) destruct (born x) as [s| |] eqn:B; [exfalso; decompose [and ex] F; assumption| |exfalso; decompose [and ex] F; assumption].
    destruct F as (F1 & F2 & F3 & l & yl & s & Pl & Yl & Bl & Fa & Lt & G & Ge & Gs & Gt & Ch & k & i & K & K1 & K2 & Ff & Ki). rewrite K.
    destruct (negb ok || match locks st i with Some e => negb (e =? p) | None => false end) eqn:C.
    + quiet I P. rewrite B. repeat (split; [assumption|]). exists l, yl, s. repeat (split; [assumption|]). eauto.
    + apply (inv_put_after st _ p x _ I P); flds; try reflexivity; [exact (i_name _ I)|intros s0 E0; congruence|lv| |].
      * intros q y j d N Q Cl. repeat split. unfold upd. destruct (j =? i) eqn:J; [|reflexivity]. apply Nat.eqb_eq in J. subst j. exfalso.
        destruct (claims_opener _ _ _ _ _ (i_fine _ I _ _ Q) Cl) as (Lj & _ & O). rewrite Lj in C.
        destruct (d =? p) eqn:D; [|destruct ok; discriminate]. apply Nat.eqb_eq in D. destruct O as [(_ & O & _)|(By & O)]; [congruence|].
        apply (Ch q y Q); [unfold forked; rewrite By; exact Logic.I|congruence].
      * unfold fine. flds. rewrite B. repeat (split; [assumption|]). exists l, yl, s. repeat (split; [assumption|]).
        exists k, i. repeat (split; [assumption|]). unfold upd. rewrite Nat.eqb_refl. reflexivity.
  - (* PFork2 *) destruct (born x) as [s| |] eqn:B; [exfalso; decompose [and ex] F; assumption| |exfalso; decompose [and ex] F; assumption].
    destruct F as (F1 & F2 & F3 & l & yl & s & Pl & Yl & Bl & Fa & Lt & G & Ge & Gs & Gt & Ch & k & i & K & K1 & K2 & Ff & Ki & Kl).
    destruct ok.
    2:{ quiet I P. rewrite B. repeat (split; [assumption|]). exists l, yl, s. repeat (split; [assumption|]). eauto. }
    assert (Np : p <> next st) by (destruct (i_in _ I _ _ P); lia).
    assert (Nl : l <> p) by lia.
    apply inv_fork; auto; [lv| |].
    + unfold fine. flds. rewrite B. repeat (split; [assumption|]). exists l, yl, s. rewrite (fork_old st p x _ _ _ l yl I Yl Nl).
      repeat (split; [assumption || reflexivity|]). split; [unfold has_child|eauto]. exists (next st), (child_of p x Forked2 PTruncate). rewrite fork_new. auto.
    + unfold fine. flds. repeat (split; [reflexivity || assumption|]). split; [exact (fork_childless _ _ _ _ _ _ I P Np)|].
      exists p, (go x PExit), l, yl, s. rewrite (fork_self st p x _ _ _ I P), (fork_old st p x _ _ _ l yl I Yl Nl). flds.
      destruct (i_in _ I _ _ P). repeat (split; [reflexivity || assumption|]). exists k, i. repeat (split; [assumption|]). exact Ff.
  - (* PExit *) destruct (born x) as [s| |] eqn:B; [exfalso; decompose [and ex] F; assumption| |exfalso; decompose [and ex] F; assumption].
    destruct F as (F1 & F2 & F3 & l & yl & s & Pl & Yl & Bl & Fa & Lt & G & (c & z & Z1 & Z2 & Z3) & _).
    apply inv_finish; [exact I|exact P|lv|]. intros st1 E1 E2 E3. unfold fine. flds. rewrite B. repeat (split; [assumption|]). exists l, yl, s. rewrite E1.
    repeat (split; [assumption|]). left. split; [reflexivity|]. exists c, z. rewrite E1. auto.
  - (* PTruncate *) destruct (born x) as [s| |] eqn:B; [exfalso; decompose [and ex] F; assumption|exfalso; decompose [and ex] F; assumption|].
    destruct F as (F1 & F2 & F3 & F4 & F5 & F6 & Ch & m & ym & l & yl & s & Pm & Ym & Bm & Lm & Pl & Yl & Bl & Fa & Ll & k & i & K & K1 & K2 & Ki & Kl & Ff). rewrite K.
    destruct ok.
    2:{ quiet I P. rewrite B. repeat (split; [assumption|]). exists m, ym, l, yl, s. repeat (split; [assumption|]). eauto. }
    assert (Cx : claims x i m) by (exists k; rewrite B, A; auto).
    apply (inv_put_after st _ p x _ I P); flds; try reflexivity; [exact (i_name _ I)|intros s0 E0; congruence|lv| |].
    + intros q y j d N Q Cl. repeat split. unfold upd. destruct (j =? i) eqn:J; [|reflexivity]. apply Nat.eqb_eq in J. subst j. exfalso.
      destruct (claims_opener _ _ _ _ _ (i_fine _ I _ _ Q) Cl) as (Lj & _ & _). assert (d = m) by congruence. subst d.
      apply N. symmetry. exact (claims_one st p x q y i i m I P Q Cx Cl).
    + unfold fine. flds. rewrite B. repeat (split; [assumption|]). exists m, ym, l, yl, s. repeat (split; [assumption|]).
      exists k, i. repeat (split; [assumption|]). unfold upd. rewrite Nat.eqb_refl. reflexivity.
  - (* PSeek *) destruct (born x) as [s| |] eqn:B; [exfalso; decompose [and ex] F; assumption|exfalso; decompose [and ex] F; assumption|].
    destruct F as (F1 & F2 & F3 & F4 & F5 & F6 & Ch & m & ym & l & yl & s & Pm & Ym & Bm & Lm & Pl & Yl & Bl & Fa & Ll & k & i & K & K1 & K2 & Ki & Kl & Ff & Fe). rewrite K.
    destruct ok.
    2:{ quiet I P. rewrite B. repeat (split; [assumption|]). exists m, ym, l, yl, s. repeat (split; [assumption|]). eauto. }
    assert (Cx : claims x i m) by (exists k; rewrite B, A; auto).
    apply (inv_put_after st _ p x _ I P); flds; try reflexivity; [exact (i_name _ I)|intros s0 E0; congruence|lv| |].
    + intros q y j d N Q Cl. repeat split. unfold upd. destruct (d =? m) eqn:J; [|reflexivity]. apply Nat.eqb_eq in J. subst d. exfalso.
      apply N. symmetry. exact (claims_one st p x q y i j m I P Q Cx Cl).
    + unfold fine. flds. rewrite B. repeat (split; [assumption|]). exists m, ym, l, yl, s. repeat (split; [assumption|]).
      exists k, i. repeat (split; [assumption|]). split; [apply pid_text_some|]. rewrite Fe. split; [reflexivity|]. unfold upd. rewrite Nat.eqb_refl. reflexivity.
  - (* PWrite *) destruct (born x) as [s| |] eqn:B; [exfalso; decompose [and ex] F; assumption|exfalso; decompose [and ex] F; assumption|].
    destruct F as (F1 & F2 & F3 & F4 & F5 & F6 & Ch & m & ym & l & yl & s & Pm & Ym & Bm & Lm & Pl & Yl & Bl & Fa & Ll & k & i & K & K1 & K2 & Ki & Kl & Ff & Fr & Fe & Fo). rewrite K.
    destruct ok.
    2:{ quiet I P. rewrite B. repeat (split; [assumption|]). exists m, ym, l, yl, s. repeat (split; [assumption|]). eauto. }
    assert (Cx : claims x i m) by (exists k; rewrite B, A; auto).
    rewrite Fo, write_append.
    apply (inv_put_after st _ p x _ I P); flds; try reflexivity; [exact (i_name _ I)|intros s0 E0; congruence|lv| |].
    + intros q y j d N Q Cl. assert (Nd : d <> m) by (intros ->; apply N; symmetry; exact (claims_one st p x q y i j m I P Q Cx Cl)). repeat split.
      * unfold upd. destruct (j =? i) eqn:J; [|reflexivity]. apply Nat.eqb_eq in J. subst j. exfalso.
        destruct (claims_opener _ _ _ _ _ (i_fine _ I _ _ Q) Cl) as (Lj & _ & _). congruence.
      * unfold upd. apply Nat.eqb_neq in Nd. rewrite Nd. reflexivity.
    + unfold fine. flds. rewrite B. repeat (split; [assumption|]). exists m, ym, l, yl, s. repeat (split; [assumption|]).
      assert (Q : firstn (S n) rest ++ skipn (S n) rest = rest) by apply firstn_skipn.
      destruct (skipn (S n) rest) as [|b0 more] eqn:Sk.
      * exists k, i. repeat (split; [assumption|]). unfold upd. rewrite Nat.eqb_refl. rewrite app_nil_r in Q. rewrite Q. exact Fe.
      * exists k, i. repeat (split; [assumption|]). unfold upd. rewrite Nat.eqb_refl. split; [discriminate|].
        rewrite <- app_assoc, Q. split; [exact Fe|]. rewrite Nat.eqb_refl, app_length. reflexivity.
  - (* PNull *) destruct (born x) as [s| |] eqn:B; [exfalso; decompose [and ex] F; assumption|exfalso; decompose [and ex] F; assumption|].
    destruct F as (F1 & F2 & F3 & F4 & F5 & F6 & Ch & m & ym & l & yl & s & Pm & Ym & Bm & Lm & Pl & Yl & Bl & Fa & Ll & k & i & K & K1 & K2 & Ki & Kl & Ff & Fe).
    assert (Fail : inv (put st p (go x PFail))).
    { quiet I P. rewrite B. repeat (split; [assumption|]). exists m, ym, l, yl, s. repeat (split; [assumption|]). eauto. }
    destruct ok; [|exact Fail]. destruct (files x n) eqn:Fn; [exact Fail|]. rewrite Ff in Fn. destruct (free_is_high _ _ _ _ Fn) as (H1 & H2 & H3).
    quiet I P. rewrite B. repeat (split; [assumption|]). exists m, ym, l, yl, s. repeat (split; [assumption|]).
    exists k, i. repeat (split; [assumption|]). split; [exact (H3 k m eq_refl)|]. split; [lia|].
    intros j. unfold upd. destruct (j =? n); [reflexivity|apply Ff].
  - (* PDup *) destruct (born x) as [s| |] eqn:B; [exfalso; decompose [and ex] F; assumption|exfalso; decompose [and ex] F; assumption|].
    destruct F as (F1 & F2 & F3 & F4 & F5 & F6 & Ch & m & ym & l & yl & s & Pm & Ym & Bm & Lm & Pl & Yl & Bl & Fa & Ll & k & i & K & K1 & K2 & Ki & Kl & Fe & H1 & H2 & H3 & Ht & Ff).
    destruct ok.
    2:{ quiet I P. rewrite B. repeat (split; [assumption|]). exists m, ym, l, yl, s. repeat (split; [assumption|]). eauto. }
    pose proof (dup_next _ _ _ _ _ _ _ H1 Ht Ff eq_refl) as D.
    destruct (t <? 2) eqn:T; [apply Nat.ltb_lt in T|apply Nat.ltb_ge in T; replace (S t) with 3 in D by lia]; quiet I P; rewrite B; repeat (split; [assumption|]); exists m, ym, l, yl, s; repeat (split; [assumption|]);
      exists k, i; repeat (split; [assumption || lia|]); exact D.
  - (* PClose *) destruct (born x) as [s| |] eqn:B; [exfalso; decompose [and ex] F; assumption|exfalso; decompose [and ex] F; assumption|].
    destruct F as (F1 & F2 & F3 & F4 & F5 & F6 & Ch & m & ym & l & yl & s & Pm & Ym & Bm & Lm & Pl & Yl & Bl & Fa & Ll & k & i & K & K1 & K2 & Ki & Kl & Fe & H1 & H2 & H3 & Ff).
    quiet I P. rewrite B. repeat (split; [assumption|]). exists m, ym, l, yl, s. repeat (split; [assumption|]). exists k, i. repeat (split; [assumption|]).
    exact (tab_close _ _ _ _ _ _ H1 H2 H3 Ff eq_refl).
  - (* PUnlock *) destruct (born x) as [s| |] eqn:B; [exfalso; decompose [and ex] F; assumption|exfalso; decompose [and ex] F; assumption|].
    destruct F as (F1 & F2 & F3 & F4 & F5 & F6 & Ch & m & ym & l & yl & s & Pm & Ym & Bm & Lm & Pl & Yl & Bl & Fa & Ll & k & i & K & K1 & K2 & Ki & Kl & Fe & Ff). rewrite K.
    destruct (unlock_same st i m) as (U1 & U2 & U3 & U4 & U5 & U6 & U7 & _).
    apply (inv_put_after st _ p x _ I P); flds; try assumption; try reflexivity; [lia|rewrite U4, U5; exact (i_name _ I)|intros s0 E0; congruence|lv| |].
    + intros q y j d N Q Cl. rewrite U6, U7. repeat split. destruct (claims_opener _ _ _ _ _ (i_fine _ I _ _ Q) Cl) as (Lj & _ & _).
      apply (unlock_other st i m j d Lj). exact (unlock_opener st m p x I P (or_intror (conj B (eq_sym Pm))) q y j d N Q Cl).
    + unfold fine. flds. rewrite B. repeat (split; [assumption|]). split.
      { intros q y Q. rewrite U1 in Q. exact (Ch q y Q). }
      exists m, ym, l, yl, s. rewrite U1. repeat (split; [assumption || reflexivity|]). exact (tab_unlock _ _ _ _ _ K1 K2 Ff eq_refl).
  - (* PStarting *) destruct (log_held x); [exact I|]. quiet I P. destruct (born x) as [s| |] eqn:B; exact F.
  - (* PServe *) destruct (log_held x || config_held x); [exact I|]. quiet I P. destruct (born x) as [s| |] eqn:B; exact F.
  - (* PFail *) destruct (log_held x); [exact I|]. destruct (born x) as [s| |] eqn:B.
    + destruct F as (F1 & F2 & F3 & F4 & F5 & F6 & Fa & Ch). rewrite F1. quiet I P. rewrite B. repeat (split; [assumption|]). auto.
    + destruct F as (F1 & F2 & F3 & l & yl & s & Pl & Yl & Bl & Fa & Lt & G & Ch & [K|(k & i & K)]); rewrite K.
      * quiet I P. rewrite B. repeat (split; [assumption|]). exists l, yl, s. repeat (split; [assumption|]). auto.
      * destruct (unlock_same st i p) as (U1 & U2 & U3 & U4 & U5 & U6 & U7 & _).
        apply (inv_put_after st _ p x _ I P); flds; try assumption; try reflexivity; [lia|rewrite U4, U5; exact (i_name _ I)|auto|lv| |].
        -- intros q y j d N Q Cl. rewrite U6, U7. repeat split. destruct (claims_opener _ _ _ _ _ (i_fine _ I _ _ Q) Cl) as (Lj & _ & _).
           apply (unlock_other st i p j d Lj). exact (unlock_opener st p p x I P (or_introl (conj B (conj eq_refl Ch))) q y j d N Q Cl).
        -- unfold fine. flds. rewrite B. repeat (split; [assumption|]). exists l, yl, s. rewrite U1. repeat (split; [assumption|]). right. split; [reflexivity|].
           intros q y Q. rewrite U1 in Q. exact (Ch q y Q).
    + destruct F as (F1 & F2 & F3 & F4 & F5 & F6 & Ch & m & ym & l & yl & s & Pm & Ym & Bm & Lm & Pl & Yl & Bl & Fa & Ll & k & i & K). rewrite K.
      destruct (unlock_same st i m) as (U1 & U2 & U3 & U4 & U5 & U6 & U7 & _).
      apply (inv_put_after st _ p x _ I P); flds; try assumption; try reflexivity; [lia|rewrite U4, U5; exact (i_name _ I)|auto|lv| |].
      * intros q y j d N Q Cl. rewrite U6, U7. repeat split. destruct (claims_opener _ _ _ _ _ (i_fine _ I _ _ Q) Cl) as (Lj & _ & _).
        apply (unlock_other st i m j d Lj). exact (unlock_opener st m p x I P (or_intror (conj B (eq_sym Pm))) q y j d N Q Cl).
      * unfold fine. flds. rewrite B. repeat (split; [assumption|]). split.
        { intros q y Q. rewrite U1 in Q. exact (Ch q y Q). }
        exists m, ym, l, yl, s. rewrite U1. repeat (split; [assumption || reflexivity|]). reflexivity.
Qed.

(** ** The other actions *)

Lemma fine_mind st p x c w ch lh chh : fine st p x -> (forked x -> w = WNone) -> fine st p (with_mind x c w ch lh chh).
Proof.
  unfold fine, forked. intros F W. flds. destruct (born x) as [s| |]; [exact F| |].
  - destruct F as (_ & F). split; [exact (W Logic.I)|exact F].
  - destruct F as (_ & F). split; [exact (W Logic.I)|exact F].
Qed.
Lemma forked_alone st p x : inv st -> procs st p = Some x -> forked x -> watch x = WNone.
Proof.
  intros I P F. pose proof (i_fine _ I _ _ P) as Fx. unfold fine in Fx. unfold forked in F. destruct (born x); [contradiction| |]; apply Fx.
Qed.

Lemma inv_watch st p log : inv st -> inv (watch_turn st p log).
Proof.
  intros I. unfold watch_turn. destruct (procs st p) as [x|] eqn:P; [|exact I]. destruct (live x) eqn:Lv; [cbn [negb]|exact I].
  assert (K : watch x <> WNone -> forall c w ch lh chh, inv (put st p (with_mind x c w ch lh chh))).
  { intros N c w ch lh chh. apply (inv_put _ _ _ _ I P); try reflexivity; [intros ? ?; split; reflexivity|exact Lv|].
    apply fine_mind; [exact (i_fine _ I _ _ P)|]. intros Fk. exfalso. exact (N (forked_alone _ _ _ I P Fk)). }
  destruct (watch x) eqn:W; try exact I; try (apply K; discriminate).
  - destruct (changed x); [apply K; discriminate|exact I].
  - destruct log; apply K; discriminate.
Qed.

Lemma inv_edit st n : inv st -> inv (step st (Edit n)).
Proof.
  intros I. cbn. set (f := fun x => with_mind x (config x) (watch x) true (log_held x) (config_held x)). set (st' := mkWorld _ _ _ _ _ _ _ _ _).
  assert (E : forall q y, procs st' q = Some y -> exists z, procs st q = Some z /\ y = f z).
  { intros q y Q. cbn in Q. destruct (procs st q) as [z|]; [|discriminate]. injection Q as <-. exists z. auto. }
  constructor.
  - exact (i_low _ I).
  - intros q y Q. destruct (E q y Q) as (z & Z & _). exact (i_in _ I _ _ Z).
  - intros q q' y y' Q Q' Fy Fy' Pp. destruct (E q y Q) as (z & Z & ->), (E q' y' Q') as (z' & Z' & ->).
    exact (i_one _ I q q' z z' Z Z' Fy Fy' Pp).
  - exact (i_name _ I).
  - intros q y Q. destruct (E q y Q) as (z & Z & ->). apply (fine_frame st st' q (f z)); [|reflexivity|cbn; lia| | |auto].
    + apply fine_mind; [exact (i_fine _ I _ _ Z)|]. intros Fk. exact (forked_alone _ _ _ I Z Fk).
    + intros r y R Fy Py. destruct (E r y R) as (z' & Z' & ->). exists z'. auto.
    + intros r y R. exists (f y). cbn. rewrite R. repeat split; auto.
Qed.

Lemma serve_not_leader st p x a : inv st -> procs st p = Some x -> at_ x = PServe a -> session x <> p.
Proof.
  intros I P A. pose proof (i_fine _ I _ _ P) as F. pose proof (i_in _ I _ _ P) as B. unfold fine in F. rewrite A in F. destruct (born x) as [s| |].
  - destruct F as (_ & _ & F3 & _ & _ & F6 & _). lia.
  - exfalso. decompose [and ex] F. assumption.
  - destruct F as (_ & _ & _ & _ & _ & F6 & _ & m & ym & l & yl & s & Pm & _ & _ & Lt & _). lia.
Qed.
Lemma open_tty_nothing st p t : inv st -> step st (OpenTty p t) = st.
Proof.
  intros I. cbn. destruct (procs st p) as [x|] eqn:P; [|reflexivity]. destruct (at_ x) eqn:A; try reflexivity. destruct (tty x); [reflexivity|].
  destruct (session x =? p) eqn:E; [|reflexivity]. apply Nat.eqb_eq in E. exfalso. exact (serve_not_leader _ _ _ _ I P A E).
Qed.

Lemma inv_start st s : inv st -> inv (step st (Start s)).
Proof.
  intros I. cbn [step]. destruct ((s_group s <? others st) && (s_session s <? others st)) eqn:G; [cbn [negb]|exact I].
  apply andb_true_iff in G. destruct G as [G1 G2]. apply Nat.ltb_lt in G1, G2. set (st' := mkWorld _ _ _ _ _ _ _ _ _).
  assert (New : procs st (next st) = None).
  { destruct (procs st (next st)) eqn:E; [|reflexivity]. destruct (i_in _ I _ _ E). lia. }
  assert (E' : forall q y, procs st' q = Some y -> (q = next st /\ y = started (next st) (disk st) s) \/ (q <> next st /\ procs st q = Some y)).
  { intros q y Q. cbn in Q. unfold upd in Q. destruct (q =? next st) eqn:D; [apply Nat.eqb_eq in D; left; split; congruence|]. apply Nat.eqb_neq in D. auto. }
  pose proof (i_low _ I) as Low. constructor.
  - cbn. lia.
  - intros q y Q. cbn [others next st']. destruct (E' q y Q) as [[-> ->]|[_ Q']]; [lia|]. destruct (i_in _ I _ _ Q'). lia.
  - intros q q' y y' Q Q' Fy Fy' Pp. destruct (E' q y Q) as [[-> ->]|[_ Q1]]; [destruct Fy|]. destruct (E' q' y' Q') as [[-> ->]|[_ Q1']]; [destruct Fy'|].
    exact (i_one _ I q q' y y' Q1 Q1' Fy Fy' Pp).
  - exact (i_name _ I).
  - intros q y Q. destruct (E' q y Q) as [[-> ->]|[N Q1]].
    + unfold fine. cbn [started born pid_fd group session tty at_ files dir mask]. cbn [others st']. repeat (split; [reflexivity || assumption|]).
      intros r z R Fz Pz. destruct (E' r z R) as [[-> ->]|[_ R1]]; [destruct Fz|]. pose proof (i_fine _ I _ _ R1) as Fr. pose proof (i_in _ I _ _ R1).
      unfold fine in Fr. unfold forked in Fz. destruct (born z); [contradiction| |].
      * destruct Fr as (_ & _ & _ & l & yl & s0 & Pl & _ & _ & _ & Lt & _). lia.
      * destruct Fr as (_ & _ & _ & _ & _ & _ & _ & m & ym & l & yl & s0 & Pm & _ & _ & Lt & _). lia.
    + apply (fine_frame st st' q y (i_fine _ I _ _ Q1)); [reflexivity|cbn; lia| | |auto].
      * intros r z R Fz Pz. destruct (E' r z R) as [[-> ->]|[_ R1]]; [destruct Fz|]. exists z. auto.
      * intros r z R. exists z. cbn. unfold upd. destruct (r =? next st) eqn:D; [apply Nat.eqb_eq in D; congruence|]. repeat split; auto.
Qed.

Lemma inv_kill st p : inv st -> inv (step st (Kill p)).
Proof.
  intros I. cbn. destruct (procs st p) as [x|] eqn:P; [|exact I]. destruct (live x) eqn:Lv; [|exact I].
  apply inv_finish; [exact I|exact P|exact Lv|]. intros st1 E1 E2 E3. pose proof (i_fine _ I _ _ P) as F. unfold fine in *. flds.
  destruct (born x) as [s| |] eqn:B.
  - destruct F as (F1 & F2 & F3 & F4 & F5 & F6 & _). rewrite E2. repeat (split; [assumption|]). exact Logic.I.
  - destruct F as (F1 & F2 & F3 & l & yl & s & Pl & Yl & Bl & Fa & Lt & G & _). repeat (split; [assumption|]). exists l, yl, s. rewrite E1. repeat (split; [assumption|]). exact Logic.I.
  - destruct F as (F1 & F2 & F3 & F4 & F5 & F6 & Ch & m & ym & l & yl & s & Pm & Ym & Bm & Lm & Pl & Yl & Bl & Fa & Ll & _).
    repeat (split; [assumption|]). split; [intros q y Q; rewrite E1 in Q; exact (Ch q y Q)|]. exists m, ym, l, yl, s. rewrite E1. repeat (split; [assumption|]). exact Logic.I.
Qed.

Lemma inv_unlink st : inv st -> inv (step st Unlink).
Proof.
  intros I. cbn. set (st' := mkWorld _ _ _ _ _ _ _ _ _). constructor.
  - exact (i_low _ I).
  - exact (i_in _ I).
  - exact (i_one _ I).
  - intros i E. discriminate.
  - intros q y Q. apply (fine_frame st st' q y (i_fine _ I _ _ Q)); [reflexivity|cbn; lia| | |auto].
    + intros r z R Fz Pz. exists z. auto.
    + intros r z R. exists z. repeat split; auto.
Qed.

Lemma inv_step st a : inv st -> inv (step st a).
Proof.
  intros I. destruct a as [s|p ok n|p log|n|p t| |p].
  - apply inv_start; assumption.
  - exact (inv_turn _ _ _ _ I).
  - exact (inv_watch _ _ _ I).
  - apply inv_edit; assumption.
  - rewrite open_tty_nothing; assumption.
  - apply inv_unlink; assumption.
  - apply inv_kill; assumption.
Qed.
Lemma inv_boot n left d : inv (boot n left d).
Proof.
  constructor; cbn.
  - lia.
  - intros q y Q. discriminate.
  - intros q q' y y' Q. discriminate.
  - intros i. destruct left; [|discriminate]. intros E. injection E as <-. lia.
  - intros q y Q. discriminate.
Qed.
Lemma inv_run l : forall st, inv st -> inv (run st l).
Proof. induction l as [|a l IH]; intros st I; [exact I|]. change (run st (a :: l)) with (run (step st a) l). apply IH, inv_step, I. Qed.
