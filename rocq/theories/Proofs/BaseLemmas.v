From Coq Require Import List NArith ZArith Bool Lia.
From Verif Require Import Model.Base.
Import ListNotations.
Open Scope N_scope.

Lemma str_eqb_eq a b : str_eqb a b = true <-> a = b.
Proof.
  revert b; induction a as [|x a IH]; intros [|y b]; cbn [str_eqb]; split; intros H;
    try reflexivity; try discriminate.
  - apply andb_true_iff in H as [H1 H2]. apply N.eqb_eq in H1. apply IH in H2. congruence.
  - inversion H; subst. rewrite N.eqb_refl. cbn [andb]. apply IH; reflexivity.
Qed.

Lemma str_eqb_refl a : str_eqb a a = true.
Proof. apply str_eqb_eq; reflexivity. Qed.

Lemma str_eqb_neq a b : str_eqb a b = false <-> a <> b.
Proof.
  split; intros H.
  - intros ->. rewrite str_eqb_refl in H; discriminate.
  - destruct (str_eqb a b) eqn:E; [|reflexivity]. apply str_eqb_eq in E; contradiction.
Qed.

Lemma str_eqb_sym a b : str_eqb a b = str_eqb b a.
Proof.
  destruct (str_eqb a b) eqn:E.
  - apply str_eqb_eq in E; subst. symmetry; apply str_eqb_refl.
  - apply str_eqb_neq in E. symmetry; apply str_eqb_neq; congruence.
Qed.

Lemma str_eq_dec (a b : list N) : {a = b} + {a <> b}.
Proof.
  destruct (str_eqb a b) eqn:E; [left; apply str_eqb_eq|right; apply str_eqb_neq]; assumption.
Qed.

Lemma lookup_remove_eq {V} k (m : list (list N * V)) : lookup k (remove k m) = None.
Proof.
  induction m as [|[k' v] m IH]; cbn [remove lookup]; [reflexivity|].
  destruct (str_eqb k k') eqn:E; [assumption|]. cbn [lookup]. rewrite E. assumption.
Qed.

Lemma lookup_remove_neq {V} k k' (m : list (list N * V)) :
  k <> k' -> lookup k (remove k' m) = lookup k m.
Proof.
  intros Hn. induction m as [|[k2 v] m IH]; cbn [remove lookup]; [reflexivity|].
  destruct (str_eqb k' k2) eqn:E.
  - apply str_eqb_eq in E; subst. rewrite IH.
    destruct (str_eqb k k2) eqn:E2; [apply str_eqb_eq in E2; contradiction|reflexivity].
  - cbn [lookup]. destruct (str_eqb k k2); [reflexivity|assumption].
Qed.

Lemma lookup_insert_eq {V} k (v : V) m : lookup k (insert k v m) = Some v.
Proof. unfold insert; cbn [lookup]. rewrite str_eqb_refl. reflexivity. Qed.

Lemma lookup_insert_neq {V} k k' (v : V) m : k <> k' -> lookup k (insert k' v m) = lookup k m.
Proof.
  intros Hn. unfold insert; cbn [lookup].
  destruct (str_eqb k k') eqn:E; [apply str_eqb_eq in E; contradiction|].
  apply lookup_remove_neq; assumption.
Qed.

Lemma split_on_nonempty sep s : split_on sep s <> [].
Proof.
  induction s as [|c s IH]; cbn [split_on]; [discriminate|].
  destruct (c =? sep); [discriminate|]. destruct (split_on sep s); discriminate.
Qed.

(** [split_on] followed by joining with the separator is the identity, and no
    part contains the separator. *)

Lemma join_split sep s : join_with sep (split_on sep s) = s.
Proof.
  induction s as [|c s IH]; cbn [split_on]; [reflexivity|].
  destruct (c =? sep) eqn:E.
  - apply N.eqb_eq in E; subst. cbn [join_with].
    destruct (split_on sep s) eqn:Es; [exfalso; eapply split_on_nonempty; eassumption|].
    cbn [app]. f_equal. exact IH.
  - destruct (split_on sep s) as [|p ps] eqn:Es; [exfalso; eapply split_on_nonempty; eassumption|].
    destruct ps as [|p2 ps]; cbn [join_with] in *; [congruence|].
    cbn [app]. f_equal. exact IH.
Qed.

Lemma split_no_sep sep s p : In p (split_on sep s) -> ~ In sep p.
Proof.
  revert p; induction s as [|c s IH]; cbn [split_on]; intros p Hp.
  - destruct Hp as [<-|[]]; intros [].
  - destruct (c =? sep) eqn:E.
    + destruct Hp as [<-|Hp]; [intros []|apply IH; assumption].
    + destruct (split_on sep s) as [|p1 ps] eqn:Es.
      * destruct Hp as [<-|[]]. intros [->|[]]. rewrite N.eqb_refl in E; discriminate.
      * destruct Hp as [<-|Hp].
        { intros [->|Hin]; [rewrite N.eqb_refl in E; discriminate|].
          apply (IH p1); [left; reflexivity|assumption]. }
        { apply IH; right; assumption. }
Qed.

Lemma split_join sep ps :
  ps <> [] -> (forall p, In p ps -> ~ In sep p) -> split_on sep (join_with sep ps) = ps.
Proof.
  induction ps as [|p ps IH]; [contradiction|]. intros _ Hs.
  assert (Hp : ~ In sep p) by (apply Hs; left; reflexivity).
  destruct ps as [|p2 ps].
  - cbn [join_with]. clear IH Hs. induction p as [|c p IHp]; [reflexivity|].
    cbn [split_on]. destruct (c =? sep) eqn:E.
    + apply N.eqb_eq in E; subst. exfalso; apply Hp; left; reflexivity.
    + rewrite IHp; [reflexivity|]. intros H; apply Hp; right; assumption.
  - change (join_with sep (p :: p2 :: ps)) with (p ++ sep :: join_with sep (p2 :: ps)).
    assert (IH' : split_on sep (join_with sep (p2 :: ps)) = p2 :: ps).
    { apply IH; [discriminate|]. intros q Hq; apply Hs; right; assumption. }
    clear IH Hs. induction p as [|c p IHp].
    + cbn [app split_on]. rewrite N.eqb_refl. rewrite IH'. reflexivity.
    + cbn [app split_on]. destruct (c =? sep) eqn:E.
      * apply N.eqb_eq in E; subst. exfalso; apply Hp; left; reflexivity.
      * rewrite IHp; [reflexivity|]. intros H; apply Hp; right; assumption.
Qed.

Lemma map_opt_some {A B} (f : A -> option B) l bs :
  map_opt f l = Some bs <-> Forall2 (fun a b => f a = Some b) l bs.
Proof.
  revert bs; induction l as [|a l IH]; intros bs; cbn [map_opt].
  - split; intros H; [injection H as <-; constructor|inversion H; reflexivity].
  - split; intros H.
    + destruct (f a) as [b|] eqn:Ef; [|discriminate].
      destruct (map_opt f l) as [bs'|] eqn:El; [|discriminate].
      injection H as <-. constructor; [assumption|]. apply IH; reflexivity.
    + inversion H as [|? b ? bs' Hab Hrest]; subst.
      rewrite Hab. apply IH in Hrest. rewrite Hrest. reflexivity.
Qed.
