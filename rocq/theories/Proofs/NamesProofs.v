From Coq Require Import List NArith Bool Lia.
From Verif Require Import Model.Base Model.Protocol Model.Names Spec.PathSpec Proofs.BaseLemmas.
Import ListNotations.
Open Scope N_scope.

Lemma existsb_slash n : existsb (N.eqb 47) n = false <-> ~ In 47 n.
Proof.
  split.
  - intros H Hi. assert (E : existsb (N.eqb 47) n = true) by (apply existsb_exists; exists 47; auto). congruence.
  - intros H. destruct (existsb (N.eqb 47) n) eqn:E; [|reflexivity]. apply existsb_exists in E.
    destruct E as (x & Hx & E). apply N.eqb_eq in E. subst. contradiction.
Qed.

Lemma existsb_false_Forall {A} (f : A -> bool) l : existsb f l = false <-> Forall (fun x => f x = false) l.
Proof.
  induction l as [|x l IH]; cbn; [split; auto|]. rewrite orb_false_iff, IH. split.
  - intros (A1 & B). constructor; assumption.
  - intros H. split; [apply (Forall_inv H)|apply (Forall_inv_tail H)].
Qed.

Lemma client_check_iff n : client_check n = None <-> good_name n.
Proof.
  unfold client_check, good_name. destruct n as [|c n]; [split; [discriminate|intros (_ & _ & H & _); congruence]|].
  remember (c :: n) as m.
  destruct (existsb is_whitespace m) eqn:Ew.
  { split; [discriminate|]. intros (_ & H & _). apply existsb_false_Forall in H. congruence. }
  apply existsb_false_Forall in Ew.
  destruct (existsb (N.eqb 47) m) eqn:Es.
  { split; [discriminate|]. intros (H & _). apply existsb_slash in H. congruence. }
  apply existsb_slash in Es.
  destruct (str_eqb m [46]) eqn:E1.
  { apply str_eqb_eq in E1. split; [discriminate|]. intros (_ & _ & _ & H & _). contradiction. }
  destruct (str_eqb m [46; 46]) eqn:E2.
  { apply str_eqb_eq in E2. split; [discriminate|]. intros (_ & _ & _ & _ & H). contradiction. }
  apply str_eqb_neq in E1. apply str_eqb_neq in E2. cbn. split; [|reflexivity]. intros _.
  repeat (split; [assumption || (subst; discriminate)|]). assumption.
Qed.

Lemma daemon_rejects_iff n : daemon_rejects n = false <-> good_name n.
Proof.
  unfold daemon_rejects, good_name. rewrite !orb_false_iff. rewrite existsb_false_Forall, !str_eqb_neq. split.
  - intros (((H & H1) & H2) & H3). repeat split; try assumption.
    + intros Hi. rewrite Forall_forall in H. apply H in Hi. cbn in Hi. discriminate.
    + eapply Forall_impl; [|exact H]. cbn. intros a Ha. apply orb_false_iff in Ha. apply Ha.
    + destruct n; discriminate.
  - intros (H1 & H2 & H3 & H4 & H5). repeat split; try assumption.
    + rewrite Forall_forall in *. intros c Hc. apply orb_false_iff. split; [|auto].
      destruct (N.eqb_spec 47 c); [subst; contradiction|reflexivity].
    + destruct n; [congruence|reflexivity].
Qed.

Lemma split_on_app sep a b : split_on sep (a ++ sep :: b) = split_on sep a ++ split_on sep b.
Proof.
  induction a as [|c a IH]; cbn; [rewrite N.eqb_refl; reflexivity|].
  destruct (c =? sep); [cbn; rewrite IH; reflexivity|]. rewrite IH.
  assert (H := split_on_nonempty sep a). destruct (split_on sep a); [congruence|reflexivity].
Qed.

Lemma split_on_none sep a : ~ In sep a -> split_on sep a = [a].
Proof.
  intros H. assert (E := split_join sep [a]). cbn in E. apply E; [discriminate|]. intros p [<-|[]]. assumption.
Qed.

Lemma last_is_slash_iff p : last_is_slash p = true <-> exists q, p = q ++ [47].
Proof.
  unfold last_is_slash. split.
  - intros H. destruct (rev p) as [|c r] eqn:E; [discriminate|]. apply N.eqb_eq in H. subst c.
    exists (rev r). rewrite <- (rev_involutive p), E. reflexivity.
  - intros (q & ->). rewrite rev_app_distr. reflexivity.
Qed.

(** Joining a plain entry name appends one component. *)
Lemma components_join base n : ~ In 47 n -> n <> [] -> n <> [46] -> n <> [46; 46] ->
  components (path_join base n) = components base ++ [Entry n].
Proof.
  intros Hs H0 H1 H2.
  assert (Hp : piece n = [Entry n]).
  { unfold piece. apply str_eqb_neq in H0, H1, H2. rewrite H0, H1, H2. reflexivity. }
  destruct n as [|c n]; [congruence|].
  assert (Hc : (c =? 47) = false) by (apply N.eqb_neq; intros ->; apply Hs; left; reflexivity).
  cbn [path_join]. rewrite Hc. remember (c :: n) as m eqn:Em.
  destruct base as [|b0 base0].
  - unfold components, leading. cbn [app]. rewrite split_on_none by assumption.
    cbn [split_on flat_map]. rewrite Hp. destruct m as [|m0 m']; [congruence|].
    apply str_eqb_neq in H1. rewrite H1. reflexivity.
  - remember (b0 :: base0) as base eqn:Eb. destruct (last_is_slash base) eqn:El.
    + apply last_is_slash_iff in El. destruct El as (q & El). rewrite El.
      rewrite <- app_assoc. cbn [app]. unfold components, leading. rewrite !split_on_app.
      rewrite (split_on_none 47 m) by assumption. cbn [split_on]. rewrite !flat_map_app. cbn [flat_map piece]. rewrite Hp.
      rewrite !app_nil_r. rewrite app_assoc. f_equal. f_equal.
      assert (Hq := split_on_nonempty 47 q). destruct (split_on 47 q) as [|x l]; [congruence|]. cbn [app].
      destruct x as [|x0 x]; [destruct l; reflexivity|]. reflexivity.
    + unfold components, leading. rewrite !split_on_app. rewrite (split_on_none 47 m) by assumption.
      rewrite flat_map_app. cbn [flat_map]. rewrite Hp. cbn [app]. rewrite app_assoc. f_equal. f_equal.
      assert (Hq := split_on_nonempty 47 base). destruct (split_on 47 base) as [|x l] eqn:Ex; [congruence|]. cbn [app].
      destruct x as [|x0 x]; [|reflexivity]. destruct l; [|reflexivity].
      exfalso. assert (J := join_split 47 base). rewrite Ex in J. cbn in J. subst base. discriminate.
Qed.

Lemma good_name_entry n : good_name n -> ~ In 47 n /\ n <> [] /\ n <> [46] /\ n <> [46; 46].
Proof. intros (A & B & C & D & E). auto. Qed.

Lemma leading_app base rest : base <> [] -> leading (base ++ 47 :: rest) = leading base.
Proof.
  intros Hb. unfold leading. rewrite split_on_app.
  assert (Hq := split_on_nonempty 47 base). assert (Hr := split_on_nonempty 47 rest).
  destruct (split_on 47 base) as [|x l] eqn:Ex; [congruence|]. cbn [app].
  destruct x as [|x0 x]; [|reflexivity]. destruct l; [|reflexivity].
  exfalso. assert (J := join_split 47 base). rewrite Ex in J. cbn in J. subst base. congruence.
Qed.

Lemma components_app base rest : base <> [] ->
  components (base ++ 47 :: rest) = components base ++ flat_map piece (split_on 47 rest).
Proof.
  intros Hb. unfold components. rewrite leading_app by assumption. rewrite split_on_app, flat_map_app, app_assoc. reflexivity.
Qed.

(** Joining in general: an absolute path replaces the base, any other is appended
    component by component. *)
Lemma path_join_absolute base p : path_join base (47 :: p) = 47 :: p.
Proof. reflexivity. Qed.

Lemma path_join_components base p : base <> [] -> (forall q, p <> 47 :: q) ->
  components (path_join base p) = components base ++ flat_map piece (split_on 47 p).
Proof.
  intros Hb Hp.
  assert (S : forall r, last_is_slash base = true -> components (base ++ r) = components base ++ flat_map piece (split_on 47 r)).
  { intros r El. apply last_is_slash_iff in El. destruct El as (q & ->). rewrite <- app_assoc. cbn [app].
    destruct q as [|q0 q].
    - unfold components. cbn [app]. unfold leading. change (47 :: r) with (([] : rstr) ++ 47 :: r). change [47] with (([] : rstr) ++ [47]).
      rewrite !split_on_app. cbn [split_on app]. assert (Hr := split_on_nonempty 47 r). destruct (split_on 47 r); [congruence|]. cbn. reflexivity.
    - rewrite !components_app by discriminate. cbn [split_on flat_map]. change (piece []) with (@nil component). rewrite !app_nil_r. reflexivity. }
  assert (M : match base with [] => true | _ => last_is_slash base end = last_is_slash base) by (destruct base; [congruence|reflexivity]).
  unfold path_join. rewrite M.
  destruct p as [|c p].
  - cbn [split_on flat_map app]. change (piece []) with (@nil component). rewrite app_nil_r.
    destruct (last_is_slash base); [reflexivity|]. rewrite components_app by assumption. cbn. apply app_nil_r.
  - destruct (N.eqb_spec c 47) as [->|_]; [exfalso; apply (Hp p); reflexivity|].
    destruct (last_is_slash base) eqn:El; [apply S; reflexivity|]. apply components_app; assumption.
Qed.

Lemma path_join_slash base : base <> [] -> exists q, path_join base [] = q ++ [47].
Proof.
  intros Hb. assert (M : match base with [] => true | _ => last_is_slash base end = last_is_slash base) by (destruct base; [congruence|reflexivity]).
  unfold path_join. rewrite M.
  destruct (last_is_slash base) eqn:El; [apply last_is_slash_iff in El; exact El|eauto].
Qed.
