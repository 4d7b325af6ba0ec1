From Coq Require Import List NArith Bool Lia.
From Verif Require Import Model.Base Model.Config Spec.ConfigSpec.
Import ListNotations.

Lemma setting_merge A f c1 c2 : setting A f -> f (merge c1 c2) = or_else (f c1) (f c2).
Proof. intros H. destruct H; reflexivity. Qed.

Lemma setting_default A f : setting A f -> f default_config = None.
Proof. intros H. destruct H; reflexivity. Qed.

Lemma load_from_app fs1 : forall fs2 acc, load_from (fs1 ++ fs2) acc =
  match load_from fs1 acc with Some c => load_from fs2 c | None => None end.
Proof.
  induction fs1 as [|[| |c] fs1 IH]; intros fs2 acc; cbn [app load_from]; auto.
Qed.

Lemma load_from_none fs : forall acc, load_from fs acc = None <-> In Malformed fs.
Proof.
  induction fs as [|[| |c] fs IH]; intros acc; cbn [load_from In].
  - split; [discriminate|intros []].
  - rewrite IH. split; [auto|]. intros [H|H]; [discriminate|assumption].
  - split; auto.
  - rewrite IH. split; [auto|]. intros [H|H]; [discriminate|assumption].
Qed.

Lemma load_from_setting A f fs : setting A f -> forall acc c, load_from fs acc = Some c ->
  forall v, f c = Some v <-> decides fs f v \/ (f acc = Some v /\ forall c', In (Parsed c') fs -> f c' = None).
Proof.
  intros Hs. induction fs as [|x fs IH] using rev_ind; intros acc c H v.
  - cbn in H. injection H as <-. split.
    + intros E. right. split; [assumption|intros c' []].
    + intros [(b & c' & a & E & _)|[E _]]; [destruct b; discriminate|assumption].
  - rewrite load_from_app in H. destruct (load_from fs acc) as [c1|] eqn:E1; [|discriminate].
    specialize (IH acc c1 E1 v). destruct x as [| |c2]; cbn [load_from] in H; [|discriminate|].
    + injection H as <-. rewrite IH. split.
      * intros [(b & c' & a & -> & Hv & Hn)|[Ha Hn]].
        -- left. exists b, c', (a ++ [Unreadable]). split; [rewrite <- app_assoc; reflexivity|]. split; [assumption|].
           intros c'' Hc. apply in_app_or in Hc as [Hc|[Hc|[]]]; [auto|discriminate].
        -- right. split; [assumption|]. intros c' Hc. apply in_app_or in Hc as [Hc|[Hc|[]]]; [auto|discriminate].
      * intros [(b & c' & a & E & Hv & Hn)|[Ha Hn]].
        -- left. destruct a as [|y a _] using rev_ind.
           { apply app_inj_tail in E as [_ E]. discriminate. }
           change (Parsed c' :: a ++ [y]) with ((Parsed c' :: a) ++ [y]) in E. rewrite app_assoc in E.
           apply app_inj_tail in E as [-> _]. exists b, c', a. split; [reflexivity|]. split; [assumption|].
           intros c'' Hc. apply Hn. apply in_or_app; left; assumption.
        -- right. split; [assumption|]. intros c' Hc. apply Hn. apply in_or_app; left; assumption.
    + injection H as <-. rewrite setting_merge by assumption. unfold or_else.
      destruct (f c2) as [w|] eqn:E2.
      * split.
        -- intros [= ->]. left. exists fs, c2, []. split; [reflexivity|]. split; [assumption|intros c' []].
        -- intros [(b & c' & a & E & Hv & Hn)|[Ha Hn]].
           ++ destruct a as [|y a _] using rev_ind.
              { apply app_inj_tail in E as [_ E]. injection E as <-. congruence. }
              exfalso. change (Parsed c' :: a ++ [y]) with ((Parsed c' :: a) ++ [y]) in E. rewrite app_assoc in E.
              apply app_inj_tail in E as [_ E]. rewrite <- E in Hn.
              assert (Hx : f c2 = None) by (apply Hn; apply in_or_app; right; left; reflexivity). congruence.
           ++ exfalso. assert (Hx : f c2 = None) by (apply Hn; apply in_or_app; right; left; reflexivity). congruence.
      * rewrite IH. split.
        -- intros [(b & c' & a & -> & Hv & Hn)|[Ha Hn]].
           ++ left. exists b, c', (a ++ [Parsed c2]). split; [rewrite <- app_assoc; reflexivity|]. split; [assumption|].
              intros c'' Hc. apply in_app_or in Hc as [Hc|[Hc|[]]]; [auto|]. congruence.
           ++ right. split; [assumption|]. intros c' Hc. apply in_app_or in Hc as [Hc|[Hc|[]]]; [auto|congruence].
        -- intros [(b & c' & a & E & Hv & Hn)|[Ha Hn]].
           ++ left. destruct a as [|y a _] using rev_ind.
              { apply app_inj_tail in E as [_ E]. congruence. }
              change (Parsed c' :: a ++ [y]) with ((Parsed c' :: a) ++ [y]) in E. rewrite app_assoc in E.
              apply app_inj_tail in E as [-> _]. exists b, c', a. split; [reflexivity|]. split; [assumption|].
              intros c'' Hc. apply Hn. apply in_or_app; left; assumption.
           ++ right. split; [assumption|]. intros c' Hc. apply Hn. apply in_or_app; left; assumption.
Qed.

Lemma someone_decides A (f : config -> option A) fs : forall c v, In (Parsed c) fs -> f c = Some v -> exists w, decides fs f w.
Proof.
  induction fs as [|x fs IH] using rev_ind; intros c v Hin Hv; [destruct Hin|].
  assert (Hx : (exists c2 w, x = Parsed c2 /\ f c2 = Some w) \/ (forall c2, x = Parsed c2 -> f c2 = None)).
  { destruct x as [| |c2]; [right; discriminate|right; discriminate|].
    destruct (f c2) as [w|] eqn:E; [left; eauto|right]. intros c3 [= <-]. assumption. }
  destruct Hx as [(c2 & w & -> & E)|Hx].
  - exists w, fs, c2, []. split; [reflexivity|]. split; [assumption|intros c' []].
  - apply in_app_or in Hin as [Hin|[Hin|[]]]; [|apply Hx in Hin; congruence].
    destruct (IH c v Hin Hv) as (w & b & c1 & a & -> & E & Hn).
    exists w, b, c1, (a ++ [x]). split; [rewrite <- app_assoc; reflexivity|]. split; [assumption|].
    intros c' Hc. apply in_app_or in Hc as [Hc|[Hc|[]]]; auto.
Qed.
