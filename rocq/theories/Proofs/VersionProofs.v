From Coq Require Import List NArith ZArith Bool Lia.
From Verif Require Import Model.Base Model.Version Spec.Numerals Proofs.BaseLemmas Proofs.NumeralProofs.
Import ListNotations.

Lemma version_parts_iff v a b :
  (exists c, version_parts v = Some (a, b, c)) <-> is_version v a b.
Proof.
  unfold version_parts, is_version. split.
  - intros [c H]. destruct (map_opt parse_i64 (split_on 46 v)) as [l|] eqn:E; [|discriminate].
    apply map_opt_some in E.
    destruct l as [|x [|y [|z [|]]]]; try discriminate. injection H as -> -> ->.
    inversion E as [|p0 ? l0 ? H0 E0 Es]; subst. inversion E0 as [|p1 ? l1 ? H1 E1]; subst.
    inversion E1 as [|p2 ? l2 ? H2 E2]; subst. inversion E2; subst.
    exists p0, p1, p2, c. apply parse_i64_iff in H0, H1, H2. repeat split; try assumption.
    rewrite <- (join_split 46 v), <- Es. reflexivity.
  - intros (p0 & p1 & p2 & c & -> & H0 & H1 & H2). exists c.
    assert (Hs : split_on 46 (p0 ++ 46%N :: p1 ++ 46%N :: p2) = [p0; p1; p2]).
    { apply (split_join 46 [p0; p1; p2]); [discriminate|].
      intros p [<-|[<-|[<-|[]]]]; eapply int64_no_dot; eassumption. }
    rewrite Hs. cbn [map_opt]. apply parse_i64_iff in H0, H1, H2. rewrite H0, H1, H2. reflexivity.
Qed.

Lemma version_parts_none v :
  version_parts v = None <-> ~ exists a b, is_version v a b.
Proof.
  split.
  - intros H (a & b & Hv). apply version_parts_iff in Hv as [c Hc]. congruence.
  - intros H. destruct (version_parts v) as [[[a b] c]|] eqn:E; [|reflexivity].
    exfalso; apply H. exists a, b. apply version_parts_iff; eauto.
Qed.

Lemma version_ord_spec c d cM cm dM dm :
  is_version c cM cm -> is_version d dM dm ->
  exists o, version_ord c d = Ok o /\
    (o = Eq <-> compatible cM cm dM dm) /\
    (o = Gt <-> newer cM cm dM dm) /\
    (o = Lt <-> newer dM dm cM cm).
Proof.
  intros Hc Hd. apply version_parts_iff in Hc as [c2 Hc], Hd as [d2 Hd].
  unfold version_ord. rewrite Hc, Hd. unfold compatible, newer.
  destruct (Z.eqb_spec cM 0) as [->|Hc0]; destruct (Z.eqb_spec dM 0) as [->|Hd0]; cbn [andb];
    eexists; (split; [reflexivity|]).
  all: match goal with |- context [Z.compare ?x ?y = Eq] => destruct (Z.compare_spec x y) as [H|H|H] end;
    repeat split; intros; try discriminate; try reflexivity; try lia.
Qed.

Lemma version_ord_bad_client c d :
  (~ exists a b, is_version c a b) -> version_ord c d = Err BadClientVersion.
Proof. intros H. apply version_parts_none in H. unfold version_ord. rewrite H. reflexivity. Qed.

Lemma version_ord_bad_daemon c d a b :
  is_version c a b -> (~ exists a b, is_version d a b) -> version_ord c d = Err BadDaemonVersion.
Proof.
  intros Hc H. apply version_parts_iff in Hc as [x Hc]. apply version_parts_none in H.
  unfold version_ord. rewrite Hc, H. reflexivity.
Qed.

Lemma is_version_fun v a b a' b' : is_version v a b -> is_version v a' b' -> a = a' /\ b = b'.
Proof.
  intros H H'. apply version_parts_iff in H as [c H], H' as [c' H']. rewrite H in H'.
  injection H' as -> -> ->. split; reflexivity.
Qed.

Lemma version_ord_total v w o : version_ord v w = Ok o ->
  exists a b c d, is_version v a b /\ is_version w c d.
Proof.
  unfold version_ord. destruct (version_parts v) as [[[a b] x]|] eqn:Ev; [|discriminate].
  destruct (version_parts w) as [[[c d] y]|] eqn:Ew; [|discriminate]. intros _.
  exists a, b, c, d. split; apply version_parts_iff; eauto.
Qed.

Lemma version_ord_swap v w o : version_ord v w = Ok o -> version_ord w v = Ok (CompOpp o).
Proof.
  intros H. unfold version_ord in *.
  destruct (version_parts v) as [[[a b] x]|]; [|discriminate].
  destruct (version_parts w) as [[[c d] y]|]; [|discriminate].
  rewrite andb_comm. destruct (Z.eqb a 0 && Z.eqb c 0)%bool; injection H as <-; f_equal; apply Z.compare_antisym.
Qed.

Definition le_o (o : comparison) := o <> Gt.

Lemma version_ord_trans u v w o1 o2 :
  version_ord u v = Ok o1 -> version_ord v w = Ok o2 -> o1 <> Gt -> o2 <> Gt ->
  exists o3, version_ord u w = Ok o3 /\ o3 <> Gt /\ (o3 = Eq -> o1 = Eq /\ o2 = Eq).
Proof.
  intros H1 H2 L1 L2. destruct (version_ord_total _ _ _ H1) as (a & b & c & d & Hu & Hv).
  destruct (version_ord_total _ _ _ H2) as (c' & d' & e & f & Hv' & Hw).
  destruct (is_version_fun _ _ _ _ _ Hv Hv') as [<- <-].
  destruct (version_ord_spec _ _ _ _ _ _ Hu Hv) as (x & Ex & X1 & X2 & X3).
  destruct (version_ord_spec _ _ _ _ _ _ Hv Hw) as (y & Ey & Y1 & Y2 & Y3).
  destruct (version_ord_spec _ _ _ _ _ _ Hu Hw) as (z & Ez & Z1 & Z2 & Z3).
  rewrite H1 in Ex; injection Ex as <-. rewrite H2 in Ey; injection Ey as <-.
  exists z. split; [assumption|]. unfold compatible, newer in *.
  assert (T1 : (c > a \/ (c = 0 /\ a = 0 /\ d > b) \/ (a = c /\ (a = 0 -> b = d)))%Z).
  { destruct o1; [right; right; apply X1; reflexivity|destruct (proj1 X3 eq_refl); auto|contradiction]. }
  assert (T2 : (e > c \/ (e = 0 /\ c = 0 /\ f > d) \/ (c = e /\ (c = 0 -> d = f)))%Z).
  { destruct o2; [right; right; apply Y1; reflexivity|destruct (proj1 Y3 eq_refl); auto|contradiction]. }
  split.
  - intros ->. assert (Z := proj1 Z2 eq_refl). lia.
  - intros ->. assert (Z := proj1 Z1 eq_refl).
    split.
    + apply X1. lia.
    + apply Y1. lia.
Qed.

Lemma client_new_spec c d cM cm dM dm :
  is_version c cM cm -> is_version d dM dm ->
  (client_new c (Some d) = JustClient <-> compatible cM cm dM dm) /\
  (client_new c (Some d) = WarnClientNewer <-> newer cM cm dM dm) /\
  (client_new c (Some d) = WarnClientOlder <-> newer dM dm cM cm).
Proof.
  intros Hc Hd.
  destruct (version_ord_spec c d cM cm dM dm Hc Hd) as (o & E & H1 & H2 & H3).
  unfold client_new. rewrite E. destruct o; intuition discriminate.
Qed.

Lemma client_new_malformed c d :
  ((~ exists a b, is_version c a b) -> client_new c (Some d) = ConnectFails BadClientVersion) /\
  (forall a b, is_version c a b -> (~ exists a b, is_version d a b) ->
     client_new c (Some d) = ConnectFails BadDaemonVersion) /\
  client_new c None = WarnUnknownVersion.
Proof.
  unfold client_new. repeat split.
  - intros H. rewrite (version_ord_bad_client c d H). reflexivity.
  - intros a b Hc Hd. rewrite (version_ord_bad_daemon c d a b Hc Hd). reflexivity.
Qed.
