From Coq Require Import List NArith ZArith Bool Lia.
From Coq Require Import ZifyBool ZifyNat ZifyN.
From Verif Require Import Model.Base Spec.Numerals Proofs.BaseLemmas.
Import ListNotations.
Open Scope N_scope.

Lemma digits_acc_app acc a b :
  digits_acc acc (a ++ b) = match digits_acc acc a with Some n => digits_acc n b | None => None end.
Proof.
  revert acc; induction a as [|c a IH]; intros acc; cbn [app digits_acc]; [reflexivity|].
  destruct (is_digit c); [apply IH|reflexivity].
Qed.

Lemma is_digit_iff c : is_digit c = true <-> exists d, d < 10 /\ c = 48 + d.
Proof.
  unfold is_digit. split.
  - intros H. exists (c - 48). lia.
  - intros (d & Hd & ->). lia.
Qed.

Lemma parse_digits_numeral s n : parse_digits s = Some n <-> numeral s n.
Proof.
  split.
  - revert n; induction s as [|c s IH] using rev_ind; intros n H; [discriminate|].
    assert (Hd : digits_acc 0 (s ++ [c]) = Some n).
    { destruct (s ++ [c]) eqn:E; [destruct s; discriminate|exact H]. }
    rewrite digits_acc_app in Hd.
    destruct (digits_acc 0 s) as [m|] eqn:Es; [|discriminate].
    cbn [digits_acc] in Hd. destruct (is_digit c) eqn:Ec; [|discriminate].
    apply is_digit_iff in Ec as (d & Hdl & ->).
    replace (48 + d - 48) with d in Hd by lia. injection Hd as <-.
    destruct s as [|c' s'].
    + injection Es as <-. cbn [app]. replace (10 * 0 + d) with d by lia. constructor; assumption.
    + constructor; [apply IH; exact Es|assumption].
  - intros H; induction H as [d Hd|s n d Hs IH Hd].
    + cbn [parse_digits digits_acc]. 
      assert (E : is_digit (48 + d) = true) by (apply is_digit_iff; eauto).
      rewrite E. f_equal. lia.
    + assert (Hs0 : digits_acc 0 s = Some n) by (destruct s; [discriminate|exact IH]).
      assert (E : parse_digits (s ++ [48 + d]) = digits_acc 0 (s ++ [48 + d])) by (destruct s; reflexivity).
      rewrite E, digits_acc_app, Hs0. cbn [digits_acc].
      assert (E2 : is_digit (48 + d) = true) by (apply is_digit_iff; eauto).
      rewrite E2. f_equal. lia.
Qed.

Lemma numeral_fun s n m : numeral s n -> numeral s m -> n = m.
Proof. rewrite <- !parse_digits_numeral. congruence. Qed.

Lemma numeral_digits s n : numeral s n -> s <> [] /\ Forall (fun c => is_digit c = true) s.
Proof.
  induction 1 as [d Hd|s n d Hs [IH1 IH2] Hd].
  - split; [discriminate|]. constructor; [apply is_digit_iff; eauto|constructor].
  - split; [destruct s; discriminate|]. apply Forall_app; split; [assumption|].
    constructor; [apply is_digit_iff; eauto|constructor].
Qed.

Lemma numeral_no_char s n c : numeral s n -> is_digit c = false -> ~ In c s.
Proof.
  intros H Hc Hin. apply numeral_digits in H as [_ H]. rewrite Forall_forall in H.
  apply H in Hin. congruence.
Qed.

Lemma numeral_head s n : numeral s n -> exists c s', s = c :: s' /\ is_digit c = true.
Proof.
  intros H. apply numeral_digits in H as [H1 H2]. destruct s as [|c s']; [contradiction|].
  inversion H2; subst; eauto.
Qed.

Lemma parse_u64_iff s n :
  parse_u64 s = Some n <-> (numeral s n \/ exists s', s = 43 :: s' /\ numeral s' n) /\ n <= u64_max.
Proof.
  unfold parse_u64. split.
  - destruct s as [|c s']; [discriminate|].
    destruct (N.eqb_spec c 43) as [->|Hc].
    + destruct (parse_digits s') as [m|] eqn:E; [|discriminate].
      destruct (N.leb_spec m u64_max); [|discriminate]. intros [= <-].
      apply parse_digits_numeral in E. eauto.
    + destruct (parse_digits (c :: s')) as [m|] eqn:E; [|discriminate].
      destruct (N.leb_spec m u64_max); [|discriminate]. intros [= <-].
      apply parse_digits_numeral in E. eauto.
  - intros [[H|(s' & -> & H)] Hle].
    + destruct (numeral_head _ _ H) as (c & s' & -> & Hc).
      destruct (N.eqb_spec c 43) as [->|_]; [discriminate|].
      apply parse_digits_numeral in H. rewrite H.
      destruct (N.leb_spec n u64_max); [reflexivity|lia].
    + rewrite N.eqb_refl. apply parse_digits_numeral in H. rewrite H.
      destruct (N.leb_spec n u64_max); [reflexivity|lia].
Qed.

Lemma parse_i64_iff s z : parse_i64 s = Some z <-> int64 s z.
Proof.
  assert (Hb : (i64_min = - 2 ^ 63 /\ i64_max = 2 ^ 63 - 1)%Z) by (split; reflexivity).
  destruct Hb as [Hmin Hmax].
  unfold parse_i64. split.
  - destruct s as [|c s']; [discriminate|].
    destruct (N.eqb_spec c 43) as [->|Hc].
    + destruct (parse_digits s') as [m|] eqn:E; [|discriminate]. cbv zeta iota.
      destruct (Z.leb i64_min (Z.of_N m) && Z.leb (Z.of_N m) i64_max)%bool eqn:Er; [|discriminate].
      intros [= <-]. apply parse_digits_numeral in E. apply int64_plus; [assumption|]. lia.
    + destruct (N.eqb_spec c 45) as [->|Hc2].
      * destruct (parse_digits s') as [m|] eqn:E; [|discriminate]. cbv zeta iota.
        destruct (Z.leb i64_min (- Z.of_N m) && Z.leb (- Z.of_N m) i64_max)%bool eqn:Er; [|discriminate].
        intros [= <-]. apply parse_digits_numeral in E. apply int64_minus; [assumption|]. lia.
      * destruct (parse_digits (c :: s')) as [m|] eqn:E; [|discriminate]. cbv zeta iota.
        destruct (Z.leb i64_min (Z.of_N m) && Z.leb (Z.of_N m) i64_max)%bool eqn:Er; [|discriminate].
        intros [= <-]. apply parse_digits_numeral in E. apply int64_plain; [assumption|]. lia.
  - intros H; destruct H as [s n H Hr|s n H Hr|s n H Hr].
    + destruct (numeral_head _ _ H) as (c & s' & -> & Hc).
      destruct (N.eqb_spec c 43) as [->|_]; [discriminate|].
      destruct (N.eqb_spec c 45) as [->|_]; [discriminate|].
      apply parse_digits_numeral in H. rewrite H. cbv zeta iota.
      destruct (Z.leb i64_min (Z.of_N n) && Z.leb (Z.of_N n) i64_max)%bool eqn:Er; [reflexivity|lia].
    + rewrite N.eqb_refl. apply parse_digits_numeral in H. rewrite H. cbv zeta iota.
      destruct (Z.leb i64_min (Z.of_N n) && Z.leb (Z.of_N n) i64_max)%bool eqn:Er; [reflexivity|lia].
    + change (45 =? 43) with false. rewrite N.eqb_refl. cbv iota. apply parse_digits_numeral in H. rewrite H. cbv zeta iota.
      destruct (Z.leb i64_min (- Z.of_N n) && Z.leb (- Z.of_N n) i64_max)%bool eqn:Er; [reflexivity|lia].
Qed.

Lemma int64_no_dot s z : int64 s z -> ~ In 46 s.
Proof.
  intros [s' n H _|s' n H _|s' n H _].
  - eapply numeral_no_char; [eassumption|reflexivity].
  - intros [E|E]; [discriminate|]. apply (numeral_no_char _ _ 46 H eq_refl E).
  - intros [E|E]; [discriminate|]. apply (numeral_no_char _ _ 46 H eq_refl E).
Qed.
