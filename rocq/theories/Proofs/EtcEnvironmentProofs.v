From Coq Require Import List NArith Bool Lia ZifyBool ZifyN.
From Verif Require Import Model.Base Model.EtcEnvironment Spec.EtcEnvironmentSpec Proofs.BaseLemmas.
Import ListNotations.
Open Scope N_scope.

(** * Trimming *)
Lemma trim_start_spec s : exists ws, s = ws ++ trim_start s /\ blank ws /\
  (forall c t, trim_start s = c :: t -> is_whitespace c = false).
Proof.
  induction s as [|x s (ws & E & Hb & Hn)]; cbn [trim_start].
  - exists []. repeat split; [constructor|]. intros c t H; discriminate.
  - destruct (is_whitespace x) eqn:Ex.
    + exists (x :: ws). split; [cbn; congruence|]. split; [constructor; assumption|assumption].
    + exists []. split; [reflexivity|]. split; [constructor|]. intros c t [= <- <-]. assumption.
Qed.

Lemma trim_start_unique ws s : blank ws -> (forall c t, s = c :: t -> is_whitespace c = false) -> trim_start (ws ++ s) = s.
Proof.
  induction 1 as [|x ws Hx Hw IH]; intros Hs; cbn [app trim_start].
  - destruct s as [|c s]; [reflexivity|]. cbn [trim_start]. rewrite (Hs c s eq_refl). reflexivity.
  - rewrite Hx. apply IH; assumption.
Qed.

Lemma blank_rev s : blank s -> blank (rev s).
Proof. unfold blank. intros H. apply Forall_rev. assumption. Qed.

Lemma trim_unique ws1 s ws2 : blank ws1 -> blank ws2 -> tight s -> trim (ws1 ++ s ++ ws2) = s.
Proof.
  intros H1 H2 [Ha Hb]. unfold trim, trim_end. destruct s as [|c s].
  - cbn [app]. assert (E : trim_start (ws1 ++ ws2) = []).
    { rewrite <- (app_nil_r (ws1 ++ ws2)). apply trim_start_unique; [|intros c t H; discriminate].
      unfold blank in *. apply Forall_app. split; assumption. }
    rewrite E. reflexivity.
  - rewrite trim_start_unique; [|assumption|].
    + rewrite rev_app_distr, trim_start_unique; [apply rev_involutive|apply blank_rev; assumption|].
      intros x t E. assert (E' := f_equal (@rev N) E). rewrite rev_involutive in E'. cbn [rev] in E'.
      eapply Hb; eassumption.
    + intros x t E. cbn [app] in E. injection E as <- _. eapply Ha; reflexivity.
Qed.

Lemma trim_spec s : exists ws1 ws2, s = ws1 ++ trim s ++ ws2 /\ blank ws1 /\ blank ws2 /\ tight (trim s).
Proof.
  destruct (trim_start_spec s) as (ws1 & E1 & H1 & N1).
  destruct (trim_start_spec (rev (trim_start s))) as (ws2 & E2 & H2 & N2).
  assert (E3 : trim_start s = trim s ++ rev ws2).
  { unfold trim, trim_end. rewrite <- rev_app_distr, <- E2, rev_involutive. reflexivity. }
  exists ws1, (rev ws2). split; [rewrite <- E3; assumption|]. split; [assumption|]. split; [apply blank_rev; assumption|].
  split.
  - intros c t E. apply (N1 c (t ++ rev ws2)). rewrite E3, E. reflexivity.
  - intros c t E. apply (N2 c (rev t)). unfold trim, trim_end in E.
    rewrite <- (rev_involutive (trim_start (rev (trim_start s)))), E, rev_app_distr. reflexivity.
Qed.

(** * Prefixes and suffixes *)
Lemma strip_prefix_spec p : forall s r, strip_prefix p s = Some r <-> s = p ++ r.
Proof.
  induction p as [|x p IH]; intros s r; cbn [strip_prefix app].
  - split; congruence.
  - destruct s as [|y s]; [split; discriminate|]. destruct (N.eqb_spec x y) as [->|Hn].
    + rewrite IH. split; congruence.
    + split; [discriminate|congruence].
Qed.

Lemma strip_prefix_none p s : strip_prefix p s = None <-> ~ begins p s.
Proof.
  split.
  - intros H [t Ht]. apply strip_prefix_spec in Ht. congruence.
  - intros H. destruct (strip_prefix p s) as [r|] eqn:E; [|reflexivity].
    exfalso. apply H. exists r. apply strip_prefix_spec. assumption.
Qed.

Lemma strip_suffix_spec p s r : strip_suffix p s = Some r <-> s = r ++ p.
Proof.
  unfold strip_suffix. destruct (strip_prefix (rev p) (rev s)) as [t|] eqn:E.
  - apply strip_prefix_spec in E. assert (E' := f_equal (@rev N) E).
    rewrite rev_involutive, rev_app_distr, rev_involutive in E'. split.
    + intros [= <-]. assumption.
    + intros Hr. rewrite E' in Hr. apply app_inv_tail in Hr. f_equal; exact Hr.
  - split; [discriminate|]. intros ->. rewrite rev_app_distr in E.
    assert (H : strip_prefix (rev p) (rev p ++ rev r) = Some (rev r)) by (apply strip_prefix_spec; reflexivity).
    congruence.
Qed.

Lemma strip_suffix_none p s : strip_suffix p s = None <-> ~ finishes p s.
Proof.
  split.
  - intros H [t Ht]. apply strip_suffix_spec in Ht. congruence.
  - intros H. destruct (strip_suffix p s) as [r|] eqn:E; [|reflexivity].
    exfalso. apply H. exists r. apply strip_suffix_spec. assumption.
Qed.

Lemma starts_with_begins c s : starts_with c s = true <-> begins [c] s.
Proof.
  destruct s as [|x s]; cbn [starts_with].
  - split; [discriminate|]. intros [t H]; discriminate.
  - rewrite N.eqb_eq. split; [intros ->; exists s; reflexivity|]. intros [t H]. cbn in H. congruence.
Qed.

(** * Quotes *)
Definition unquote_end (v : rstr) : rstr :=
  let v1 := unwrap_or (strip_suffix [39] v) v in unwrap_or (strip_suffix [34] v1) v1.

Lemma closed_iff w v : closed w v <-> v = unquote_end w.
Proof.
  unfold unquote_end, quote, dquote. split.
  - intros H. destruct H as [v|v Hn|v|v Hn1 Hn2].
    + replace (v ++ dquote ++ quote) with ((v ++ dquote) ++ [39]) by (rewrite <- app_assoc; reflexivity).
      rewrite (proj2 (strip_suffix_spec [39] ((v ++ dquote) ++ [39]) (v ++ dquote)) eq_refl). cbn [unwrap_or].
      rewrite (proj2 (strip_suffix_spec [34] (v ++ dquote) v) eq_refl). reflexivity.
    + change quote with [39]. rewrite (proj2 (strip_suffix_spec [39] (v ++ [39]) v) eq_refl). cbn [unwrap_or].
      rewrite (proj2 (strip_suffix_none [34] v) Hn). reflexivity.
    + assert (Hx : strip_suffix [39] (v ++ dquote) = None).
      { apply strip_suffix_none. intros [t Ht]. apply app_inj_tail in Ht as [_ Ht]. discriminate. }
      rewrite Hx. cbn [unwrap_or]. rewrite (proj2 (strip_suffix_spec [34] (v ++ dquote) v) eq_refl). reflexivity.
    + rewrite (proj2 (strip_suffix_none [39] v) Hn1). cbn [unwrap_or].
      rewrite (proj2 (strip_suffix_none [34] v) Hn2). reflexivity.
  - intros ->. destruct (strip_suffix [39] w) as [w1|] eqn:E1; cbn [unwrap_or].
    + apply strip_suffix_spec in E1. subst w.
      destruct (strip_suffix [34] w1) as [w2|] eqn:E2; cbn [unwrap_or].
      * apply strip_suffix_spec in E2. subst w1. rewrite <- app_assoc. exact (c_both w2).
      * apply strip_suffix_none in E2. exact (c_quote w1 E2).
    + apply strip_suffix_none in E1. destruct (strip_suffix [34] w) as [w2|] eqn:E2; cbn [unwrap_or].
      * apply strip_suffix_spec in E2. subst w. exact (c_dquote w2).
      * apply strip_suffix_none in E2. exact (c_none w E1 E2).
Qed.

Lemma unquoted_iff raw v : unquoted raw v <-> v = strip_quotes raw.
Proof.
  unfold strip_quotes.
  set (v1 := unwrap_or (strip_prefix [39] raw) raw). set (v2 := unwrap_or (strip_prefix [34] v1) v1).
  destruct (starts_with 39 raw || starts_with 34 raw) eqn:Eq.
  - fold (unquote_end v2).
    assert (Ho : forall w, opened raw w <-> w = v2).
    { intros w. unfold v2, v1. split.
      - intros H. destruct H as [v0|v0 Hn|v0].
        + change (quote ++ dquote ++ v0) with ([39] ++ (dquote ++ v0)).
          rewrite (proj2 (strip_prefix_spec [39] ([39] ++ dquote ++ v0) (dquote ++ v0)) eq_refl). cbn [unwrap_or].
          change (dquote ++ v0) with ([34] ++ v0).
          rewrite (proj2 (strip_prefix_spec [34] ([34] ++ v0) v0) eq_refl). reflexivity.
        + change (quote ++ v0) with ([39] ++ v0).
          rewrite (proj2 (strip_prefix_spec [39] ([39] ++ v0) v0) eq_refl). cbn [unwrap_or].
          rewrite (proj2 (strip_prefix_none [34] v0) Hn). reflexivity.
        + change (dquote ++ v0) with ([34] ++ v0).
          rewrite (proj2 (strip_prefix_none [39] ([34] ++ v0))).
          2: { intros [t Ht]. discriminate. }
          cbn [unwrap_or]. rewrite (proj2 (strip_prefix_spec [34] ([34] ++ v0) v0) eq_refl). reflexivity.
      - intros ->. destruct (strip_prefix [39] raw) as [r1|] eqn:E1; cbn [unwrap_or].
        + apply strip_prefix_spec in E1. subst raw.
          destruct (strip_prefix [34] r1) as [r2|] eqn:E2; cbn [unwrap_or].
          * apply strip_prefix_spec in E2. subst r1. exact (o_both r2).
          * apply strip_prefix_none in E2. exact (o_quote r1 E2).
        + apply strip_prefix_none in E1. apply orb_true_iff in Eq as [Eq|Eq]; apply starts_with_begins in Eq; [contradiction|].
          destruct Eq as [r2 ->]. rewrite (proj2 (strip_prefix_spec [34] ([34] ++ r2) r2) eq_refl). exact (o_dquote r2). }
    split.
    + intros H. destruct H as [v0 Hn1 Hn2|raw0 w v0 Hop Hcl].
      * exfalso. apply orb_true_iff in Eq as [Eq|Eq]; apply starts_with_begins in Eq; contradiction.
      * apply Ho in Hop. subst w. apply closed_iff in Hcl. exact Hcl.
    + intros ->. apply u_quoted with v2; [apply Ho; reflexivity|apply closed_iff; reflexivity].
  - apply orb_false_iff in Eq as [E1 E2].
    assert (N1 : ~ begins [39] raw) by (intros H; apply starts_with_begins in H; congruence).
    assert (N2 : ~ begins [34] raw) by (intros H; apply starts_with_begins in H; congruence).
    assert (Hv : v2 = raw).
    { unfold v2, v1. rewrite (proj2 (strip_prefix_none [39] raw) N1). cbn [unwrap_or].
      rewrite (proj2 (strip_prefix_none [34] raw) N2). reflexivity. }
    rewrite Hv. split.
    + intros H. destruct H as [v0 Hn1 Hn2|raw0 w v0 Hop Hcl]; [reflexivity|].
      destruct Hop as [v1'|v1' Hn|v1']; exfalso.
      * apply N1. exists (dquote ++ v1'). reflexivity.
      * apply N1. exists v1'. reflexivity.
      * apply N2. exists v1'. reflexivity.
    + intros ->. apply u_plain; assumption.
Qed.

(** * Lines *)
Lemma take_until_spec c s : exists t, s = take_until c s ++ t /\ ~ In c (take_until c s) /\ (t = [] \/ begins [c] t).
Proof.
  induction s as [|x s (t & E & Hn & Ht)]; cbn [take_until].
  - exists []. repeat split; [intros []|left; reflexivity].
  - destruct (N.eqb_spec x c) as [->|Hx].
    + exists (c :: s). repeat split; [intros []|]. right. exists s. reflexivity.
    + exists t. split; [cbn; congruence|]. split; [|assumption]. intros [H|H]; [congruence|contradiction].
Qed.

Lemma take_until_unique c a t : ~ In c a -> (t = [] \/ begins [c] t) -> take_until c (a ++ t) = a.
Proof.
  intros Hn Ht. induction a as [|x a IH]; cbn [app take_until].
  - destruct Ht as [->|[t' ->]]; [reflexivity|]. cbn. rewrite N.eqb_refl. reflexivity.
  - destruct (N.eqb_spec x c) as [->|Hx]; [exfalso; apply Hn; left; reflexivity|].
    rewrite IH; [reflexivity|]. intros H; apply Hn; right; assumption.
Qed.

Lemma split_once_spec c s a b : split_once c s = Some (a, b) <-> s = a ++ c :: b /\ ~ In c a.
Proof.
  revert a b; induction s as [|x s IH]; intros a b; cbn [split_once].
  - split; [discriminate|]. intros [H _]. destruct a; discriminate.
  - destruct (N.eqb_spec x c) as [->|Hx].
    + split.
      * intros [= <- <-]. split; [reflexivity|intros []].
      * intros [E Hn]. destruct a as [|y a]; cbn in E; [injection E as ->; reflexivity|].
        injection E as -> E. exfalso. apply Hn. left; reflexivity.
    + destruct (split_once c s) as [[a' b']|].
      * split.
        -- intros [= <- <-]. destruct (proj1 (IH a' b') eq_refl) as [-> Hn]. split; [reflexivity|].
           intros [H|H]; [congruence|contradiction].
        -- intros [E Hn]. destruct a as [|y a]; cbn in E; [exfalso; congruence|]. injection E as -> E.
           assert (Hs : Some (a', b') = Some (a, b)).
           { apply IH. split; [assumption|]. intros H; apply Hn; right; assumption. }
           injection Hs as -> ->. reflexivity.
      * split; [discriminate|]. intros [E Hn]. destruct a as [|y a]; cbn in E; [exfalso; congruence|]. injection E as -> E.
        exfalso. assert (Hs : None = Some (a, b)); [|discriminate]. apply IH. split; [assumption|].
        intros H; apply Hn; right; assumption.
Qed.

Lemma key_char_iff c : key_char c = true <-> name_char c.
Proof. unfold key_char, name_char. lia. Qed.

Lemma key_chars k : forallb key_char k = true <-> Forall name_char k.
Proof.
  rewrite forallb_forall, Forall_forall. split; intros H c Hc; apply key_char_iff; apply H; assumption.
Qed.

Lemma name_not c k : Forall name_char k -> (c = 61 \/ c = 35 \/ c = 32) -> ~ In c k.
Proof. intros H Hc Hi. rewrite Forall_forall in H. apply H in Hi. unfold name_char in Hi. lia. Qed.

Lemma parse_line_iff line k v : parse_line line = Some (k, v) <-> assigns line k v.
Proof.
  unfold parse_line. split.
  - destruct (trim_spec line) as (ws1 & ws2 & Et & B1 & B2 & Ht). set (b := trim line) in *.
    destruct b as [|c0 b0] eqn:Eb; [discriminate|]. rewrite <- Eb in *. clear c0 b0 Eb.
    cbn [orb]. destruct (starts_with 35 b) eqn:Ec; [discriminate|].
    set (e := unwrap_or (strip_prefix (lit "export ") b) b).
    assert (He : exists export, (export = [] \/ export = lit "export ") /\ b = export ++ e).
    { unfold e. destruct (strip_prefix (lit "export ") b) as [r|] eqn:Es; cbn [unwrap_or].
      - apply strip_prefix_spec in Es. exists (lit "export "). split; [right; reflexivity|assumption].
      - exists []. split; [left; reflexivity|reflexivity]. }
    destruct He as (export & Hex & Ebe).
    destruct (take_until_spec 35 e) as (cm & Ecm & Hn & Hcm).
    destruct (split_once 61 (take_until 35 e)) as [[key val]|] eqn:Es; [|discriminate].
    apply split_once_spec in Es as [Es Hk]. destruct key as [|k0 key]; [discriminate|].
    destruct (forallb key_char (k0 :: key)) eqn:Ek; [|discriminate]. cbn [negb].
    intros [= <- <-]. apply key_chars in Ek.
    assert (Eb : b = export ++ (k0 :: key) ++ [61] ++ val ++ cm).
    { rewrite Ebe, Ecm, Es. rewrite <- !app_assoc. reflexivity. }
    exists ws1, export, val, cm, ws2. split; [rewrite <- Eb; exact Et|]. split; [assumption|]. split; [assumption|].
    split; [rewrite <- Eb; exact Ht|]. split; [assumption|]. split; [discriminate|]. split; [assumption|].
    split. { intros H. apply Hn. rewrite Es. apply in_or_app; right; right; assumption. }
    split; [assumption|]. apply unquoted_iff. reflexivity.
  - intros (ws1 & export & raw & cm & ws2 & -> & B1 & B2 & Ht & Hex & Hkn & Hk & Hr & Hcm & Hu).
    rewrite trim_unique by assumption.
    set (b := export ++ k ++ [61] ++ raw ++ cm) in *.
    assert (Hne : b <> []).
    { unfold b. intros H. apply app_eq_nil in H as [_ H]. apply app_eq_nil in H as [H _]. contradiction. }
    destruct b as [|c0 b0] eqn:Eb; [contradiction|]. cbn [orb]. rewrite <- Eb.
    assert (Hc0 : starts_with 35 b = false).
    { apply not_true_iff_false. rewrite starts_with_begins. intros [t Hb]. unfold b in Hb.
      destruct Hex as [-> | ->]; [|discriminate]. destruct k as [|k0 k]; [contradiction|]. cbn in Hb. injection Hb as -> _.
      inversion Hk; subst. unfold name_char in *. lia. }
    rewrite Hc0.
    assert (He : unwrap_or (strip_prefix (lit "export ") b) b = k ++ [61] ++ raw ++ cm).
    { destruct Hex as [-> | ->].
      - unfold b. cbn [app]. destruct (strip_prefix (lit "export ") (k ++ 61 :: raw ++ cm)) as [r|] eqn:Es; [|reflexivity].
        exfalso. apply strip_prefix_spec in Es.
        (* the blank of "export " would be in the name *)
        clear - Es Hk. change (lit "export ") with [101; 120; 112; 111; 114; 116; 32] in Es.
        do 6 (destruct k as [|? k]; [discriminate|]; cbn [app] in Es; injection Es as -> Es; apply Forall_inv_tail in Hk).
        destruct k as [|c k]; [discriminate|]. cbn [app] in Es. injection Es as -> Es.
        apply Forall_inv in Hk. unfold name_char in Hk. lia.
      - unfold b. rewrite (proj2 (strip_prefix_spec (lit "export ") (lit "export " ++ k ++ [61] ++ raw ++ cm) (k ++ [61] ++ raw ++ cm)) eq_refl).
        reflexivity. }
    rewrite He.
    assert (Htk : take_until 35 (k ++ [61] ++ raw ++ cm) = k ++ 61 :: raw).
    { replace (k ++ [61] ++ raw ++ cm) with ((k ++ 61 :: raw) ++ cm) by (rewrite <- app_assoc; reflexivity).
      apply take_until_unique; [|assumption]. intros H. apply in_app_or in H as [H|[H|H]]; [|discriminate|contradiction].
      eapply name_not; [exact Hk| |exact H]. right; left; reflexivity. }
    rewrite Htk.
    assert (Hso : split_once 61 (k ++ 61 :: raw) = Some (k, raw)).
    { apply split_once_spec. split; [reflexivity|]. eapply name_not; [exact Hk|left; reflexivity]. }
    rewrite Hso. destruct k as [|k0 k]; [contradiction|].
    rewrite (proj2 (key_chars (k0 :: k)) Hk). cbn [negb]. apply unquoted_iff in Hu. rewrite Hu. reflexivity.
Qed.

Lemma parse_lines_iff lines : forall ps, parse_lines lines = ps <-> contributes lines ps.
Proof.
  induction lines as [|l lines IH]; intros ps; cbn [parse_lines].
  - split; [intros <-; constructor|]. intros H; inversion H; reflexivity.
  - destruct (parse_line l) as [[k v]|] eqn:E.
    + assert (Ha := proj1 (parse_line_iff l k v) E). split.
      * intros <-. constructor; [assumption|]. apply IH. reflexivity.
      * intros H. inversion H as [|? ? k' v' ps' Ha' Hc|? ? ? Hn Hc]; subst.
        -- apply parse_line_iff in Ha'. apply IH in Hc. congruence.
        -- exfalso. eapply Hn; eassumption.
    + assert (Hn : forall k v, ~ assigns l k v).
      { intros k v Ha. apply parse_line_iff in Ha. congruence. }
      split.
      * intros <-. apply co_skip; [assumption|]. apply IH. reflexivity.
      * intros H. inversion H as [|? ? k' v' ps' Ha' Hc|? ? ? Hn' Hc]; subst; [exfalso; eapply Hn; eassumption|].
        apply IH. assumption.
Qed.
