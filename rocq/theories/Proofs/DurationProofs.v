From Coq Require Import List NArith ZArith Bool Lia.
From Coq Require Import ZifyBool ZifyNat ZifyN.
From Verif Require Import Model.Base Model.Duration Spec.Numerals Spec.UnicodeSpec
  Proofs.BaseLemmas Proofs.NumeralProofs.
Import ListNotations.
Open Scope N_scope.

Lemma ascii_only_agrees : agrees_with_ascii ascii_only.
Proof. intros c Hc. unfold ascii_only; cbn [u_numeric u_alphabetic]. split; lia. Qed.

Lemma parse_u64_group s n : parse_u64 s = Some n <-> group s n.
Proof.
  rewrite parse_u64_iff. unfold group, fits.
  assert (E : n <= u64_max <-> n < 2 ^ 64) by (unfold u64_max; lia).
  rewrite E. split.
  - intros [[H|(s' & -> & H)] Hl]; [left; auto|right; eauto].
  - intros [[H Hl]|(s' & -> & H & Hl)]; eauto.
Qed.

Lemma group_no_colon s n : group s n -> ~ In 58 s.
Proof.
  intros [[H _]|(s' & -> & H & _)].
  - apply (numeral_no_char _ _ 58 H eq_refl).
  - intros [E|E]; [discriminate|]. apply (numeral_no_char _ _ 58 H eq_refl E).
Qed.

Lemma group_bound s n : group s n -> n <= u64_max.
Proof. intros H. apply parse_u64_group in H. apply parse_u64_iff in H as [_ H]. exact H. Qed.

Lemma arith_release n : arith Release n = Some (n mod u64_mod).
Proof.
  unfold arith. destruct (N.leb_spec n u64_max) as [H|H]; [|reflexivity].
  rewrite N.mod_small; [reflexivity|]. unfold u64_max, u64_mod in *. lia.
Qed.

Lemma arith_debug n : arith Debug n = if n <=? u64_max then Some n else None.
Proof. reflexivity. Qed.

Definition prod (fs : list N) : N := fold_right N.mul 1 fs.

Lemma mul_all_release n fs : n < u64_mod -> mul_all Release n fs = Some ((n * prod fs) mod u64_mod).
Proof.
  revert n; induction fs as [|f fs IH]; intros n Hn; cbn [mul_all prod fold_right].
  - rewrite N.mul_1_r, N.mod_small by assumption. reflexivity.
  - rewrite arith_release, IH by (apply N.mod_lt; unfold u64_mod; lia).
    f_equal. fold (prod fs). rewrite N.mul_mod_idemp_l by (unfold u64_mod; lia). f_equal. lia.
Qed.

Lemma mul_all_debug n fs : n <= u64_max -> Forall (fun f => 1 <= f) fs ->
  mul_all Debug n fs = if n * prod fs <=? u64_max then Some (n * prod fs) else None.
Proof.
  intros Hn Hf; revert n Hn; induction Hf as [|f fs Hf1 Hfs IH]; intros n Hn; cbn [mul_all prod fold_right].
  - rewrite N.mul_1_r. destruct (N.leb_spec n u64_max); [reflexivity|lia].
  - fold (prod fs). rewrite arith_debug.
    assert (Hp : 1 <= prod fs).
    { clear -Hfs. induction Hfs as [|x l Hx _ IHl]; cbn [prod fold_right]; [lia|]. fold (prod l). nia. }
    destruct (N.leb_spec (n * f) u64_max) as [H|H].
    + rewrite IH by assumption. replace (n * f * prod fs) with (n * (f * prod fs)) by lia. reflexivity.
    + destruct (N.leb_spec (n * (f * prod fs)) u64_max) as [H2|H2]; [|reflexivity].
      exfalso. assert (n * f <= n * f * prod fs) by nia. lia.
Qed.

Definition mult (b : build) (n : N) : parsed :=
  match b with
  | Debug => if n <=? u64_max then Secs n else Panicked
  | Release => Secs (n mod u64_mod)
  end.

Lemma add_part_group b secs p n fs : group p n -> secs <= u64_max -> Forall (fun f => 1 <= f) fs ->
  add_part b secs p fs = mult b (secs + n * prod fs).
Proof.
  intros Hg Hs Hf. pose proof (group_bound _ _ Hg) as Hn. apply parse_u64_group in Hg.
  unfold add_part. rewrite Hg. destruct b; cbn [mult].
  - rewrite mul_all_debug by assumption.
    destruct (N.leb_spec (n * prod fs) u64_max) as [H|H].
    + rewrite arith_debug. destruct (secs + n * prod fs <=? u64_max); reflexivity.
    + destruct (N.leb_spec (secs + n * prod fs) u64_max); [lia|reflexivity].
  - rewrite mul_all_release by (unfold u64_max, u64_mod in *; lia).
    rewrite arith_release. f_equal. rewrite N.add_mod_idemp_r by (unfold u64_mod; lia). reflexivity.
Qed.

Lemma add_part_secs b secs p fs m : add_part b secs p fs = Secs m -> exists n, group p n.
Proof.
  unfold add_part. destruct (parse_u64 p) as [n|] eqn:E; [|discriminate]. intros _.
  exists n. apply parse_u64_group; assumption.
Qed.

Lemma mult_bound b n m : mult b n = Secs m -> m <= u64_max.
Proof.
  destruct b; cbn [mult].
  - destruct (N.leb_spec n u64_max); [|discriminate]. intros [= <-]. assumption.
  - intros [= <-]. pose proof (N.mod_lt n u64_mod). unfold u64_max, u64_mod in *. lia.
Qed.

Lemma mult_small b n : n <= u64_max -> mult b n = Secs n.
Proof.
  intros H. destruct b; cbn [mult].
  - destruct (N.leb_spec n u64_max); [reflexivity|lia].
  - rewrite N.mod_small; [reflexivity|]. unfold u64_max, u64_mod in *. lia.
Qed.

(** Chaining two additions under [mult] is one addition. *)
Lemma mult_chain b x y (f : N -> parsed) :
  (forall s, s <= u64_max -> f s = mult b (s + y)) ->
  and_then (mult b x) f = mult b (x + y).
Proof.
  intros Hf. destruct b; cbn [mult].
  - destruct (N.leb_spec x u64_max) as [H|H]; cbn [and_then].
    + rewrite Hf by assumption. reflexivity.
    + destruct (N.leb_spec (x + y) u64_max); [lia|reflexivity].
  - cbn [and_then]. rewrite Hf.
    + cbn [mult]. rewrite N.add_mod_idemp_l by (unfold u64_mod; lia). reflexivity.
    + pose proof (N.mod_lt x u64_mod). unfold u64_max, u64_mod in *. lia.
Qed.

Ltac fs_ok := repeat (constructor; try lia).

Lemma colon_takes numeric b s n :
  takes numeric s n -> existsb (N.eqb 58) s = true -> parse_colon_duration b s = mult b n.
Proof.
  intros Ht He. unfold parse_colon_duration.
  destruct Ht as [ds n junk c k Hds Hu Hj Hjn|a m b0 s Ha Hb|a h b0 m c s Ha Hb Hc|a d b0 h c m e s Ha Hb Hc Hd].
  - exfalso. apply existsb_exists in He as (x & Hx & Ex). apply N.eqb_eq in Ex; subst x.
    apply in_app_or in Hx as [Hx|Hx].
    + destruct Hds as [Hds _]. apply (numeral_no_char _ _ 58 Hds eq_refl Hx).
    + apply in_app_or in Hx as [Hx|[Hx|[]]]; [contradiction|]. inversion Hu; subst; discriminate.
  - assert (Es : split_on 58 (a ++ 58 :: b0) = [a; b0]).
    { apply (split_join 58 [a; b0]); [discriminate|].
      intros p [<-|[<-|[]]]; eapply group_no_colon; eassumption. }
    rewrite Es. cbn [rev app]. pose proof (group_bound _ _ Hb).
    assert (E := proj2 (parse_u64_group _ _) Hb). rewrite E.
    rewrite (add_part_group b s a m [60]) by (assumption || fs_ok).
    rewrite (mult_chain b _ 0); [f_equal; unfold prod; cbn [fold_right]; lia|].
    intros x Hx. rewrite N.add_0_r. symmetry; apply mult_small; assumption.
  - assert (Es : split_on 58 (a ++ 58 :: b0 ++ 58 :: c) = [a; b0; c]).
    { apply (split_join 58 [a; b0; c]); [discriminate|].
      intros p [<-|[<-|[<-|[]]]]; eapply group_no_colon; eassumption. }
    rewrite Es. cbn [rev app]. pose proof (group_bound _ _ Hc).
    assert (E := proj2 (parse_u64_group _ _) Hc). rewrite E.
    rewrite (add_part_group b s b0 m [60]) by (assumption || fs_ok).
    rewrite (mult_chain b _ (3600 * h)); [f_equal; unfold prod; cbn [fold_right]; lia|].
    intros x Hx. rewrite (add_part_group b x a h [60;60]) by (assumption || fs_ok).
    rewrite (mult_chain b _ 0); [f_equal; unfold prod; cbn [fold_right]; lia|].
    intros y Hy. rewrite N.add_0_r. symmetry; apply mult_small; assumption.
  - assert (Es : split_on 58 (a ++ 58 :: b0 ++ 58 :: c ++ 58 :: e) = [a; b0; c; e]).
    { apply (split_join 58 [a; b0; c; e]); [discriminate|].
      intros p [<-|[<-|[<-|[<-|[]]]]]; eapply group_no_colon; eassumption. }
    rewrite Es. cbn [rev app]. pose proof (group_bound _ _ Hd).
    assert (E := proj2 (parse_u64_group _ _) Hd). rewrite E.
    rewrite (add_part_group b s c m [60]) by (assumption || fs_ok).
    rewrite (mult_chain b _ (86400 * d + 3600 * h)); [f_equal; unfold prod; cbn [fold_right]; lia|].
    intros x Hx. rewrite (add_part_group b x b0 h [60;60]) by (assumption || fs_ok).
    rewrite (mult_chain b _ (86400 * d)); [f_equal; unfold prod; cbn [fold_right]; lia|].
    intros y Hy. rewrite (add_part_group b y a d [60;60;24]) by (assumption || fs_ok).
    rewrite (mult_chain b _ 0); [f_equal; unfold prod; cbn [fold_right]; lia|].
    intros z Hz. rewrite N.add_0_r. symmetry; apply mult_small; assumption.
Qed.

Lemma and_then_secs p f m : and_then p f = Secs m -> exists x, p = Secs x /\ f x = Secs m.
Proof. destruct p; cbn [and_then]; try discriminate. eauto. Qed.

Lemma colon_secs numeric b s m :
  existsb (N.eqb 58) s = true -> parse_colon_duration b s = Secs m -> exists n, takes numeric s n.
Proof.
  intros He. unfold parse_colon_duration.
  destruct (rev (split_on 58 s)) as [|p0 r0] eqn:Er; [discriminate|].
  assert (Hj : s = join_with 58 (rev (p0 :: r0))).
  { rewrite <- Er, rev_involutive. symmetry; apply join_split. }
  destruct (parse_u64 p0) as [s0|] eqn:E0; [|discriminate]. apply parse_u64_group in E0.
  destruct r0 as [|p1 r1].
  { exfalso. apply existsb_exists in He as (x & Hx & Ex). apply N.eqb_eq in Ex; subst x.
    rewrite Hj in Hx. cbn [rev app join_with] in Hx. apply (group_no_colon _ _ E0 Hx). }
  intros H. apply and_then_secs in H as (s1 & H1 & H). apply add_part_secs in H1 as [n1 G1].
  destruct r1 as [|p2 r2].
  { exists (60 * n1 + s0). rewrite Hj. apply tk_ms; assumption. }
  apply and_then_secs in H as (s2 & H2 & H). apply add_part_secs in H2 as [n2 G2].
  destruct r2 as [|p3 r3].
  { exists (3600 * n2 + 60 * n1 + s0). rewrite Hj. apply tk_hms; assumption. }
  apply and_then_secs in H as (s3 & H3 & H). apply add_part_secs in H3 as [n3 G3].
  destruct r3; [|discriminate].
  exists (86400 * n3 + 3600 * n2 + 60 * n1 + s0). rewrite Hj. apply tk_dhms; assumption.
Qed.

Lemma last_char_snoc s c : last_char (s ++ [c]) = Some c.
Proof.
  induction s as [|x s IH]; [reflexivity|]. cbn [app last_char].
  destruct (s ++ [c]) eqn:E; [destruct s; discriminate|]. exact IH.
Qed.

Lemma last_char_inv s c : last_char s = Some c -> exists s', s = s' ++ [c].
Proof.
  induction s as [|x s IH]; [discriminate|]. cbn [last_char].
  destruct s as [|y s]; [intros [= <-]; exists []; reflexivity|].
  intros H. destruct (IH H) as [s' ->]. exists (x :: s'). reflexivity.
Qed.

Lemma take_while_split f s : exists rest, s = take_while f s ++ rest /\
  (forall j rest', rest = j :: rest' -> f j = false) /\ Forall (fun c => f c = true) (take_while f s).
Proof.
  induction s as [|c s (rest & IH1 & IH2 & IH3)]; cbn [take_while].
  - exists []. repeat split; [discriminate|constructor].
  - destruct (f c) eqn:E.
    + exists rest. cbn [app]. rewrite <- IH1. repeat split; [assumption|constructor; assumption].
    + exists (c :: s). repeat split; [|constructor]. intros j r [= <- <-]. assumption.
Qed.

Lemma take_while_app f a b : Forall (fun c => f c = true) a ->
  (forall j r, b = j :: r -> f j = false) -> take_while f (a ++ b) = a.
Proof.
  intros Ha Hb. induction Ha as [|x a Hx Ha IH]; cbn [app take_while].
  - destruct b as [|j r]; [reflexivity|]. cbn [take_while]. rewrite (Hb j r eq_refl). reflexivity.
  - rewrite Hx, IH. reflexivity.
Qed.

Section WithTables.
Variable u : unicode.
Hypothesis Hu : agrees_with_ascii u.

Lemma digit_numeric c : is_digit c = true -> u_numeric u c = true.
Proof. intros H. unfold is_digit in H. apply (Hu c); lia. Qed.

Lemma unit_char c k : unit_secs c k -> u_numeric u c = false /\ u_alphabetic u c = true /\ c <> 58.
Proof.
  intros H. assert (Hc : c < 128) by (destruct H; lia).
  destruct (Hu c Hc) as [H1 H2]. split; [|split].
  - apply not_true_iff_false. intros E. apply H1 in E. destruct H; lia.
  - apply H2. destruct H; lia.
  - destruct H; discriminate.
Qed.

Lemma suffix_units b n c m : n <= u64_max ->
  make_suffix_duration b n c = m ->
  (exists k, unit_secs c k /\ m = mult b (n * k)) \/ ((forall k, ~ unit_secs c k) /\ m = Rejected).
Proof.
  intros Hn <-. unfold make_suffix_duration.
  assert (Hm : forall fs, Forall (fun f => 1 <= f) fs ->
     match mul_all b n fs with Some m => Secs m | None => Panicked end = mult b (n * prod fs)).
  { intros fs Hf. destruct b; cbn [mult].
    - rewrite mul_all_debug by assumption. destruct (_ <=? _); reflexivity.
    - rewrite mul_all_release by (unfold u64_max, u64_mod in *; lia). reflexivity. }
  destruct (N.eqb_spec c 115) as [->|H1].
  { left; exists 1; split; [constructor|]. rewrite Hm by fs_ok. f_equal. }
  destruct (N.eqb_spec c 109) as [->|H2].
  { left; exists 60; split; [constructor|]. rewrite Hm by fs_ok. f_equal. }
  destruct (N.eqb_spec c 104) as [->|H3].
  { left; exists 3600; split; [constructor|]. rewrite Hm by fs_ok. f_equal. }
  destruct (N.eqb_spec c 100) as [->|H4].
  { left; exists 86400; split; [constructor|]. rewrite Hm by fs_ok. f_equal. }
  right; split; [|reflexivity]. intros k Hk. inversion Hk; subst; congruence.
Qed.

Lemma existsb_colon s : existsb (N.eqb 58) s = false <-> ~ In 58 s.
Proof.
  split.
  - intros H Hin. assert (E : existsb (N.eqb 58) s = true); [|congruence].
    apply existsb_exists. exists 58; split; [assumption|reflexivity].
  - intros H. destruct (existsb (N.eqb 58) s) eqn:E; [|reflexivity].
    apply existsb_exists in E as (x & Hx & Ex). apply N.eqb_eq in Ex; subst; contradiction.
Qed.

Lemma parse_takes b s n : takes (u_numeric u) s n -> parse u b s = mult b n.
Proof.
  intros Ht. unfold parse.
  destruct (existsb (N.eqb 58) s) eqn:Ec; [eapply colon_takes; eassumption|].
  apply existsb_colon in Ec.
  destruct Ht as [ds n junk c k Hds Hun Hj Hjn|a m b0 s Ha Hb|a h b0 m c s Ha Hb Hc|a d b0 h c m e s Ha Hb Hc Hd];
    try (exfalso; apply Ec; apply in_or_app; right; left; reflexivity).
  rewrite app_assoc, last_char_snoc.
  destruct (unit_char _ _ Hun) as (Hcn & Hca & _). rewrite Hca.
  unfold parse_suffix_duration. rewrite last_char_snoc, <- app_assoc.
  destruct Hds as [Hds Hlt].
  rewrite take_while_app.
  - assert (G : group ds n) by (left; split; assumption).
    pose proof (group_bound _ _ G) as Hb. apply parse_u64_group in G. rewrite G.
    destruct (suffix_units b n c _ Hb eq_refl) as [(k' & Hk' & E)|[E _]].
    + rewrite E. f_equal. f_equal. inversion Hun; subst; inversion Hk'; subst; reflexivity.
    + exfalso; eapply E; eassumption.
  - apply numeral_digits in Hds as [_ Hds]. eapply Forall_impl; [|exact Hds].
    intros x Hx; apply digit_numeric; assumption.
  - intros j r Hr. destruct junk as [|j' junk'].
    + injection Hr as <- <-. assumption.
    + injection Hr as <- <-. eapply Hjn; reflexivity.
Qed.

Lemma parse_secs b s m : parse u b s = Secs m -> exists n, takes (u_numeric u) s n.
Proof.
  unfold parse. destruct (existsb (N.eqb 58) s) eqn:Ec; [eapply colon_secs; eassumption|].
  apply existsb_colon in Ec.
  destruct (last_char s) as [c|] eqn:El; [|discriminate].
  destruct (u_alphabetic u c) eqn:Ea; [|discriminate].
  unfold parse_suffix_duration. rewrite El.
  destruct (parse_u64 (take_while (u_numeric u) s)) as [n|] eqn:Ep; [|discriminate].
  assert (Hb : n <= u64_max) by (apply parse_u64_iff in Ep as [_ Hb]; exact Hb).
  intros Hm. destruct (suffix_units b n c _ Hb eq_refl) as [(k & Hk & E)|[_ E]]; [|congruence].
  exists (n * k). destruct (unit_char _ _ Hk) as (Hcn & _ & Hc58).
  destruct (take_while_split (u_numeric u) s) as (rest & Hs & Hrest & Hall).
  set (ds := take_while (u_numeric u) s) in *.
  destruct (last_char_inv _ _ El) as [s' Hs'].
  assert (Hne : rest <> []).
  { intros ->. rewrite app_nil_r in Hs. rewrite <- Hs, Hs' in Hall.
    apply Forall_app in Hall as [_ Hall]. inversion Hall; congruence. }
  destruct (exists_last Hne) as (junk & c' & Hjunk).
  assert (c' = c).
  { assert (E' : last_char s = Some c') by (rewrite Hs, Hjunk, app_assoc; apply last_char_snoc). congruence. }
  subst c'. rewrite Hs, Hjunk.
  apply tk_suffix; try assumption.
  - apply parse_u64_iff in Ep as [[Hn|(s2 & Hs2 & Hn)] Hle]; [split; [assumption|unfold u64_max in *; lia]|].
    exfalso. rewrite Hs2 in Hall. apply Forall_inv in Hall.
    apply (Hu 43) in Hall; lia.
  - intros Hin. apply Ec. rewrite Hs, Hjunk. apply in_or_app; right. apply in_or_app; left; assumption.
  - intros j junk' ->. apply (Hrest j (junk' ++ [c])). rewrite Hjunk. reflexivity.
Qed.

Lemma parse_debug s n : takes (u_numeric u) s n ->
  parse u Debug s = if n <? 2 ^ 64 then Secs n else Panicked.
Proof.
  intros H. rewrite (parse_takes Debug _ _ H). cbn [mult].
  destruct (N.leb_spec n u64_max); destruct (N.ltb_spec n (2^64)); unfold u64_max in *; try reflexivity; lia.
Qed.

Lemma parse_release s n : takes (u_numeric u) s n -> parse u Release s = Secs (n mod 2 ^ 64).
Proof. intros H. rewrite (parse_takes Release _ _ H). reflexivity. Qed.

Lemma parse_release_no_panic s : parse u Release s <> Panicked.
Proof.
  assert (Hadd : forall secs p fs, add_part Release secs p fs <> Panicked).
  { intros secs p fs. unfold add_part. destruct (parse_u64 p) as [n|] eqn:E; [|discriminate].
    apply parse_u64_iff in E as [_ E].
    rewrite mul_all_release by (unfold u64_max, u64_mod in *; lia). rewrite arith_release. discriminate. }
  assert (Hat : forall p f, p <> Panicked -> (forall x, f x <> Panicked) -> and_then p f <> Panicked).
  { intros [n| |] f Hp Hf; cbn [and_then]; try congruence; apply Hf. }
  unfold parse. destruct (existsb (N.eqb 58) s).
  - unfold parse_colon_duration. destruct (rev (split_on 58 s)) as [|p0 r0]; [discriminate|].
    destruct (parse_u64 p0); [|discriminate]. destruct r0 as [|p1 r1]; [discriminate|].
    apply Hat; [apply Hadd|]. intros x. destruct r1 as [|p2 r2]; [discriminate|].
    apply Hat; [apply Hadd|]. intros y. destruct r2 as [|p3 r3]; [discriminate|].
    apply Hat; [apply Hadd|]. intros z. destruct r3; discriminate.
  - destruct (last_char s) as [c|] eqn:El; [|discriminate]. destruct (u_alphabetic u c); [|discriminate].
    unfold parse_suffix_duration. rewrite El. destruct (parse_u64 _) as [n|] eqn:E; [|discriminate].
    apply parse_u64_iff in E as [_ E].
    destruct (suffix_units Release n c _ E eq_refl) as [(k & _ & ->)|[_ ->]]; cbn [mult]; discriminate.
Qed.

Lemma parse_rejects s : (~ exists n, takes (u_numeric u) s n) ->
  parse u Release s = Rejected /\ forall n, parse u Debug s <> Secs n.
Proof.
  intros H. split.
  - destruct (parse u Release s) eqn:E; [|reflexivity|].
    + exfalso; apply H. eapply parse_secs; eassumption.
    + exfalso; eapply parse_release_no_panic; eassumption.
  - intros n E. apply H. eapply parse_secs; eassumption.
Qed.

Lemma numeral_le_sum_fits s n k : numeral s n -> n * k < 2 ^ 64 -> 1 <= k -> fits s n.
Proof. intros H Hl Hk. split; [assumption|]. nia. Qed.

Lemma denotes_takes s n : denotes s n -> n < 2 ^ 64 -> takes (u_numeric u) s n.
Proof.
  intros H Hn. destruct H as [ds n c k Hds Hk|a m b s Ha Hb|a h b m c s Ha Hb Hc|a d b h c m e s Ha Hb Hc Hd].
  - apply (tk_suffix _ ds n [] c k); [|assumption|intros []|discriminate].
    split; [assumption|]. destruct Hk; lia.
  - apply tk_ms; left; (split; [assumption|lia]).
  - apply tk_hms; left; (split; [assumption|lia]).
  - apply tk_dhms; left; (split; [assumption|lia]).
Qed.

Lemma parse_denotes b s n : denotes s n -> n < 2 ^ 64 -> parse u b s = Secs n.
Proof.
  intros H Hn. rewrite (parse_takes b s n) by (apply denotes_takes; assumption).
  apply mult_small. unfold u64_max. lia.
Qed.

End WithTables.
