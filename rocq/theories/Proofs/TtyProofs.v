From Coq Require Import List NArith Bool Lia Arith ZifyBool ZifyN ZifyNat.
From Verif Require Import Model.Base Model.Tty Spec.TtySpec.
Import ListNotations.
Open Scope N_scope.

Lemma clear_only_off : forall off mask, (forall i, N.testbit mask i = existsb (N.eqb i) off) ->
  forall f, only_off off f (clear_flags f mask).
Proof. intros off mask H f i. unfold clear_flags. rewrite N.ldiff_spec, H. reflexivity. Qed.

(** A mask below 2^16, checked bit by bit. *)
Lemma mask_bits : forall mask off, mask < 2 ^ 16 -> Forall (fun i => i < 16) off ->
  forallb (fun i => Bool.eqb (N.testbit mask (N.of_nat i)) (existsb (N.eqb (N.of_nat i)) off)) (seq 0 16) = true ->
  forall i, N.testbit mask i = existsb (N.eqb i) off.
Proof.
  intros mask off Hm Ho Hc i. destruct (N.lt_ge_cases i 16) as [H|H].
  - rewrite forallb_forall in Hc. specialize (Hc (N.to_nat i)). rewrite N2Nat.id in Hc.
    apply Bool.eqb_prop. apply Hc. apply in_seq. lia.
  - replace (N.testbit mask i) with false.
    + symmetry. destruct (existsb (N.eqb i) off) eqn:E; [|reflexivity]. exfalso.
      apply existsb_exists in E. destruct E as (x & Hx & E). apply N.eqb_eq in E. subst x.
      rewrite Forall_forall in Ho. specialize (Ho _ Hx). cbv beta in Ho. lia.
    + symmetry. destruct (N.eq_dec mask 0) as [->|Hz]; [apply N.bits_0|].
      apply N.bits_above_log2. apply N.log2_lt_pow2 in Hm; lia.
Qed.

Lemma attach_flags_raw : forall old, is_raw_of old (attach_flags old).
Proof.
  intros old. unfold is_raw_of, attach_flags; cbn [input_flags output_flags local_flags control_flags control_chars speeds].
  split; [|split; [|split; [|split; [|split; reflexivity]]]].
  - apply clear_only_off. apply mask_bits; [reflexivity| |reflexivity]. repeat (constructor; [reflexivity|]). constructor.
  - apply clear_only_off. apply mask_bits; [reflexivity| |reflexivity]. repeat (constructor; [reflexivity|]). constructor.
  - apply clear_only_off. apply mask_bits; [reflexivity| |reflexivity]. repeat (constructor; [reflexivity|]). constructor.
  - intros i. unfold set_flags, clear_flags. rewrite N.lor_spec, N.ldiff_spec.
    assert (H1 : N.testbit (N.lor CSIZE PARENB) i = existsb (N.eqb i) [4; 5; 8])
      by (apply mask_bits; [reflexivity|repeat (constructor; [reflexivity|]); constructor|reflexivity]).
    assert (H2 : N.testbit CS8 i = existsb (N.eqb i) [4; 5])
      by (apply mask_bits; [reflexivity|repeat (constructor; [reflexivity|]); constructor|reflexivity]).
    rewrite H1, H2. cbn [existsb].
    destruct (i =? 4), (i =? 5), (i =? 8), (N.testbit (control_flags old) i); reflexivity.
Qed.

Lemma is_raw_unique : forall old a b, is_raw_of old a -> is_raw_of old b -> a = b.
Proof.
  intros old [a1 a2 a3 a4 a5 a6] [b1 b2 b3 b4 b5 b6] (A1 & A2 & A3 & A4 & A5 & A6) (B1 & B2 & B3 & B4 & B5 & B6).
  cbn in *. f_equal; try congruence; apply N.bits_inj; intros i.
  - rewrite A1, B1. reflexivity.
  - rewrite A2, B2. reflexivity.
  - rewrite A4, B4. reflexivity.
  - rewrite A3, B3. reflexivity.
Qed.

Lemma truncate_known k t : is_known_part k t (truncate k t).
Proof. unfold is_known_part, only_known, truncate. cbn. repeat split; intros i; apply N.land_spec. Qed.

Lemma known_part_unique k t a b : is_known_part k t a -> is_known_part k t b -> a = b.
Proof.
  intros (A1 & A2 & A3 & A4 & A5 & A6) (B1 & B2 & B3 & B4 & B5 & B6). destruct a, b; cbn in *.
  f_equal; try congruence; apply N.bits_inj; intros i; [rewrite A1, B1|rewrite A2, B2|rewrite A3, B3|rewrite A4, B4]; reflexivity.
Qed.

Lemma all_known_truncate k t : all_known k t -> truncate k t = t.
Proof. intros H. eapply known_part_unique; [apply truncate_known|exact H]. Qed.
