From Coq Require Import List NArith Bool Lia.
From Verif Require Import Model.Base Model.Protocol Model.Config Model.EtcEnvironment Model.Names Model.ShellEnv Model.Spawn
  Spec.PathSpec Spec.SpawnSpec Proofs.BaseLemmas Proofs.EtcEnvironmentProofs Proofs.NamesProofs.
Import ListNotations.
Open Scope N_scope.

Lemma ends_with_iff suf s : ends_with suf s = true <-> exists t, s = t ++ suf.
Proof.
  unfold ends_with. destruct (strip_suffix suf s) as [r|] eqn:E.
  - apply strip_suffix_spec in E. split; [intros _; exists r; assumption|reflexivity].
  - split; [discriminate|]. intros (t & Ht). apply strip_suffix_spec in Ht. congruence.
Qed.

Lemma replace_skip pat new : forall s k, replace_from pat new k s = replace_from pat new 0 (skipn k s).
Proof.
  induction s as [|c s IH]; intros [|k]; try reflexivity. cbn [replace_from skipn]. apply IH.
Qed.

Lemma str_replace_replaced pat new s : pat <> [] -> replaced pat new s (str_replace pat new s).
Proof.
  intros Hp. unfold str_replace. remember (length s) as n eqn:En.
  assert (Hn : (length s <= n)%nat) by lia. clear En. revert s Hn.
  induction n as [|n IH]; intros s Hn.
  - destruct s; [constructor|cbn in Hn; lia].
  - destruct s as [|c s]; [constructor|]. cbn [replace_from].
    destruct (strip_prefix pat (c :: s)) as [r|] eqn:E.
    + apply strip_prefix_spec in E. rewrite replace_skip.
      destruct pat as [|p pat]; [congruence|]. cbn [length]. cbn in E. injection E as -> ->.
      replace (S (length pat) - 1)%nat with (length pat) by lia.
      rewrite skipn_app, skipn_all, PeanoNat.Nat.sub_diag. cbn [skipn app].
      change (p :: pat ++ r) with ((p :: pat) ++ r). apply rep_hit. apply IH.
      cbn in Hn. rewrite app_length in Hn. lia.
    + apply rep_miss; [|apply IH; cbn in Hn; lia].
      intros t Ht. apply strip_prefix_spec in Ht. congruence.
Qed.

Lemma replaced_unique pat new s r : pat <> [] -> replaced pat new s r -> forall r', replaced pat new s r' -> r = r'.
Proof.
  intros Hp H. induction H as [|s r H IH|c s r Hm H IH]; intros r' H'.
  - inversion H' as [|s0 r0 H0 E|]; [reflexivity|]. apply app_eq_nil in E. destruct E. congruence.
  - inversion H' as [E|s0 r0 H0 E|c0 s0 r0 Hm0 H0 E].
    + symmetry in E. apply app_eq_nil in E. destruct E. congruence.
    + apply app_inv_head in E. subst s0. f_equal. auto.
    + exfalso. eapply Hm0. exact E.
  - inversion H' as [|s0 r0 H0 E|c0 s0 r0 Hm0 H0 E].
    + exfalso. eapply Hm. symmetry. exact E.
    + subst. f_equal. auto.
Qed.

Lemma contains_refl_app a b c : contains b (a ++ b ++ c).
Proof. exists a, c. reflexivity. Qed.

Lemma replaced_chars pat new s r (P : N -> Prop) : replaced pat new s r -> Forall P s -> Forall P new -> Forall P r.
Proof.
  intros H Hs Hn. induction H as [|s r H IH|c s r Hm H IH]; [constructor| |].
  - apply Forall_app in Hs. apply Forall_app. split; [assumption|]. apply IH. apply Hs.
  - constructor; [apply (Forall_inv Hs)|apply IH; apply (Forall_inv_tail Hs)].
Qed.

(** * Looking for a word in pieced-together text *)
Lemma word_before (w : rstr) x : ~ In x w -> forall a b q, a ++ x :: b = w ++ q -> exists q', a = w ++ q'.
Proof.
  induction w as [|y w IH]; intros Hx a b q E; [exists a; reflexivity|].
  destruct a as [|z a]; cbn [app] in E; injection E as Ez E.
  - exfalso. apply Hx. left. congruence.
  - subst z. destruct (IH (fun H => Hx (or_intror H)) a b q E) as (q' & ->). exists q'. reflexivity.
Qed.

Lemma contains_split (w : rstr) x : ~ In x w -> forall a b, contains w (a ++ x :: b) -> contains w a \/ contains w b.
Proof.
  intros Hx a b (p & q & E). revert a E. induction p as [|c p IH]; intros a E; cbn [app] in E.
  - left. destruct (word_before w x Hx a b q E) as (q' & ->). exists [], q'. reflexivity.
  - destruct a as [|z a]; cbn [app] in E; injection E as Ez E.
    + right. exists p, q. exact E.
    + destruct (IH a E) as [(p' & q' & ->)|H]; [left; exists (z :: p'), q'; reflexivity|right; exact H].
Qed.

Fixpoint containsb (w s : rstr) : bool :=
  match strip_prefix w s with
  | Some _ => true
  | None => match s with [] => false | _ :: s' => containsb w s' end
  end.

Lemma containsb_complete w s : contains w s -> containsb w s = true.
Proof.
  intros (p & q & ->). induction p as [|c p IH]; cbn [app].
  - destruct w as [|y w]; [destruct q; reflexivity|]. cbn [app containsb].
    replace (strip_prefix (y :: w) (y :: w ++ q)) with (Some q); [reflexivity|].
    symmetry. apply strip_prefix_spec. reflexivity.
  - cbn [containsb]. destruct (strip_prefix w (c :: p ++ w ++ q)); [reflexivity|exact IH].
Qed.

(** * The prompt scripts *)
Lemma bash_script_spec p : prompt_script (Some Bash) p = bash_setup p.
Proof.
  unfold prompt_script, bash_setup, script. cbn [flat_map fst snd repeat].
  rewrite <- !app_assoc. reflexivity.
Qed.

Lemma zsh_script_spec p : prompt_script (Some Zsh) p = zsh_setup p.
Proof.
  unfold prompt_script, zsh_setup, script. cbn [flat_map fst snd repeat].
  rewrite <- !app_assoc. reflexivity.
Qed.

Lemma fish_script_spec p : prompt_script (Some Fish) p = fish_setup p.
Proof.
  unfold prompt_script, fish_setup, script. cbn [flat_map fst snd repeat].
  rewrite <- !app_assoc. reflexivity.
Qed.
