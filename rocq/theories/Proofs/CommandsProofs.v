From Coq Require Import List NArith ZArith Bool Arith Lia.
From Verif Require Import Model.Base Model.Protocol Model.Commands Spec.CommandsSpec Proofs.BaseLemmas.
Import ListNotations.
Open Scope nat_scope.

Lemma repeat_eq {A} (x : A) n : Forall (eq x) (repeat x n).
Proof. apply Forall_forall. intros y H. symmetry. eapply repeat_spec. exact H. Qed.

Lemma status_no_tab a : ~ In 10%N (status_text a) /\ ~ In 9%N (status_text a).
Proof. destruct a; split; vm_compute; intros F; repeat destruct F as [F|F]; try discriminate; contradiction. Qed.

Lemma status_inj a b : status_text a = status_text b -> a = b.
Proof. destruct a, b; try reflexivity; vm_compute; discriminate. Qed.

Definition list_row (w : nat) (s : rstr * bool) : rstr := padded w (fst s) ++ 9%N :: status_text (snd s).

Lemma list_text_rows ss : list_text ss = flat_map (fun l => l ++ [10%N]) ((lit "NAME" ++ 9%N :: lit "STATUS") :: map (list_row (longest_name ss)) ss).
Proof.
  unfold list_text. cbn [flat_map]. rewrite <- !app_assoc. cbn [app]. f_equal. cbn [lit]. do 1 f_equal.
  set (w := longest_name ss). clearbody w. f_equal. f_equal.
  induction ss as [|s ss IH]; [reflexivity|]. cbn [flat_map map]. rewrite IH. unfold list_row. rewrite <- !app_assoc. cbn [app]. rewrite <- !app_assoc. reflexivity.
Qed.

Lemma row_no_nl w s : word (fst s) -> ~ In 10%N (list_row w s).
Proof.
  intros (_ & H & _) I. unfold list_row, padded in I. rewrite <- app_assoc in I. apply in_app_or in I. destruct I as [I|I]; [auto|].
  apply in_app_or in I. destruct I as [I|[I|I]]; [apply repeat_spec in I; discriminate|discriminate|].
  apply (proj1 (status_no_tab (snd s))). assumption.
Qed.

Lemma longest_cons x ss : longest_name (x :: ss) = Nat.max (str_len (fst x)) (longest_name ss).
Proof. reflexivity. Qed.

Lemma longest_ge ss s : In s ss -> str_len (fst s) <= longest_name ss.
Proof. induction ss as [|x ss IH]; [contradiction|]. rewrite longest_cons. intros [->|I]; [lia|]. specialize (IH I). lia. Qed.

Lemma longest_reached ss : ss <> [] -> exists s, In s ss /\ str_len (fst s) = longest_name ss.
Proof.
  induction ss as [|x ss IH]; [congruence|]. intros _. rewrite longest_cons. destruct ss as [|y ss].
  - exists x. split; [left; reflexivity|]. cbn [longest_name fold_right]. lia.
  - destruct IH as (s & I & E); [discriminate|]. remember (longest_name (y :: ss)) as m.
    destruct (Nat.max_dec (str_len (fst x)) m) as [M|M].
    + exists x. split; [left; reflexivity|]. lia.
    + exists s. split; [right; assumption|]. lia.
Qed.

(** Splitting at a separator is unique. *)
Lemma cut_unique sep (a b a' b' : rstr) : ~ In sep a -> ~ In sep a' -> a ++ sep :: b = a' ++ sep :: b' -> a = a' /\ b = b'.
Proof.
  revert a'. induction a as [|x a IH]; intros [|y a'] H H' E.
  - injection E as ->. auto.
  - injection E as <- _. exfalso. apply H'. left. reflexivity.
  - injection E as -> _. exfalso. apply H. left. reflexivity.
  - injection E as -> E. destruct (IH a') as (-> & ->); [intros I; apply H; right; exact I|intros I; apply H'; right; exact I|exact E|auto].
Qed.

Lemma lines_unique a b : Forall (fun l => ~ In 10%N l) a -> Forall (fun l => ~ In 10%N l) b ->
  flat_map (fun l => l ++ [10%N]) a = flat_map (fun l => l ++ [10%N]) b -> a = b.
Proof.
  revert b. induction a as [|x a IH]; intros [|y b] Ha Hb E; [reflexivity| | |].
  - cbn in E. rewrite <- app_assoc in E. symmetry in E. apply app_eq_nil in E. destruct E as (_ & E). discriminate.
  - cbn in E. rewrite <- app_assoc in E. apply app_eq_nil in E. destruct E as (_ & E). discriminate.
  - cbn in E. rewrite <- !app_assoc in E. cbn in E. apply cut_unique in E; [|exact (Forall_inv Ha)|exact (Forall_inv Hb)].
    destruct E as (-> & E). f_equal. apply IH; [exact (Forall_inv_tail Ha)|exact (Forall_inv_tail Hb)|exact E].
Qed.

Lemma spaces_unique (n m : rstr) p q : ~ In 32%N n -> ~ In 32%N m -> Forall (eq 32%N) p -> Forall (eq 32%N) q -> n ++ p = m ++ q -> n = m.
Proof.
  revert m. induction n as [|x n IH]; intros [|y m] Hn Hm Hp Hq E; [reflexivity| | |].
  - exfalso. apply Hm. cbn in E. subst p. apply Forall_inv in Hp. left. congruence.
  - exfalso. apply Hn. cbn in E. subst q. apply Forall_inv in Hq. left. congruence.
  - injection E as -> E. f_equal. apply (IH m); [intros I; apply Hn; right; exact I|intros I; apply Hm; right; exact I|assumption..].
Qed.

Lemma row_unique line n s n' s' : word n -> word n' -> ~ In 9%N s -> ~ In 9%N s' -> row line n s -> row line n' s' -> n = n' /\ s = s'.
Proof.
  intros (A1 & A2 & A3) (B1 & B2 & B3) S S' (p & E & P) (q & E' & Q). rewrite E in E'.
  rewrite !app_assoc in E'. apply cut_unique in E'.
  - destruct E' as (E' & ->). split; [|reflexivity]. eapply spaces_unique; [..|exact E']; assumption.
  - intros I. apply in_app_or in I. destruct I as [I|I]; [auto|]. rewrite Forall_forall in P. apply P in I. discriminate.
  - intros I. apply in_app_or in I. destruct I as [I|I]; [auto|]. rewrite Forall_forall in Q. apply Q in I. discriminate.
Qed.

Lemma list_row_row w s : row (list_row w s) (fst s) (status_text (snd s)).
Proof. exists (repeat 32%N (w - str_len (fst s))). split; [unfold list_row, padded; rewrite <- app_assoc; reflexivity|apply repeat_eq]. Qed.

Lemma ascii_len s : Forall (fun c => (c < 128)%N) s -> str_len s = length s.
Proof.
  induction s as [|c s IH]; intros H; [reflexivity|]. cbn. fold (str_len s). rewrite IH by exact (Forall_inv_tail H).
  apply Forall_inv in H. unfold utf8_len. apply N.ltb_lt in H. rewrite H. reflexivity.
Qed.

(** var get prints the value if the key is there once. *)
Lemma get_absent var (vars : var_list) : lookup var vars = None ->
  flat_map (fun p => if str_eqb (fst p) var then snd p ++ [10%N] else []) vars = [].
Proof.
  induction vars as [|(k, v) vars IH]; [reflexivity|]. cbn. destruct (str_eqb var k) eqn:E; [discriminate|].
  intros H. assert (E' : str_eqb k var = false) by (apply str_eqb_neq; apply str_eqb_neq in E; congruence).
  rewrite E'. cbn. apply IH. exact H.
Qed.

Lemma lookup_none_notin {V} k (m : list (rstr * V)) : lookup k m = None <-> ~ In k (map fst m).
Proof.
  induction m as [|(k', v) m IH]; cbn; [split; auto|]. destruct (str_eqb k k') eqn:E.
  - apply str_eqb_eq in E. subst. split; [discriminate|]. intros H. exfalso. apply H. left. reflexivity.
  - apply str_eqb_neq in E. rewrite IH. split; intros H; [intros [F|F]; [congruence|auto]|intros F; apply H; right; exact F].
Qed.

Lemma get_present var (vars : var_list) v : NoDup (map fst vars) -> lookup var vars = Some v ->
  flat_map (fun p => if str_eqb (fst p) var then snd p ++ [10%N] else []) vars = v ++ [10%N].
Proof.
  induction vars as [|(k, w) vars IH]; [discriminate|]. intros ND. cbn in *. inversion ND as [|? ? N1 N2]; subst.
  destruct (str_eqb var k) eqn:E.
  - apply str_eqb_eq in E. subst k. intros [= ->]. rewrite (proj2 (str_eqb_eq var var) eq_refl).
    rewrite get_absent; [apply app_nil_r|]. apply lookup_none_notin. exact N1.
  - intros H. assert (E' : str_eqb k var = false) by (apply str_eqb_neq; apply str_eqb_neq in E; congruence).
    rewrite E'. cbn. apply IH; assumption.
Qed.
