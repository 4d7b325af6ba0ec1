(** Proofs about the heap of the reaper and about the reaper. *)
From Coq Require Import List NArith ZArith Bool Arith Lia Permutation Zify ZifyNat ZifyBool ZifyN.
From Verif Require Import Model.Base Model.Reaper Spec.ReaperThreadSpec Proofs.BaseLemmas.
Import ListNotations.
Open Scope nat_scope.
Ltac Zify.zify_post_hook ::= Z.div_mod_to_equations.

(** ** Vectors *)

Lemma put_length l : forall i x, length (put l i x) = length l.
Proof. induction l as [|y l IH]; intros [|i] x; cbn [put length]; auto. Qed.
Lemma get_put l : forall i x j, get (put l i x) j = if (j =? i) && (i <? length l) then x else get l j.
Proof.
  unfold get. induction l as [|y l IH]; intros i x j.
  - cbn. rewrite andb_false_r. reflexivity.
  - destruct i as [|i], j as [|j]; cbn [put nth length]; try reflexivity. rewrite IH. reflexivity.
Qed.
Lemma swap_length l i j : length (swap l i j) = length l.
Proof. unfold swap. rewrite !put_length. reflexivity. Qed.
Lemma get_swap l i j k : i < length l -> j < length l ->
  get (swap l i j) k = if k =? j then get l i else if k =? i then get l j else get l k.
Proof.
  intros I J. unfold swap. rewrite !get_put, put_length.
  replace (j <? length l) with true by lia. replace (i <? length l) with true by lia. rewrite !andb_true_r. reflexivity.
Qed.
Lemma swap_perm l i j : i < length l -> j < length l -> Permutation l (swap l i j).
Proof.
  intros I J. apply (Permutation_nth _ _ no_one). split; [apply swap_length|].
  exists (fun k => if k =? j then i else if k =? i then j else k). split; [|split].
  - intros k K. destruct (k =? j), (k =? i); lia.
  - intros k k' K K'. destruct (Nat.eqb_spec k j), (Nat.eqb_spec k i), (Nat.eqb_spec k' j), (Nat.eqb_spec k' i); lia.
  - intros k K. pose proof (get_swap l i j k I J) as G. unfold get in G. rewrite G. destruct (k =? j), (k =? i); reflexivity.
Qed.

(** ** Order *)

Definition key (l : list reapable) (i : nat) : N := reap_at (get l i).
Definition parent (i : nat) : nat := (i - 1) / 2.
Definition ordered (l : list reapable) : Prop := forall i, 0 < i < length l -> (key l (parent i) <= key l i)%N.
(** All is in order but for what is at [h]. *)
Definition but (l : list reapable) (h : nat) (below : bool) : Prop :=
  (forall i, 0 < i < length l -> i <> h -> (below = true -> parent i <> h) -> (key l (parent i) <= key l i)%N) /\
  (forall i, 0 < i < length l -> parent i = h -> 0 < h -> (key l (parent h) <= key l i)%N).

Lemma key_swap l i j k : i < length l -> j < length l -> key (swap l i j) k = if k =? j then key l i else if k =? i then key l j else key l k.
Proof. intros I J. unfold key. rewrite get_swap by assumption. destruct (k =? j), (k =? i); reflexivity. Qed.

Lemma sift_up_ok f : forall l h, h < f -> h < length l -> but l h false ->
  ordered (sift_up f l h) /\ Permutation l (sift_up f l h).
Proof.
  induction f as [|f IH]; intros l h F H (B1 & B2); [lia|]. cbn [sift_up]. destruct (Nat.ltb_spec 0 h) as [P|P].
  - fold (parent h). unfold le. fold (key l h) (key l (parent h)). destruct (N.leb_spec (key l (parent h)) (key l h)) as [E|E].
    + split; [|apply Permutation_refl]. intros i I. destruct (Nat.eq_dec i h) as [->|N]; [exact E|]. apply B1; auto; discriminate.
    + assert (Ph : parent h < h) by (unfold parent; lia).
      destruct (IH (swap l h (parent h)) (parent h)) as (O & Pm); [lia|rewrite swap_length; lia| |].
      * split.
        -- intros i I N _. rewrite swap_length in I. rewrite !key_swap by lia.
           destruct (Nat.eqb_spec i (parent h)); [lia|]. destruct (Nat.eqb_spec i h) as [->|N2].
           ++ rewrite Nat.eqb_refl. lia.
           ++ destruct (Nat.eqb_spec (parent i) (parent h)) as [Q|Q].
              ** assert (key l (parent i) <= key l i)%N by (apply B1; auto; discriminate). rewrite Q in *. lia.
              ** destruct (Nat.eqb_spec (parent i) h) as [Q2|Q2]; [exact (B2 i I Q2 P)|]. apply B1; auto; discriminate.
        -- intros i I Q P2. rewrite swap_length in I. rewrite !key_swap by lia.
           destruct (Nat.eqb_spec (parent (parent h)) (parent h)) as [Q1|Q1]; [unfold parent in *; lia|].
           destruct (Nat.eqb_spec (parent (parent h)) h) as [Q2|Q2]; [unfold parent in *; lia|].
           assert (X : (key l (parent (parent h)) <= key l (parent h))%N) by (apply B1; [lia|lia|discriminate]).
           destruct (Nat.eqb_spec i (parent h)) as [Q3|Q3]; [unfold parent in *; lia|].
           destruct (Nat.eqb_spec i h) as [->|Q4]; [exact X|].
           assert (Y : (key l (parent i) <= key l i)%N) by (apply B1; [lia|lia|discriminate]). rewrite Q in Y. lia.
      * split; [exact O|]. eapply Permutation_trans; [|exact Pm]. apply swap_perm; lia.
  - split; [|apply Permutation_refl]. intros i I. apply B1; [exact I|lia|discriminate].
Qed.

Lemma children i h : 0 < i -> parent i = h -> i = 2 * h + 1 \/ i = 2 * h + 2.
Proof. unfold parent. lia. Qed.

Lemma sift_down_ok f : forall l h, length l <= h + f -> h < length l -> but l h true ->
  ordered (sift_down f l h) /\ Permutation l (sift_down f l h).
Proof.
  induction f as [|f IH]; intros l h F H (B1 & B2); [lia|]. cbn [sift_down]. cbv zeta.
  destruct (Nat.leb_spec (2 * h + 1) (length l - 2)) as [C|C].
  - set (c := 2 * h + 1 + (if le (get l (2 * h + 1)) (get l (2 * h + 1 + 1)) then 1 else 0)).
    assert (Hc : (c = 2 * h + 1 \/ c = 2 * h + 2) /\ (key l c <= key l (2 * h + 1))%N /\ (key l c <= key l (2 * h + 2))%N).
    { unfold c, le. fold (key l (2 * h + 1)) (key l (2 * h + 1 + 1)). replace (2 * h + 1 + 1) with (2 * h + 2) by lia.
      destruct (N.leb_spec (key l (2 * h + 2)) (key l (2 * h + 1))) as [E|E]; split; try lia.
      - replace (2 * h + 1 + 1) with (2 * h + 2) by lia. lia.
      - replace (2 * h + 1 + 0) with (2 * h + 1) by lia. lia. }
    destruct Hc as (Hc & K1 & K2).
    assert (Lc : c < length l) by lia. assert (Pc : parent c = h) by (unfold parent; lia).
    destruct (IH (swap l h c) c) as (O & Pm); [rewrite swap_length; lia|rewrite swap_length; lia| |].
    + split.
      * intros i I N N2. specialize (N2 eq_refl). rewrite swap_length in I. rewrite !key_swap by lia.
        destruct (Nat.eqb_spec i c); [lia|]. destruct (Nat.eqb_spec (parent i) c); [lia|].
        destruct (Nat.eqb_spec i h) as [->|Ni].
        -- destruct (Nat.eqb_spec (parent h) h) as [Q|Q]; [unfold parent in Q; lia|]. exact (B2 c ltac:(lia) Pc ltac:(lia)).
        -- destruct (Nat.eqb_spec (parent i) h) as [Q|Q]; [|apply B1; auto].
           destruct (children i h ltac:(lia) Q) as [->| ->]; assumption.
      * intros i I Q P2. rewrite swap_length in I. rewrite !key_swap by lia. rewrite Pc.
        destruct (Nat.eqb_spec h c); [lia|]. rewrite Nat.eqb_refl.
        destruct (Nat.eqb_spec i c) as [->|]; [unfold parent in Q; lia|]. destruct (Nat.eqb_spec i h) as [->|Ni]; [unfold parent in *; lia|].
        rewrite <- Q. apply B1; auto. intros _. lia.
    + split; [exact O|]. eapply Permutation_trans; [|exact Pm]. apply swap_perm; lia.
  - destruct (Nat.eqb_spec (2 * h + 1) (length l - 1)) as [E|E].
    + assert (Lc : 2 * h + 1 < length l) by lia. assert (Pc : parent (2 * h + 1) = h) by (unfold parent; lia).
      destruct (sift_up_ok (length l) (swap l h (2 * h + 1)) (2 * h + 1)) as (O & Pm); [lia|rewrite swap_length; lia| |].
      * split.
        -- intros i I N _. rewrite swap_length in I. rewrite !key_swap by lia.
           destruct (Nat.eqb_spec i (2 * h + 1)); [lia|]. destruct (Nat.eqb_spec (parent i) (2 * h + 1)) as [Q|Q]; [unfold parent in Q; lia|].
           destruct (Nat.eqb_spec i h) as [->|Ni].
           ++ destruct (Nat.eqb_spec (parent h) h) as [Q2|Q2]; [unfold parent in Q2; lia|]. exact (B2 (2 * h + 1) ltac:(lia) Pc ltac:(lia)).
           ++ destruct (Nat.eqb_spec (parent i) h) as [Q2|Q2]; [|apply B1; auto]. destruct (children i h ltac:(lia) Q2); lia.
        -- intros i I Q. rewrite swap_length in I. unfold parent in Q. lia.
      * split; [exact O|]. eapply Permutation_trans; [|exact Pm]. apply swap_perm; lia.
    + apply sift_up_ok; [lia|lia|]. split.
      * intros i I N _. apply B1; auto. intros _ Q. destruct (children i h ltac:(lia) Q); lia.
      * intros i I Q. destruct (children i h ltac:(lia) Q); lia.
Qed.

Lemma get_app1 l x i : i < length l -> get (l ++ [x]) i = get l i.
Proof. intros H. unfold get. apply app_nth1. exact H. Qed.

Lemma push_ok l x : ordered l -> ordered (push l x) /\ Permutation (l ++ [x]) (push l x).
Proof.
  intros O. unfold push. apply sift_up_ok; rewrite ?app_length; cbn [length]; [lia|lia|]. split.
  - intros i I N _. rewrite app_length in I. cbn [length] in I. unfold key. rewrite !get_app1 by (unfold parent; lia). apply O. lia.
  - intros i I Q. rewrite app_length in I. cbn [length] in I. unfold parent in Q. lia.
Qed.

Lemma ordered_top l i : ordered l -> i < length l -> (key l 0 <= key l i)%N.
Proof.
  intros O. induction i as [i IH] using lt_wf_ind. intros I. destruct i as [|i]; [reflexivity|].
  assert (P : parent (S i) < S i) by (unfold parent; lia). specialize (O (S i) ltac:(lia)). specialize (IH _ P ltac:(lia)). lia.
Qed.

Lemma pop_ok l x rest : ordered l -> pop l = Some (x, rest) ->
  ordered rest /\ Permutation l (x :: rest) /\ peek l = Some x /\ forall y, In y l -> (reap_at x <= reap_at y)%N.
Proof.
  intros O. unfold pop. destruct (rev l) as [|last r] eqn:R; [discriminate|].
  assert (E : l = rev r ++ [last]) by (rewrite <- (rev_involutive l), R; reflexivity).
  assert (T : forall t s, l = t :: s -> forall y, In y l -> (reap_at t <= reap_at y)%N).
  { intros t s -> y Y. apply (In_nth _ _ no_one) in Y. destruct Y as (i & I & <-). exact (ordered_top _ i O I). }
  destruct (rev r) as [|top s] eqn:R2; intros H; injection H as <- <-.
  - cbn in E. subst l. repeat split; [intros i I; cbn in I; lia|apply Permutation_refl|apply (T last []); reflexivity].
  - cbn [app] in E. subst l.
    assert (Len : length (top :: s ++ [last]) = S (length (last :: s))) by (cbn [length]; rewrite app_length; cbn; lia).
    destruct (sift_down_ok (length (last :: s)) (last :: s) 0) as (O' & P); [lia|cbn; lia| |].
    + split; [|intros; lia]. intros i I N N2. specialize (N2 eq_refl).
      assert (G : forall j, 0 < j -> j < length (last :: s) -> key (last :: s) j = key (top :: s ++ [last]) j).
      { intros [|j] J J'; [lia|]. unfold key, get. cbn [nth]. rewrite app_nth1 by (cbn [length] in J'; lia). reflexivity. }
      rewrite !G by (unfold parent in *; lia). apply O. lia.
    + split; [exact O'|]. split; [|split; [reflexivity|apply (T top (s ++ [last])); reflexivity]].
      apply perm_skip. eapply Permutation_trans; [|exact P]. apply Permutation_sym. apply Permutation_cons_append.
Qed.
Lemma pop_some l x : peek l = Some x -> exists y rest, pop l = Some (y, rest).
Proof.
  intros H. unfold pop. destruct (rev l) as [|a r] eqn:R.
  - apply (f_equal (@rev reapable)) in R. rewrite rev_involutive in R. subst l. discriminate.
  - destruct (rev r); eauto.
Qed.

(** ** The thread *)

Definition current (r : reaper) (n : rstr) : N := match lookup n (gen_ids r) with Some g => g | None => 0%N end.
Record inv (r : reaper) : Prop := {
  i_ordered : ordered (heap r);
  i_gens : forall x, In x (heap r) -> (0 < gen x <= current r (name x))%N;
  i_once : forall x y, In x (heap r) -> In y (heap r) -> name x = name y -> gen x = gen y -> x = y;
  i_nodup : NoDup (heap r);
  i_pending : forall n d, pending (log r) n = Some d <-> In (mkReapable n (current r n) d) (heap r)
}.

Lemma pending_app l d n x : pending_from d (l ++ [x]) n =
  match x with
  | Scheduled m t => if name_dec n m then Some t else pending_from d l n
  | Reaped m _ _ => if name_dec n m then None else pending_from d l n
  end.
Proof. revert d. induction l as [|y l IH]; intros d; [destruct x; reflexivity|]. cbn [app pending_from]. destruct y; apply IH. Qed.

Lemma inv_new : inv reaper_new.
Proof.
  split; try (intros; contradiction).
  - intros i I. cbn in I. lia.
  - apply NoDup_nil.
  - intros n d. split; [discriminate|intros []].
Qed.

Lemma inv_step r e : inv r -> inv (step r e).
Proof.
  intros [O G1 G2 G3 P]. unfold step. destruct (ended r) eqn:E; [constructor; assumption|]. destruct e as [n t| |now].
  - fold (current r n). set (g := (current r n + 1)%N). destruct (push_ok (heap r) (mkReapable n g t) O) as (O' & Pm).
    assert (I : forall x, In x (push (heap r) (mkReapable n g t)) <-> In x (heap r) \/ x = mkReapable n g t).
    { intros x. split; intros H.
      - apply (Permutation_in _ (Permutation_sym Pm)) in H. apply in_app_or in H. destruct H as [H|[H|[]]]; auto.
      - apply (Permutation_in _ Pm). apply in_or_app. destruct H as [H|H]; [auto|right; left; auto]. }
    assert (Cn : forall m, match lookup m (insert n g (gen_ids r)) with Some g => g | None => 0%N end = if name_dec m n then g else current r m).
    { intros m. destruct (name_dec m n) as [->|N]; [rewrite lookup_insert_eq; reflexivity|]. rewrite lookup_insert_neq by exact N. reflexivity. }
    assert (New : forall x, In x (heap r) -> name x = n -> gen x <> g) by (intros x X Nx Q; pose proof (G1 x X) as G; rewrite Nx in G; unfold g in Q; lia).
    constructor; cbn [heap gen_ids log]; unfold current; cbn [gen_ids].
    + exact O'.
    + intros x X. rewrite Cn. apply I in X. destruct X as [X|X].
      * pose proof (G1 x X) as G. destruct (name_dec (name x) n) as [Q|Q]; [|exact G]. rewrite Q in G. unfold g. lia.
      * subst x. cbn [name gen]. destruct (name_dec n n); [unfold g; lia|contradiction].
    + intros x y X Y Nm Gm. apply I in X. apply I in Y. destruct X as [X|X], Y as [Y|Y]; subst; auto.
      * cbn [name gen] in *. destruct (New x X Nm Gm).
      * cbn [name gen] in *. destruct (New y Y (eq_sym Nm) (eq_sym Gm)).
    + apply (Permutation_NoDup Pm). apply (Permutation_NoDup (Permutation_cons_append _ _)). constructor; [|exact G3]. intros X. exact (New _ X eq_refl eq_refl).
    + intros m d. rewrite Cn. unfold pending. rewrite pending_app. destruct (name_dec m n) as [->|N].
      * rewrite I. split; [intros Q; injection Q as ->; auto|]. intros [X|X]; [destruct (New _ X eq_refl eq_refl)|]. injection X as ->. reflexivity.
      * rewrite I. fold (pending (log r) m). rewrite P. split; [auto|]. intros [X|X]; [exact X|]. injection X as X _ _. contradiction.
  - constructor; assumption.
  - destruct (peek (heap r)) as [top|] eqn:Pk; [|constructor; assumption]. destruct (now <? reap_at top)%N; [constructor; assumption|].
    destruct (pop (heap r)) as [[x rest]|] eqn:Po; [|constructor; assumption]. destruct (pop_ok _ _ _ O Po) as (O' & Pm & _ & _).
    assert (I : forall y, In y (heap r) <-> y = x \/ In y rest) by (intros y; split; intros H; [apply (Permutation_in _ Pm) in H; destruct H; auto|apply (Permutation_in _ (Permutation_sym Pm)); destruct H; [left|right]; auto]).
    pose proof (Permutation_NoDup Pm G3) as Nd. inversion Nd as [|? ? Nx Nr]; subst.
    fold (current r (name x)). destruct (N.eqb_spec (current r (name x)) (gen x)) as [C|C].
    + constructor; cbn [heap gen_ids log]; unfold current; cbn [gen_ids]; fold (current r); auto.
      * intros y Y. apply G1, I. auto.
      * intros y z Y Z. apply G2; apply I; auto.
      * intros m d. fold (current r m). unfold pending. rewrite pending_app. destruct (name_dec m (name x)) as [->|N].
        -- split; [discriminate|]. intros H. destruct Nx.
           assert (Q : mkReapable (name x) (current r (name x)) d = x) by (apply G2; [apply I; auto|apply I; auto|reflexivity|exact C]). rewrite <- Q. exact H.
        -- fold (pending (log r) m). rewrite P, I. split; [intros [H|H]; [|exact H]|auto]. subst x. contradiction.
    + constructor; cbn [heap gen_ids log]; unfold current; cbn [gen_ids]; auto.
      * intros y Y. apply G1, I. auto.
      * intros y z Y Z. apply G2; apply I; auto.
      * intros m d. fold (current r m). rewrite P, I. split; [intros [H|H]; [|exact H]|auto]. subst x. cbn [name gen] in C. contradiction.
Qed.
Lemma inv_run l : forall r, inv r -> inv (run r l).
Proof. induction l as [|e l IH]; intros r H; [exact H|]. apply IH, inv_step, H. Qed.

(** ** The log *)

Lemma log_step r e : inv r -> log (step r e) = log r \/
  (exists n t, e = Message n t /\ log (step r e) = log r ++ [Scheduled n t]) \/
  (exists n d now, e = Timer now /\ log (step r e) = log r ++ [Reaped n d now] /\ pending (log r) n = Some d /\ (d <= now)%N /\
     forall m d', pending (log r) m = Some d' -> (d <= d')%N).
Proof.
  intros I. unfold step. destruct (ended r); [auto|]. destruct e as [n t| |now]; [right; left; eauto|auto|].
  destruct (peek (heap r)) as [top|] eqn:Pk; [|auto]. destruct (N.ltb_spec now (reap_at top)) as [L|L]; [auto|].
  destruct (pop (heap r)) as [[x rest]|] eqn:Po; [|auto]. destruct (pop_ok _ _ _ (i_ordered _ I) Po) as (_ & Pm & Pk' & Mn).
  fold (current r (name x)). destruct (N.eqb_spec (current r (name x)) (gen x)) as [C|C]; [|auto].
  right; right. exists (name x), (reap_at x), now. split; [reflexivity|]. split; [reflexivity|].
  assert (X : In x (heap r)) by (apply (Permutation_in _ (Permutation_sym Pm)); left; reflexivity).
  split; [apply (i_pending _ I); rewrite C; destruct x; exact X|]. split; [rewrite Pk in Pk'; injection Pk' as ->; exact L|].
  intros m d' Q. apply (i_pending _ I) in Q. exact (Mn _ Q).
Qed.

Lemma log_run l : forall r, inv r -> exists more, log (run r l) = log r ++ more /\
  forall pre n d t post, more = pre ++ Reaped n d t :: post ->
    pending (log r ++ pre) n = Some d /\ (d <= t)%N /\ (forall m d', pending (log r ++ pre) m = Some d' -> (d <= d')%N).
Proof.
  induction l as [|e l IH]; intros r I.
  - exists []. split; [rewrite app_nil_r; reflexivity|]. intros pre n d t post H; destruct pre; discriminate.
  - change (run r (e :: l)) with (run (step r e) l). destruct (IH (step r e) (inv_step _ _ I)) as (more & L & H).
    destruct (log_step r e I) as [E|[(n & t & -> & E)|(n & d & now & -> & E & D)]]; rewrite E in *.
    + eauto.
    + exists (Scheduled n t :: more). rewrite L, <- app_assoc. split; [reflexivity|]. intros [|p pre] m d u post Q; [discriminate|].
      injection Q as <- Q. specialize (H pre m d u post Q). rewrite <- app_assoc in H. exact H.
    + exists (Reaped n d now :: more). rewrite L, <- app_assoc. split; [reflexivity|]. intros [|p pre] m d0 u post Q.
      * injection Q as <- <- <- <-. rewrite app_nil_r. exact D.
      * injection Q as <- Q. specialize (H pre m d0 u post Q). rewrite <- app_assoc in H. exact H.
Qed.

Lemma noted_app a b : noted (a ++ b) = noted a ++ noted b.
Proof. induction a as [|[n t|n d t] a IH]; cbn; rewrite ?IH; reflexivity. Qed.
Lemma noted_run l : forall r, noted (log (run r l)) = noted (log r) ++ (if ended r then [] else received l).
Proof.
  induction l as [|e l IH]; intros r; [cbn; destruct (ended r); rewrite app_nil_r; reflexivity|].
  change (run r (e :: l)) with (run (step r e) l). rewrite IH. unfold step. destruct (ended r) eqn:E.
  - rewrite E. reflexivity.
  - destruct e as [n t| |now]; cbn [log ended received].
    + rewrite noted_app, <- app_assoc. reflexivity.
    + reflexivity.
    + destruct (peek (heap r)) as [top|]; [|rewrite E; reflexivity]. destruct (now <? reap_at top)%N; [rewrite E; reflexivity|].
      destruct (pop (heap r)) as [[x rest]|]; [|rewrite E; reflexivity]. destruct (_ =? _)%N; cbn [log ended]; [|reflexivity].
      rewrite noted_app. cbn [noted]. rewrite app_nil_r. reflexivity.
Qed.

(** ** In time *)

Lemma timer_works r now : inv r -> ended r = false ->
  (forall n d, pending (log r) n = Some d -> (now < d)%N) \/ (length (heap (step r (Timer now))) < length (heap r) /\ ended (step r (Timer now)) = false).
Proof.
  intros I E. unfold step. rewrite E. destruct (peek (heap r)) as [top|] eqn:Pk.
  - destruct (N.ltb_spec now (reap_at top)) as [L|L].
    + left. intros n d P. apply (i_pending _ I) in P. destruct (pop_some _ _ Pk) as (x & rest & Po). destruct (pop_ok _ _ _ (i_ordered _ I) Po) as (_ & _ & Pk' & Mn).
      rewrite Pk in Pk'. injection Pk' as ->. specialize (Mn _ P). cbn [reap_at] in Mn. lia.
    + destruct (pop_some _ _ Pk) as (x & rest & Po). rewrite Po. destruct (pop_ok _ _ _ (i_ordered _ I) Po) as (_ & Pm & _). apply Permutation_length in Pm. cbn [length] in Pm.
      right. destruct (_ =? _)%N; cbn [heap ended]; split; auto; lia.
  - left. intros n d P. apply (i_pending _ I) in P. destruct (heap r); [destruct P|discriminate].
Qed.
Lemma timer_quiet r now : inv r -> ended r = false -> (forall n d, pending (log r) n = Some d -> (now < d)%N) -> 
  forall n d, pending (log (step r (Timer now))) n = Some d -> (now < d)%N.
Proof.
  intros I E Q n d. destruct (log_step r (Timer now) I) as [L|[(? & ? & L & _)|(m & d0 & t & Et & L & P & D & _)]]; [rewrite L; apply Q|discriminate|].
  injection Et as <-. specialize (Q _ _ P). lia.
Qed.
Lemma timer_ended r now : ended (step r (Timer now)) = ended r.
Proof. unfold step. destruct (ended r) eqn:E; [exact E|]. repeat (match goal with |- context [match ?e with _ => _ end] => destruct e end); auto. Qed.
Lemma timers k : forall r now, inv r -> ended r = false -> length (heap r) <= k ->
  forall n d, pending (log (run r (repeat (Timer now) k))) n = Some d -> (now < d)%N.
Proof.
  assert (Z : forall k r now, inv r -> ended r = false -> (forall n d, pending (log r) n = Some d -> (now < d)%N) -> forall n d, pending (log (run r (repeat (Timer now) k))) n = Some d -> (now < d)%N).
  { clear k. induction k as [|k IH]; intros r now I E Q; [exact Q|]. cbn [repeat]. change (run r (Timer now :: repeat (Timer now) k)) with (run (step r (Timer now)) (repeat (Timer now) k)).
    apply IH; [apply inv_step, I|rewrite timer_ended; exact E|apply timer_quiet; assumption]. }
  induction k as [|k IH]; intros r now I E L n d P.
  - cbn in P. apply (i_pending _ I) in P. destruct (heap r); [destruct P|cbn in L; lia].
  - destruct (timer_works r now I E) as [Q|(Q & E')]; [exact (Z (S k) r now I E Q n d P)|].
    cbn [repeat] in P. change (run r (Timer now :: repeat (Timer now) k)) with (run (step r (Timer now)) (repeat (Timer now) k)) in P.
    exact (IH (step r (Timer now)) now (inv_step _ _ I) E' ltac:(lia) n d P).
Qed.
Lemma heap_small l : forall r, inv r -> length (heap (run r l)) <= length (heap r) + length (noted (log (run r l))) - length (noted (log r)).
Proof.
  induction l as [|e l IH]; intros r I; [cbn; lia|]. change (run r (e :: l)) with (run (step r e) l). specialize (IH _ (inv_step r e I)).
  assert (B : length (heap (step r e)) + length (noted (log r)) <= length (heap r) + length (noted (log (step r e))) /\ length (noted (log r)) <= length (noted (log (step r e))) /\ length (noted (log (step r e))) <= length (noted (log (run (step r e) l)))).
  { split; [|split].
    - unfold step. destruct (ended r); [lia|]. destruct e as [n t| |now]; cbn [heap log]; [|lia|].
      + destruct (push_ok (heap r) (mkReapable n (match lookup n (gen_ids r) with Some g => g | None => 0 end + 1)%N t) (i_ordered _ I)) as (_ & Pm). apply Permutation_length in Pm. rewrite app_length in Pm. cbn [length] in Pm. rewrite noted_app, app_length. cbn. lia.
      + destruct (peek (heap r)) as [top|]; [|lia]. destruct (now <? reap_at top)%N; [lia|]. destruct (pop (heap r)) as [[x rest]|] eqn:Po; [|lia].
        destruct (pop_ok _ _ _ (i_ordered _ I) Po) as (_ & Pm & _). apply Permutation_length in Pm. cbn [length] in Pm. destruct (_ =? _)%N; cbn [heap log]; rewrite ?noted_app, ?app_length; cbn; lia.
    - change (step r e) with (run r [e]). rewrite noted_run, app_length. lia.
    - rewrite (noted_run l (step r e)), app_length. lia. }
  lia.
Qed.
