(** Lemmas for C77: the daemon's account of the deadlines and the reaper thread's. *)
From Coq Require Import List NArith ZArith Bool Arith Lia Permutation.
From Verif Require Import Model.Base Model.Protocol Model.Names Model.Server Spec.ServerSpec Spec.ReapingSpec Proofs.BaseLemmas Proofs.ServerProofs Proofs.ServerGossip Proofs.ServerReaper.
From Verif Require Model.Reaper Spec.ReaperThreadSpec Proofs.ReaperThreadProofs.
Import ListNotations.
Open Scope nat_scope.

Lemma remove_absent {V} n (m : list (rstr * V)) : lookup n m = None -> remove n m = m.
Proof.
  induction m as [|[k v] m IH]; cbn; [reflexivity|]. destruct (str_eqb n k) eqn:E; [discriminate|]. intros H. rewrite IH by exact H. reflexivity.
Qed.
Lemma remove_nth_perm {A} k : forall (l : list A) x, nth_error l k = Some x -> Permutation l (x :: remove_nth k l).
Proof.
  induction k as [|k IH]; intros [|y l] x H; try discriminate.
  - injection H as ->. reflexivity.
  - cbn [remove_nth]. rewrite perm_swap. constructor. apply IH. exact H.
Qed.

Lemma daemon_reachable st r : daemon st r -> reachable st.
Proof.
  induction 1; try (eapply reachable_step; eassumption). exists defaults, []. reflexivity.
Qed.
Lemma daemon_thread st r : daemon st r -> exists l, r = Reaper.run Reaper.reaper_new l.
Proof.
  assert (S : forall l e, Reaper.step (Reaper.run Reaper.reaper_new l) e = Reaper.run Reaper.reaper_new (l ++ [e])).
  { intros l e. unfold Reaper.run. rewrite fold_left_app. reflexivity. }
  induction 1 as [|? ? ? ? (l & ->)|? ? ? ? ? ? ? (l & ->)|? ? ? ? ? ? (l & ->)]; [exists []; reflexivity| eauto | eauto | eauto].
Qed.
Lemma daemon_inv st r : daemon st r -> ReaperThreadProofs.inv r.
Proof. intros D. destruct (daemon_thread st r D) as (l & ->). apply ReaperThreadProofs.inv_run, ReaperThreadProofs.inv_new. Qed.

Lemma agrees_else st r a : agrees st r -> reapers a = false -> agrees (step st a) r.
Proof.
  intros (P & G & E) N. destruct (step_reaps st a) as [a st' (_ & Eh & Eg) _|c now inst h pid ttl st' _ _ _ Eh Eg _ _|n t s rest st' _ _ _ _ _|k inst q st' _ _ _ _ _ _ _]; try discriminate N;
    (split; [rewrite Eh; exact P|]); (split; [|exact E]); intros m; rewrite <- G; unfold gen_of; rewrite Eg; reflexivity.
Qed.

Lemma agrees_told st r n d s rest : ReaperThreadProofs.inv r -> agrees st r -> mailbox st = (n, d, s) :: rest ->
  agrees (step st ARegister) (Reaper.step r (Reaper.Message n d)).
Proof.
  intros I (P & G & E) M. cbn [step]. unfold reaper_register. rewrite M. unfold Reaper.step. rewrite E.
  destruct (ReaperThreadProofs.push_ok (Reaper.heap r) (Reaper.mkReapable n (match lookup n (Reaper.gen_ids r) with Some g => g | None => 0 end + 1) d) (ReaperThreadProofs.i_ordered r I)) as (_ & Pm).
  split; [|split; [|reflexivity]].
  - cbn [heap with_reaper map Reaper.heap]. rewrite <- Pm, <- Permutation_cons_append. unfold as_noted at 1. cbn [r_name r_gen r_at].
    replace (N.of_nat (S (gen_of st n))) with (match lookup n (Reaper.gen_ids r) with Some g => g | None => 0 end + 1)%N by (rewrite <- G; lia).
    constructor. exact P.
  - intros m. unfold gen_of. cbn [gens with_reaper Reaper.gen_ids]. destruct (str_eq_dec m n) as [->|N].
    + rewrite !lookup_insert_eq. rewrite <- G. unfold gen_of. lia.
    + rewrite !lookup_insert_neq by exact N. apply G.
Qed.

(** Waking up. *)
Lemma wakes st r now k q : ReaperThreadProofs.inv r -> agrees st r ->
  nth_error (heap st) k = Some q -> Reaper.peek (Reaper.heap r) = Some (as_noted q) -> (r_at q <= now)%N ->
  locked st = None \/ gen_of st (r_name q) <> r_gen q ->
  let st' := step st (AFire k now) in let r' := Reaper.step r (Reaper.Timer now) in
  agrees st' r' /\
  ((gen_of st (r_name q) = r_gen q /\ Reaper.log r' = Reaper.log r ++ [Reaper.Reaped (r_name q) (r_at q) now] /\ ended_by (r_name q) st st') \/
   (gen_of st (r_name q) <> r_gen q /\ Reaper.log r' = Reaper.log r /\ unnoticed st st')).
Proof.
  intros I (P & G & E) Hk Pk D L. cbn zeta.
  destruct (ReaperThreadProofs.pop_some _ _ Pk) as (y & rest & Hp).
  destruct (ReaperThreadProofs.pop_ok _ _ _ (ReaperThreadProofs.i_ordered r I) Hp) as (O & Pr & Pk' & Mn). rewrite Pk in Pk'. injection Pk' as <-.
  assert (T : is_top (heap st) q = true).
  { unfold is_top. apply forallb_forall. intros q' Hq. apply N.leb_le. apply (Mn (as_noted q')). eapply Permutation_in; [exact P|]. apply in_map. exact Hq. }
  assert (P' : Permutation (map as_noted (remove_nth k (heap st))) rest).
  { apply (Permutation_cons_inv (a := as_noted q)). change (as_noted q :: map as_noted (remove_nth k (heap st))) with (map as_noted (q :: remove_nth k (heap st))).
    rewrite <- (remove_nth_perm k (heap st) q Hk), P. exact Pr. }
  assert (Er : Reaper.step r (Reaper.Timer now) = Reaper.mkReaper rest (Reaper.gen_ids r) false
    (if gen_of st (r_name q) =? r_gen q then Reaper.log r ++ [Reaper.Reaped (r_name q) (r_at q) now] else Reaper.log r)).
  { unfold Reaper.step. rewrite E, Pk, Hp. destruct (N.ltb_spec now (Reaper.reap_at (as_noted q))) as [F|_]; [cbn in F; lia|].
    cbn [Reaper.name Reaper.gen as_noted Reaper.reap_at]. rewrite <- G. destruct (Nat.eqb_spec (gen_of st (r_name q)) (r_gen q)) as [X|X].
    - rewrite X, N.eqb_refl. reflexivity.
    - destruct (N.eqb_spec (N.of_nat (gen_of st (r_name q))) (N.of_nat (r_gen q))) as [Y|_]; [lia|reflexivity]. }
  rewrite Er. clear Er. cbn [step]. unfold reaper_fire. rewrite Hk, T. destruct (N.leb_spec (r_at q) now) as [_|F]; [cbn [andb]|lia].
  destruct (Nat.eqb_spec (gen_of st (r_name q)) (r_gen q)) as [X|X]; cbn [negb].
  - destruct L as [L|L]; [|destruct (L X)]. rewrite L. destruct (lookup (r_name q) (table st)) as [s|] eqn:Ls.
    + split; [split; [exact P'|split; [exact G|reflexivity]]|]. left. split; [exact X|]. split; [reflexivity|].
      unfold ended_by, remove_one. rewrite Ls. cbn. rewrite Ls. repeat split; auto.
    + split; [split; [exact P'|split; [exact G|reflexivity]]|]. left. split; [exact X|]. split; [reflexivity|].
      unfold ended_by. rewrite Ls. cbn. rewrite remove_absent by exact Ls. repeat split; auto.
  - split; [split; [exact P'|split; [exact G|reflexivity]]|]. right. split; [exact X|]. split; [reflexivity|]. unfold unnoticed. cbn. repeat split.
Qed.

Lemma agrees_daemon st r : daemon st r -> agrees st r.
Proof.
  induction 1 as [defaults|st r a D IH N|st r n d s rest D IH M|st r now k q D IH Hk Pk Le L].
  - split; [constructor|]. split; [reflexivity|reflexivity].
  - apply agrees_else; assumption.
  - eapply agrees_told; [exact (daemon_inv _ _ D)|exact IH|exact M].
  - eapply wakes; eauto using daemon_inv.
Qed.

(** Whatever is at the top of the thread's heap is somewhere in the account's. *)
Lemma top_there st r x : agrees st r -> Reaper.peek (Reaper.heap r) = Some x -> exists k q, nth_error (heap st) k = Some q /\ as_noted q = x.
Proof.
  intros (P & _) H. apply nth_error_In in H. eapply Permutation_in in H; [|apply Permutation_sym; exact P]. apply in_map_iff in H. destruct H as (q & E & Q).
  apply In_nth_error in Q. destruct Q as (k & K). eauto.
Qed.
