(** C19: list is exact. *)
From Coq Require Import List NArith ZArith Bool Arith Lia.
From Verif Require Import Model.Base Model.Protocol Model.Names Model.Server Spec.ServerSpec Spec.ServerExamples
  Proofs.BaseLemmas Proofs.ServerProofs Proofs.ServerEvents Proofs.ServerMoves Proofs.ServerCounts.
Import ListNotations.
Open Scope nat_scope.

(** What an entry of the reply should say about the session listed as [n]. *)
Definition describes (st : server) (n : rstr) (s : sid) (i : session_info) : Prop :=
  exists x, session_at st s = Some x /\
    i_name i = n /\ i_started i = s_started x /\ i_connected i = s_connected x /\ i_disconnected i = s_disconnected x /\
    (i_attached i = true <-> exists c, attached st c s) /\
    (forall w, In w (i_attachments i) <-> s_attachment x = Some w) /\ length (i_attachments i) <= 1.

Lemma info_fields n x i : info_of n x = Some i ->
  i = mkInfo n (s_started x) (s_connected x) (s_disconnected x) (match s_inner x with Some _ => true | None => false end)
             (match s_attachment x with Some a => [a] | None => [] end).
Proof. unfold info_of. destruct (_ && _); intros E; [injection E as <-; reflexivity|discriminate E]. Qed.

Lemma entry_describes st n s i : inv st -> list_entry st (n, s) = Some i -> describes st n s i.
Proof.
  intros I E. unfold list_entry in E. cbn [fst snd] in E. destruct (session_at st s) as [x|] eqn:Hx; [|discriminate E].
  apply info_fields in E. subst i. exists x. cbn [i_name i_started i_connected i_disconnected i_attached i_attachments].
  do 5 (split; [assumption || reflexivity|]). split; [|destruct (s_attachment x) as [w|]; cbn; split; auto;
    intros w'; split; [intros [->|[]]; reflexivity|intros [= ->]; auto|intros []|discriminate]].
  split.
  - destruct (s_inner x) as [c|] eqn:Hi; [|discriminate]. intros _. exists c. apply (i_inner _ I s x c Hx). exact Hi.
  - intros [c Hc]. apply (i_inner _ I s x c Hx) in Hc. rewrite Hc. reflexivity.
Qed.

(** Every reply to a list request has exactly one entry for each session in the
    table, describing it, and no other entries. *)
Theorem C19_list_exact : forall st a c l,
  reachable st -> replies (step st a) = replies st ++ [(c, RList l)] ->
  (forall n s, listed st n s -> exists i, In i l /\ describes st n s i) /\
  (forall i, In i l -> exists s, listed st (i_name i) s /\ describes st (i_name i) s i) /\
  NoDup (map i_name l) /\ length l = length (table st) /\
  table (step st a) = table st /\ sessions (step st a) = sessions st.
Proof.
  intros st a c l R E. pose proof (reachable_inv _ R) as I. pose proof (nodup_run _ R) as D.
  apply new_reply in E. inversion E; subst. clear E.
  match goal with H : map_opt _ _ = _ |- _ => rename H into Hm end.
  assert (W : table (step st (AList c)) = table st /\ sessions (step st (AList c)) = sessions st).
  { cbn [step]. unfold handle_list. repeat match goal with |- context [match ?e with _ => _ end] => destruct e end; split; reflexivity. }
  assert (Lk : forall t, NoDup (map fst t) -> forall n (s : sid), In (n, s) t -> lookup n t = Some s).
  { induction t as [|[k v] t IH]; cbn [map fst In lookup]; intros Dt n s Hin; [destruct Hin|]. inversion Dt; subst.
    destruct Hin as [[= -> ->]|Hin]; [rewrite str_eqb_refl; reflexivity|].
    destruct (str_eqb n k) eqn:En; [|auto]. apply str_eqb_eq in En. subst. exfalso. match goal with N : ~ In _ _ |- _ => apply N end. apply (in_map fst) in Hin. exact Hin. }
  assert (Lk' : forall (t : list (rstr * sid)) n s, lookup n t = Some s -> In (n, s) t).
  { induction t as [|[k v] t IH]; cbn [In lookup]; intros n s Hl; [discriminate Hl|].
    destruct (str_eqb n k) eqn:En; [|auto]. apply str_eqb_eq in En. injection Hl as ->. subst. auto. }
  assert (F : Forall2 (fun p i => describes st (fst p) (snd p) i) (table st) l).
  { clear D W. revert l Hm. generalize (table st). intros t. induction t as [|[n s] t IH]; intros l Hm; cbn in Hm.
    - injection Hm as <-. constructor.
    - destruct (list_entry st (n, s)) as [i|] eqn:Hi; [|discriminate Hm]. destruct (map_opt (list_entry st) t) as [r|]; [|discriminate Hm].
      injection Hm as <-. constructor; [|apply IH; reflexivity]. apply entry_describes; assumption. }
  split; [|split; [|split; [|split; [|exact W]]]].
  - intros n s Hl. apply Lk' in Hl. clear - F Hl. induction F as [|p i t l P F IH]; [destruct Hl|].
    destruct Hl as [->|Hl]; [exists i; split; [left; reflexivity|exact P]|]. destruct (IH Hl) as (j & Hj & Q). exists j. split; [right; exact Hj|exact Q].
  - intros i Hi. assert (G : exists p, In p (table st) /\ describes st (fst p) (snd p) i).
    { clear - F Hi. induction F as [|p j t l P F IH]; [destruct Hi|]. destruct Hi as [->|Hi]; [exists p; split; [left; reflexivity|exact P]|].
      destruct (IH Hi) as (q & Hq & Q). exists q. split; [right; exact Hq|exact Q]. }
    destruct G as ([n s] & Hp & Q). cbn [fst snd] in Q. pose proof Q as (x & _ & Hn & _). subst n. exists s. split; [apply Lk; assumption|exact Q].
  - replace (map i_name l) with (map fst (table st)); [exact D|]. clear - F. induction F as [|p i t l P F IH]; [reflexivity|].
    cbn [map]. rewrite IH. destruct P as (x & _ & -> & _). reflexivity.
  - clear - F. induction F; cbn; auto.
Qed.
Print Assumptions C19_list_exact.

(** A list request is answered, unless a recorded time lies before the epoch. *)
Theorem C19_list_answered : forall st c pid,
  reachable st -> handlers st c = HAccepted pid QList -> locked st = None ->
  (forall n s x, listed st n s -> session_at st s = Some x ->
     (0 <= s_started x)%Z /\ (forall t, s_connected x = Some t -> (0 <= t)%Z) /\ (forall t, s_disconnected x = Some t -> (0 <= t)%Z)) ->
  exists l, replies (step st (AList c)) = replies st ++ [(c, RList l)].
Proof.
  intros st c pid R Hc Hl H. pose proof (reachable_inv _ R) as I. pose proof (nodup_run _ R) as D.
  cbn [step]. unfold handle_list. rewrite Hc, Hl.
  assert (M : exists l, map_opt (list_entry st) (table st) = Some l).
  { assert (G : forall n s, In (n, s) (table st) -> exists i, list_entry st (n, s) = Some i).
    { intros n s Hin.
      assert (L : listed st n s).
      { unfold listed. clear - D Hin. induction (table st) as [|[k v] t IH]; [destruct Hin|]. cbn [map fst lookup] in *. inversion D; subst.
        destruct Hin as [[= -> ->]|Hin]; [rewrite str_eqb_refl; reflexivity|].
        destruct (str_eqb n k) eqn:En; [|auto]. apply str_eqb_eq in En. subst. exfalso. match goal with N : ~ In _ _ |- _ => apply N end. apply (in_map fst) in Hin. exact Hin. }
      destruct (i_tab _ I n s L) as (x & Hx & _). destruct (H n s x L Hx) as (T1 & T2 & T3).
      unfold list_entry. cbn [fst snd]. rewrite Hx. unfold info_of.
      replace (after_epoch (s_connected x) && after_epoch (s_disconnected x) && after_epoch (Some (s_started x))) with true; [eauto|].
      symmetry. unfold after_epoch. rewrite !andb_true_iff. repeat split.
      - destruct (s_connected x); [|reflexivity]. apply Z.leb_le. auto.
      - destruct (s_disconnected x); [|reflexivity]. apply Z.leb_le. auto.
      - apply Z.leb_le. exact T1. }
    clear - G. induction (table st) as [|[n s] t IH]; [exists []; reflexivity|]. cbn.
    destruct (G n s (or_introl eq_refl)) as [i ->]. destruct IH as [r ->]; [intros; apply G; right; assumption|]. eauto. }
  destruct M as [l ->]. exists l. reflexivity.
Qed.
Print Assumptions C19_list_answered.

Example C19_nonvacuous :
  let st := run fresh (creates 1 work None ++ creates 2 play None ++ goes 1 30 ++ [asks 3 QList]) in
  replies (step st (AList 3)) = replies st ++
    [(3, RList [mkInfo play 11 (Some 11%Z) None true [(lit "tmpl", 42%Z)];
                mkInfo work 11 (Some 11%Z) (Some 30%Z) false []])].
Proof. vm_compute. reflexivity. Qed.
