(** How an attach client ends: what its terminal shows by then, and that it does. *)
From Coq Require Import List NArith ZArith Bool Arith Lia.
From Verif Require Import Model.Base Model.Protocol Model.Chunk Model.Pipe Spec.PipeSpec Proofs.PipeProofs.
Import ListNotations.
Open Scope nat_scope.

Definition owed (follow : var_list -> bool) (t : frame_in) (r : pipe_result) (total : list N) (p : pipe) : Prop :=
  (slot p = None /\ (main p = Watching \/ main p = Grace1) /\ sock_thread p <> Finished /\
   exists before rest, frames p = before ++ t :: rest /\ Forall (harmless follow) before /\ shown p ++ displayed before = total)
  \/ (slot p = Some r /\ sock_thread p <> Past /\ shown p = total).

Lemma owed_step follow t r total p e : decides follow t r -> owed follow t r total p -> kind_event p e ->
  owed follow t r total (pipe_step follow p e).
Proof.
  intros Dt H K. destruct H as [(Hs & Hm & Hk & before & rest & Hf & Hb & Ht)|(Hs & Hk & Ht)].
  - unfold pipe_step.
    assert (Ex : forall q : pipe, (match main p with Returned _ | Died _ => p | _ => q end) = q)
      by (intros q; destruct Hm as [-> | ->]; reflexivity).
    rewrite Ex. clear Ex. destruct e as [ok| |ends| |to].
    + destruct ok; [|contradiction]. unfold sock_step. destruct (sock_thread p) eqn:Es; [| |congruence].
      * left. cbn. rewrite Hs. cbn. split; [reflexivity|]. split; [assumption|]. split; [discriminate|]. exists before, rest. auto.
      * rewrite Hf. destruct before as [|f before]; cbn [app].
        -- cbn [displayed] in Ht. rewrite app_nil_r in Ht. destruct Dt as [s|v Hv].
           ++ right. cbn. split; [reflexivity|]. split; [discriminate|exact Ht].
           ++ right. cbn. rewrite Hv. split; [reflexivity|]. split; [discriminate|exact Ht].
        -- pose proof (Forall_inv Hb) as Hh. apply Forall_inv_tail in Hb. cbn [displayed] in Ht.
           destruct Hh as [|b|v Hv].
           ++ left. cbn. split; [assumption|]. split; [assumption|]. split; [discriminate|]. exists before, rest. auto.
           ++ left. cbn. split; [assumption|]. split; [assumption|]. split; [discriminate|]. exists before, rest.
              rewrite <- app_assoc. auto.
           ++ left. cbn. rewrite Hv. split; [assumption|]. split; [assumption|]. split; [discriminate|]. exists before, rest. auto.
    + destruct (sock_thread p) eqn:Es; left; cbn; rewrite ?Es; (split; [assumption|]); (split; [assumption|]);
        (split; [congruence|]); exists before, rest; auto.
    + unfold stdin_step. destruct (stdin_thread p); left; cbn; (split; [assumption|]); (split; [assumption|]);
        (split; [congruence|]); exists before, rest; auto.
    + destruct (stdin_thread p); left; cbn; (split; [assumption|]); (split; [assumption|]);
        (split; [congruence|]); exists before, rest; auto.
    + unfold main_step. assert (En : is_finished (sock_thread p) = false) by (destruct (sock_thread p); congruence || reflexivity).
      destruct Hm as [Em|Em]; rewrite Em.
      * rewrite En. destruct (is_finished (stdin_thread p)); cbn [andb negb].
        -- left. cbn. split; [assumption|]. split; [auto|]. split; [assumption|]. exists before, rest. auto.
        -- left. split; [assumption|]. split; [auto|]. split; [assumption|]. exists before, rest. auto.
      * rewrite En, Hs. cbn [is_some orb]. destruct to; [contradiction|].
        left. split; [assumption|]. split; [auto|]. split; [assumption|]. exists before, rest. auto.
  - right. unfold pipe_step. destruct (main p) eqn:Em; try (repeat split; assumption);
    (destruct e as [ok| |ends| |to];
     [ unfold sock_step; destruct (sock_thread p) eqn:Es;
         [rewrite Hs; cbn; repeat split; (assumption || reflexivity || discriminate)|congruence|rewrite Es; repeat split; (assumption || congruence)]
     | destruct (sock_thread p) eqn:Es; [rewrite Es; repeat split; (assumption || congruence)|congruence|rewrite Es; repeat split; (assumption || congruence)]
     | unfold stdin_step; destruct (stdin_thread p); cbn; repeat split; assumption
     | destruct (stdin_thread p); cbn; repeat split; assumption
     | unfold main_step; rewrite Em; rewrite ?Hs ]).
    + destruct (_ && _); cbn; [repeat split; assumption || reflexivity|]. destruct (is_finished _); cbn; repeat split; assumption || reflexivity.
    + cbn [is_some]. rewrite orb_true_r. cbn [orb]. cbn. repeat split; assumption || reflexivity.
    + cbn. repeat split; assumption || reflexivity.
    + destruct (_ && _); cbn; [repeat split; assumption || reflexivity|]. destruct to; cbn; repeat split; assumption || reflexivity.
Qed.

Lemma owed_run follow t r total es p : decides follow t r -> owed follow t r total p -> kind_run follow es p ->
  owed follow t r total (pipe_run follow es p).
Proof.
  intros D. revert p. induction es as [|e es IH]; intros p H K; [assumption|]. cbn. destruct K as (K1 & K2).
  apply IH; [|assumption]. eapply owed_step; eassumption.
Qed.

Lemma owed_start follow t r before rest : Forall (harmless follow) before ->
  owed follow t r (displayed before) (pipe_start (before ++ t :: rest)).
Proof.
  intros H. left. cbn. split; [reflexivity|]. split; [auto|]. split; [discriminate|]. exists before, rest. auto.
Qed.

(** Frames are only taken away. *)
Lemma frames_shrink follow es : forall p, length (frames (pipe_run follow es p)) <= length (frames p).
Proof.
  induction es as [|e es IH]; intros p; [cbn; lia|]. cbn [pipe_run fold_left].
  eapply Nat.le_trans; [apply IH|]. clear IH. destruct p as [sl st so fr sh m]. unfold pipe_step. cbn [main].
  assert (G : forall q, q = mkPipe sl st so fr sh m -> length (frames q) <= length fr) by (intros q ->; cbn; lia).
  destruct m; try (cbn; lia);
    (destruct e as [ok| |ends| |to];
     [ unfold sock_step; destruct so; cbn; try lia; destruct fr as [|[|b|s|v|] fr]; cbn; try lia; destruct ok; cbn; lia
     | destruct so; cbn; lia
     | unfold stdin_step; destruct st; cbn; lia
     | destruct st; cbn; lia
     | unfold main_step; cbn [main] ]).
  - cbn. destruct (_ && _); cbn; [lia|]. destruct (is_finished so); cbn; lia.
  - cbn. destruct (_ || _); cbn; lia.
  - cbn. lia.
  - cbn. destruct (_ && _); cbn; [lia|]. destruct to; cbn; lia.
Qed.

Definition over (p : pipe) : Prop := match main p with Returned _ | Died _ => True | _ => False end.

Definition turns_left (p : pipe) : nat :=
  match slot p with
  | Some _ => 1
  | None => 2 * length (frames p) + match sock_thread p with Past => 1 | _ => 2 end
  end.

(** Socket turns bring the deciding frame up. *)
Lemma socket_ends follow t r total : decides follow t r -> forall n p, owed follow t r total p -> turns_left p <= n ->
  let q := pipe_run follow (repeat (SockGo true) n) p in
  owed follow t r total q /\ (sock_thread q = Finished \/ over q).
Proof.
  intros D. induction n as [|n IH]; intros p H B.
  - exfalso. unfold turns_left in B. destruct (slot p); [lia|]. destruct (sock_thread p); lia.
  - cbn zeta. cbn [repeat pipe_run fold_left].
    assert (H1 := owed_step follow t r total p (SockGo true) D H I).
    destruct H as [(Hs & Hm & Hk & before & rest & Hf & Hb & Ht)|(Hs & Hk & Ht)].
    + apply IH; [exact H1|]. clear IH H1. destruct p as [sl st so fr sh m]. cbn in *. subst sl fr. unfold pipe_step. cbn [main].
      assert (E : match m with Returned _ | Died _ => mkPipe None st so (before ++ t :: rest) sh m | _ => sock_step follow true (mkPipe None st so (before ++ t :: rest) sh m) end
                  = sock_step follow true (mkPipe None st so (before ++ t :: rest) sh m)) by (destruct Hm as [-> | ->]; reflexivity).
      rewrite E. clear E. unfold sock_step. cbn [sock_thread slot is_some frames stdin_thread shown main]. unfold turns_left in *. cbn [slot frames sock_thread] in *.
      destruct so; [| |congruence].
      * cbn. lia.
      * destruct before as [|f before]; cbn [app] in *.
        -- destruct D as [s|v Hv]; cbn in *; [lia|]. rewrite Hv. cbn. lia.
        -- pose proof (Forall_inv Hb) as Hh. destruct Hh as [|b|v Hv]; cbn in *; try lia. rewrite Hv. cbn. lia.
    + clear IH B. assert (G : forall k q, owed follow t r total q -> sock_thread q = Finished \/ over q ->
        owed follow t r total (pipe_run follow (repeat (SockGo true) k) q) /\ (sock_thread (pipe_run follow (repeat (SockGo true) k) q) = Finished \/ over (pipe_run follow (repeat (SockGo true) k) q))).
      { induction k as [|k IHk]; intros q Hq Fq; [auto|]. cbn [repeat pipe_run fold_left].
        assert (E : pipe_step follow q (SockGo true) = q).
        { destruct Fq as [Fq|Fq].
          - unfold pipe_step, sock_step. rewrite Fq. destruct (main q); reflexivity.
          - unfold over in Fq. unfold pipe_step. destruct (main q); try contradiction; reflexivity. }
        rewrite E. apply IHk; assumption. }
      apply G; [exact H1|]. clear G H1.
      destruct p as [sl st so fr sh m]. cbn in Hs, Hk. subst sl.
      destruct m; try (right; exact I); left; destruct so; (congruence || reflexivity).
Qed.

(** Then the main thread, whatever it was doing, ends the process. *)
Lemma main_ends follow p : sock_thread p = Finished \/ over p ->
  over (pipe_run follow [MainGo false; MainGo false; MainGo true] p).
Proof.
  destruct p as [sl st so fr sh m]. unfold over. cbn [sock_thread main]. intros [H|H].
  - subst so. destruct m; try exact I; destruct st; destruct sl as [[]|]; exact I.
  - destruct m; try contradiction; exact I.
Qed.

Lemma main_ends_kindly follow p : sock_thread p = Finished \/ over p -> kind_run follow [MainGo false; MainGo false; MainGo true] p.
Proof.
  destruct p as [sl st so fr sh m]. unfold over. cbn [sock_thread main]. intros [H|H].
  - subst so. destruct m; destruct st; destruct sl as [[]|]; (split; [exact I|split; [exact I|split; [cbn; discriminate|exact I]]]).
  - destruct m; try contradiction; (split; [exact I|split; [exact I|split; [cbn; discriminate|exact I]]]).
Qed.

Lemma kind_run_app follow es1 es2 : forall p, kind_run follow (es1 ++ es2) p <-> kind_run follow es1 p /\ kind_run follow es2 (pipe_run follow es1 p).
Proof. induction es1 as [|e es1 IH]; intros p; cbn; [tauto|]. rewrite IH. tauto. Qed.

Lemma kind_repeat follow n : forall p, kind_run follow (repeat (SockGo true) n) p.
Proof. induction n as [|n IH]; intros p; cbn; auto. Qed.

(** *** The daemon is gone: the connection ends without an exit frame. *)
Definition cut (follow : var_list -> bool) (total : list N) (p : pipe) : Prop :=
  (slot p = None /\ (main p = Watching \/ main p = Grace1) /\ sock_thread p <> Finished /\
   exists before, frames p = before ++ [FBroken] /\ Forall (harmless follow) before /\ shown p ++ displayed before = total)
  \/ (sock_thread p = Finished /\ shown p = total).

Lemma cut_step follow total p e : cut follow total p -> kind_event p e -> cut follow total (pipe_step follow p e).
Proof.
  intros H K. destruct H as [(Hs & Hm & Hk & before & Hf & Hb & Ht)|(Hk & Ht)].
  - unfold pipe_step.
    assert (Ex : forall q : pipe, (match main p with Returned _ | Died _ => p | _ => q end) = q)
      by (intros q; destruct Hm as [-> | ->]; reflexivity).
    rewrite Ex. clear Ex. destruct e as [ok| |ends| |to].
    + destruct ok; [|contradiction]. unfold sock_step. destruct (sock_thread p) eqn:Es; [| |congruence].
      * left. cbn. rewrite Hs. cbn. split; [reflexivity|]. split; [assumption|]. split; [discriminate|]. exists before. auto.
      * rewrite Hf. destruct before as [|f before]; cbn [app].
        -- cbn [displayed] in Ht. rewrite app_nil_r in Ht. right. cbn. auto.
        -- pose proof (Forall_inv Hb) as Hh. apply Forall_inv_tail in Hb. cbn [displayed] in Ht.
           destruct Hh as [|b|v Hv].
           ++ left. cbn. split; [assumption|]. split; [assumption|]. split; [discriminate|]. exists before. auto.
           ++ left. cbn. split; [assumption|]. split; [assumption|]. split; [discriminate|]. exists before.
              rewrite <- app_assoc. auto.
           ++ left. cbn. rewrite Hv. split; [assumption|]. split; [assumption|]. split; [discriminate|]. exists before. auto.
    + destruct (sock_thread p) eqn:Es; left; cbn; rewrite ?Es; (split; [assumption|]); (split; [assumption|]);
        (split; [congruence|]); exists before; auto.
    + unfold stdin_step. destruct (stdin_thread p); left; cbn; (split; [assumption|]); (split; [assumption|]);
        (split; [congruence|]); exists before; auto.
    + destruct (stdin_thread p); left; cbn; (split; [assumption|]); (split; [assumption|]);
        (split; [congruence|]); exists before; auto.
    + unfold main_step. assert (En : is_finished (sock_thread p) = false) by (destruct (sock_thread p); congruence || reflexivity).
      destruct Hm as [Em|Em]; rewrite Em.
      * rewrite En. destruct (is_finished (stdin_thread p)); cbn [andb negb].
        -- left. cbn. split; [assumption|]. split; [auto|]. split; [assumption|]. exists before. auto.
        -- left. split; [assumption|]. split; [auto|]. split; [assumption|]. exists before. auto.
      * rewrite En, Hs. cbn [is_some orb]. destruct to; [contradiction|].
        left. split; [assumption|]. split; [auto|]. split; [assumption|]. exists before. auto.
  - right. destruct p as [sl st so fr sh m]. cbn in Hk, Ht. subst so sh. unfold pipe_step. cbn [main].
    destruct m; try (split; reflexivity);
    (destruct e as [ok| |ends| |to];
     [ split; reflexivity | split; reflexivity | unfold stdin_step; destruct st; split; reflexivity | destruct st; split; reflexivity
     | unfold main_step; cbn ]).
    + rewrite andb_false_r. split; reflexivity.
    + split; reflexivity.
    + split; reflexivity.
    + destruct (_ && _); [split; reflexivity|]. destruct to; split; reflexivity.
Qed.

Lemma cut_run follow total es : forall p, cut follow total p -> kind_run follow es p -> cut follow total (pipe_run follow es p).
Proof.
  induction es as [|e es IH]; intros p H K; [exact H|]. cbn. destruct K as (K1 & K2).
  apply IH; [|exact K2]. apply cut_step; assumption.
Qed.

Lemma cut_start follow before : Forall (harmless follow) before -> cut follow (displayed before) (pipe_start (before ++ [FBroken])).
Proof. intros H. left. cbn. split; [reflexivity|]. split; [auto|]. split; [discriminate|]. exists before. auto. Qed.

Lemma socket_cut follow total : forall n p, cut follow total p -> turns_left p <= n ->
  sock_thread (pipe_run follow (repeat (SockGo true) n) p) = Finished.
Proof.
  assert (G : forall k q, sock_thread q = Finished -> sock_thread (pipe_run follow (repeat (SockGo true) k) q) = Finished).
  { induction k as [|k IHk]; intros q Hq; [exact Hq|]. cbn [repeat pipe_run fold_left]. apply IHk.
    unfold pipe_step, sock_step. rewrite Hq. destruct (main q); exact Hq. }
  induction n as [|n IH]; intros p H B.
  - exfalso. unfold turns_left in B. destruct (slot p); [lia|]. destruct (sock_thread p); lia.
  - assert (H1 := cut_step follow total p (SockGo true) H I).
    destruct H as [(Hs & Hm & Hk & before & Hf & Hb & Ht)|(Hk & Ht)].
    + cbn [repeat pipe_run fold_left].
      destruct p as [sl st so fr sh m]. cbn in *. subst sl fr. unfold pipe_step in *. cbn [main] in *.
      assert (E : match m with Returned _ | Died _ => mkPipe None st so (before ++ [FBroken]) sh m | _ => sock_step follow true (mkPipe None st so (before ++ [FBroken]) sh m) end
                  = sock_step follow true (mkPipe None st so (before ++ [FBroken]) sh m)) by (destruct Hm as [-> | ->]; reflexivity).
      rewrite E in *. clear E. unfold sock_step in *. cbn [sock_thread slot is_some frames stdin_thread shown main] in *. unfold turns_left in B. cbn [slot frames sock_thread] in B.
      destruct so; [| |congruence].
      * apply IH; [exact H1|]. cbn. cbn in B. lia.
      * destruct before as [|f before]; cbn [app] in *; [apply G; reflexivity|].
        apply IH; [exact H1|]. pose proof (Forall_inv Hb) as Hh. unfold turns_left. destruct Hh as [|b|v Hv]; cbn in *; try lia. rewrite Hv. cbn. lia.
    + apply G. exact Hk.
Qed.
