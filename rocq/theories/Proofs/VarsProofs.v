From Coq Require Import List NArith ZArith Bool Arith Lia.
From Verif Require Import Model.Base Model.Protocol Model.Names Model.Server Spec.ServerSpec Proofs.BaseLemmas Proofs.ServerProofs Proofs.ServerMoves.
Import ListNotations.
Open Scope nat_scope.

Lemma remove_keys {V} k (m : list (rstr * V)) x : In x (map fst (remove k m)) -> In x (map fst m) /\ x <> k.
Proof.
  induction m as [|(k', v) m IH]; [contradiction|]. cbn. destruct (str_eqb k k') eqn:E.
  - intros I. destruct (IH I). auto.
  - apply str_eqb_neq in E. intros [<-|I]; [cbn; split; [auto|congruence]|]. destruct (IH I). auto.
Qed.

Lemma remove_nodup {V} k (m : list (rstr * V)) : NoDup (map fst m) -> NoDup (map fst (remove k m)).
Proof.
  induction m as [|(k', v) m IH]; [intros; constructor|]. cbn. intros H. inversion H as [|? ? A B]; subst.
  destruct (str_eqb k k'); [auto|]. cbn. constructor; [|auto]. intros I. apply A. apply (remove_keys k m k'). exact I.
Qed.

Lemma insert_nodup {V} k v (m : list (rstr * V)) : NoDup (map fst m) -> NoDup (map fst (insert k v m)).
Proof.
  intros H. unfold insert. cbn. constructor; [|apply remove_nodup; exact H]. intros I. apply (proj2 (remove_keys k m k I)). reflexivity.
Qed.

Lemma initial_nodup d : forall m : var_list, NoDup (map fst m) -> NoDup (map fst (fold_left (fun m p => insert (fst p) (snd p) m) d m)).
Proof. induction d as [|p d IH]; intros m H; [exact H|]. cbn [fold_left]. apply IH, insert_nodup, H. Qed.

Lemma vars_step st a : vars (step st a) = vars st \/ exists var val,
  vars (step st a) = match val with Some v => insert var v (vars st) | None => remove var (vars st) end.
Proof.
  destruct a; cbn [step];
    try (left; unfold connect, attach_select, attach_spawn, attach_insert, attach_fetch, attach_wake, attach_reply, attach_start, attach_end,
       shell_exit, thread_end, thread_drop_client, attach_unwind, attach_leave, detach_begin, detach_next, detach_finish, message_begin, message_send, handle_list, handle_log_level,
       handle_get_vars, modify_collect, modify_send, thread_switch, reaper_fire; al_split; reflexivity).
  - left. destruct (handle_kill_shape st c kill_ok) as [->|(pid & names & Hc & Hl & [(sg & _ & ->)|(sg & nf & rm & Hk & ->)])]; [reflexivity|reflexivity|].
    destruct (remove_one_frame rm (with_signalled st sg)) as (t & ev & -> & _). reflexivity.
  - unfold modify_begin. destruct (handlers st c) eqn:Hc; auto. destruct q; auto. right. exists var, val. reflexivity.
  - left. unfold reaper_register. destruct (mailbox st) as [|[[n t] s] rest]; reflexivity.
Qed.

Lemma vars_nodup_run l : forall st, NoDup (map fst (vars st)) -> NoDup (map fst (vars (run st l))).
Proof.
  induction l as [|a l IH]; intros st H; [exact H|]. unfold run. cbn [fold_left]. apply IH.
  destruct (vars_step st a) as [->|(var & [v|] & ->)]; [exact H|apply insert_nodup; exact H|apply remove_nodup; exact H].
Qed.

Lemma vars_nodup defaults l : NoDup (map fst (vars (run (server_new defaults) l))).
Proof. apply vars_nodup_run. cbn [vars server_new]. apply initial_nodup. constructor. Qed.
