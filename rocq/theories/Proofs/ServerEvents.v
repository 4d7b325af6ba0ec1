(** How steps change the table and which events they publish. *)
From Coq Require Import List NArith ZArith Bool Arith Lia.
From Verif Require Import Model.Base Model.Protocol Model.Names Model.Server Spec.ServerSpec Proofs.BaseLemmas Proofs.ServerProofs.
Import ListNotations.
Open Scope nat_scope.

Definition present (st : server) (n : rstr) : bool := match lookup n (table st) with Some _ => true | None => false end.
Definition sids_of (st : server) (names : list rstr) : list sid :=
  flat_map (fun n => match lookup n (table st) with Some s => [s] | None => [] end) names.

Lemma kill_loop_some todo : forall st oks nf rm st' nf' rm',
  kill_loop st todo oks nf rm = (st', Some (nf', rm')) ->
  nf' = nf ++ filter (fun n => negb (present st n)) todo /\ rm' = rm ++ filter (present st) todo /\
  st' = with_signalled st (signalled st ++ sids_of st todo).
Proof.
  induction todo as [|n todo IH]; intros st oks nf rm st' nf' rm' E; cbn [kill_loop filter sids_of flat_map] in *.
  - injection E as <- <- <-. rewrite !app_nil_r. split; [reflexivity|]. split; [reflexivity|]. destruct st; reflexivity.
  - destruct (lookup n (table st)) as [s|] eqn:Hl.
    + assert (Hp : present st n = true) by (unfold present; rewrite Hl; reflexivity). rewrite Hp. cbn [negb].
      assert (E' : kill_loop (with_signalled st (signalled st ++ [s])) todo (tl oks) nf (rm ++ [n]) = (st', Some (nf', rm'))).
      { destruct oks as [|[|] oks]; [exact E|exact E|discriminate E]. }
      apply IH in E' as (-> & -> & ->). split; [reflexivity|]. split.
      * rewrite <- app_assoc. reflexivity.
      * unfold with_signalled; cbn. rewrite <- app_assoc. reflexivity.
    + assert (Hp : present st n = false) by (unfold present; rewrite Hl; reflexivity). rewrite Hp. cbn [negb].
      apply IH in E as (-> & -> & ->). split; [rewrite <- app_assoc; reflexivity|]. split; reflexivity.
Qed.

Lemma kill_loop_all_ok todo : forall st oks nf rm,
  Forall (fun b => b = true) oks -> exists r, kill_loop st todo oks nf rm = (with_signalled st (signalled st ++ sids_of st todo), Some r).
Proof.
  induction todo as [|n todo IH]; intros st oks nf rm F; cbn [kill_loop].
  - eexists. f_equal. cbn. rewrite app_nil_r. destruct st; reflexivity.
  - cbn [sids_of flat_map]. destruct (lookup n (table st)) as [s|].
    + assert (F' : Forall (fun b => b = true) (tl oks)) by (destruct oks; [constructor|inversion F; assumption]).
      destruct (IH (with_signalled st (signalled st ++ [s])) (tl oks) nf (rm ++ [n]) F') as [r Hr].
      exists r. replace (signalled st ++ [s] ++ flat_map _ todo) with ((signalled st ++ [s]) ++ sids_of st todo) by (rewrite <- app_assoc; reflexivity).
      destruct oks as [|[|] oks]; [exact Hr|exact Hr|inversion F; discriminate].
    + apply IH; assumption.
Qed.

(** The events of removing names one after another. *)
Fixpoint removal_events (t : list (rstr * sid)) (names : list rstr) : list event :=
  match names with
  | [] => []
  | n :: rest => mkEvent ERemoved n (lookup n t) None :: removal_events (remove n t) rest
  end.

Lemma fold_remove_events l : forall st,
  fold_left remove_one l st =
  with_events (with_table st (fold_left (fun t n => remove n t) l (table st))) (events st ++ removal_events (table st) l).
Proof.
  induction l as [|n l IH]; intros st; cbn [fold_left removal_events].
  - rewrite app_nil_r. destruct st; reflexivity.
  - rewrite IH. unfold remove_one, publish, with_events, with_table; cbn. rewrite <- app_assoc. reflexivity.
Qed.

(** Every way a step can publish events or change the table. *)
Inductive tells (st : server) : action -> list (rstr * sid) -> list event -> Prop :=
| tells_nothing a : tells st a (table st) []
| tells_attached c h pid now s x : handlers st c = HAccepted pid (QAttach h) -> locked st = None ->
    lookup (h_name h) (table st) = Some s -> session_at st s = Some x -> s_inner x = None -> s_exit x = None ->
    is_finished (s_thread x) = false -> daemon_rejects (h_name h) = false ->
    tells st (AAttach c true now) (table st) [mkEvent EAttached (h_name h) (Some s) (Some c)]
| tells_created c h s : handlers st c = HInsert h s -> locked st = None ->
    tells st (AInsert c) (insert (h_name h) s (table st))
      (match lookup (h_name h) (table st) with
       | Some old => [mkEvent ERemoved (h_name h) (Some old) (Some c)]
       | None => []
       end ++ [mkEvent ECreated (h_name h) (Some s) (Some c); mkEvent EAttached (h_name h) (Some s) (Some c)])
| tells_ended c h s s' now : handlers st c = HUnwind h s true -> locked st = None -> lookup (h_name h) (table st) = Some s' ->
    tells st (AUnwind c now) (remove (h_name h) (table st)) [mkEvent ERemoved (h_name h) (Some s') (Some c)]
| tells_detached c h s s' now : handlers st c = HUnwind h s false -> locked st = None -> lookup (h_name h) (table st) = Some s' ->
    tells st (AUnwind c now) (table st) [mkEvent EDetached (h_name h) (Some s') (Some c)]
| tells_killed c oks pid names : handlers st c = HAccepted pid (QKill names) -> locked st = None ->
    tells st (AKill c oks) (fold_left (fun t n => remove n t) (filter (present st) names) (table st))
      (removal_events (table st) (filter (present st) names))
| tells_reaped k inst r s : nth_error (heap st) k = Some r -> is_top (heap st) r = true -> (r_at r <= inst)%N ->
    gen_of st (r_name r) = r_gen r -> locked st = None ->
    lookup (r_name r) (table st) = Some s ->
    tells st (AFire k inst) (remove (r_name r) (table st)) [mkEvent ERemoved (r_name r) (Some s) None].

Ltac change_tells := match goal with |- tells ?st ?a _ _ => exact (tells_nothing st a) end.
Ltac tell_none := exists []; rewrite ?app_nil_r;
  repeat match goal with |- context [match ?e with _ => _ end] => destruct e end; (split; [reflexivity|change_tells]).

Lemma step_tells st a : exists es, events (step st a) = events st ++ es /\ tells st a (table (step st a)) es.
Proof.
  destruct a; cbn [step].
  - unfold connect. tell_none.
  - unfold attach_select. destruct (handlers st c) eqn:Hc; try tell_none. destruct q; try tell_none.
    destruct (daemon_rejects (h_name h)) eqn:Hr; [tell_none|].
    destruct env_ok; cbn [negb]; [|tell_none]. destruct (locked st) eqn:Hl; [tell_none|].
    destruct (lookup (h_name h) (table st)) as [s|] eqn:Hlk; [|tell_none]. destruct (session_at st s) as [x|] eqn:Hx; [|tell_none].
    destruct (s_inner x) as [c1|] eqn:Hi; [tell_none|].
    destruct (s_exit x) eqn:Hex; [destruct (s_thread x) as [| |[|]|]; tell_none|].
    destruct (is_finished (s_thread x)) eqn:Hf.
    + destruct (s_thread x) as [| |[|]|]; try discriminate Hf; tell_none.
    + eexists. split; [reflexivity|]. cbn. eapply tells_attached; eassumption.
  - unfold attach_spawn. tell_none.
  - unfold attach_insert. destruct (handlers st c) eqn:Hc; try tell_none. destruct (locked st) eqn:Hl; [tell_none|].
    eexists. split; [|destruct (lookup (h_name h) (table st)) eqn:Hk; cbn [table goto publish with_table with_events with_handlers];
      match goal with |- tells st _ ?t _ => replace t with (insert (h_name h) s (table st)) by reflexivity end; econstructor; eassumption].
    destruct (lookup (h_name h) (table st)); cbn; rewrite <- ?app_assoc; reflexivity.
  - unfold attach_fetch. tell_none.
  - unfold attach_wake. tell_none.
  - unfold attach_reply. tell_none.
  - unfold attach_start. tell_none.
  - unfold attach_end. tell_none.
  - unfold attach_unwind. destruct (handlers st c) eqn:Hc; try tell_none. destruct (locked st) eqn:Hl; [tell_none|].
    destruct (lookup (h_name h) (table st)) as [s'|] eqn:Hk; [|tell_none].
    destruct done; (eexists; split; [reflexivity|]); cbn; econstructor; eassumption.
  - unfold attach_leave. tell_none.
  - tell_none.
  - tell_none.
  - tell_none.
  - destruct (handle_kill_shape st c kill_ok) as [->|(pid & names & Hc & Hl & [(sg & _ & ->)|(sg & nf & rm & Hk & ->)])]; [tell_none|tell_none|].
    rewrite fold_remove_events. apply kill_loop_some in Hk as (_ & -> & _). cbn.
    eexists. split; [reflexivity|]. econstructor; eassumption.
  - unfold detach_begin. tell_none.
  - unfold detach_next. tell_none.
  - unfold detach_finish. tell_none.
  - unfold message_begin. tell_none.
  - unfold message_send. tell_none.
  - unfold handle_list. tell_none.
  - unfold handle_log_level. tell_none.
  - unfold handle_get_vars. tell_none.
  - unfold modify_begin. exists []. rewrite app_nil_r. destruct (handlers st c); try (split; [reflexivity|change_tells]). destruct q; (split; [reflexivity|change_tells]).
  - unfold modify_collect. tell_none.
  - unfold modify_send. tell_none.
  - tell_none.
  - unfold reaper_register. exists []. rewrite app_nil_r. destruct (mailbox st) as [|[[n t] s] rest]; (split; [reflexivity|change_tells]).
  - unfold reaper_fire. destruct (nth_error (heap st) k) as [r|] eqn:Hn; [|tell_none].
    destruct (is_top (heap st) r) eqn:Ht; cbn [andb]; [|tell_none]. destruct (r_at r <=? inst)%N eqn:Ha; [|tell_none].
    destruct (gen_of st (r_name r) =? r_gen r) eqn:Hg; cbn [negb]; [|tell_none].
    destruct (locked st) eqn:Hl; [tell_none|]. destruct (lookup (r_name r) (table st)) as [s|] eqn:Hk; [|tell_none].
    eexists. split; [reflexivity|]. cbn. rewrite Hk. econstructor; try eassumption.
    + apply N.leb_le. exact Ha.
    + apply Nat.eqb_eq. exact Hg.
Qed.
