(** How steps change sessions and move handlers. *)
From Coq Require Import List NArith ZArith Bool Arith Lia.
From Verif Require Import Model.Base Model.Protocol Model.Names Model.Server Spec.ServerSpec
  Proofs.BaseLemmas Proofs.ServerProofs Proofs.ServerEvents.
Import ListNotations.
Open Scope nat_scope.

(** Every way a step can change a session. *)
Inductive alters (st : server) : action -> sid -> session -> session -> Prop :=
| al_attach c h pid now s x : handlers st c = HAccepted pid (QAttach h) -> daemon_rejects (h_name h) = false -> locked st = None ->
    lookup (h_name h) (table st) = Some s -> s_inner x = None -> s_exit x = None -> is_finished (s_thread x) = false ->
    alters st (AAttach c true now) s x (set_inner (record_attached (set_stream x (Some c)) now (h_name_template h, pid)) (Some c))
| al_joined c h pid now s x ok : handlers st c = HAccepted pid (QAttach h) -> daemon_rejects (h_name h) = false -> locked st = None ->
    lookup (h_name h) (table st) = Some s -> s_inner x = None -> s_thread x = TFinished ok ->
    alters st (AAttach c true now) s x
      (set_thread (match s_exit x with None => record_attached (set_stream x (Some c)) now (h_name_template h, pid) | Some _ => x end) TJoined)
| al_fetch c h s0 s x : handlers st c = HFetch h s0 -> locked st = None -> lookup (h_name h) (table st) = Some s -> s_inner x = None ->
    alters st (AFetch c) s x (set_inner x (Some c))
| al_wake c h s x : handlers st c = HWaitInner h s -> s_inner x = None -> alters st (AWake c) s x (set_inner x (Some c))
| al_reply c h s x created l p : handlers st c = HReply h s created -> l = false \/ s_stream x = None \/ p = false ->
    alters st (AReply c l p) s x (set_inner x None)
| al_start c h s x k ok : handlers st c = HStart h s -> s_stream x = Some k -> ok && is_live (s_thread x) = true ->
    alters st (AStart c ok) s x (set_thread (set_client (set_stream x None) (Some k)) TRunning)
| al_start_failed c h s x k ok : handlers st c = HStart h s -> s_stream x = Some k -> ok && is_live (s_thread x) = false ->
    alters st (AStart c ok) s x (set_stream x None)
| al_end c h s x k ok : handlers st c = HStream h s k -> is_live (s_thread x) = true ->
    alters st (AEnd c false true ok) s x (set_client x None)
| al_end_exit c h s x k v ok : handlers st c = HStream h s k -> is_live (s_thread x) = true -> s_exit x = Some v ->
    alters st (AEnd c true true ok) s x (set_client (set_thread x (TFinished true)) None)
| al_unwind c h s0 s x now : handlers st c = HUnwind h s0 false -> locked st = None -> lookup (h_name h) (table st) = Some s ->
    alters st (AUnwind c now) s x (record_detached x now)
| al_leave c s x : handlers st c = HLeave s false -> alters st (ALeave c) s x (set_inner x None)
| al_leave_done c s x : handlers st c = HLeave s true -> is_live (s_thread x) = false ->
    alters st (ALeave c) s x (set_inner (set_thread x TJoined) None)
| al_exit s x v : s_exit x = None -> alters st (AExit s v) s x (set_exit x (Some v))
| al_thread_end s x ok : is_live (s_thread x) = true -> alters st (AThreadEnd s ok) s x (set_client (set_thread x (TFinished ok)) None)
| al_drop s x : is_live (s_thread x) = true -> alters st (ADropClient s) s x (set_client x None)
| al_detach_first c n rest nf na s x now : handlers st c = HDetach (n :: rest) nf na -> lookup n (table st) = Some s -> s_thread x = TWaiting ->
    alters st (ADetachNext c now) s x (record_detached (set_thread x TRunning) now)
| al_detach c n rest nf na s x now k : handlers st c = HDetach (n :: rest) nf na -> lookup n (table st) = Some s -> s_thread x = TRunning ->
    s_client x = Some k -> alters st (ADetachNext c now) s x (record_detached (set_client x None) now)
| al_message c s x : handlers st c = HMessage s -> is_live (s_thread x) = true ->
    alters st (AMessageSend c true) s x (set_thread (set_client x None) TRunning)
| al_send c vs sent s rest x late : handlers st c = HSends vs sent (s :: rest) -> is_live (s_thread x) = true -> length (s_switches x) < 10 ->
    alters st (ASend c late) s x (set_switches x (s_switches x ++ [vs]) (s_taken x))
| al_switch s x vs rest : s_thread x = TRunning -> s_switches x = vs :: rest ->
    alters st (ASwitch s) s x (set_switches x rest (s_taken x ++ [(s_client x, vs)])).

Lemma at_goto st c h s : session_at (goto st c h) s = session_at st s. Proof. reflexivity. Qed.
Lemma at_say st c r s : session_at (say st c r) s = session_at st s. Proof. reflexivity. Qed.
Lemma at_publish st e s : session_at (publish st e) s = session_at st s. Proof. reflexivity. Qed.
Lemma at_table st t s : session_at (with_table st t) s = session_at st s. Proof. reflexivity. Qed.
Lemma at_locked st t s : session_at (with_locked st t) s = session_at st s. Proof. reflexivity. Qed.
Lemma at_vars st t s : session_at (with_vars st t) s = session_at st s. Proof. reflexivity. Qed.
Lemma at_signalled st t s : session_at (with_signalled st t) s = session_at st s. Proof. reflexivity. Qed.
Lemma at_reaper st m h g s : session_at (with_reaper st m h g) s = session_at st s. Proof. reflexivity. Qed.

Ltac at_simp := repeat rewrite ?at_goto, ?at_say, ?at_publish, ?at_table, ?at_locked, ?at_vars, ?at_signalled, ?at_reaper, ?at_change.

Ltac al_same := left; at_simp; assumption.
Ltac al_split := repeat match goal with |- context [match ?e with _ => _ end] => destruct e eqn:? end.

Lemma step_alters st a s x : session_at st s = Some x ->
  session_at (step st a) s = Some x \/ exists x', session_at (step st a) s = Some x' /\ alters st a s x x'.
Proof.
  intros Hs. destruct a; cbn [step].
  - unfold connect. al_split; al_same.
  - unfold attach_select. destruct (handlers st c) eqn:Hc; try al_same. destruct q; try al_same.
    destruct (daemon_rejects (h_name h)) eqn:Hr; [al_same|]. destruct env_ok; cbn [negb]; [|al_same]. destruct (locked st) eqn:Hl; [al_same|].
    destruct (lookup (h_name h) (table st)) as [s1|] eqn:Hlk; [|al_same]. destruct (session_at st s1) as [x1|] eqn:Hx; [|al_same].
    destruct (s_inner x1) eqn:Hi; [al_same|].
    destruct (Nat.eq_dec s s1) as [->|N].
    2:{ left. apply Nat.eqb_neq in N. destruct (s_exit x1), (s_thread x1) as [| |[|]|]; cbn [is_finished]; at_simp; rewrite ?N; exact Hs. }
    rewrite Hs in Hx. injection Hx as <-.
    destruct (s_thread x) as [| |ok|] eqn:Ht; cbn [is_finished].
    3:{ right. eexists. split; [|eapply al_joined; eassumption].
        destruct (s_exit x) eqn:He, ok; at_simp; rewrite Nat.eqb_refl, Hs; reflexivity. }
    all: destruct (s_exit x) eqn:He; [al_same|]; right; eexists; (split; [|eapply al_attach; try eassumption; rewrite Ht; reflexivity]);
         at_simp; rewrite Nat.eqb_refl, Hs; reflexivity.
  - unfold attach_spawn. destruct (handlers st c) eqn:Hc; try al_same. destruct ok; cbn [negb]; [|al_same].
    assert (L : s < length (sessions st)) by (eapply at_some_lt; eassumption).
    destruct (h_ttl_secs h); [|].
    + destruct (_ <? _)%N; [al_same|]. destruct (_ <? _); [|al_same]. left. at_simp. unfold session_at. cbn. rewrite nth_error_app1 by exact L. exact Hs.
    + left. at_simp. unfold session_at. cbn. rewrite nth_error_app1 by exact L. exact Hs.
  - unfold attach_insert. al_split; al_same.
  - unfold attach_fetch. destruct (handlers st c) eqn:Hc; try al_same. destruct (locked st) eqn:Hl; [al_same|].
    destruct (lookup (h_name h) (table st)) as [s1|] eqn:Hlk; [|al_same]. destruct (session_at st s1) as [x1|] eqn:Hx; [|al_same].
    destruct (s_inner x1) eqn:Hi; [al_same|].
    destruct (Nat.eq_dec s s1) as [->|N]; [|left; apply Nat.eqb_neq in N; at_simp; rewrite N; exact Hs].
    rewrite Hs in Hx. injection Hx as <-. right. eexists. split; [|eapply al_fetch; eassumption]. at_simp. rewrite Nat.eqb_refl, Hs. reflexivity.
  - unfold attach_wake. destruct (handlers st c) eqn:Hc; try al_same. destruct (session_at st s0) as [x1|] eqn:Hx; [|al_same].
    destruct (s_inner x1) eqn:Hi; [al_same|].
    destruct (Nat.eq_dec s s0) as [->|N]; [|left; apply Nat.eqb_neq in N; at_simp; rewrite N; exact Hs].
    rewrite Hs in Hx. injection Hx as <-. right. eexists. split; [|eapply al_wake; eassumption]. at_simp. rewrite Nat.eqb_refl, Hs. reflexivity.
  - unfold attach_reply. destruct (handlers st c) eqn:Hc; try al_same.
    destruct (Nat.eq_dec s s0) as [->|N].
    + rewrite Hs. destruct link_ok; cbn [negb].
      * destruct (s_stream x) eqn:Hk.
        -- destruct pager_ok; [al_same|]. right. eexists. split; [|eapply al_reply; [eassumption|auto]]. at_simp. rewrite Nat.eqb_refl, Hs. reflexivity.
        -- right. eexists. split; [|eapply al_reply; [eassumption|auto]]. at_simp. rewrite Nat.eqb_refl, Hs. reflexivity.
      * right. eexists. split; [|eapply al_reply; [eassumption|auto]]. at_simp. rewrite Nat.eqb_refl, Hs. reflexivity.
    + left. apply Nat.eqb_neq in N. al_split; at_simp; rewrite ?N; exact Hs.
  - unfold attach_start. destruct (handlers st c) eqn:Hc; try al_same.
    destruct (Nat.eq_dec s s0) as [->|N].
    + rewrite Hs. destruct (s_stream x) eqn:Hk; [|al_same]. destruct (ok && is_live (s_thread x)) eqn:Ho.
      * right. eexists. split; [|eapply al_start; eassumption]. at_simp. rewrite Nat.eqb_refl, Hs. reflexivity.
      * right. eexists. split; [|eapply al_start_failed; eassumption]. at_simp. rewrite Nat.eqb_refl, Hs. reflexivity.
    + left. apply Nat.eqb_neq in N. al_split; at_simp; rewrite ?N; exact Hs.
  - unfold attach_end. destruct (handlers st c) eqn:Hc; try al_same.
    destruct (Nat.eq_dec s s0) as [->|N].
    + rewrite Hs. destruct c_done; cbn [andb].
      * destruct (s_exit x) eqn:He; [|al_same]. destruct delivered; cbn [andb]; [|al_same]. destruct (is_live (s_thread x)) eqn:Hv; [|al_same].
        right. eexists. split; [|eapply al_end_exit; eassumption]. at_simp. rewrite Nat.eqb_refl, Hs. reflexivity.
      * destruct delivered; cbn [andb]; [|al_same]. destruct (is_live (s_thread x)) eqn:Hv; [|al_same].
        right. eexists. split; [|eapply al_end; eassumption]. at_simp. rewrite Nat.eqb_refl, Hs. reflexivity.
    + left. apply Nat.eqb_neq in N. destruct (session_at st s0); [|exact Hs]. destruct (_ && _); [exact Hs|]. destruct (_ && _); at_simp; rewrite ?N; exact Hs.
  - unfold attach_unwind. destruct (handlers st c) eqn:Hc; try al_same. destruct (locked st) eqn:Hl; [al_same|].
    destruct (lookup (h_name h) (table st)) as [s1|] eqn:Hlk; [|al_same]. destruct done; [al_same|].
    destruct (Nat.eq_dec s s1) as [->|N]; [|left; apply Nat.eqb_neq in N; at_simp; rewrite N; exact Hs].
    right. eexists. split; [|eapply al_unwind; eassumption]. at_simp. rewrite Nat.eqb_refl, Hs. reflexivity.
  - unfold attach_leave. destruct (handlers st c) eqn:Hc; try al_same.
    destruct (Nat.eq_dec s s0) as [->|N].
    + rewrite Hs. destruct done; cbn [andb].
      * destruct (is_live (s_thread x)) eqn:Hv; [al_same|].
        right. eexists. split; [|eapply al_leave_done; eassumption]. at_simp. rewrite Nat.eqb_refl, Hs. reflexivity.
      * right. eexists. split; [|eapply al_leave; eassumption]. at_simp. rewrite Nat.eqb_refl, Hs. reflexivity.
    + left. apply Nat.eqb_neq in N. destruct (session_at st s0); [|exact Hs]. destruct (_ && _); [exact Hs|]. destruct done; at_simp; rewrite ?N; exact Hs.
  - unfold shell_exit. at_simp. destruct (Nat.eqb_spec s s0) as [->|N]; [|al_same]. rewrite Hs. cbn [option_map].
    destruct (s_exit x) eqn:He; [left; reflexivity|]. right. eexists. split; [reflexivity|]. constructor; assumption.
  - unfold thread_end. at_simp. destruct (Nat.eqb_spec s s0) as [->|N]; [|al_same]. rewrite Hs. cbn [option_map].
    destruct (is_live (s_thread x)) eqn:He; [|left; reflexivity]. right. eexists. split; [reflexivity|]. constructor; assumption.
  - unfold thread_drop_client. at_simp. destruct (Nat.eqb_spec s s0) as [->|N]; [|al_same]. rewrite Hs. cbn [option_map].
    destruct (is_live (s_thread x)) eqn:He; [|left; reflexivity]. right. eexists. split; [reflexivity|]. constructor; assumption.
  - left. destruct (handle_kill_shape st c kill_ok) as [->|(pid & names & Hc & Hl & [(sg & _ & ->)|(sg & nf & rm & Hk & ->)])]; [exact Hs|exact Hs|].
    destruct (remove_one_frame rm (with_signalled st sg)) as (t & ev & -> & _). exact Hs.
  - unfold detach_begin. al_split; al_same.
  - unfold detach_next. destruct (handlers st c) eqn:Hc; try al_same. destruct todo as [|n rest]; [al_same|].
    destruct (lookup n (table st)) as [s1|] eqn:Hlk; [|al_same].
    destruct (Nat.eq_dec s s1) as [->|N].
    + rewrite Hs. destruct (s_thread x) eqn:Ht.
      * right. eexists. split; [|eapply al_detach_first; eassumption]. at_simp. rewrite Nat.eqb_refl, Hs. reflexivity.
      * destruct (s_client x) eqn:Hk; [|al_same]. right. eexists. split; [|eapply al_detach; eassumption]. at_simp. rewrite Nat.eqb_refl, Hs. reflexivity.
      * al_same.
      * al_same.
    + left. apply Nat.eqb_neq in N. al_split; at_simp; rewrite ?N; exact Hs.
  - unfold detach_finish. al_split; al_same.
  - unfold message_begin. al_split; al_same.
  - unfold message_send. destruct (handlers st c) eqn:Hc; try al_same.
    destruct (Nat.eq_dec s s0) as [->|N].
    + rewrite Hs. destruct ok; cbn [andb]; [|al_same]. destruct (is_live (s_thread x)) eqn:Hv; [|al_same].
      right. eexists. split; [|eapply al_message; eassumption]. at_simp. rewrite Nat.eqb_refl, Hs. reflexivity.
    + left. apply Nat.eqb_neq in N. al_split; at_simp; rewrite ?N; exact Hs.
  - unfold handle_list. al_split; al_same.
  - unfold handle_log_level. al_split; al_same.
  - unfold handle_get_vars. al_split; al_same.
  - unfold modify_begin. left. destruct (handlers st c); try exact Hs. destruct q; exact Hs.
  - unfold modify_collect. al_split; al_same.
  - unfold modify_send. destruct (handlers st c) eqn:Hc; try al_same. destruct todo as [|s1 rest]; [al_same|].
    destruct (Nat.eq_dec s s1) as [->|N].
    + rewrite Hs. destruct (is_live (s_thread x)) eqn:Hv; cbn [negb]; [|al_same]. destruct (length (s_switches x) <? 10) eqn:Hn.
      * right. eexists. split; [|eapply al_send; try eassumption; apply Nat.ltb_lt; exact Hn]. at_simp. rewrite Nat.eqb_refl, Hs. reflexivity.
      * destruct late; al_same.
    + left. apply Nat.eqb_neq in N. al_split; at_simp; rewrite ?N; exact Hs.
  - unfold thread_switch. at_simp. destruct (Nat.eqb_spec s s0) as [->|N]; [|al_same]. rewrite Hs. cbn [option_map].
    destruct (s_thread x) eqn:Ht; try (left; reflexivity). destruct (s_switches x) as [|vs rest] eqn:Hw; [left; reflexivity|].
    right. eexists. split; [reflexivity|]. constructor; assumption.
  - unfold reaper_register. left. destruct (mailbox st) as [|[[n t] s1] rest]; exact Hs.
  - unfold reaper_fire. left. al_split; exact Hs.
Qed.

(** A session appears only by being spawned. *)
Lemma step_new_session st a s x : session_at st s = None -> session_at (step st a) s = Some x ->
  exists c ok now inst h pid d, a = ASpawn c ok now inst /\ handlers st c = HSpawn h pid /\ s = length (sessions st) /\
    handlers (step st a) c = HInsert h s /\
    x = mkSession (h_name h) c now None TWaiting None (Some c) None (Some now) None (Some (h_name_template h, pid)) [] [] d /\
    d = option_map (fun ttl => (inst + 1000 * ttl)%N) (h_ttl_secs h).
Proof.
  intros Hn Hs.
  assert (L : length (sessions st) <= s) by (apply nth_error_None; exact Hn).
  assert (Keep : length (sessions (step st a)) = length (sessions st) -> False).
  { intros E. assert (s < length (sessions (step st a))) by (eapply at_some_lt; exact Hs). lia. }
  destruct a; try (exfalso; apply Keep; cbn [step];
    unfold connect, attach_select, attach_insert, attach_fetch, attach_wake, attach_reply, attach_start, attach_end, shell_exit, thread_end, thread_drop_client,
    attach_unwind, attach_leave, detach_begin, detach_next, detach_finish, message_begin, message_send, handle_list, handle_log_level,
    handle_get_vars, modify_collect, modify_send, thread_switch, reaper_fire;
    al_split; cbn; rewrite ?change_length; reflexivity).
  - cbn [step] in *. unfold attach_spawn in *. destruct (handlers st c) eqn:Hc; try congruence. destruct ok; cbn [negb] in *; [|at_simp; unfold session_at in *; cbn in Hs; congruence].
    destruct (h_ttl_secs h) as [ttl|] eqn:Httl.
    + destruct (_ <? _)%N; [unfold session_at in *; cbn in Hs; congruence|]. destruct (_ <? _); [|unfold session_at in *; cbn in Hs; congruence].
      unfold session_at in Hs. cbn [sessions goto with_handlers with_sessions with_reaper] in Hs. rewrite nth_app_new in Hs.
      destruct (Nat.eqb_spec s (length (sessions st))) as [->|]; [|unfold session_at in *; congruence].
      injection Hs as <-. do 7 eexists. split; [reflexivity|]. split; [eassumption|]. split; [reflexivity|]. split; [rewrite goto_same; reflexivity|]. split; [reflexivity|]. rewrite Httl. reflexivity.
    + unfold session_at in Hs. cbn [sessions goto with_handlers with_sessions with_reaper] in Hs. rewrite nth_app_new in Hs.
      destruct (Nat.eqb_spec s (length (sessions st))) as [->|]; [|unfold session_at in *; congruence].
      injection Hs as <-. do 7 eexists. split; [reflexivity|]. split; [eassumption|]. split; [reflexivity|]. split; [rewrite goto_same; reflexivity|]. split; [reflexivity|]. rewrite Httl. reflexivity.
  - exfalso. apply Keep. cbn [step]. destruct (handle_kill_shape st c kill_ok) as [->|(pid & names & Hc & Hl & [(sg & _ & ->)|(sg & nf & rm & Hk & ->)])]; [reflexivity|reflexivity|].
    destruct (remove_one_frame rm (with_signalled st sg)) as (t & ev & -> & _). reflexivity.
  - exfalso. apply Keep. cbn [step]. unfold modify_begin. destruct (handlers st c); try reflexivity. destruct q; reflexivity.
  - exfalso. apply Keep. cbn [step]. unfold reaper_register. destruct (mailbox st) as [|[[n t] s1] rest]; reflexivity.
Qed.

(** Every way a handler can move. *)
Inductive moves (st : server) : action -> conn -> handler -> Prop :=
| mv_accept c self p q pid : handlers st c = HIdle -> check_peer self p = Ok pid ->
    moves st (AConnect c self p (Some q)) c (HAccepted pid q)
| mv_turned_away c self p q : handlers st c = HIdle -> (forall q', q = Some q' -> exists why, check_peer self p = Err why) ->
    moves st (AConnect c self p q) c HDone
| mv_refused c pid h e now : handlers st c = HAccepted pid (QAttach h) -> daemon_rejects (h_name h) = true \/ e = false ->
    moves st (AAttach c e now) c HDone
| mv_busy c pid h now s x k : handlers st c = HAccepted pid (QAttach h) -> daemon_rejects (h_name h) = false -> locked st = None ->
    lookup (h_name h) (table st) = Some s -> session_at st s = Some x -> s_inner x = Some k -> moves st (AAttach c true now) c HDone
| mv_create c pid h now : handlers st c = HAccepted pid (QAttach h) -> daemon_rejects (h_name h) = false -> locked st = None ->
    (lookup (h_name h) (table st) = None \/
     exists s x, lookup (h_name h) (table st) = Some s /\ session_at st s = Some x /\ s_inner x = None /\
       (s_thread x = TFinished true \/ (exists v, s_exit x = Some v) /\ is_finished (s_thread x) = false)) ->
    moves st (AAttach c true now) c (HSpawn h pid)
| mv_join_error c pid h now s x : handlers st c = HAccepted pid (QAttach h) -> daemon_rejects (h_name h) = false -> locked st = None ->
    lookup (h_name h) (table st) = Some s -> session_at st s = Some x -> s_inner x = None -> s_thread x = TFinished false ->
    moves st (AAttach c true now) c HDone
| mv_attach c pid h now s x : handlers st c = HAccepted pid (QAttach h) -> daemon_rejects (h_name h) = false -> locked st = None ->
    lookup (h_name h) (table st) = Some s -> session_at st s = Some x -> s_inner x = None -> s_exit x = None -> is_finished (s_thread x) = false ->
    moves st (AAttach c true now) c (HReply h s false)
| mv_spawn_failed c h pid ok now inst : handlers st c = HSpawn h pid -> moves st (ASpawn c ok now inst) c HDone
| mv_spawn c h pid now inst : handlers st c = HSpawn h pid -> moves st (ASpawn c true now inst) c (HInsert h (length (sessions st)))
| mv_insert c h s : handlers st c = HInsert h s -> locked st = None -> moves st (AInsert c) c (HFetch h s)
| mv_vanished c h s : handlers st c = HFetch h s -> locked st = None -> lookup (h_name h) (table st) = None -> moves st (AFetch c) c HDone
| mv_fetch c h s0 s x : handlers st c = HFetch h s0 -> locked st = None -> lookup (h_name h) (table st) = Some s -> session_at st s = Some x ->
    s_inner x = None -> moves st (AFetch c) c (HReply h s true)
| mv_wait c h s0 s x k : handlers st c = HFetch h s0 -> locked st = None -> lookup (h_name h) (table st) = Some s -> session_at st s = Some x ->
    s_inner x = Some k -> moves st (AFetch c) c (HWaitInner h s)
| mv_wake c h s x : handlers st c = HWaitInner h s -> session_at st s = Some x -> s_inner x = None -> moves st (AWake c) c (HReply h s true)
| mv_broken c h s created l p : handlers st c = HReply h s created ->
    l = false \/ p = false \/ (exists x, session_at st s = Some x /\ s_stream x = None) -> moves st (AReply c l p) c HDone
| mv_reply c h s created x k : handlers st c = HReply h s created -> session_at st s = Some x -> s_stream x = Some k ->
    moves st (AReply c true true) c (HStart h s)
| mv_start_failed c h s ok x : handlers st c = HStart h s -> session_at st s = Some x -> s_stream x = None \/ ok && is_live (s_thread x) = false ->
    moves st (AStart c ok) c (HUnwind h s false)
| mv_start c h s x k : handlers st c = HStart h s -> session_at st s = Some x -> s_stream x = Some k -> is_live (s_thread x) = true ->
    moves st (AStart c true) c (HStream h s k)
| mv_end c h s k x cd dl ok : handlers st c = HStream h s k -> session_at st s = Some x -> (cd = true -> exists v, s_exit x = Some v) ->
    moves st (AEnd c cd dl ok) c (HUnwind h s (cd && ok))
| mv_unwind c h s done now : handlers st c = HUnwind h s done -> locked st = None -> moves st (AUnwind c now) c (HLeave s done)
| mv_leave c s done x : handlers st c = HLeave s done -> session_at st s = Some x -> done && is_live (s_thread x) = false ->
    moves st (ALeave c) c HDone
| mv_kill c oks pid names : handlers st c = HAccepted pid (QKill names) -> locked st = None -> moves st (AKill c oks) c HDone
| mv_detach c pid names : handlers st c = HAccepted pid (QDetach names) -> locked st = None -> moves st (ADetach c) c (HDetach names [] [])
| mv_not_found c n rest nf na now : handlers st c = HDetach (n :: rest) nf na -> lookup n (table st) = None ->
    moves st (ADetachNext c now) c (HDetach rest (nf ++ [n]) na)
| mv_not_attached c n rest nf na now s x : handlers st c = HDetach (n :: rest) nf na -> lookup n (table st) = Some s -> session_at st s = Some x ->
    s_thread x = TRunning -> s_client x = None -> moves st (ADetachNext c now) c (HDetach rest nf (na ++ [n]))
| mv_detached c n rest nf na now s x : handlers st c = HDetach (n :: rest) nf na -> lookup n (table st) = Some s -> session_at st s = Some x ->
    s_thread x = TWaiting \/ s_thread x = TRunning /\ s_client x <> None -> moves st (ADetachNext c now) c (HDetach rest nf na)
| mv_detach_error c n rest nf na now s x : handlers st c = HDetach (n :: rest) nf na -> lookup n (table st) = Some s -> session_at st s = Some x ->
    is_live (s_thread x) = false -> moves st (ADetachNext c now) c HDone
| mv_detach_done c nf na : handlers st c = HDetach [] nf na -> moves st (ADetachFinish c) c HDone
| mv_no_message c pid n : handlers st c = HAccepted pid (QMessageDetach n) -> locked st = None -> lookup n (table st) = None ->
    moves st (AMessage c) c HDone
| mv_message c pid n s : handlers st c = HAccepted pid (QMessageDetach n) -> locked st = None -> lookup n (table st) = Some s ->
    moves st (AMessage c) c (HMessage s)
| mv_message_sent c s ok : handlers st c = HMessage s -> moves st (AMessageSend c ok) c HDone
| mv_list c pid : handlers st c = HAccepted pid QList -> locked st = None -> moves st (AList c) c HDone
| mv_log c pid : handlers st c = HAccepted pid QLogLevel -> moves st (ALogLevel c) c HDone
| mv_vars c pid : handlers st c = HAccepted pid QGetVars -> moves st (AGetVars c) c HDone
| mv_modify c pid var val : handlers st c = HAccepted pid (QModify var val) ->
    moves st (AModify c) c (HCollect (match val with Some v => insert var v (vars st) | None => remove var (vars st) end))
| mv_collect c vs : handlers st c = HCollect vs -> locked st = None -> moves st (ACollect c) c (HSends vs [] (map snd (table st)))
| mv_sent c vs sent s rest x late : handlers st c = HSends vs sent (s :: rest) -> session_at st s = Some x -> is_live (s_thread x) = true ->
    length (s_switches x) < 10 -> moves st (ASend c late) c (HSends vs (sent ++ [s]) rest)
| mv_send_failed c vs sent s rest x late : handlers st c = HSends vs sent (s :: rest) -> session_at st s = Some x ->
    is_live (s_thread x) = false \/ 10 <= length (s_switches x) /\ late = true -> moves st (ASend c late) c HDone
| mv_sends_done c vs sent late : handlers st c = HSends vs sent [] -> moves st (ASend c late) c HDone.

Ltac mv_stay := left; congruence.
Ltac mv C := right; rewrite goto_same; eapply C; eauto.

Lemma step_moves st a c : handlers (step st a) c = handlers st c \/ moves st a c (handlers (step st a) c).
Proof.
  destruct (actor a) as [c0|] eqn:A; [|left; apply step_other; congruence].
  destruct (Nat.eq_dec c0 c) as [->|N]; [|left; apply step_other; congruence].
  destruct a; cbn [actor] in A; try discriminate A; injection A as ->; cbn [step].
  - unfold connect. destruct (handlers st c) eqn:Hc; auto.
    destruct q as [q|]; [|right; rewrite goto_same; apply mv_turned_away; [exact Hc|discriminate]].
    destruct (check_peer self p) eqn:Hp; [mv mv_accept|].
    destruct q; right; rewrite goto_same; apply mv_turned_away; eauto.
  - unfold attach_select. destruct (handlers st c) eqn:Hc; auto. destruct q; auto.
    destruct (daemon_rejects (h_name h)) eqn:Hr; [mv mv_refused|]. destruct env_ok; cbn [negb]; [|mv mv_refused]. destruct (locked st) eqn:Hl; auto.
    destruct (lookup (h_name h) (table st)) as [s|] eqn:Hlk; [|mv mv_create]. destruct (session_at st s) as [x|] eqn:Hx; auto.
    destruct (s_inner x) eqn:Hi; [mv mv_busy|].
    destruct (s_exit x) eqn:He.
    + destruct (s_thread x) as [| |[|]|] eqn:Ht.
      1,2,5: right; rewrite goto_same; eapply mv_create; eauto; right; exists s, x; rewrite Ht; repeat split; auto; right; split; eauto.
      * right; rewrite goto_same; eapply mv_create; eauto; right; exists s, x; rewrite Ht; repeat split; auto.
      * mv mv_join_error.
    + destruct (s_thread x) as [| |[|]|] eqn:Ht; cbn [is_finished].
      1,2,5: right; rewrite goto_same; eapply mv_attach; eauto; rewrite Ht; reflexivity.
      * right; rewrite goto_same; eapply mv_create; eauto; right; exists s, x; rewrite Ht; repeat split; auto.
      * mv mv_join_error.
  - unfold attach_spawn. destruct (handlers st c) eqn:Hc; auto. destruct ok; cbn [negb]; [|mv mv_spawn_failed].
    destruct (h_ttl_secs h); [|mv mv_spawn]. destruct (_ <? _)%N; [mv mv_spawn_failed|]. destruct (_ <? _); [mv mv_spawn|auto].
  - unfold attach_insert. destruct (handlers st c) eqn:Hc; auto. destruct (locked st) eqn:Hl; auto. mv mv_insert.
  - unfold attach_fetch. destruct (handlers st c) eqn:Hc; auto. destruct (locked st) eqn:Hl; auto.
    destruct (lookup (h_name h) (table st)) as [s1|] eqn:Hlk; [|mv mv_vanished]. destruct (session_at st s1) as [x1|] eqn:Hx; auto.
    destruct (s_inner x1) eqn:Hi; [mv mv_wait|mv mv_fetch].
  - unfold attach_wake. destruct (handlers st c) eqn:Hc; auto. destruct (session_at st s) as [x1|] eqn:Hx; auto.
    destruct (s_inner x1) eqn:Hi; auto. mv mv_wake.
  - unfold attach_reply. destruct (handlers st c) eqn:Hc; auto. destruct link_ok; cbn [negb]; [|mv mv_broken].
    destruct (session_at st s) as [x|] eqn:Hx; auto. destruct (s_stream x) eqn:Hk.
    + destruct pager_ok; [mv mv_reply|mv mv_broken].
    + right; rewrite goto_same; eapply mv_broken; eauto 8.
  - unfold attach_start. destruct (handlers st c) eqn:Hc; auto. destruct (session_at st s) as [x|] eqn:Hx; auto. destruct (s_stream x) eqn:Hk; [|mv mv_start_failed].
    destruct (ok && is_live (s_thread x)) eqn:Ho; [|mv mv_start_failed]. apply andb_true_iff in Ho as [-> Hv]. mv mv_start.
  - unfold attach_end. destruct (handlers st c) eqn:Hc; auto. destruct (session_at st s) as [x|] eqn:Hx; auto.
    destruct c_done; cbn [andb].
    + destruct (s_exit x) eqn:He; auto. right. rewrite goto_same. apply (mv_end st c h s client x true delivered ok); eauto.
    + right. rewrite goto_same. apply (mv_end st c h s client x false delivered ok); eauto. discriminate.
  - unfold attach_unwind. destruct (handlers st c) eqn:Hc; auto. destruct (locked st) eqn:Hl; auto. mv mv_unwind.
  - unfold attach_leave. destruct (handlers st c) eqn:Hc; auto. destruct (session_at st s) as [x|] eqn:Hx; auto.
    destruct (done && is_live (s_thread x)) eqn:Hd; auto. mv mv_leave.
  - destruct (handle_kill_shape st c kill_ok) as [->|(pid & names & Hc & Hl & [(sg & _ & ->)|(sg & nf & rm & Hk & ->)])]; auto; mv mv_kill.
  - unfold detach_begin. destruct (handlers st c) eqn:Hc; auto. destruct q; auto. destruct (locked st) eqn:Hl; auto. mv mv_detach.
  - unfold detach_next. destruct (handlers st c) eqn:Hc; auto. destruct todo as [|n rest]; auto.
    destruct (lookup n (table st)) as [s|] eqn:Hlk; [|mv mv_not_found]. destruct (session_at st s) as [x|] eqn:Hx; auto.
    destruct (s_thread x) eqn:Ht.
    + mv mv_detached.
    + destruct (s_client x) eqn:Hk; [|mv mv_not_attached]. right; rewrite goto_same; eapply mv_detached; eauto. right. split; [assumption|congruence].
    + right; rewrite goto_same; eapply mv_detach_error; eauto. rewrite Ht. reflexivity.
    + right; rewrite goto_same; eapply mv_detach_error; eauto. rewrite Ht. reflexivity.
  - unfold detach_finish. destruct (handlers st c) eqn:Hc; auto. destruct todo; auto. mv mv_detach_done.
  - unfold message_begin. destruct (handlers st c) eqn:Hc; auto. destruct q; auto. destruct (locked st) eqn:Hl; auto.
    destruct (lookup name (table st)) eqn:Hlk; [mv mv_message|mv mv_no_message].
  - unfold message_send. destruct (handlers st c) eqn:Hc; auto. destruct (session_at st s) eqn:Hx; auto. destruct (_ && _); mv mv_message_sent.
  - unfold handle_list. destruct (handlers st c) eqn:Hc; auto. destruct q; auto. destruct (locked st) eqn:Hl; auto. destruct (map_opt _ _); mv mv_list.
  - unfold handle_log_level. destruct (handlers st c) eqn:Hc; auto. destruct q; auto. mv mv_log.
  - unfold handle_get_vars. destruct (handlers st c) eqn:Hc; auto. destruct q; auto. mv mv_vars.
  - unfold modify_begin. destruct (handlers st c) eqn:Hc; auto. destruct q; auto. mv mv_modify.
  - unfold modify_collect. destruct (handlers st c) eqn:Hc; auto. destruct (locked st) eqn:Hl; auto. mv mv_collect.
  - unfold modify_send. destruct (handlers st c) eqn:Hc; auto. destruct todo as [|s rest]; [mv mv_sends_done|].
    destruct (session_at st s) as [x|] eqn:Hx; auto. destruct (is_live (s_thread x)) eqn:Hv; cbn [negb]; [|mv mv_send_failed].
    destruct (length (s_switches x) <? 10) eqn:Hn; [apply Nat.ltb_lt in Hn; mv mv_sent|]. destruct late; [|auto].
    apply Nat.ltb_ge in Hn. mv mv_send_failed.
Qed.
