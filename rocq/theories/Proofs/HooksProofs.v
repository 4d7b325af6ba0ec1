(** Which callbacks a connection's handler has made, by where it is. *)
From Coq Require Import List NArith ZArith Bool Arith Lia.
From Verif Require Import Model.Base Model.Protocol Model.Names Model.Server Model.Hooks Spec.ServerSpec Spec.HooksSpec
  Proofs.BaseLemmas Proofs.ServerProofs Proofs.ServerEvents Proofs.ServerMoves.
Import ListNotations.
Open Scope nat_scope.

Definition so_far (h : handler) (cs : list (hook * rstr)) : Prop :=
  match h with
  | HSpawn hd _ | HInsert hd _ | HFetch hd _ | HWaitInner hd _ | HReply hd _ true => cs = [(OnNewSession, h_name hd)]
  | HReply hd _ false => cs = [(OnReattach, h_name hd)]
  | HStart hd _ | HStream hd _ _ | HUnwind hd _ false => exists o, opens o /\ cs = [(o, h_name hd)]
  | HUnwind hd _ true => exists o, opens o /\ cs = [(o, h_name hd); (OnShellDisconnect, h_name hd)]
  | HLeave _ d => exists o n, opens o /\ cs = [(o, n); (if d then OnShellDisconnect else OnClientDisconnect, n)]
  | HDone => cs = [] \/ exists n, cs = [(OnBusy, n)] \/ (exists o, opens o /\ cs = [(o, n)]) \/
                                  (exists o k, opens o /\ closes k /\ cs = [(o, n); (k, n)])
  | _ => cs = []
  end.

Lemma calls_of_app c a b : calls_of c (a ++ b) = calls_of c a ++ calls_of c b.
Proof. unfold calls_of. rewrite filter_app, map_app. reflexivity. Qed.

Lemma calls_app l1 : forall st l2, calls st (l1 ++ l2) = calls st l1 ++ calls (run st l1) l2.
Proof. induction l1 as [|a l1 IH]; intros st l2; [reflexivity|]. cbn [app calls]. rewrite IH, app_assoc. reflexivity. Qed.

Lemma calls_of_one c h n : calls_of c [mkCall c h n] = [(h, n)].
Proof. unfold calls_of. cbn. rewrite Nat.eqb_refl. reflexivity. Qed.

(** Only the acting handler makes calls. *)
Lemma step_calls_actor st a k : In k (step_calls st a) -> actor a = Some (k_conn k).
Proof.
  destruct a; cbn [step_calls]; try (intros []; fail); unfold attach_calls, end_calls, unwind_calls;
    repeat match goal with |- context [match ?e with _ => _ end] => destruct e end; try (intros []; fail); intros [<-|[]]; reflexivity.
Qed.

Lemma calls_of_none c cs : (forall k, In k cs -> k_conn k <> c) -> calls_of c cs = [].
Proof.
  intros H. unfold calls_of. induction cs as [|k cs IH]; [reflexivity|]. cbn [filter].
  destruct (Nat.eqb_spec (k_conn k) c) as [E|_]; [exfalso; exact (H k (or_introl eq_refl) E)|]. apply IH. intros k' Hk. apply H. right. exact Hk.
Qed.

Lemma step_calls_none st a c : actor a <> Some c -> calls_of c (step_calls st a) = [].
Proof. intros H. apply calls_of_none. intros k Hk E. apply step_calls_actor in Hk. congruence. Qed.

(** A handler that makes a call moves on. *)
Lemma still_no_calls st a c : handlers (step st a) c = handlers st c -> calls_of c (step_calls st a) = [].
Proof.
  intros H. destruct (actor a) as [c0|] eqn:A; [|apply step_calls_none; congruence].
  destruct (Nat.eq_dec c0 c) as [->|N]; [|apply step_calls_none; congruence].
  destruct a; cbn [step_calls]; try reflexivity; cbn [actor] in A; injection A as ->; cbn [step] in H.
  - unfold attach_select in H. unfold attach_calls. destruct (handlers st c) eqn:Hc; try reflexivity. destruct q; try reflexivity.
    destruct (daemon_rejects (h_name h)); [reflexivity|]. destruct (negb env_ok); [reflexivity|]. destruct (locked st); [reflexivity|].
    destruct (lookup (h_name h) (table st)); [|rewrite goto_same in H; discriminate H].
    destruct (session_at st s); [|reflexivity]. destruct (s_inner s0); [rewrite goto_same in H; discriminate H|].
    exfalso. destruct (s_exit s0), (s_thread s0) as [| |[|]|]; cbn [is_finished] in H; rewrite goto_same in H; discriminate H.
  - unfold attach_end in H. unfold end_calls. destruct (handlers st c) eqn:Hc; try reflexivity. destruct (session_at st s); [|reflexivity].
    destruct (c_done && _); [reflexivity|]. rewrite goto_same in H. discriminate H.
  - unfold attach_unwind in H. unfold unwind_calls. destruct (handlers st c) eqn:Hc; try reflexivity. destruct done; [reflexivity|].
    destruct (locked st); [reflexivity|]. rewrite goto_same in H. discriminate H.
Qed.

Lemma calls_of_nil c cs : cs ++ calls_of c [] = cs.
Proof. apply app_nil_r. Qed.

(** Where a move leads and what is called on the way. *)
Lemma move_calls st a c h' cs : moves st a c h' -> so_far (handlers st c) cs -> so_far h' (cs ++ calls_of c (step_calls st a)).
Proof.
  intros M G.
  destruct M; repeat match goal with H : handlers st c = _ |- _ => rewrite H in G end; cbn [so_far] in *; cbn [step_calls];
    try (rewrite calls_of_nil; auto; fail).
  - unfold attach_calls. rewrite H. destruct H0 as [-> | ->]; [|destruct (daemon_rejects _)]; cbn [negb]; rewrite calls_of_nil; auto.
  - unfold attach_calls. rewrite H, H0, H1, H2, H3, H4. cbn [negb]. rewrite calls_of_one. subst cs. right. exists (h_name h). left. reflexivity.
  - subst cs. cbn [app]. unfold attach_calls. rewrite H, H0, H1. cbn [negb]. destruct H2 as [-> |(s & x & -> & -> & -> & H2)]; [apply calls_of_one|].
    destruct H2 as [-> |[(v & ->) H2]]; [destruct (s_exit x); cbn; apply calls_of_one|].
    destruct (s_thread x) as [| |[|]|]; try discriminate H2; apply calls_of_one.
  - unfold attach_calls. rewrite H, H0, H1, H2, H3, H4, H5. cbn [negb is_finished]. destruct (s_exit x); rewrite calls_of_nil; auto.
  - unfold attach_calls. rewrite H, H0, H1, H2, H3, H4, H5, H6. subst cs. cbn. apply calls_of_one.
  - rewrite calls_of_nil. right. exists (h_name h). right. left. exists OnNewSession. split; [left; reflexivity|exact G].
  - rewrite calls_of_nil. right. exists (h_name h). right. left. exists OnNewSession. split; [left; reflexivity|exact G].
  - rewrite calls_of_nil. right. exists (h_name h). right. left. destruct created; [exists OnNewSession|exists OnReattach]; (split; [|exact G]); [left|right]; reflexivity.
  - rewrite calls_of_nil. destruct created; [exists OnNewSession|exists OnReattach]; (split; [|exact G]); [left|right]; reflexivity.
  - unfold end_calls. rewrite H, H0. destruct cd; cbn [andb].
    + destruct (H1 eq_refl) as (v & ->). destruct G as (o & Ho & ->). destruct ok; [|exists o; split; [exact Ho|reflexivity]].
      exists o. split; [exact Ho|]. rewrite calls_of_one. reflexivity.
    + destruct G as (o & Ho & ->). exists o. split; [exact Ho|reflexivity].
  - unfold unwind_calls. rewrite H, H0. destruct done; destruct G as (o & Ho & ->); exists o, (h_name h); (split; [exact Ho|]); [reflexivity|].
    rewrite calls_of_one. reflexivity.
  - rewrite calls_of_nil. destruct G as (o & n & Ho & ->). right. exists n. right. right. exists o, (if done then OnShellDisconnect else OnClientDisconnect).
    split; [exact Ho|]. split; [|reflexivity]. destruct done; [right|left]; reflexivity.
Qed.

Lemma step_so_far st a c cs : so_far (handlers st c) cs -> so_far (handlers (step st a) c) (cs ++ calls_of c (step_calls st a)).
Proof.
  intros G. destruct (step_moves st a c) as [M|M].
  - rewrite (still_no_calls st a c M), M, app_nil_r. exact G.
  - eapply move_calls; eassumption.
Qed.

Lemma run_so_far l : forall st c cs, so_far (handlers st c) cs -> so_far (handlers (run st l) c) (cs ++ calls_of c (calls st l)).
Proof.
  induction l as [|a l IH]; intros st c cs G; [rewrite app_nil_r; exact G|].
  cbn [calls]. rewrite calls_of_app, app_assoc. change (run st (a :: l)) with (run (step st a) l). apply IH. apply step_so_far. exact G.
Qed.

Lemma fresh_so_far d l c : so_far (handlers (run (server_new d) l) c) (calls_of c (calls (server_new d) l)).
Proof. apply (run_so_far l (server_new d) c []). reflexivity. Qed.

(** Busy callbacks and busy replies go together. *)
Lemma busy_calls_app a b : busy_calls (a ++ b) = busy_calls a ++ busy_calls b.
Proof. unfold busy_calls. rewrite filter_app, map_app. reflexivity. Qed.
Lemma busy_replies_app a b : busy_replies (a ++ b) = busy_replies a ++ busy_replies b.
Proof. unfold busy_replies. rewrite filter_app, map_app. reflexivity. Qed.

Lemma no_busy_calls st a : replies (step st a) = replies st \/ (forall c, ~ says st a c (RAttach Busy)) -> busy_calls (step_calls st a) = [].
Proof.
  intros H. destruct a; cbn [step_calls]; try reflexivity.
  - unfold attach_calls. destruct (handlers st c) eqn:Hc; try reflexivity. destruct q; try reflexivity.
    destruct (daemon_rejects (h_name h)) eqn:Hr; [reflexivity|]. destruct env_ok; [|reflexivity]. cbn [negb]. destruct (locked st) eqn:Hl; [reflexivity|].
    destruct (lookup (h_name h) (table st)) as [s|] eqn:Hk; [|reflexivity].
    destruct (session_at st s) as [x|] eqn:Hx; [|reflexivity]. destruct (s_inner x) eqn:Hi.
    + exfalso. destruct H as [H|H].
      * cbn [step] in H. unfold attach_select in H. rewrite Hc, Hr, Hl, Hk, Hx, Hi in H. cbn in H.
        apply (f_equal (@length _)) in H. rewrite app_length in H. cbn in H. lia.
      * apply (H c). econstructor; eassumption.
    + destruct (s_exit x), (s_thread x) as [| |[|]|]; reflexivity.
  - unfold end_calls. destruct (handlers st c); try reflexivity. destruct (session_at st s); [|reflexivity].
    destruct (_ && _); [reflexivity|]. destruct (_ && _); reflexivity.
  - unfold unwind_calls. destruct (handlers st c); try reflexivity. destruct done; [reflexivity|]. destruct (locked st); reflexivity.
Qed.

Lemma busy_step st a : busy_replies (replies (step st a)) = busy_replies (replies st) ++ busy_calls (step_calls st a).
Proof.
  destruct (step_says st a) as [H|(c & r & H & S)].
  - rewrite H, no_busy_calls by auto. rewrite app_nil_r. reflexivity.
  - rewrite H, busy_replies_app. f_equal.
    assert (D : r = RAttach Busy \/ busy_replies [(c, r)] = []).
    { destruct r as [q| | | | | | |]; try (right; reflexivity). destruct q; auto. }
    destruct D as [-> |D].
    + inversion S as [| |c1 pid h now s x c0 H1 H2 H3 H4 H5 H6| | | | | | | | |]; subst; try (destruct created; discriminate).
      cbn [step_calls]. unfold attach_calls. rewrite H1, H2, H3, H4, H5, H6. reflexivity.
    + rewrite D. symmetry. apply no_busy_calls. right. intros c' S'.
      inversion S' as [| |c1 pid h now s x c0 H1 H2 H3 H4 H5 H6| | | | | | | | |]; subst; try (destruct created; discriminate).
      apply (f_equal (@length _)) in D. inversion S; subst; try congruence; try discriminate D.
Qed.

Lemma busy_run l : forall st, busy_replies (replies (run st l)) = busy_replies (replies st) ++ busy_calls (calls st l).
Proof.
  induction l as [|a l IH]; intros st; [rewrite app_nil_r; reflexivity|].
  change (run st (a :: l)) with (run (step st a) l). cbn [calls]. rewrite IH, busy_step, busy_calls_app, app_assoc. reflexivity.
Qed.

(** Callbacks and events. *)
Definition agrees (evs : list event) (cs : list (hook * rstr)) (c : conn) : Prop :=
  (forall n, In (OnReattach, n) cs -> exists s, In (mkEvent EAttached n (Some s) (Some c)) evs) /\
  (forall n s, In (mkEvent EAttached n (Some s) (Some c)) evs ->
     In (mkEvent ECreated n (Some s) (Some c)) evs \/ In (OnReattach, n) cs) /\
  (forall n s, In (mkEvent ECreated n (Some s) (Some c)) evs -> In (OnNewSession, n) cs).

Lemma in_calls_of c cs h n : In (h, n) (calls_of c cs) <-> In (mkCall c h n) cs.
Proof.
  unfold calls_of. rewrite in_map_iff. split.
  - intros ([c' h' n'] & E & H). cbn in E. injection E as -> ->. apply filter_In in H. destruct H as [H E]. cbn in E. apply Nat.eqb_eq in E. subst c'. exact H.
  - intros H. exists (mkCall c h n). split; [reflexivity|]. apply filter_In. split; [exact H|]. cbn. apply Nat.eqb_refl.
Qed.

Lemma reattach_call st a c n : In (mkCall c OnReattach n) (step_calls st a) ->
  exists s, events (step st a) = events st ++ [mkEvent EAttached n (Some s) (Some c)].
Proof.
  destruct a; cbn [step_calls]; try (intros []; fail).
  - unfold attach_calls. cbn [step]. unfold attach_select. destruct (handlers st c0); try (intros []; fail). destruct q; try (intros []; fail).
    destruct (daemon_rejects _); [intros []|]. destruct (negb env_ok); [intros []|]. destruct (locked st); [intros []|].
    destruct (lookup (h_name h) (table st)) as [s|]; [|intros [H|[]]; discriminate H].
    destruct (session_at st s) as [x|]; [|intros []]. destruct (s_inner x); [intros [H|[]]; discriminate H|].
    destruct (s_exit x), (s_thread x) as [| |[|]|]; cbn [is_finished]; intros H; try (destruct H; fail); destruct H as [H|H]; try discriminate H; try (destruct H; fail);
      injection H as -> <-; eexists; reflexivity.
  - unfold end_calls. repeat match goal with |- context [match ?e with _ => _ end] => destruct e end; intros H; try (destruct H; fail); destruct H as [H|H]; try discriminate H; destruct H.
  - unfold unwind_calls. repeat match goal with |- context [match ?e with _ => _ end] => destruct e end; intros H; try (destruct H; fail); destruct H as [H|H]; try discriminate H; destruct H.
Qed.

Lemma removals_only e names : forall t, In e (removal_events t names) -> e_kind e = ERemoved.
Proof. induction names as [|n names IH]; intros t; cbn; [intros []|]. intros [<-|H]; [reflexivity|]. eapply IH; exact H. Qed.

Lemma agrees_step st a c cs : so_far (handlers st c) cs -> agrees (events st) cs c ->
  agrees (events (step st a)) (cs ++ calls_of c (step_calls st a)) c.
Proof.
  intros G (A & B & C). destruct (step_tells st a) as (es & E & T).
  assert (X : forall n, In (OnReattach, n) (calls_of c (step_calls st a)) -> exists s, In (mkEvent EAttached n (Some s) (Some c)) (events (step st a))).
  { intros n H. apply in_calls_of in H. apply reattach_call in H. destruct H as (s & ->). exists s. apply in_or_app. right. left. reflexivity. }
  split; [|split].
  - intros n H. apply in_app_or in H. destruct H as [H|H]; [|apply X; exact H]. destruct (A n H) as (s & H'). exists s. rewrite E. apply in_or_app. left. exact H'.
  - intros n s H. rewrite E in *. apply in_app_or in H. destruct H as [H|H].
    { destruct (B n s H) as [H'|H']; [left|right]; apply in_or_app; left; exact H'. }
    destruct T.
    + destruct H.
    + destruct H as [H|[]]. injection H as <- <- <-. right. apply in_or_app. right. apply in_calls_of. cbn [step_calls]. unfold attach_calls.
      rewrite H0, H7, H1, H2, H3, H4, H5, H6. left. reflexivity.
    + left. apply in_or_app. right. apply in_app_or in H. destruct H as [H|[H|[H|[]]]]; try discriminate H.
      * destruct (lookup _ _); [destruct H as [H|[]]; discriminate H|destruct H].
      * injection H as <- <- <-. apply in_or_app. right. left. reflexivity.
    + destruct H as [H|[]]; discriminate H.
    + destruct H as [H|[]]; discriminate H.
    + apply removals_only in H. discriminate H.
    + destruct H as [H|[]]; discriminate H.
  - intros n s H. rewrite E in *. apply in_app_or in H. apply in_or_app. left. destruct H as [H|H]; [eapply C; exact H|].
    destruct T.
    + destruct H.
    + destruct H as [H|[]]; discriminate H.
    + apply in_app_or in H. destruct H as [H|[H|[H|[]]]]; try discriminate H.
      * destruct (lookup _ _); [destruct H as [H|[]]; discriminate H|destruct H].
      * injection H as <- <- <-. rewrite H0 in G. cbn in G. subst cs. left. reflexivity.
    + destruct H as [H|[]]; discriminate H.
    + destruct H as [H|[]]; discriminate H.
    + apply removals_only in H. discriminate H.
    + destruct H as [H|[]]; discriminate H.
Qed.

Lemma agrees_run l : forall st c cs, so_far (handlers st c) cs -> agrees (events st) cs c ->
  agrees (events (run st l)) (cs ++ calls_of c (calls st l)) c.
Proof.
  induction l as [|a l IH]; intros st c cs G H; [rewrite app_nil_r; exact H|].
  cbn [calls]. rewrite calls_of_app, app_assoc. change (run st (a :: l)) with (run (step st a) l).
  apply IH; [apply step_so_far|apply agrees_step]; assumption.
Qed.

Lemma agrees_fresh d l c : agrees (events (run (server_new d) l)) (calls_of c (calls (server_new d) l)) c.
Proof. apply (agrees_run l (server_new d) c []); [reflexivity|]. repeat split; intros n; intros; contradiction. Qed.

(** A connection that streams has one more callback to make. *)
Definition owes (h : handler) (n : rstr) (cs : list (hook * rstr)) : Prop :=
  match h with
  | HStart hd _ | HStream hd _ _ | HUnwind hd _ false => h_name hd = n /\ cs = []
  | HUnwind hd _ true => h_name hd = n /\ cs = [(OnShellDisconnect, n)]
  | HLeave _ d => cs = [(if d then OnShellDisconnect else OnClientDisconnect, n)]
  | HDone => exists k, closes k /\ cs = [(k, n)]
  | _ => False
  end.

Lemma owes_step st a c n cs : owes (handlers st c) n cs -> owes (handlers (step st a) c) n (cs ++ calls_of c (step_calls st a)).
Proof.
  intros G. destruct (step_moves st a c) as [M|M].
  { rewrite (still_no_calls st a c M), M, app_nil_r. exact G. }
  remember (handlers (step st a) c) as h' eqn:Eh. clear Eh.
  destruct M; repeat match goal with H : handlers st c = _ |- _ => rewrite H in G end; cbn [owes] in *; try contradiction; cbn [step_calls];
    rewrite ?calls_of_nil; auto.
  - unfold end_calls. rewrite H, H0. destruct G as [G ->]. destruct cd; cbn [andb].
    + destruct (H1 eq_refl) as (v & ->). destruct ok; [|split; [exact G|reflexivity]]. split; [exact G|]. rewrite calls_of_one, G. reflexivity.
    + split; [exact G|reflexivity].
  - unfold unwind_calls. rewrite H, H0. destruct done; destruct G as [G ->]; [reflexivity|]. rewrite calls_of_one, G. reflexivity.
  - exists (if done then OnShellDisconnect else OnClientDisconnect). split; [destruct done; [right|left]; reflexivity|exact G].
Qed.

Lemma owes_run l : forall st c n cs, owes (handlers st c) n cs -> owes (handlers (run st l) c) n (cs ++ calls_of c (calls st l)).
Proof.
  induction l as [|a l IH]; intros st c n cs G; [rewrite app_nil_r; exact G|].
  cbn [calls]. rewrite calls_of_app, app_assoc. change (run st (a :: l)) with (run (step st a) l). apply IH. apply owes_step. exact G.
Qed.
