(** Lemmas for C76: the output thread's turns and the daemon's account of them. *)
From Coq Require Import List NArith ZArith Bool Arith Lia.
From Verif Require Import Model.Base Model.Chunk Model.Protocol Model.Duration Model.Config Model.Restore Model.Pager Model.Motd Model.Sentinel
  Model.ShellToClient Spec.TurnSpec Proofs.ShellToClientProofs Proofs.TurnProofs.
From Verif Require Import Model.Server Spec.ServerSpec Spec.InStepSpec Proofs.BaseLemmas Proofs.ServerProofs Proofs.ServerMoves.
Import ListNotations.
Open Scope nat_scope.

Section InStep.
  Context {e : engines}.
  Variable b : build.

  (** Selected: after the select the thread still runs. *)
  Lemma poll_client (s : @s2c e) it : finished s = None -> finished (s2c_poll s it) = None ->
    waiting (s2c_poll s it) = waiting s /\ (client (s2c_poll s it) = client s \/ client (s2c_poll s it) = None).
  Proof.
    intros Hf. unfold s2c_poll, s2c_output, write_exit_chunk.
    destruct (poll it) as [| | |p [st|]|[[|x bs]|[]]]; try discriminate; auto; try (destruct (client s); discriminate; fail).
    cbv zeta. destruct (gate_read _ _) as [[g [sh|]]|]; [|auto|discriminate].
    cbn [client with_spool with_gate with_took motd_due].
    destruct (client s) as [id|] eqn:C; [|cbn; rewrite C; auto].
    destruct (motd_due s); [destruct (dump _ _ _); try discriminate|]; cbn; rewrite ?Hf; destruct (w_data it); cbn; rewrite ?C; auto.
  Qed.

  Lemma mid_client (s : @s2c e) it r : let m := s2c_resize s it in let m' := if r : bool then s2c_restore m it else m in
    finished m' = finished s /\ waiting m' = waiting s /\ client m' = client s /\ acks m' = acks s.
  Proof.
    cbn zeta. assert (R : finished (s2c_resize s it) = finished s /\ waiting (s2c_resize s it) = waiting s /\ client (s2c_resize s it) = client s /\ acks (s2c_resize s it) = acks s).
    { unfold s2c_resize. destruct (resize_cmd s) as [[z w]|]; [destruct (_ <=? _)%N|]; auto. }
    destruct r; [|exact R]. revert R. generalize (s2c_resize s it). intros m R. unfold s2c_restore. destruct (client m) as [id|] eqn:C; [|rewrite C; exact R].
    assert (E : forall cs (m : @s2c e) i, finished (emit_all m id cs i (w_restore it)) = finished m /\ waiting (emit_all m id cs i (w_restore it)) = waiting m /\
      client (emit_all m id cs i (w_restore it)) = client m /\ acks (emit_all m id cs i (w_restore it)) = acks m).
    { intros cs. induction cs as [|x cs IH]; intros m0 i; [auto|]. cbn. destruct (IH (emit m0 id x (w_restore it i)) (S i)) as (-> & -> & -> & ->). auto. }
    destruct (E (restore_frames (spool_restore (out_spool m))) m 0) as (-> & -> & -> & ->). rewrite C. exact R.
  Qed.

  (** The loop is never left for the state before it. *)
  Lemma turn_waiting (s : @s2c e) it : waiting (s2c_turn b s it) = waiting s.
  Proof.
    unfold s2c_turn. destruct (finished s) eqn:Hf; [reflexivity|].
    assert (A : waiting (fst (s2c_select b s it)) = waiting s).
    { unfold s2c_select, farewell, write_exit_chunk, acknowledge.
      destruct (sel it) as [[id z| |st]| |z| | |[bs|]| |]; destruct (client s) as [old|] eqn:Ec; cbn;
        repeat (match goal with |- context [if ?x then _ else _] => destruct x eqn:?; cbn | |- context [match add1_u16 ?a ?b with _ => _ end] => destruct (add1_u16 a b) eqn:?; cbn
          | |- context [match w_sel ?a with _ => _ end] => destruct (w_sel a) eqn:?; cbn end); reflexivity. }
    destruct (s2c_select b s it) as [m f]. cbn [fst] in A. destruct (finished m); [exact A|]. destruct f as [r|]; [|exact A].
    destruct (mid_client m it r) as (_ & B & _). rewrite <- A, <- B. generalize (if r then s2c_restore (s2c_resize m it) it else s2c_resize m it). clear. intros s.
    unfold s2c_poll, s2c_output, write_exit_chunk.
    destruct (poll it) as [| | |p [st|]|[[|x bs]|[]]]; try reflexivity; try (destruct (client s); reflexivity).
    cbv zeta. destruct (gate_read _ _) as [[g [sh|]]|]; try reflexivity. cbn [client with_spool with_gate with_took motd_due].
    destruct (client s); [|reflexivity]. destruct (motd_due s); [destruct (dump _ _ _)|]; cbn; destruct (finished s); cbn; try reflexivity; destruct (w_data it); reflexivity.
  Qed.

  (** A turn, as far as the account goes: what the select leaves, then perhaps the end, or
      the client dropped. *)
  Lemma turn_account (s : @s2c e) it : finished s = None ->
    let m := fst (s2c_select b s it) in let t := s2c_turn b s it in
    acks t = acks m /\
    (finished m <> None -> t = m) /\
    (finished m = None -> finished t = None -> waiting t = waiting m /\ (client t = client m \/ client t = None)).
  Proof.
    intros Hf. cbn zeta. unfold s2c_turn. rewrite Hf. destruct (s2c_select b s it) as [m f]. cbn [fst].
    destruct (finished m) eqn:F; [repeat split; auto; congruence|]. destruct f as [r|]; [|repeat split; auto; congruence].
    destruct (mid_client m it r) as (A & B & C & D). set (m' := if r then s2c_restore (s2c_resize m it) it else s2c_resize m it) in *. clearbody m'.
    destruct (poll_acks m' it) as (P & _). rewrite P. split; [exact D|]. split; [congruence|]. intros _ H.
    destruct (poll_client m' it ltac:(congruence) H) as (W & K). rewrite W, B. rewrite C in K. auto.
  Qed.

  (** The select, as far as the account goes. *)
  Lemma select_account (s : @s2c e) it : finished s = None -> let m := fst (s2c_select b s it) in
    (finished m = None -> waiting m = waiting s /\ client m = next_client (client s) it).
  Proof.
    intros Hf. cbn zeta. unfold s2c_select, next_client, farewell, write_exit_chunk, acknowledge.
    destruct (sel it) as [[id z| |st]| |z| | |[bs|]| |]; destruct (client s) as [old|] eqn:Ec; cbn;
      repeat (match goal with |- context [if ?x then _ else _] => destruct x eqn:?; cbn | |- context [match add1_u16 ?a ?b with _ => _ end] => destruct (add1_u16 a b) eqn:?; cbn
        | |- context [match w_sel ?a with _ => _ end] => destruct (w_sel a) eqn:?; cbn end; rewrite ?Hf, ?Ec; cbn); rewrite ?Hf, ?Ec; try discriminate; auto;
      match goal with H : finished _ = Some _ |- _ => cbn in H; congruence end.
  Qed.

  Definition ended_well (r : s2c_end) : bool := match r with EndOk => true | _ => false end.
  Lemma seen_end (t : @s2c e) r : finished t = Some r -> seen t = TFinished (ended_well r) /\ writes_to t = None.
  Proof. intros H. unfold seen, writes_to. rewrite H. destruct r; auto. Qed.
  Lemma seen_live (t : @s2c e) : finished t = None -> seen t = (if waiting t then TWaiting else TRunning) /\ writes_to t = client t.
  Proof. intros H. unfold seen, writes_to. rewrite H. auto. Qed.
  Lemma live_seen (t : @s2c e) : finished t = None -> is_live (seen t) = true.
  Proof. intros H. destruct (seen_live t H) as (-> & _). destruct (waiting t); reflexivity. Qed.

  Lemma here_change st s f : session_at (change st s f) s = option_map f (session_at st s).
  Proof. rewrite at_change, Nat.eqb_refl. destruct (session_at st s); reflexivity. Qed.

  (** The thread ends. *)
  Lemma ends_in_step st s (t t' : @s2c e) r : in_step st s t -> finished t = None -> finished t' = Some r ->
    in_step (step st (AThreadEnd s (ended_well r))) s t'.
  Proof.
    intros (x & Hx & C & T) L E. destruct T as [T|(T & _)]; [|congruence]. destruct (seen_end t' r E) as (A & B).
    exists (set_client (set_thread x (TFinished (ended_well r))) None). cbn [step]. unfold thread_end.
    rewrite here_change, Hx. cbn. rewrite T, (live_seen t L). auto.
  Qed.

  (** From where the select has left it to the end of the turn. *)
  Lemma rest_in_step st s (m t : @s2c e) : in_step st s m -> finished m = None ->
    (finished t = None -> waiting t = waiting m /\ (client t = client m \/ client t = None)) ->
    exists l, Forall (by_itself s) l /\ in_step (run st l) s t.
  Proof.
    intros K L H. destruct (finished t) as [r|] eqn:F.
    - exists [AThreadEnd s (ended_well r)]. split; [constructor; [left; eauto|constructor]|]. exact (ends_in_step st s m t r K L F).
    - destruct (H eq_refl) as (W & [C|C]); destruct K as (x & Hx & A & T); (destruct T as [T|(T & _)]; [|congruence]);
        destruct (seen_live m L) as (T' & A'); destruct (seen_live t F) as (T'' & A'').
      + exists []. split; [constructor|]. exists x. rewrite A, T, A', A'', T', T'', C, W. auto.
      + exists [ADropClient s]. split; [constructor; [right; reflexivity|constructor]|].
        exists (set_client x None). cbn [run fold_left step]. unfold thread_drop_client. rewrite here_change, Hx. cbn. rewrite T, (live_seen m L). cbn.
        rewrite A'', C, T'', W, T'. auto.
  Qed.

  (** Once the thread has ended, nothing the daemon does disagrees with it. *)
  Lemma ended_in_step st s (t : @s2c e) a : in_step st s t -> finished t <> None -> in_step (step st a) s t.
  Proof.
    intros (x & Hx & C & T) F.
    assert (C0 : s_client x = None) by (rewrite C; unfold writes_to; destruct (finished t); [reflexivity|destruct (F eq_refl)]).
    assert (L : is_live (s_thread x) = false).
    { destruct T as [-> | (_ & ->)]; [|reflexivity]. unfold seen. destruct (finished t) as [[| |]|]; try reflexivity. destruct (F eq_refl). }
    destruct (step_alters st a s x Hx) as [Hx'|(x' & Hx' & A)]; [exists x; auto|].
    exists x'. split; [exact Hx'|]. clear Hx Hx'.
    destruct A; cbn; auto; try congruence;
      try (match goal with H : s_thread x = _ |- _ => rewrite H in L; discriminate L end);
      try (match goal with H : _ && is_live _ = true |- _ => rewrite L, andb_false_r in H; discriminate H end).
    destruct (s_exit x); cbn; auto.
  Qed.

  (** The thread takes an attach or a detach. *)
  Definition answer_to (t : @s2c e) (m : conn_msg) : ack :=
    if waiting t then AckNew
    else match m, client t with
         | NewConn _ _, Some _ => AckReplaced
         | NewConn _ _, None => AckNew
         | _, Some _ => AckDetached
         | _, None => AckDetachNone
         end.
  Definition gets (m : conn_msg) : option nat := match m with NewConn id _ => Some id | _ => None end.
  Definition is_exit (m : conn_msg) : bool := match m with DisconnectExit _ => true | _ => false end.

  Lemma took_message (t : @s2c e) ev m : takes t ev m -> is_exit m = false ->
    let t' := s2c_step b t ev in
    (acks t' = acks t /\ finished t' <> None) \/
    (acks t' = acks t ++ [answer_to t m] /\
     exists n : @s2c e, finished n = None /\ waiting n = false /\ client n = gets m /\
       (finished t' = None -> waiting t' = waiting n /\ (client t' = client n \/ client t' = None))).
  Proof.
    intros (F & H) X. cbn zeta. unfold answer_to. destruct ev as [[m'|] now ok|it]; [| destruct H |]; destruct H as (W & M); cbn [s2c_step]; rewrite ?F, W.
    - subst m'. unfold s2c_first, acknowledge. destruct ok; cbn; [|left; split; [reflexivity|discriminate]].
      right. split; [reflexivity|].
      eexists {| waiting := false; out_spool := out_spool t; out_gate := out_gate t; motd_due := motd_due t; client := gets m; resize_cmd := resize_cmd t;
        winsize := winsize t; log := log t; shut := shut t; acks := acks t; took := took t; finished := None |}. cbn. auto 6.
    - destruct (turn_account t it F) as (K & A & B). pose proof (select_account t it F) as D. pose proof (select_acks b t it F) as Q. pose proof (select_fin b t it F) as E. cbn zeta in *.
      rewrite E in *. destruct (sel_end b t it) as [r|] eqn:SE.
      + left. rewrite K, Q, (A ltac:(discriminate)). rewrite E, M. split; [|discriminate]. destruct m; try discriminate X; rewrite app_nil_r; reflexivity.
      + right. rewrite K, Q. destruct (D eq_refl) as (D1 & D2). split.
        * f_equal. unfold answer, there. rewrite M. destruct m, (client t); try discriminate X; reflexivity.
        * exists (fst (s2c_select b t it)). rewrite E, D1, W. split; [reflexivity|]. split; [reflexivity|]. split.
          -- rewrite D2. unfold next_client. rewrite M. destruct m; reflexivity.
          -- intros F'. rewrite <- W, <- D1. exact (B eq_refl F').
  Qed.

  Lemma took_exit (t : @s2c e) ev status : takes t ev (DisconnectExit status) -> waiting t = false ->
    let t' := s2c_step b t ev in
    (acks t' = acks t /\ exists r, finished t' = Some r /\ ended_well r = false) \/
    (acks t' = acks t ++ [answer_to t (DisconnectExit status)] /\ finished t' = Some EndOk).
  Proof.
    intros (F & H) W. cbn zeta. destruct ev as [[m'|] now ok|it]; [destruct H; congruence|destruct H|]. destruct H as (_ & M).
    cbn [s2c_step]. rewrite W. destruct (turn_account t it F) as (K & A & _). pose proof (select_acks b t it F) as Q. pose proof (select_fin b t it F) as E. cbn zeta in *.
    rewrite E in A. unfold sel_end in *. rewrite M in *. unfold answer_to, answer in *. rewrite W, M in *.
    destruct (client t); cbn in *; destruct (shutdown_ok it), (ack_ok it); cbn in *; rewrite K, Q, (A ltac:(discriminate)), E; rewrite ?app_nil_r; eauto 6.
  Qed.

  Lemma by_itself_handlers st s l : Forall (by_itself s) l -> handlers (run st l) = handlers st /\ replies (run st l) = replies st.
  Proof.
    revert st. induction l as [|a l IH]; intros st F; [auto|]. inversion F as [|a' l' Ha Fl]; subst. change (run st (a :: l)) with (run (step st a) l).
    destruct (IH (step st a) Fl) as (-> & ->). destruct Ha as [(ok & ->)| ->]; split; reflexivity.
  Qed.

  (** Before the first message there is no client. *)
  Lemma waiting_client (t : @s2c e) : lived b t -> waiting t = true -> client t = None.
  Proof.
    intros (sup & dm & c & size & t0 & evs & Hn & ->). assert (H0 : waiting t0 = true -> client t0 = None).
    { unfold s2c_new in Hn. destruct (gate_new sup); [|discriminate]. injection Hn as <-. reflexivity. }
    clear Hn. revert t0 H0. induction evs as [|ev evs IH]; intros t0 H0; [exact H0|].
    change (s2c_run b t0 (ev :: evs)) with (s2c_run b (s2c_step b t0 ev) evs). apply IH. clear IH.
    destruct ev as [m now ok|it]; cbn [s2c_step].
    - destruct (finished t0); [exact H0|]. destruct (waiting t0) eqn:W; [|rewrite W; discriminate].
      unfold s2c_first, acknowledge. destruct m as [m|]; [|cbn; rewrite W; exact H0]. destruct ok; discriminate.
    - destruct (waiting t0) eqn:W; [rewrite W; exact H0|]. intros N. exfalso. rewrite turn_waiting in N. congruence.
  Qed.

  (** From the state the account is brought to by a handler. *)
  Lemma after_handler st s (x : session) (n t' : @s2c e) : session_at st s = Some x -> s_thread x = TRunning -> s_client x = client n ->
    finished n = None -> waiting n = false -> (finished t' = None -> waiting t' = waiting n /\ (client t' = client n \/ client t' = None)) ->
    exists l, Forall (by_itself s) l /\ in_step (run st l) s t'.
  Proof.
    intros Hx T C F W H. apply (rest_in_step st s n); [|exact F|exact H]. exists x. split; [exact Hx|]. destruct (seen_live n F) as (-> & ->). rewrite W. auto.
  Qed.
End InStep.

(** Who is being streamed to has a thread that has started. *)
Lemma streaming_started st : reachable st -> forall c h s k, handlers st c = HStream h s k ->
  exists x, session_at st s = Some x /\ s_thread x <> TWaiting.
Proof.
  intros (defaults & l & ->). induction l as [|a l IH] using rev_ind; intros c h s k H.
  - cbn in H. discriminate H.
  - unfold run in *. rewrite fold_left_app in *. cbn [fold_left] in *. set (st := fold_left step l (server_new defaults)) in *. clearbody st.
    assert (Keep : forall x, session_at st s = Some x -> s_thread x <> TWaiting -> exists x', session_at (step st a) s = Some x' /\ s_thread x' <> TWaiting).
    { intros x Hx N. destruct (step_alters st a s x Hx) as [Hx'|(x' & Hx' & A)]; [eauto|]. exists x'. split; [exact Hx'|].
      clear - N A. destruct A; cbn; auto; try discriminate. }
    destruct (step_moves st a c) as [E|M].
    + rewrite E in H. destruct (IH _ _ _ _ H) as (x & Hx & N). eauto.
    + rewrite H in M. inversion M; subst; try congruence.
      match goal with Hc : handlers st c = HStart _ _, Hx : session_at st s = Some ?x, Hk : s_stream ?x = Some _, L : is_live _ = true |- _ =>
        cbn [step]; unfold attach_start; rewrite Hc, Hx, Hk, L; cbn [andb]; rewrite at_goto, !here_change, Hx; eexists; split; [reflexivity|discriminate] end.
Qed.

Lemma in_step_started {e : engines} st s (t : @s2c e) c h k : reachable st -> in_step st s t -> finished t = None -> handlers st c = HStream h s k -> waiting t = false.
Proof.
  intros R (x & Hx & _ & T) F H. destruct (waiting t) eqn:W; [|reflexivity]. destruct (streaming_started st R c h s k H) as (x' & Hx' & N).
  rewrite Hx in Hx'. injection Hx' as <-. destruct T as [T|(T & _)]; [|destruct (T F)]. destruct N. rewrite T. unfold seen. rewrite F, W. reflexivity.
Qed.

(** What the thread does by itself leaves the exit status alone. *)
Lemma by_itself_exit st s l : Forall (by_itself s) l -> forall x x', session_at st s = Some x -> session_at (run st l) s = Some x' -> s_exit x' = s_exit x.
Proof.
  revert st. induction l as [|a l IH]; intros st F x x' Hx Hx'; [cbn in Hx'; congruence|]. inversion F as [|a' l' Ha Fl]; subst.
  change (run st (a :: l)) with (run (step st a) l) in Hx'.
  assert (E : exists y, session_at (step st a) s = Some y /\ s_exit y = s_exit x).
  { destruct Ha as [(ok & ->)| ->]; cbn [step]; unfold thread_end, thread_drop_client; rewrite here_change, Hx; eexists; (split; [reflexivity|]); destruct (is_live (s_thread x)); reflexivity. }
  destruct E as (y & Hy & <-). exact (IH _ Fl _ _ Hy Hx').
Qed.
