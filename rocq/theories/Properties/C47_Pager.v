(** C47: ownership of the motd pager. *)
From Coq Require Import List NArith ZArith Bool Lia.
From Verif Require Import Model.Base Model.Chunk Model.Protocol Model.Pager Spec.MotdSpec Proofs.BaseLemmas Proofs.MotdProofs.
Import ListNotations.
Open Scope N_scope.

(** As long as the pager runs, whatever happened so far: the slot is taken, every
    resize reached the pager and none the shell, everything the user typed reached the
    pager and everything it printed reached the client, in order and unchanged. *)
(** Missing for the full claim: detach requests, which do not reach the pager;
    refuted below. *)
Theorem C47_running_pager_owns_the_client_partial : forall init now es s,
  s = pager_run (pager_start false true init now) es -> returned s = None ->
  slot s = true /\ pager_winsize s = last (sizes_of es) init /\ shell_resizes s = [] /\
  typed s = keyed es /\ data_of (frames_out s) = printed es.
Proof.
  intros init now es s -> H. destruct (pager_running init es now H) as [A B C D E F]. auto.
Qed.
Print Assumptions C47_running_pager_owns_the_client_partial.

(** A pager that ends well hands on the last size asked for before its loop ended,
    or the client's own if there was none. *)
(** Missing for the full claim: sizes asked for while the pager is being killed;
    refuted below. *)
Theorem C47_final_size_partial : forall init now es t s sz,
  s = pager_run (pager_start false true init now) es -> returned s = None ->
  returned (pager_step s (Turn t)) = Some (PagerOk sz) ->
  sz = last (sizes_of es) init.
Proof.
  intros init now es t s sz -> H Hr. cbn [pager_step] in Hr. apply (pager_turn_ok _ _ _ H) in Hr. subst.
  destruct (pager_running init es now H) as [A B C D E F]. exact B.
Qed.
Print Assumptions C47_final_size_partial.

(** However the pager ended, even if it never started, once its guard has run the
    slot is empty, stays empty, and from then on every resize goes to the shell; the
    result does not change any more. *)
Theorem C47_slot_is_released : forall ok init now es es' r s,
  s = pager_run (pager_start false ok init now) es -> returned s = Some r ->
  let s' := pager_run s (Unregister :: es') in
  slot s' = false /\ returned s' = Some r /\ pager_winsize s' = pager_winsize s /\
  shell_resizes s' = shell_resizes s ++ sizes_of es'.
Proof.
  intros ok init now es es' r s _ H. cbv zeta. unfold pager_run. cbn [fold_left pager_step].
  set (s1 := pager_unregister s).
  assert (R1 : returned s1 = Some r) by (unfold s1, pager_unregister; rewrite H; reflexivity).
  assert (S1 : slot s1 = false) by (unfold s1, pager_unregister; rewrite H; reflexivity).
  destruct (slot_stays_empty s1 es' r R1 S1) as (A & B & C).
  split; [exact A|]. split; [apply (returned_run s1 es' r R1)|].
  unfold pager_run in *. rewrite B, C. unfold s1, pager_unregister. rewrite H. auto.
Qed.
Print Assumptions C47_slot_is_released.

(** A pager that cannot be set up leaves the slot empty and reports an error; a
    second pager on the same session is refused and does not touch the first one's
    slot. *)
Theorem C47_failed_start : forall init now,
  (slot (pager_start false false init now) = false /\ returned (pager_start false false init now) = Some PagerErr) /\
  (forall ok, slot (pager_start true ok init now) = true /\ returned (pager_start true ok init now) = Some PagerErr).
Proof. intros init now. split; [split; reflexivity|intros ok; split; reflexivity]. Qed.
Print Assumptions C47_failed_start.

(** An idle pager sends a heartbeat when half a second has passed since the last
    one and not before; a client found gone by it ends the pager as a hangup. *)
Theorem C47_heartbeat : forall s t, returned s = None -> poll_ok t = true -> pager_exited t = false ->
  pty_ready t = false -> client_ready t = false ->
  (now t < last_heartbeat s + 500000000 -> pager_turn s t = s) /\
  (last_heartbeat s + 500000000 <= now t ->
     last_heartbeat (pager_turn s t) = now t /\
     (client_write t = WroteAll -> frames_out (pager_turn s t) = frames_out s ++ [mkChunk Heartbeat []] /\ returned (pager_turn s t) = None) /\
     (client_write t = BrokenPipe -> returned (pager_turn s t) = Some PagerHangup) /\
     (client_write t = WriteErr -> returned (pager_turn s t) = Some PagerErr)).
Proof.
  intros s t Hr Hp He Hy Hc. unfold pager_turn. rewrite Hr, Hp, He, Hy, Hc. cbn [negb andb].
  unfold HEARTBEAT_DURATION. split; intros H.
  - destruct (N.leb_spec (last_heartbeat s + 500000000) (now t)); [lia|reflexivity].
  - destruct (N.leb_spec (last_heartbeat s + 500000000) (now t)); [|lia].
    unfold send_client. split; [destruct (client_write t); reflexivity|].
    split; [intros ->; cbn; auto|]. split; intros ->; reflexivity.
Qed.
Print Assumptions C47_heartbeat.

(** The pager ends in exactly these ways: the process exited, it closed its
    terminal, the client closed its stream, or the terminal no longer takes input: an
    orderly end; a broken client connection while writing: a hangup; any other
    failure: an error. *)
Theorem C47_how_the_pager_ends : forall s t, returned s = None ->
  match returned (pager_turn s t) with
  | None => True
  | Some (PagerOk _) =>
      pager_exited t = true \/ (pty_ready t = true /\ pty_read t = Ok []) \/
      (client_ready t = true /\ (client_read t = Ok [] \/ pty_write_ok t = false \/ pty_flush_ok t = false))
  | Some PagerHangup => client_write t = BrokenPipe
  | Some PagerErr =>
      poll_ok t = false \/ client_write t = WriteErr \/ (pty_ready t = true /\ pty_read t = Err tt) \/
      (client_ready t = true /\ client_read t = Err tt)
  end.
Proof.
  intros s t Hr. unfold pager_turn. rewrite Hr. unfold pager_input, pager_output, send_client.
  destruct (poll_ok t); cbn [negb]; [|cbn; auto].
  destruct (pager_exited t); [cbn; auto|].
  destruct (pty_ready t), (client_ready t); cbn [negb andb];
    destruct (pty_read t) as [[|? ?]|[]]; destruct (client_write t); destruct (client_read t) as [[|? ?]|[]];
    destruct (pty_write_ok t), (pty_flush_ok t); cbn; rewrite ?Hr; cbn;
    try (destruct (_ <=? _)); cbn; rewrite ?Hr; auto 10.
Qed.
Print Assumptions C47_how_the_pager_ends.

(** The guard asks the pager to end, looks seven times, waiting 10, 20, ... 640 ms in
    between, and kills it exactly if it was never seen gone. *)
Theorem C47_pager_killed : forall exited,
  fst (pager_kill exited) = (if existsb exited (seq 0 7) then [Term] else [Term; Kill]) /\
  (existsb exited (seq 0 7) = false -> snd (pager_kill exited) = [10; 20; 40; 80; 160; 320; 640]).
Proof.
  intros exited. unfold pager_kill. destruct (backoff_spec exited 7 0 10) as [A B].
  destruct (backoff 7 0 10 exited) as [g l]. cbn [fst snd] in *. rewrite A. split.
  - destruct (existsb exited (seq 0 7)); reflexivity.
  - intros H. rewrite (B H). reflexivity.
Qed.
Print Assumptions C47_pager_killed.

(** What one turn does with the pager's output: it goes to the client in one frame, or
    the pager ends; and with the client's input: it goes to the pager, or the pager ends. *)
Theorem C47_output_turn : forall s t, returned s = None -> poll_ok t = true -> pager_exited t = false ->
  pty_ready t = true -> client_ready t = false ->
  match pty_read t with
  | Err _ => returned (pager_turn s t) = Some PagerErr /\ frames_out (pager_turn s t) = frames_out s
  | Ok [] => returned (pager_turn s t) = Some (PagerOk (tty s)) /\ frames_out (pager_turn s t) = frames_out s
  | Ok bs =>
      (returned (pager_turn s t), frames_out (pager_turn s t)) =
      match client_write t with
      | WroteAll => (None, frames_out s ++ [mkChunk Data bs])
      | BrokenPipe => (Some PagerHangup, frames_out s)
      | WriteErr => (Some PagerErr, frames_out s)
      end
  end.
Proof.
  intros s t Hr Hp He Hy Hc. unfold pager_turn. rewrite Hr, Hp, He, Hy, Hc. cbn [negb andb]. cbv zeta. unfold pager_output.
  destruct (pty_read t) as [[|b bs]|]; cbn [with_returned returned frames_out]; [auto| |auto].
  unfold send_client. destruct (client_write t); cbn [with_returned returned frames_out]; rewrite ?Hr; reflexivity.
Qed.
Print Assumptions C47_output_turn.

Theorem C47_input_turn : forall s t, returned s = None -> poll_ok t = true -> pager_exited t = false ->
  pty_ready t = false -> client_ready t = true ->
  frames_out (pager_turn s t) = frames_out s /\
  match client_read t with
  | Err _ => returned (pager_turn s t) = Some PagerErr /\ typed (pager_turn s t) = typed s
  | Ok [] => returned (pager_turn s t) = Some (PagerOk (tty s)) /\ typed (pager_turn s t) = typed s
  | Ok bs =>
      typed (pager_turn s t) = (if pty_write_ok t then typed s ++ bs else typed s) /\
      returned (pager_turn s t) = (if pty_write_ok t && pty_flush_ok t then None else Some (PagerOk (tty s)))
  end.
Proof.
  intros s t Hr Hp He Hy Hc. unfold pager_turn. rewrite Hr, Hp, He, Hy, Hc. cbn [negb andb]. cbv zeta. rewrite Hr. unfold pager_input.
  destruct (client_read t) as [[|b bs]|]; cbn [with_returned returned typed frames_out]; [auto| |auto].
  destruct (pty_write_ok t), (pty_flush_ok t); cbn [negb andb with_returned type_in returned typed frames_out]; auto.
Qed.
Print Assumptions C47_input_turn.

(** If the pager's exit is noticed it ends well with the current size, whatever else
    is ready; a failed poll is an error. *)
Theorem C47_exit_turn : forall s t, returned s = None ->
  (poll_ok t = false -> returned (pager_turn s t) = Some PagerErr) /\
  (poll_ok t = true -> pager_exited t = true -> returned (pager_turn s t) = Some (PagerOk (tty s))) /\
  (poll_ok t = true -> pager_exited t = false -> pty_ready t = true -> client_ready t = true ->
     match pty_read t with
     | Ok ((_ :: _) as bs) =>
         client_write t = WroteAll ->
         frames_out (pager_turn s t) = frames_out s ++ [mkChunk Data bs] /\
         match client_read t with
         | Ok ((_ :: _) as ks) => pty_write_ok t = true -> typed (pager_turn s t) = typed s ++ ks
         | _ => typed (pager_turn s t) = typed s
         end
     | _ => typed (pager_turn s t) = typed s
     end).
Proof.
  intros s t Hr. unfold pager_turn. rewrite Hr. split; [|split].
  - intros ->. reflexivity.
  - intros -> ->. reflexivity.
  - intros -> -> -> ->. cbn [negb andb]. cbv zeta. unfold pager_output.
    destruct (pty_read t) as [[|b bs]|]; [reflexivity| |reflexivity].
    intros ->. unfold send_client. cbn [returned]. rewrite Hr. unfold pager_input.
    destruct (client_read t) as [[|k ks]|]; cbn [with_returned frames_out typed]; [auto| |auto].
    split; [destruct (pty_write_ok t), (pty_flush_ok t); reflexivity|].
    intros Hw. rewrite Hw. destruct (pty_flush_ok t); reflexivity.
Qed.
Print Assumptions C47_exit_turn.

(** Every detach request, whenever it is made, is handed to the shell's output thread,
    and nothing else is. *)
Fixpoint detaches_in (es : list pager_event) : nat :=
  match es with [] => 0 | DetachRequest :: es' => S (detaches_in es') | _ :: es' => detaches_in es' end.

Theorem C47_detaches_go_to_the_shell : forall taken ok init now es,
  shell_detaches (pager_run (pager_start taken ok init now) es) = detaches_in es.
Proof.
  intros taken ok init now es.
  assert (G : forall s, shell_detaches (pager_run s es) = (shell_detaches s + detaches_in es)%nat).
  { induction es as [|e es IH]; intros s; [cbn; lia|].
    unfold pager_run in *. cbn [fold_left]. rewrite IH. destruct e as [t|size| |]; cbn [detaches_in pager_step].
    - f_equal. apply turn_detaches.
    - f_equal. unfold pager_resize. destruct (slot s); reflexivity.
    - cbn [pager_detach shell_detaches]. lia.
    - f_equal. unfold pager_unregister. destruct (returned s); reflexivity. }
  rewrite G. reflexivity.
Qed.
Print Assumptions C47_detaches_go_to_the_shell.

(** A detach request does not reach the pager: it goes to the shell's output thread
    and the pager runs on. *)
Theorem C47_detach_does_not_reach_the_pager_refuted : forall init now es s,
  s = pager_run (pager_start false true init now) es -> returned s = None ->
  returned (pager_step s DetachRequest) = None /\ slot (pager_step s DetachRequest) = true /\
  shell_detaches (pager_step s DetachRequest) = S (shell_detaches s).
Proof.
  intros init now es s -> H. destruct (pager_running init es now H) as [A B C D E F].
  cbn [pager_step pager_detach returned slot shell_detaches]. auto.
Qed.
Print Assumptions C47_detach_does_not_reach_the_pager_refuted.

(** A resize that arrives while the pager is being killed is acknowledged by the
    pager but is lost: the session gets the size before it. *)
Theorem C47_resize_while_pager_is_killed_is_lost_refuted : forall a b now t, a <> b -> poll_ok t = true -> pager_exited t = false ->
  pty_ready t = true -> pty_read t = Ok [] ->
  let s := pager_run (pager_start false true a now) [Turn t; Resize b; Unregister] in
  returned s = Some (PagerOk a) /\ shell_resizes s = [] /\ slot s = false.
Proof.
  intros a b now t Hab Hp He Hy Hr. cbv zeta. unfold pager_run. cbn [fold_left pager_step].
  unfold pager_turn. cbn [returned pager_start]. rewrite Hp, He, Hy. cbn [negb andb].
  unfold pager_output. rewrite Hr. cbn. auto.
Qed.
Print Assumptions C47_resize_while_pager_is_killed_is_lost_refuted.

Definition quiet := {| poll_ok := true; pager_exited := false; now := 1000; pty_ready := false; client_ready := false;
  pty_read := Ok []; client_write := WroteAll; client_read := Ok []; pty_write_ok := true; pty_flush_ok := true |}.
Definition prints bs := {| poll_ok := true; pager_exited := false; now := 1000; pty_ready := true; client_ready := false;
  pty_read := Ok bs; client_write := WroteAll; client_read := Ok []; pty_write_ok := true; pty_flush_ok := true |}.
Definition keys bs := {| poll_ok := true; pager_exited := false; now := 1000; pty_ready := false; client_ready := true;
  pty_read := Ok []; client_write := WroteAll; client_read := Ok bs; pty_write_ok := true; pty_flush_ok := true |}.

(** The pager prints, the user resizes twice and types q; the pager then closes. *)
Example C47_nonvacuous :
  let a := mkSize 24 80 0 0 in let b := mkSize 50 120 0 0 in let c := mkSize 51 121 0 0 in
  let es := [Turn (prints (lit "motd")); Resize b; Turn quiet; Resize c; Turn (keys (lit "q"))] in
  let s := pager_run (pager_start false true a 0) es in
  returned s = None /\ typed s = lit "q" /\ frames_out s = [mkChunk Data (lit "motd")] /\ sizes_of es = [b; c] /\
  returned (pager_step s (Turn (prints []))) = Some (PagerOk c).
Proof. repeat split. Qed.
