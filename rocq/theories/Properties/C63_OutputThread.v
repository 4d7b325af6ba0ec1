(** C63: a session's output thread: what its daemon is told about the client, whose
    connection it closes, and when it stops. *)
From Coq Require Import String List NArith ZArith Bool Lia.
From Verif Require Import Model.Base Model.Chunk Model.Protocol Model.Duration Model.Config Model.Restore Model.Pager Model.Motd Model.Sentinel
  Model.ShellToClient Spec.OutputSpec Spec.OutputExamples Spec.TurnSpec
  Proofs.ShellToClientProofs Proofs.OutputProofs Proofs.FrameProofs Proofs.TurnProofs.
Import ListNotations.
Open Scope N_scope.

(** In every reachable state, a turn leaves the thread running exactly when the request
    it took works and the pty, if looked at, works and has not ended.  Nothing the
    client does is among the reasons to stop, but for a heartbeat or a switch that fails
    in another way than by the client being gone. *)
Theorem C63_goes_on_exactly_when_partial : forall e b sup dump_motd c size (s0 before after : @s2c e) m now ok its it,
  s2c_new sup dump_motd c size = Some s0 ->
  before = s2c_run b s0 (First m now ok :: map Iter its) -> finished before = None ->
  after = s2c_run b s0 (First m now ok :: map Iter (its ++ [it])) ->
  Forall byte_turn (its ++ [it]) -> still_dump (motd_due before) it ->
  (finished after = None <->
   request_works b (there (client before)) it /\ (looks (there (client before)) it -> pty_works it)).
(** Missing for the full claim: that no client can be the reason to stop, which is false for a heartbeat or a
    switch failing in another way (C63_heartbeat_error_stops_it_refuted); a due dump whose
    mode was reloaded is left to C34. *)
Proof.
  intros e b sup dm c size s0 before after m now ok its it Hn -> Hf -> B M.
  destruct (new_state _ _ _ _ _ Hn) as (g & G & E). clear Hn.
  rewrite (life_turns b s0 m now ok) in * by (rewrite E; reflexivity).
  rewrite (life_turns b s0 m now ok) by (rewrite E; reflexivity).
  apply Forall_app in B as [B1 B2]. assert (B3 := Forall_inv B2).
  assert (GO := gate_ok_turns b _ its (gate_ok_first s0 m now ok sup ltac:(rewrite E; exact G)) B1 Hf).
  rewrite turns_snoc. set (s := turns b _ its) in *. clearbody s. rewrite (turn_fin b s it Hf GO B3 M).
  apply goes_on_iff.
Qed.
Print Assumptions C63_goes_on_exactly_when_partial.

(** It stops without an error exactly when it is told to, when the daemon has dropped the
    session, or when the shell's side of the pty has closed. *)
Theorem C63_ends_well_exactly_when : forall e b sup dump_motd c size (s0 before after : @s2c e) m now ok its it,
  s2c_new sup dump_motd c size = Some s0 ->
  before = s2c_run b s0 (First m now ok :: map Iter its) -> finished before = None ->
  after = s2c_run b s0 (First m now ok :: map Iter (its ++ [it])) ->
  Forall byte_turn (its ++ [it]) -> still_dump (motd_due before) it ->
  (finished after = Some EndOk <-> ends_well b (there (client before)) it).
Proof.
  intros e b sup dm c size s0 before after m now ok its it Hn -> Hf -> B M.
  destruct (new_state _ _ _ _ _ Hn) as (g & G & E). clear Hn.
  rewrite (life_turns b s0 m now ok) in * by (rewrite E; reflexivity).
  rewrite (life_turns b s0 m now ok) by (rewrite E; reflexivity).
  apply Forall_app in B as [B1 B2]. assert (B3 := Forall_inv B2).
  assert (GO := gate_ok_turns b _ its (gate_ok_first s0 m now ok sup ltac:(rewrite E; exact G)) B1 Hf).
  rewrite turns_snoc. set (s := turns b _ its) in *. clearbody s. rewrite (turn_fin b s it Hf GO B3 M).
  apply ends_well_iff.
Qed.
Print Assumptions C63_ends_well_exactly_when.

(** Each request is answered once, truthfully: an attach with whether somebody was
    replaced, a detach with whether somebody was detached, a heartbeat with whether the
    client could be written to; and a request that did not work is not answered. *)
Theorem C63_answers_are_truthful : forall e b sup dump_motd c size (s0 before after : @s2c e) m now ok its it,
  s2c_new sup dump_motd c size = Some s0 ->
  before = s2c_run b s0 (First m now ok :: map Iter its) -> finished before = None ->
  after = s2c_run b s0 (First m now ok :: map Iter (its ++ [it])) ->
  (answered b (there (client before)) it -> acks after = acks before ++ answer (there (client before)) it) /\
  (~ answered b (there (client before)) it -> acks after = acks before).
Proof.
  intros e b sup dm c size s0 before after m now ok its it Hn -> Hf ->.
  destruct (new_state _ _ _ _ _ Hn) as (g & _ & E). clear Hn.
  rewrite (life_turns b s0 m now ok) in * by (rewrite E; reflexivity).
  rewrite (life_turns b s0 m now ok) by (rewrite E; reflexivity).
  rewrite turns_snoc. set (s := turns b _ its) in *. clearbody s.
  destruct (turn_acks b s it Hf) as [-> _]. rewrite (select_acks b s it Hf).
  apply answered_iff.
Qed.
Print Assumptions C63_answers_are_truthful.

(** The connection closed is that of the client being replaced, detached or told of the
    end, and no other; nothing else closes a connection. *)
Theorem C63_closes_only_the_old_client : forall e b sup dump_motd c size (s0 before after : @s2c e) m now ok its it,
  s2c_new sup dump_motd c size = Some s0 ->
  before = s2c_run b s0 (First m now ok :: map Iter its) -> finished before = None ->
  after = s2c_run b s0 (First m now ok :: map Iter (its ++ [it])) ->
  shut after = closed_by (client before) it ++ shut before.
Proof.
  intros e b sup dm c size s0 before after m now ok its it Hn -> Hf ->.
  destruct (new_state _ _ _ _ _ Hn) as (g & _ & E). clear Hn.
  rewrite (life_turns b s0 m now ok) in * by (rewrite E; reflexivity).
  rewrite (life_turns b s0 m now ok) by (rewrite E; reflexivity).
  rewrite turns_snoc. set (s := turns b _ its) in *. clearbody s.
  destruct (turn_acks b s it Hf) as [_ ->]. apply select_shut. exact Hf.
Qed.
Print Assumptions C63_closes_only_the_old_client.

(** Who is attached after a turn: whoever the request attached, nobody after a detach, and
    otherwise the same client as before, unless output was shown to it and could not be
    written. *)
Theorem C63_who_is_attached : forall e b sup dump_motd c size (s0 before after : @s2c e) m now ok its it,
  s2c_new sup dump_motd c size = Some s0 ->
  before = s2c_run b s0 (First m now ok :: map Iter its) -> finished before = None ->
  after = s2c_run b s0 (First m now ok :: map Iter (its ++ [it])) -> finished after = None ->
  client after = next_client (client before) it \/
  (client after = None /\ w_data it <> WroteAll /\ looks (there (client before)) it /\
   exists bs g sh, bs <> [] /\ poll it = PollRead (Ok bs) /\ gate_read (out_gate before) bs = Some (g, Some sh)).
Proof.
  intros e b sup dm c size s0 before after m now ok its it Hn -> Hf -> Hf'.
  destruct (new_state _ _ _ _ _ Hn) as (g & _ & E). clear Hn.
  rewrite (life_turns b s0 m now ok) in * by (rewrite E; reflexivity).
  rewrite (life_turns b s0 m now ok) in * by (rewrite E; reflexivity).
  rewrite turns_snoc in *. set (s := turns b _ its) in *. clearbody s. clear E.
  destruct (turn_unfinished b s it Hf') as [_ H1]. rewrite (turn_cases b s it Hf) in *. cbv zeta in *. rewrite H1 in *.
  assert (C := select_client b s it Hf H1). change (sel_client s it) with (next_client (client s) it) in C.
  rewrite looks_iff. destruct (sel_again s it) eqn:Ea; [left; exact C|].
  destruct (mid_keeps b s it Hf H1) as (M1 & _ & _ & M4 & M5 & _). change (sel_client s it) with (next_client (client s) it) in M4.
  assert (P := poll_ok (mid b s it) it M5 Hf').
  destruct (poll it) as [| | |p [st|]|[[|x bs]|[]]]; try contradiction; try (left; rewrite P; exact M4).
  destruct P as (g' & sh & P1 & _ & _ & _ & _ & _ & _ & P8 & _). rewrite P8, M4. rewrite M1 in P1.
  destruct (next_client (client s) it); [|left; reflexivity]. destruct sh as [sh|]; [|left; reflexivity].
  destruct (w_data it) eqn:Ew; [left; reflexivity| |]; right; (split; [reflexivity|]); (split; [discriminate|]); (split; [reflexivity|]);
    exists (x :: bs), g', sh; (split; [discriminate|auto]).
Qed.
Print Assumptions C63_who_is_attached.

(** A client that hangs up, at any point and for any write, does not stop the thread: with
    the daemon asking nothing and the pty working, it goes on. *)
Theorem C63_client_cannot_stop_it : forall e b sup dump_motd c size (s0 before after : @s2c e) m now ok its it,
  s2c_new sup dump_motd c size = Some s0 ->
  before = s2c_run b s0 (First m now ok :: map Iter its) -> finished before = None ->
  after = s2c_run b s0 (First m now ok :: map Iter (its ++ [it])) ->
  Forall byte_turn (its ++ [it]) -> still_dump (motd_due before) it ->
  (sel it = SelNothing \/ (sel it = SelHeartbeat /\ ack_ok it = true /\ w_sel it = BrokenPipe)) -> pty_works it ->
  finished after = None.
Proof.
  intros e b sup dm c size s0 before after m now ok its it Hn Hb Hf Ha B M Hs Hp.
  apply (C63_goes_on_exactly_when_partial e b sup dm c size s0 before after m now ok its it Hn Hb Hf Ha B M). split; [|intros _; exact Hp].
  unfold request_works. destruct Hs as [-> | (-> & A & W)]; [exact I|]. split; [intros _; rewrite W; discriminate|exact A].
Qed.
Print Assumptions C63_client_cannot_stop_it.

(** It never panics, but for an attach from a window too large for a debug build, and for
    the first output being shown while a message of the day is due that is no longer to be
    dumped. *)
Theorem C63_panics_exactly_when : forall e b sup dump_motd c size (s0 before after : @s2c e) m now ok its it,
  s2c_new sup dump_motd c size = Some s0 ->
  before = s2c_run b s0 (First m now ok :: map Iter its) -> finished before = None ->
  after = s2c_run b s0 (First m now ok :: map Iter (its ++ [it])) ->
  Forall byte_turn (its ++ [it]) ->
  (finished after = Some EndPanic <->
   panics b (motd_due before) (client before) (fun bs => match gate_read (out_gate before) bs with Some (_, sh) => sh | None => None end) it).
Proof.
  intros e b sup dm c size s0 before after m now ok its it Hn -> Hf -> B.
  destruct (new_state _ _ _ _ _ Hn) as (g & G & E). clear Hn.
  rewrite (life_turns b s0 m now ok) in * by (rewrite E; reflexivity).
  rewrite (life_turns b s0 m now ok) by (rewrite E; reflexivity).
  apply Forall_app in B as [B1 B2]. assert (B3 := Forall_inv B2).
  assert (GO := gate_ok_turns b _ its (gate_ok_first s0 m now ok sup ltac:(rewrite E; exact G)) B1 Hf).
  rewrite turns_snoc. set (s := turns b _ its) in *. clearbody s. exact (turn_panics b s it Hf GO B3).
Qed.
Print Assumptions C63_panics_exactly_when.

(** Before that, the thread waits for a first message.  It ends with an error if there will
    be none or nobody waits for the answer; whatever the message is, it is answered with
    "new"; nothing is sent or closed. *)
Theorem C63_first_message : forall e b sup dump_motd c size (s0 after : @s2c e) m now ok,
  s2c_new sup dump_motd c size = Some s0 -> after = s2c_run b s0 [First m now ok] ->
  (finished after = if ok && (match m with Some _ => true | None => false end) then None else Some EndErr) /\
  (finished after = None -> client after = match m with Some (NewConn id _) => Some id | _ => None end) /\
  acks after = (if ok && (match m with Some _ => true | None => false end) then [AckNew] else []) /\
  log after = [] /\ shut after = [].
Proof.
  intros e b sup dm c size s0 after m now ok Hn ->. destruct (new_state _ _ _ _ _ Hn) as (g & G & E).
  unfold s2c_run. cbn [fold_left s2c_step]. rewrite E. cbn. unfold s2c_first, acknowledge.
  destruct m as [m|]; [|rewrite andb_false_r; cbn; repeat split; discriminate]. rewrite andb_true_r.
  destruct ok; cbn; repeat split; try discriminate.
Qed.
Print Assumptions C63_first_message.

(** A client takes over, hangs up under a heartbeat and under output, and the shell ends. *)
Example C63_example :
  let broken (s : select_case) (p : poll_case) := {| sel := s; t_sel := 0; t_due := 0; oversize_ok := true; shutdown_ok := true; ack_ok := true;
     conf := default_config; w_sel := BrokenPipe; w_restore := fun _ => BrokenPipe; w_motd := BrokenPipe; w_data := BrokenPipe;
     w_exit := BrokenPipe; cr := Some [13]; motd_text := Err tt; poll := p |} in
  let its := [shell_prints "x"; quiet (SelConn (NewConn 1 z100)) PollTimeout; quiet SelHeartbeat PollTimeout;
              broken SelHeartbeat PollTimeout; broken SelNothing (PollRead (Ok (lit "y"))); quiet SelHeartbeat PollTimeout;
              quiet (SelConn Disconnect) PollTimeout; quiet (SelConn (NewConn 2 z80)) PollTimeout; quiet (SelSize z100) PollTimeout] in
  let run := fun k => option_map (fun s0 : @s2c recorder =>
      let s := s2c_run Debug s0 (First (Some (NewConn 0 z80)) 0 true :: map Iter k) in
      (acks s, shut s, client s, finished s)) (s2c_new false false default_config z80) in
  Forall byte_turn its /\
  run its = Some ([AckNew; AckReplaced; AckHeartbeat true; AckHeartbeat false; AckHeartbeat false; AckDetachNone; AckNew; AckSize],
                  [0%nat], Some 2%nat, None) /\
  run (its ++ [quiet (SelConn Disconnect) (PollHangup [] None)]) =
    Some ([AckNew; AckReplaced; AckHeartbeat true; AckHeartbeat false; AckHeartbeat false; AckDetachNone; AckNew; AckSize; AckDetached],
                  [2%nat; 0%nat], None, Some EndOk).
Proof.
  cbv zeta. split; [|split; vm_compute; reflexivity].
  repeat (apply Forall_cons; [intros bs H; try discriminate H; injection H as <-; vm_compute; repeat constructor|]). constructor.
Qed.

(** Both ways to panic. *)
Example C63_panic_case :
  let run := fun due l => option_map (fun s0 : @s2c recorder => finished (s2c_run Debug s0 (First (Some (NewConn 0 z80)) 0 true :: map Iter l)))
                            (s2c_new false due default_config z80) in
  run false [shell_prints "x"] = Some None /\
  run false [quiet (SelConn (NewConn 1 (mkSize 24 65535 0 0))) PollTimeout] = Some (Some EndPanic) /\
  run true [shell_prints "x"] = Some (Some EndPanic).
Proof. cbv zeta. repeat split; vm_compute; reflexivity. Qed.

(** A heartbeat whose write fails in another way than by the client being gone does stop
    it, and with it the session's output for good, although the shell is well. *)
Theorem C63_heartbeat_error_stops_it_refuted : forall e b sup dump_motd c size (s0 before after : @s2c e) m now ok its it id,
  s2c_new sup dump_motd c size = Some s0 ->
  before = s2c_run b s0 (First m now ok :: map Iter its) -> finished before = None -> client before = Some id ->
  after = s2c_run b s0 (First m now ok :: map Iter (its ++ [it])) ->
  sel it = SelHeartbeat -> w_sel it = WriteErr -> finished after = Some EndErr.
Proof.
  intros e b sup dm c size s0 before after m now ok its it id Hn -> Hf Hc -> Hs Hw.
  destruct (new_state _ _ _ _ _ Hn) as (g & _ & E). clear Hn.
  rewrite (life_turns b s0 m now ok) in * by (rewrite E; reflexivity).
  rewrite ?(life_turns b s0 m now ok) by (rewrite E; reflexivity).
  rewrite turns_snoc. set (s := turns b _ its) in *. clearbody s.
  rewrite (turn_cases b s it Hf). cbv zeta. assert (S := select_fin b s it Hf).
  unfold sel_end in S. rewrite Hs, Hc, Hw in S. cbn in S. rewrite S. exact S.
Qed.
Print Assumptions C63_heartbeat_error_stops_it_refuted.
