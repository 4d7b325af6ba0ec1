(** C12: shell output reaches the attached client. *)
From Coq Require Import String List NArith ZArith Bool Lia.
From Verif Require Import Model.Base Model.Chunk Model.Protocol Model.Duration Model.Sentinel Model.Config Model.Restore
  Model.Pager Model.Motd Model.ShellToClient Spec.OutputSpec Spec.OutputExamples
  Proofs.SentinelProofs Proofs.ShellToClientProofs Proofs.OutputProofs Proofs.FrameProofs.
Import ListNotations.
Open Scope N_scope.

Lemma flat_map_mid {A B} (f : A -> list B) l1 x l2 : flat_map f (l1 ++ x :: l2) = flat_map f l1 ++ f x ++ flat_map f l2.
Proof. rewrite flat_map_app. reflexivity. Qed.

Lemma NoDup_split {A} (l1 l2 l3 : list A) x : NoDup (l1 ++ l2 ++ [x] ++ l3) -> ~ In x (l1 ++ l2) /\ ~ In x l3 /\ NoDup l2 /\ (forall y, In y l2 -> ~ In y l1).
Proof.
  intros H. rewrite app_assoc in H. assert (H' := H). apply NoDup_remove_2 in H. split; [intros X; apply H; apply in_or_app; auto|].
  split; [intros X; apply H; apply in_or_app; auto|]. apply NoDup_remove_1 in H'.
  clear H. rewrite <- app_assoc in H'. induction l1 as [|a l1 IH].
  - split; [|auto]. cbn in H'. induction l2 as [|a l2 IH]; [constructor|]. inversion H' as [|? ? A1 B1]; subst. constructor; [|auto].
    intros X. apply A1. apply in_or_app. auto.
  - cbn in H'. inversion H' as [|? ? A1 B1]; subst. destruct (IH B1) as [C D]. split; [exact C|]. intros y Hy [-> | X].
    + apply A1. apply in_or_app. right. apply in_or_app. auto.
    + exact (D y Hy X).
Qed.

(** A client that attaches to a running session ([it]).  Whatever happened before
    and whatever happens afterwards, the terminal output handed to it is the restore
    buffer for its own window size, then possibly the message of the day, then what
    the gate shows of the reads done since, piece by piece, without gaps; and all of
    that as long as it is attached. *)
(** Missing for the full claim: output still in the pty at the hangup, which is lost;
    see the refutation below. *)
Theorem C12_reattached_client_gets_all_output_partial :
  forall e b sup dump_motd c size (s0 before after : @s2c e) m now ok its1 it its2 id z,
  s2c_new sup dump_motd c size = Some s0 ->
  before = s2c_run b s0 (First m now ok :: map Iter its1) ->
  after = s2c_run b s0 (First m now ok :: map Iter (its1 ++ it :: its2)) ->
  NoDup (connections m (its1 ++ it :: its2)) -> sel it = SelConn (NewConn id z) -> finished after = None ->
  exists reads shown k motd,
    took after = took before ++ reads /\
    gate_reads (out_gate before) reads = Some (out_gate after, shown) /\
    data_to id (log after) = spool_restore (spool_resize (conf it) (out_spool before) z) ++ motd ++ concat (firstn k shown) /\
    (client after = Some id -> length shown <= k)%nat /\
    (motd = [] \/ (motd_due before = true /\ In motd (flat_map iter_motd (it :: its2)))).
Proof.
  intros e b sup dm c size s0 before after m now ok its1 it its2 id z Hn -> -> Hd Hs Hf.
  assert (Hd' : NoDup (first_conn m ++ flat_map iter_conn its1 ++ [id] ++ flat_map iter_conn its2)).
  { unfold connections in Hd. rewrite flat_map_mid in Hd. unfold iter_conn at 2 in Hd. rewrite Hs in Hd. exact Hd. }
  apply NoDup_split in Hd'. destruct Hd' as (D1 & D2 & D3 & D4).
  assert (X := first_exits sup dm c size s0 m now ok Hn).
  destruct (new_state _ _ _ _ _ Hn) as (g & _ & E). clear Hn.
  rewrite (life_turns b s0 m now ok) in Hf |- * by (rewrite E; reflexivity).
  rewrite (life_turns b s0 m now ok) by (rewrite E; reflexivity).
  assert (X1 := turns_exits b _ _ its1 X D3 D4).
  set (s1 := s2c_first s0 m now ok) in *. clearbody s1.
  assert (T : turns b s1 (its1 ++ it :: its2) = turns b (s2c_turn b (turns b s1 its1) it) its2).
  { unfold turns. rewrite fold_left_app. reflexivity. }
  rewrite T in *. set (s2 := turns b s1 its1) in *. clearbody s2.
  assert (Hf1 := turns_unfinished b _ _ Hf).
  destruct X1 as [Y1 Y2 Y3].
  assert (A := attach_turn b id z s2 it Hs (Y3 id D1)
    ltac:(intros Hc; apply D1; apply Y2; [apply (turn_unfinished b s2 it Hf1)|exact Hc]) Hf1).
  assert (A2 := turns_attached b id _ _ _ _ _ _ its2 A D2 Hf).
  destruct A2 as [(reads & shown & k & mt & H1 & H2 & H3 & H4 & H5 & _) _].
  exists reads, shown, k, mt. split; [exact H1|]. split; [exact H2|]. split; [exact H3|]. split; [exact H4|]. exact H5.
Qed.
Print Assumptions C12_reattached_client_gets_all_output_partial.

(** The client that created the session, or the first to get through to the thread:
    the same without a restore buffer, from the first byte on. *)
(** Missing for the full claim: the same. *)
Theorem C12_first_client_gets_all_output_partial :
  forall e b sup dump_motd c size (s0 after : @s2c e) now ok its id z,
  s2c_new sup dump_motd c size = Some s0 ->
  after = s2c_run b s0 (First (Some (NewConn id z)) now ok :: map Iter its) ->
  NoDup (connections (Some (NewConn id z)) its) -> finished after = None ->
  exists shown k motd,
    gate_reads (out_gate s0) (took after) = Some (out_gate after, shown) /\
    data_to id (log after) = motd ++ concat (firstn k shown) /\
    (client after = Some id -> length shown <= k)%nat /\
    (motd = [] \/ (dump_motd = true /\ In motd (flat_map iter_motd its))).
Proof.
  intros e b sup dm c size s0 after now ok its id z Hn -> Hd Hf.
  destruct (new_state _ _ _ _ _ Hn) as (g & _ & E). clear Hn.
  rewrite (life_turns b s0 _ now ok) in Hf |- * by (rewrite E; reflexivity). subst s0.
  assert (Hf1 := turns_unfinished b _ _ Hf).
  assert (A : attached_since (e := e) id g [] dm [] [] (s2c_first {| waiting := true; out_spool := spool_new e c size (scrollback_lines c); out_gate := g; motd_due := dm;
             client := None; resize_cmd := None; winsize := mkSize 0 0 0 0; log := []; shut := []; acks := []; took := []; finished := None |}
             (Some (NewConn id z)) now ok)).
  { unfold s2c_first, acknowledge in *. destruct ok; [|discriminate Hf1]. split; [|auto].
    exists [], [], 0%nat, []. cbn. repeat split; auto. }
  unfold connections in Hd. cbn [first_conn app] in Hd. inversion Hd as [|? ? D1 D2]; subst.
  destruct (turns_attached b id _ _ _ _ _ _ its A D1 Hf) as [(reads & shown & k & mt & H1 & H2 & H3 & H4 & H5 & _) _].
  exists shown, k, mt. cbn [out_gate]. rewrite H1. split; [exact H2|]. split; [exact H3|]. split; [exact H4|]. exact H5.
Qed.
Print Assumptions C12_first_client_gets_all_output_partial.

(** Once the prompt has been seen (or the shell has no sentinels), what is shown of the
    reads is the reads. *)
Theorem C12_nothing_is_hidden_after_the_prompt : forall g reads, g_seen g = true -> gate_reads g reads = Some (g, reads).
Proof. exact gate_reads_seen. Qed.
Print Assumptions C12_nothing_is_hidden_after_the_prompt.

(** A client stays attached as long as no other client, no detach and no exit is
    reported and the writes of its output succeed. *)
Theorem C12_who_stays_attached : forall e b (s0 before after : @s2c e) m now ok its1 its2 id sup dump_motd c size,
  s2c_new sup dump_motd c size = Some s0 ->
  before = s2c_run b s0 (First m now ok :: map Iter its1) ->
  after = s2c_run b s0 (First m now ok :: map Iter (its1 ++ its2)) ->
  client before = Some id -> finished after = None ->
  (forall it, In it its2 -> match sel it with SelConn _ => False | _ => True end /\ w_data it = WroteAll) ->
  client after = Some id.
Proof.
  intros e b s0 before after m now ok its1 its2 id sup dm c size Hn -> -> Hc Hf Hi.
  destruct (new_state _ _ _ _ _ Hn) as (g & _ & E). clear Hn.
  rewrite (life_turns b s0 m now ok) in * by (rewrite E; reflexivity).
  assert (T : turns b (s2c_first s0 m now ok) (its1 ++ its2) = turns b (turns b (s2c_first s0 m now ok) its1) its2).
  { unfold turns. rewrite fold_left_app. reflexivity. }
  rewrite T in *. apply turns_client_stays; assumption.
Qed.
Print Assumptions C12_who_stays_attached.

(** What gets to the client's end of the socket is a prefix of what is handed to it:
    everything, unless a write fails. *)
Theorem C12_delivery : forall id l,
  (exists rest, frames_to id l = received id l ++ rest) /\ (all_arrived id l -> received id l = frames_to id l).
Proof. intros id l. split; [apply received_prefix|apply received_all]. Qed.
Print Assumptions C12_delivery.

(** The scrollback is fed everything that is shown, in order, and every requested size,
    whoever is or is not attached. *)
Theorem C12_scrollback_is_fed_everything : forall e b sup dump_motd c size (s0 after : @s2c e) m now ok its,
  s2c_new sup dump_motd c size = Some s0 ->
  after = s2c_run b s0 (First m now ok :: map Iter its) -> finished after = None ->
  exists ops shown,
    out_spool after = fold_left spool_apply ops (spool_new e c size (scrollback_lines c)) /\
    gate_reads (out_gate s0) (took after) = Some (out_gate after, shown) /\
    fed ops = shown /\ resized ops = flat_map iter_size its.
Proof.
  intros e b sup dm c size s0 after m now ok its Hn -> Hf.
  destruct (new_state _ _ _ _ _ Hn) as (g & _ & E). clear Hn.
  rewrite (life_turns b s0 m now ok) in * by (rewrite E; reflexivity). subst s0.
  destruct (turns_spool b _ its Hf) as (ops & reads & shown & H1 & H2 & H3 & H4 & H5).
  assert (Hf1 := turns_unfinished b _ _ Hf).
  exists ops, shown. unfold s2c_first, acknowledge in *.
  destruct m as [m|]; [|discriminate Hf1]. destruct ok; [|discriminate Hf1].
  cbn [out_spool took out_gate app] in *. rewrite H2. auto.
Qed.
Print Assumptions C12_scrollback_is_fed_everything.

(** A session with a detached stretch: connection 1 gets "ab" (the restore buffer) and
    then "c"; "b" was printed while nobody was attached. *)
Example C12_example :
  let its1 := [shell_prints "a"; quiet (SelConn Disconnect) (PollRead (Ok (lit "b")))] in
  let its2 := [shell_prints "c"] in
  NoDup (connections (Some (NewConn 0 z80)) (its1 ++ quiet (SelConn (NewConn 1 z100)) PollTimeout :: its2)) /\
  option_map (fun s0 : @s2c recorder =>
      let s := s2c_run Release s0 (First (Some (NewConn 0 z80)) 0 true :: map Iter (its1 ++ quiet (SelConn (NewConn 1 z100)) PollTimeout :: its2)) in
      (finished s, data_to 0 (log s), data_to 1 (log s), client s)) (s2c_new false false default_config z80)
  = Some (None, lit "a", lit "abc", Some 1%nat).
Proof.
  split; [|vm_compute; reflexivity].
  cbn. constructor; [intros [H|[]]; discriminate|]. constructor; [intros []|constructor].
Qed.

(** Output that is still in the pty when the hangup is noticed is not read any more:
    the client gets the exit status without it. *)
Theorem C12_output_pending_at_hangup_is_lost_refuted :
  forall e b sup dump_motd c size (s0 before after : @s2c e) m now ok its1 it id pending st,
  s2c_new sup dump_motd c size = Some s0 ->
  before = s2c_run b s0 (First m now ok :: map Iter its1) -> client before = Some id -> finished before = None ->
  sel it = SelNothing -> poll it = PollHangup pending (Some st) ->
  after = s2c_run b s0 (First m now ok :: map Iter (its1 ++ [it])) ->
  data_to id (log after) = data_to id (log before) /\ took after = took before /\ finished after = Some EndOk.
Proof.
  intros e b sup dm c size s0 before after m now ok its1 it id pending st Hn -> Hc Hf Hs Hp ->.
  destruct (new_state _ _ _ _ _ Hn) as (g & _ & E). clear Hn.
  rewrite (life_turns b s0 m now ok) in * by (rewrite E; reflexivity).
  rewrite (life_turns b s0 m now ok) by (rewrite E; reflexivity).
  rewrite turns_snoc. set (s := turns b (s2c_first s0 m now ok) its1) in *. clearbody s.
  unfold s2c_turn. rewrite Hf. unfold s2c_select. rewrite Hs, Hf.
  destruct (resize_keeps s it) as (R1 & _ & _ & R4 & R5 & _). cbn zeta in *. unfold s2c_poll. rewrite Hp, R5, Hc.
  cbn [fin write_exit_chunk emit log took finished]. rewrite R1, R4, data_to_app. unfold data_to at 2.
  rewrite frames_to_same. cbn. rewrite app_nil_r. auto.
Qed.
Print Assumptions C12_output_pending_at_hangup_is_lost_refuted.
