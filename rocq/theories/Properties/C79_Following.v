(** C79: a program that lists the sessions after every event knows which there are. *)
From Coq Require Import List NArith ZArith Bool Arith Lia.
From Verif Require Import Model.Base Model.Names Model.Protocol Model.Server Model.EventBus Model.Following Spec.ServerSpec Spec.ServerExamples
  Spec.EventBusSpec Spec.FollowingSpec Proofs.BaseLemmas Proofs.ServerProofs Proofs.ServerCounts Proofs.FollowingProofs.
From Verif Require Properties.C28_Events.
Import ListNotations.
Open Scope nat_scope.

(** A subscriber lists the sessions at some time.  If nothing has come on its events socket
    since, and nothing is to come, the sessions are those it has seen. *)
Theorem C79_sessions : forall w i b seen l now,
  possible w -> subscriber (bus_of w) i b -> lists (daemon w) seen ->
  let w' := acts w l in
  nothing_to_come w' i (b_sent b) -> lists (daemon w') now -> map which now = map which seen.
Proof.
  intros w i b seen l now W S L w' Q L'. destruct (nothing_more w l i b W S Q) as (k & K & E). fold w' in K. rewrite K in L'.
  destruct (possible_parts w W) as (R & _). destruct (quiet_start _ _ R E) as (T & X).
  apply lists_is in L. apply lists_is in L'. rewrite T in L'. eapply map_opt_same; [exact L'|exact L|].
  intros (n & s) x y I Ex Ey. unfold list_entry in *. cbn [fst snd] in *. destruct (session_at (daemon w) s) as [z|] eqn:Hz; [|discriminate].
  destruct (X s z Hz) as (z' & Hz' & Es). rewrite Hz' in Ex. unfold info_of in *. destruct (_ && _) in Ex; [|discriminate]. destruct (_ && _) in Ey; [|discriminate].
  injection Ex as <-. injection Ey as <-. unfold which. cbn. congruence.
Qed.
Print Assumptions C79_sessions.

(** So is whether somebody is attached to them, if at the time of the listing no attach was
    being set up and none had been reported ended but not let go of its session. *)
(** Missing for the full claim: the listing may come at any time; see below. *)
Theorem C79_status_partial : forall w i b seen l now,
  possible w -> subscriber (bus_of w) i b -> lists (daemon w) seen -> all_steady (daemon w) ->
  let w' := acts w l in
  nothing_to_come w' i (b_sent b) -> lists (daemon w') now -> map and_status now = map and_status seen.
Proof.
  intros w i b seen l now W S L St w' Q L'. destruct (nothing_more w l i b W S Q) as (k & K & E). fold w' in K. rewrite K in L'.
  destruct (possible_parts w W) as (R & _).
  assert (Cm : calm (daemon w)) by (intros c; specialize (St c); destruct (handlers (daemon w) c); try discriminate St; exact I).
  destruct (quiet_inner _ _ R E Cm) as (_ & T & X).
  apply lists_is in L. apply lists_is in L'. rewrite T in L'. eapply map_opt_same; [exact L'|exact L|].
  intros (n & s) x y I Ex Ey. apply (lookup_in_nodup _ _ _ (nodup_run _ R)) in I.
  unfold list_entry in *. cbn [fst snd] in *. destruct (session_at (daemon w) s) as [z|] eqn:Hz; [|discriminate].
  destruct (X n s z I Hz) as (z' & Hz' & Ei & Es). rewrite Hz' in Ex. unfold info_of in *. destruct (_ && _) in Ex; [|discriminate]. destruct (_ && _) in Ey; [|discriminate].
  injection Ex as <-. injection Ey as <-. unfold and_status. cbn. rewrite Ei, Es. reflexivity.
Qed.
Print Assumptions C79_status_partial.

(** A subscriber that reads what it is sent gets there: one round of the sink is enough,
    and nothing is to come then. *)
Theorem C79_catches_up : forall w i b,
  possible w -> sink_at (bus_of w) = Polling -> waking (bus_of w) = 0 -> lost (bus_of w) = [] -> find_sub i (subs (bus_of w)) = Some b ->
  length (b_pending b) + length (channel (bus_of w)) <= 64 ->
  let w' := acts w (map Events (round (bus_of w))) in
  daemon w' = daemon w /\ nothing_to_come w' i (wire (skipn (b_since b) (map e_kind (events (daemon w))))).
Proof.
  intros w i b W Hs Hw L Hf Le w'. destruct (possible_parts w W) as (R & Br & F). specialize (F L).
  assert (A : forall l w0, Forall (fun a => match a with BPublish _ => False | _ => True end) l ->
    daemon (acts w0 (map Events l)) = daemon w0 /\ bus_of (acts w0 (map Events l)) = bus_run (bus_of w0) l /\ lost (bus_run (bus_of w0) l) = lost (bus_of w0)).
  { induction l as [|a l IH]; intros w0 Fa; [auto|]. inversion Fa as [|? ? Ha Fl]; subst. cbn [map].
    change (acts w0 (Events a :: map Events l)) with (acts (act w0 (Events a)) (map Events l)).
    assert (E : act w0 (Events a) = mkWorld (daemon w0) (bus_step (bus_of w0) a)) by (destruct a; try reflexivity; contradiction).
    rewrite E. destruct (IH (mkWorld (daemon w0) (bus_step (bus_of w0) a)) Fl) as (I1 & I2 & I3). cbn [daemon bus_of] in *.
    split; [exact I1|]. split; [exact I2|]. change (bus_run (bus_of w0) (a :: l)) with (bus_run (bus_step (bus_of w0) a) l). rewrite I3. apply bus_step_keeps. exact Ha. }
  assert (Fr : Forall (fun a => match a with BPublish _ => False | _ => True end) (round (bus_of w))).
  { unfold round. constructor; [exact I|]. apply Forall_app. split; [|apply Forall_app; split; [|repeat constructor]];
      apply Forall_forall; intros a H; apply repeat_spec in H; subst a; exact I. }
  destruct (A _ w Fr) as (A1 & A2 & A3). fold w' in A1, A2.
  destruct (C28_Events.C28_delivers _ i b Br Hs Hw Hf Le) as (b' & Hf' & Bs & Bp & _ & Ch & D). cbn zeta in *.
  split; [exact A1|]. unfold nothing_to_come. rewrite A2, A3. split; [exact L|]. split; [exact Ch|]. exists b'. split; [exact Hf'|].
  split; [exact D|]. split; [exact Bp|]. rewrite Bs, F. reflexivity.
Qed.
Print Assumptions C79_catches_up.

(** A program connects to the events socket, and starts two requests to list the sessions. *)
Definition watching : list deed :=
  map Daemon [asks 8 QList; asks 9 QList] ++
  map Events [BConnect; BPoll (fun _ => Quiet) false; BAccept true; BAccept true; BDrive greedy].
(** The sink takes [n] events from the channel, once their publishers have woken it. *)
Definition told (n : nat) : list deed :=
  map Events (repeat BWake n ++ [BPoll (fun _ => Quiet) false; BAccept true] ++ repeat (BRecv greedy) (S n) ++ [BDrive greedy]).

(** The sessions' status can be wrong for good.  A program that lists the sessions when it
    is told that the user of one has left can find that one attached still, because the
    daemon says so before it lets the session go (server.rs 383 and 387-393). *)
Theorem C79_status_left_refuted : exists w b seen l now,
  possible w /\ subscriber (bus_of w) 0 b /\ b_sent b = wire [ECreated; EAttached; EDetached] /\ lists (daemon w) seen /\
  let w' := acts w l in
  nothing_to_come w' 0 (b_sent b) /\ lists (daemon w') now /\ handlers (daemon w') 1 = HDone /\
  map and_status seen = [(work, 11%Z, true)] /\ map and_status now = [(work, 11%Z, false)].
Proof.
  exists (acts (world_new []) (watching ++ map Daemon (creates 1 work None ++ [AEnd 1 false true true; AUnwind 1 30]) ++ told 3)).
  eexists. eexists. exists [Daemon (ALeave 1)]. eexists. split; [do 2 eexists; reflexivity|]. split; [left; vm_compute; reflexivity|]. split; [vm_compute; reflexivity|].
  split; [exists 8; vm_compute; reflexivity|]. cbn zeta. split; [split; [vm_compute; reflexivity|split; [vm_compute; reflexivity|eexists; split; [vm_compute; reflexivity|vm_compute; auto]]]|].
  split; [exists 9; vm_compute; reflexivity|]. vm_compute. auto.
Qed.
Print Assumptions C79_status_left_refuted.

(** One that lists the sessions when it is told that a session has been created and
    attached to can find it free, because the daemon says so before the client gets hold of it
    (server.rs 546-549 and 276-296). *)
Theorem C79_status_came_refuted : exists w b seen l now,
  possible w /\ subscriber (bus_of w) 0 b /\ b_sent b = wire [ECreated; EAttached] /\ lists (daemon w) seen /\
  let w' := acts w l in
  nothing_to_come w' 0 (b_sent b) /\ lists (daemon w') now /\ attached (daemon w') 1 0 /\
  map and_status seen = [(work, 11%Z, false)] /\ map and_status now = [(work, 11%Z, true)].
Proof.
  exists (acts (world_new []) (watching ++ map Daemon [asks 1 (QAttach (hdr work None)); AAttach 1 true 10; ASpawn 1 true 11 1000; AInsert 1] ++ told 2)).
  eexists. eexists. exists (map Daemon [AFetch 1; AReply 1 true true; AStart 1 true]). eexists. split; [do 2 eexists; reflexivity|]. split; [left; vm_compute; reflexivity|]. split; [vm_compute; reflexivity|].
  split; [exists 8; vm_compute; reflexivity|]. cbn zeta. split; [split; [vm_compute; reflexivity|split; [vm_compute; reflexivity|eexists; split; [vm_compute; reflexivity|vm_compute; auto]]]|].
  split; [exists 9; vm_compute; reflexivity|]. vm_compute. auto.
Qed.
Print Assumptions C79_status_came_refuted.

(** And a client that is lost in the message of the day leaves without a word. *)
Theorem C79_status_pager_refuted : exists w b seen l now,
  possible w /\ subscriber (bus_of w) 0 b /\ b_sent b = wire [ECreated; EAttached; EDetached; EAttached] /\ lists (daemon w) seen /\
  let w' := acts w l in
  nothing_to_come w' 0 (b_sent b) /\ lists (daemon w') now /\ handlers (daemon w') 1 = HDone /\ handlers (daemon w') 2 = HDone /\
  map and_status seen = [(work, 11%Z, true)] /\ map and_status now = [(work, 11%Z, false)].
Proof.
  exists (acts (world_new []) (watching ++ map Daemon (creates 1 work None ++ goes 1 30 ++ [asks 2 (QAttach (hdr work None)); AAttach 2 true 40]) ++ told 4)).
  eexists. eexists. exists [Daemon (AReply 2 true false)]. eexists. split; [do 2 eexists; reflexivity|]. split; [left; vm_compute; reflexivity|]. split; [vm_compute; reflexivity|].
  split; [exists 8; vm_compute; reflexivity|]. cbn zeta. split; [split; [vm_compute; reflexivity|split; [vm_compute; reflexivity|eexists; split; [vm_compute; reflexivity|vm_compute; auto]]]|].
  split; [exists 9; vm_compute; reflexivity|]. vm_compute. auto.
Qed.
Print Assumptions C79_status_pager_refuted.

(** To have connected is not enough to be a subscriber: a program that connects to the events
    socket, and lists the sessions only then, can miss one that is created after. *)
Theorem C79_connected_refuted : exists w w1 l seen now,
  possible w /\ backlog (bus_of w) = [] /\ w1 = act w (Events BConnect) /\ backlog (bus_of w1) = [0] /\ lists (daemon w1) seen /\
  let w' := acts w1 l in
  nothing_to_come w' 0 [] /\ lists (daemon w') now /\ sink_at (bus_of w') = Polling /\ waking (bus_of w') = 0 /\ wake (bus_of w') = false /\
  map which seen = [(play, 11%Z)] /\ map which now = [(work, 11%Z); (play, 11%Z)].
Proof.
  exists (acts (world_new []) (map Daemon ([asks 8 QList; asks 9 QList] ++ creates 1 play None) ++ map Events [BWake; BWake; BPoll (fun _ => Quiet) false; BAccept true])).
  eexists. exists (map Daemon (creates 2 work None) ++ map Events (repeat (BRecv greedy) 5 ++ [BDrive greedy; BWake; BWake; BPoll (fun _ => Quiet) false; BAccept true; BAccept true; BRecv greedy; BDrive greedy])).
  eexists. eexists. split; [do 2 eexists; reflexivity|]. split; [vm_compute; reflexivity|]. split; [reflexivity|]. split; [vm_compute; reflexivity|].
  split; [exists 8; vm_compute; reflexivity|]. cbn zeta. split; [split; [vm_compute; reflexivity|split; [vm_compute; reflexivity|eexists; split; [vm_compute; reflexivity|vm_compute; auto]]]|].
  split; [exists 9; vm_compute; reflexivity|]. vm_compute. repeat split; reflexivity.
Qed.
Print Assumptions C79_connected_refuted.

(** The hypotheses can be met: two sessions, of which one is attached and the other has been
    left; the program is told all five things and lists them; a third client asks for the one
    that is taken, and is turned away. *)
Example C79_follows : exists b seen now,
  let w := acts (world_new []) (watching ++ map Daemon (creates 1 work None ++ goes 1 30 ++ creates 2 play None) ++ told 5) in
  let w' := acts w (map Daemon [asks 3 (QAttach (hdr play None)); AAttach 3 true 50]) in
  possible w /\ subscriber (bus_of w) 0 b /\ b_sent b = wire [ECreated; EAttached; EDetached; ECreated; EAttached] /\ lists (daemon w) seen /\ all_steady (daemon w) /\
  nothing_to_come w' 0 (b_sent b) /\ lists (daemon w') now /\ map and_status seen = [(play, 11%Z, true); (work, 11%Z, false)] /\ events (daemon w') = events (daemon w).
Proof.
  eexists. eexists. eexists. cbn zeta. split; [do 2 eexists; reflexivity|]. split; [left; vm_compute; reflexivity|]. split; [vm_compute; reflexivity|].
  split; [exists 8; vm_compute; reflexivity|]. split; [intros [|[|[|[|[|[|[|[|[|[|c]]]]]]]]]]; vm_compute; reflexivity|].
  split; [split; [vm_compute; reflexivity|split; [vm_compute; reflexivity|eexists; split; [vm_compute; reflexivity|vm_compute; auto]]]|].
  split; [exists 9; vm_compute; reflexivity|]. vm_compute. auto.
Qed.
(** And for catching up: three lines behind. *)
Example C79_behind : exists b,
  let w := acts (world_new []) (watching ++ map Daemon (creates 1 work None ++ goes 1 30) ++ map Events [BWake; BWake; BWake]) in
  possible w /\ sink_at (bus_of w) = Polling /\ waking (bus_of w) = 0 /\ lost (bus_of w) = [] /\ find_sub 0 (subs (bus_of w)) = Some b /\
  length (b_pending b) + length (channel (bus_of w)) = 3.
Proof. eexists. cbn zeta. split; [do 2 eexists; reflexivity|]. split; [vm_compute; reflexivity|]. split; [vm_compute; reflexivity|]. split; [vm_compute; reflexivity|]. split; vm_compute; reflexivity. Qed.
