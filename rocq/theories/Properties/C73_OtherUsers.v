(** C73: other users of the machine get nothing out of a daemon. *)
From Coq Require Import String List NArith ZArith Bool Lia.
From Verif Require Import Model.Base Model.Msgpack Model.Messages Model.Server Model.Handshake Model.EventBus Model.Names Model.Launch Spec.PathSpec Model.SessionFiles Model.Doors
  Spec.SessionFilesSpec Spec.EventBusSpec Spec.HandshakeSpec Spec.DoorsSpec Proofs.SessionFilesProofs Properties.C67_Handshake Properties.C72_SessionFiles.
Import ListNotations.
Open Scope N_scope.

(** Whoever another user is, whatever they send to the control socket and whenever:
    nothing is done for them, and all they are told is the version and, if they wanted to
    attach, that they may not.  This goes for the superuser too. *)
Theorem C73_nothing_done : forall unreadable version self answer umask f control events l c es,
  In (c, es) (talks (door_run self umask f control events l)) -> another self c ->
  let end_ := front_of unreadable version self answer (c, es) in
  handled end_ = [] /\ exists text, rebuff version text /\ begins (down (Handshake.wire end_)) text.
Proof.
  intros u v self an um f ctl ev l c es I A end_.
  assert (E : check_peer self (as_peer c) = Err (lit "shpool prohibits connections across users")).
  { unfold check_peer. apply N.eqb_neq in A. rewrite A. reflexivity. }
  destruct (C67_any_peer u v self (as_peer c) an es) as (H1 & H2). fold (front_of u v self an (c, es)) in *.
  change (met u v self (as_peer c) an es) with end_ in *. split.
  - destruct H1 as [H1|(pid & h & r & _ & H1 & _)]; [exact H1|congruence].
  - unfold due in H2. rewrite E in H2. eexists. split; [|exact H2].
    destruct (decode_from connect_header (sent es)) as [[h r]|]; [|left; apply app_nil_r].
    destruct (attaching h); [right; reflexivity|left; apply app_nil_r].
Qed.
Print Assumptions C73_nothing_done.

Lemma search_bit self c m : another self c -> ordinary c -> may_search (p_uid self) c m = N.testbit m (x_bit (kind_of c)).
Proof.
  intros A O. unfold may_search, bits. apply N.eqb_neq in A, O. rewrite A, O. cbn [orb]. unfold kind_of.
  destruct (in_group c); cbn [x_bit]; [rewrite N.shiftr_spec'; reflexivity|reflexivity].
Qed.
Lemma write_bit self c m : another self c -> ordinary c -> may_write (p_uid self) c m = N.testbit m (w_bit (kind_of c)).
Proof.
  intros A O. unfold may_write, bits. apply N.eqb_neq in A, O. rewrite A, O. cbn [orb]. unfold kind_of.
  destruct (in_group c); cbn [w_bit]; [rewrite N.shiftr_spec'; reflexivity|reflexivity].
Qed.
Lemma socket_bit um s : N.testbit (socket_mode um) (w_bit s) = negb (N.testbit um (w_bit s)).
Proof. unfold socket_mode. rewrite N.ldiff_spec. destruct s; reflexivity. Qed.

Lemma above_cons x p d : above d (x :: p) <-> (d = p /\ d <> []) \/ above d p.
Proof.
  split.
  - intros (N & l & L & E). destruct l as [|y l]; [congruence|]. cbn [app] in E. injection E as <- E.
    destruct l as [|z l]; [left; split; [symmetry; exact E|exact N]|right]. split; [exact N|]. exists (z :: l). split; [discriminate|exact E].
  - intros [(-> & N)|(N & l & L & E)].
    + split; [exact N|]. exists [x]. split; [discriminate|reflexivity].
    + split; [exact N|]. exists (x :: l). split; [discriminate|rewrite E; reflexivity].
Qed.

Lemma reach_walk owner c f p : may_reach owner c f p = true <->
  forall d, above d p -> exists m, f d = Some (Dir m) /\ may_search owner c m = true.
Proof.
  induction p as [|x [|y up] IH].
  - split; [intros _ d (N & l & L & E)|reflexivity]. destruct l; [congruence|discriminate].
  - split; [|reflexivity]. intros _ d H. apply above_cons in H as [(-> & N)|(N & l & L & E)]; [congruence|]. destruct l; [congruence|discriminate].
  - change (may_reach owner c f (x :: y :: up)) with (may_reach owner c f (y :: up) && match f (y :: up) with Some (Dir m) => may_search owner c m | _ => false end).
    rewrite andb_true_iff, IH. split.
    + intros (H & S) d A. apply above_cons in A as [(-> & _)|A]; [|apply H; exact A].
      destruct (f (y :: up)) as [[m| |]|]; try discriminate. exists m. split; [reflexivity|exact S].
    + intros H. split; [intros d A; apply H; apply above_cons; right; exact A|].
      destruct (H (y :: up)) as (m & -> & S); [apply above_cons; left; split; [reflexivity|discriminate]|exact S].
Qed.

(** Another, ordinary user can connect to a socket exactly if they can get to it and the
    umask left them writing. *)
Theorem C73_who_gets_through : forall self umask f c sock, another self c -> ordinary c ->
  (may_connect (p_uid self) umask f c sock = true <-> reaches (kind_of c) f sock /\ ~ takes_writing umask (kind_of c)).
Proof.
  intros self um f c sock A O. unfold may_connect. rewrite andb_true_iff, reach_walk, (write_bit _ _ _ A O), socket_bit, negb_true_iff. unfold takes_writing.
  assert (E : (forall d, above d sock -> exists m, f d = Some (Dir m) /\ may_search (p_uid self) c m = true) <-> reaches (kind_of c) f sock).
  { unfold reaches. split; intros H d D; destruct (H d D) as (m & F & S); exists m; (split; [exact F|]); [rewrite <- (search_bit _ _ _ A O)|rewrite (search_bit _ _ _ A O)]; exact S. }
  rewrite E. destruct (N.testbit um (w_bit (kind_of c))); intuition congruence.
Qed.
Print Assumptions C73_who_gets_through.

(** The owner gets through unless their own bits are missing. *)
Theorem C73_owner : forall self umask f c sock, p_uid (as_peer c) = p_uid self ->
  N.testbit umask 7 = false -> (forall d, above d sock -> exists m, f d = Some (Dir m) /\ N.testbit m 6 = true) ->
  may_connect (p_uid self) umask f c sock = true.
Proof.
  intros self um f c sock E U R. unfold may_connect. apply andb_true_iff. split.
  - apply reach_walk. intros d D. destruct (R d D) as (m & F & S). exists m. split; [exact F|].
    unfold may_search, bits. rewrite E, N.eqb_refl, N.shiftr_spec'. cbn [N.add]. change (0 + 6) with 6. rewrite S. apply orb_true_r.
  - unfold may_write, bits, socket_mode. rewrite E, N.eqb_refl, N.shiftr_spec'. change (1 + 6) with 7. rewrite N.ldiff_spec, U. apply orb_true_r.
Qed.
Print Assumptions C73_owner.

(** Everybody on the events socket got through to it. *)
Lemma run_listeners self um f ctl ev l : forall d,
  (forall c, In c (listeners d) -> may_connect (p_uid self) um f c ev = true) ->
  forall c, In c (listeners (fold_left (door_step self um f ctl ev) l d)) -> may_connect (p_uid self) um f c ev = true.
Proof.
  induction l as [|k l IH]; intros d H; [exact H|]. cbn [fold_left]. apply IH.
  destruct k as [c|i e|c|a]; cbn [door_step].
  - destruct (may_connect _ _ _ _ _); exact H.
  - exact H.
  - destruct (may_connect (p_uid self) um f c ev) eqn:E; [|exact H]. cbn [listeners]. intros c' I. apply in_app_or in I as [I|[<-|[]]]; [apply H; exact I|exact E].
  - destruct a; exact H.
Qed.

(** If a directory above the events socket is shut, or the umask takes writing from both
    kinds, nobody else ever hears anything but the superuser. *)
Theorem C73_events_private_partial : forall self umask f control events l c text,
  (exists d, shut f d /\ above d events) \/ (takes_writing umask Group /\ takes_writing umask Other) ->
  hears (door_run self umask f control events l) c text -> another self c -> ~ ordinary c.
(** Missing for the full claim: an events socket in an open directory and no umask, for which it is false
    (C73_events_refuted). *)
Proof.
  intros self um f ctl ev l c text W (i & b & Hi & _) A O.
  assert (T : may_connect (p_uid self) um f c ev = true).
  { apply (run_listeners self um f ctl ev l closed_yet); [intros c' []|]. eapply nth_error_In. exact Hi. }
  apply (C73_who_gets_through self um f c ev A O) in T as (R & N). destruct W as [(d & S & D)|(W1 & W2)].
  - exact (shut_private _ _ _ _ S D R).
  - apply N. destruct (kind_of c); assumption.
Qed.
Print Assumptions C73_events_private_partial.

(** The connections on the events socket are numbered as the listeners are. *)
Lemma run_numbers self um f ctl ev l : forall d, next (the_bus d) = length (listeners d) ->
  next (the_bus (fold_left (door_step self um f ctl ev) l d)) = length (listeners (fold_left (door_step self um f ctl ev) l d)).
Proof.
  induction l as [|k l IH]; intros d H; [exact H|]. cbn [fold_left]. apply IH.
  destruct k as [c|i e|c|a]; cbn [door_step].
  - destruct (may_connect _ _ _ _ _); exact H.
  - exact H.
  - destruct (may_connect _ _ _ _ _); [|exact H]. cbn [the_bus listeners bus_step next]. rewrite app_length. cbn [length]. lia.
  - assert (N : forall st a, a <> BConnect -> next (bus_step st a) = next st).
    { clear. intros st a Na. destruct a; cbn [bus_step]; try congruence;
        repeat match goal with |- context [match ?x with _ => _ end] => destruct x end; try reflexivity; unfold after_accepts; destruct woken; reflexivity. }
    destruct a; try exact H; cbn [the_bus listeners]; rewrite N by discriminate; exact H.
Qed.
Theorem C73_numbers : forall self umask f control events l,
  let d := door_run self umask f control events l in next (the_bus d) = length (listeners d).
Proof. intros. apply run_numbers. reflexivity. Qed.
Print Assumptions C73_numbers.

Lemma nth_on_nth i e l j : nth_error (on_nth i e l) j =
  if Nat.eqb i j then option_map (fun t => (fst t, snd t ++ [e])) (nth_error l j) else nth_error l j.
Proof.
  revert i j. induction l as [|[c es] l IH]; intros i j; destruct i, j; cbn [on_nth nth_error Nat.eqb]; try reflexivity; try apply IH.
  destruct (Nat.eqb i j); reflexivity.
Qed.

(** Conversations do not get mixed up: the connections of the control socket are those
    of the callers who got through, in the order they called, and each has had exactly
    what happened on it since. *)
Theorem C73_conversations : forall self umask f control events l,
  let through c := may_connect (p_uid self) umask f c control in
  let d := door_run self umask f control events in
  map fst (talks (d l)) = got_through through l /\
  forall l1 c l2, l = l1 ++ DialControl c :: l2 -> through c = true ->
    let i := length (got_through through l1) in nth_error (talks (d l)) i = Some (c, said i l2).
Proof.
  intros self um f ctl ev l through d.
  assert (Sn : forall l k, d (l ++ [k]) = door_step self um f ctl ev (d l) k).
  { intros l0 k. unfold d, door_run. rewrite fold_left_app. reflexivity. }
  assert (M : forall l, map fst (talks (d l)) = got_through through l).
  { clear l. induction l as [|k l IH] using rev_ind; [reflexivity|]. rewrite Sn. unfold got_through. rewrite flat_map_app. fold (got_through through l).
    rewrite <- IH. cbn [flat_map]. rewrite app_nil_r. destruct k as [c|i e|c|a]; cbn [door_step].
    - fold (through c). destruct (through c); cbn [talks]; [rewrite map_app; reflexivity|symmetry; apply app_nil_r].
    - cbn [talks]. rewrite app_nil_r. clear. revert i. induction (talks (d l)) as [|[c es] t IH]; intros i; [destruct i; reflexivity|]. destruct i; cbn [on_nth map fst]; [reflexivity|]. rewrite IH. reflexivity.
    - rewrite app_nil_r. destruct (may_connect _ _ _ _ _); reflexivity.
    - rewrite app_nil_r. destruct a; reflexivity. }
  split; [apply M|]. intros l1 c l2 -> T i.
  assert (Li : forall l, length (talks (d l)) = length (got_through through l)) by (intros l0; rewrite <- M, map_length; reflexivity).
  induction l2 as [|k l2 IH] using rev_ind.
  - rewrite Sn. cbn [door_step]. fold (through c). rewrite T. cbn [talks said flat_map].
    rewrite nth_error_app2 by (rewrite Li; unfold i; lia). rewrite Li. unfold i. rewrite Nat.sub_diag. reflexivity.
  - replace (l1 ++ DialControl c :: l2 ++ [k]) with ((l1 ++ DialControl c :: l2) ++ [k]) by (rewrite <- app_assoc; reflexivity).
    rewrite Sn. unfold said. rewrite flat_map_app. fold (said i l2). cbn [flat_map]. rewrite app_nil_r.
    destruct k as [c'|j e|c'|a]; cbn [door_step]; rewrite ?app_nil_r.
    + destruct (may_connect _ _ _ _ _); [|exact IH]. cbn [talks]. rewrite nth_error_app1; [exact IH|]. apply nth_error_Some. rewrite IH. discriminate.
    + cbn [talks]. rewrite nth_on_nth, IH. cbn [option_map fst snd]. destruct (Nat.eqb j i); [reflexivity|rewrite app_nil_r; reflexivity].
    + destruct (may_connect _ _ _ _ _); exact IH.
    + destruct a; exact IH.
Qed.
Print Assumptions C73_conversations.

(** Somebody who gets through is served like anybody: what they are sent is what C28 says
    of every subscriber.  A daemon launched by a client has no umask; without
    XDG_RUNTIME_DIR, in a home others can enter, anybody hears what happens. *)
Definition at_home : rstr := path_join C72_SessionFiles.home (lit "shpool.socket").
Definition me : peer := mkPeer 1000 100 (Some (lit "/usr/bin/shpool")).
Definition neighbour : caller := mkCaller (mkPeer 1001 200 (Some (lit "/usr/bin/nc"))) false.
Definition overheard : list knock :=
  [DialEvents neighbour; DialControl neighbour; OnControl 0 (Arrive (encode_to connect_header (VVar (lit "List") None)))] ++
  repeat (OnControl 0 (Turn 99)) 6 ++
  [OnEvents (BPublish ECreated); OnEvents BWake; OnEvents (BPoll (fun _ => Writable) false); OnEvents (BAccept true);
   OnEvents (BAccept true); OnEvents (BRecv greedy); OnEvents (BRecv greedy); OnEvents (BDrive greedy)].

Theorem C73_events_refuted : exists l c,
  let d := door_run me (Launch.umask (Launch.daemon_process true C72_SessionFiles.started)) C72_SessionFiles.home_tree
             (at_ at_home) (at_ (Launch.events_socket at_home)) l in
  another me c /\ ordinary c /\ hears d c (line ECreated).
Proof.
  exists overheard, neighbour. split; [discriminate|]. split; [discriminate|].
  exists 0%nat. eexists. split; [vm_compute; reflexivity|]. split; [left; vm_compute; reflexivity|vm_compute; reflexivity].
Qed.
Print Assumptions C73_events_refuted.

(** The same there by hand, with the usual umask: they get through to neither socket; and
    in the launched daemon the neighbour's request came to nothing. *)
Example C73_case :
  takes_writing 18 Group /\ takes_writing 18 Other /\
  listeners (door_run me 18 C72_SessionFiles.home_tree (at_ at_home) (at_ (Launch.events_socket at_home)) overheard) = [] /\
  (exists es, talks (door_run me 0 C72_SessionFiles.home_tree (at_ at_home) (at_ (Launch.events_socket at_home)) overheard) = [(neighbour, es)] /\
     at_d (front_of (fun _ _ => false) (lit "0.9.3") me (fun _ => lit "secret") (neighbour, es)) = DGone Handshake.Refused) /\
  shut (fun p => if path_eqb p (tl (at_ at_home)) then Some (Dir 448) else None) (tl (at_ at_home)) /\
  above (tl (at_ at_home)) (at_ (Launch.events_socket at_home)) /\
  may_connect 1000 18 C72_SessionFiles.home_tree (mkCaller me false) (at_ at_home) = true.
Proof.
  split; [reflexivity|]. split; [reflexivity|]. split; [vm_compute; reflexivity|]. split.
  { eexists. split; [vm_compute; reflexivity|vm_compute; reflexivity]. }
  split; [exists 448; vm_compute; repeat split|]. split; [|vm_compute; reflexivity].
  split; [vm_compute; discriminate|]. exists [Entry (lit "events.socket")]. split; [discriminate|vm_compute; reflexivity].
Qed.
