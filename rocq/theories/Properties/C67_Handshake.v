(** C67: the start of a conversation.  Whoever connects is sent the daemon's version; the
    request is taken exactly as it was sent, however its bytes are cut up and whoever is
    slow; it is answered exactly once, if its sender may ask; and nobody who sends anything
    else, or nothing, gets anything done or keeps the daemon from others. *)
From Coq Require Import String List NArith ZArith Bool Arith Lia.
From Verif Require Import Model.Base Model.Version Model.Msgpack Model.Messages Model.Dial Model.Server Model.Handshake
  Spec.MessagesSpec Spec.WireSpec Spec.HandshakeSpec Proofs.MessagesProofs Proofs.WireProofs Proofs.HandshakeProofs.
Import ListNotations.
Open Scope N_scope.

(** Anybody at all may connect, send any bytes at any time and hang up.  At most one
    request is carried out: the one the bytes begin with, with all that follows left for
    the handler, and only for a peer that passes the check.  All the daemon says is the
    beginning of what such a peer is due. *)
Theorem C67_any_peer : forall unreadable version self other answer l,
  let f := met unreadable version self other answer l in
  (handled f = [] \/
   exists pid h rest, handled f = [(pid, h)] /\ check_peer self other = Ok pid /\ decode_from connect_header (sent l) = Some (h, rest)) /\
  begins (down (wire f)) (due version self other answer (sent l)).
Proof.
  intros u v self other an l f. destruct (met_fine u v self other an l) as [F _]. fold f in F. unfold fine in F.
  destruct (at_d f) as [rest|q|h|rest|h rest|e].
  - destruct F as (F1 & F2 & F3 & _). split; [auto|]. eapply begins_trans; [eapply begins_of; exact F1|apply begins_app].
  - destruct F as (F1 & F2 & F3 & _). split; [auto|]. rewrite F1. apply begins_app.
  - destruct F as (F1 & F2 & _). split; [auto|]. rewrite F1. apply begins_app.
  - destruct F as (F1 & F2 & F3). split; [auto|]. eapply begins_of. exact F2.
  - destruct F as ((pid & F1 & F2) & F3 & F4 & _). split; [right; eauto 10|]. eapply begins_of. exact F3.
  - destruct F as (F1 & F2). split; [|exact F1]. destruct e; try tauto. right. destruct F2 as [(pid & h & r & A & B & C & _) _]. eauto 10.
Qed.
Print Assumptions C67_any_peer.

(** Whoever has sent a whole request and stays is answered in full, however long it took
    and however few bytes each write of the daemon takes. *)
Theorem C67_answered : forall unreadable version self other answer l h rest ks,
  ~ In HangUp l -> decode_from connect_header (sent l) = Some (h, rest) ->
  (forall e, at_d (met unreadable version self other answer l) <> DGone e) ->
  (length (due version self other answer (sent l)) + 4 <= length ks)%nat ->
  let f := met unreadable version self other answer (l ++ map Turn ks) in
  down (wire f) = due version self other answer (sent l) /\
  match check_peer self other with
  | Ok pid => at_d f = DGone Served /\ handled f = [(pid, h)] /\ (daemon_closed (wire f) = true <-> attaching h = false)
  | Err _ => at_d f = DGone Refused /\ handled f = [] /\ daemon_closed (wire f) = true
  end.
Proof.
  intros u v self other an l h rest ks NH Dc NG L f. destruct (met_fine u v self other an l) as [F C].
  assert (C' : client_closed (wire (met u v self other an l)) = false).
  { rewrite C. unfold hung_up. destruct (existsb _ l) eqn:E; [|reflexivity]. apply existsb_exists in E as (x & I & X). destruct x; try discriminate. contradiction. }
  assert (A : answering (met u v self other an l)) by (unfold answering; destruct (at_d (met u v self other an l)); auto; destruct (NG e eq_refl)).
  destruct (turns_answer u v self other an (sent l) h rest ks Dc _ F C' A) as (F' & A' & M). rewrite <- met_app in *. fold f in F', A', M.
  pose proof (to_answer_bound u v self other an _ _ F) as B. destruct (answered u v self other an _ _ F' A' ltac:(lia)) as [G|G]; unfold fine in F'; rewrite G in *.
  - destruct F' as (_ & (pid & h' & r' & F1 & F2 & F3 & F4) & F5). rewrite F2. rewrite Dc in F3. injection F3 as <- <-. split; [exact F5|]. split; [reflexivity|]. split; [exact F1|].
    rewrite F4, attaching_is. destruct (is_attach h); split; auto; discriminate.
  - destruct F' as (_ & F1 & F2 & F3 & _ & why & F4). rewrite F4. auto.
Qed.
Print Assumptions C67_answered.

(** Whoever has sent nothing that is a request, and sends nothing for 200 milliseconds, is
    let go: the stream is closed and nothing was done. *)
Theorem C67_silent : forall unreadable version self other answer l ks ms k,
  decode_from connect_header (sent l) = None -> (length (encode_to version_header (VRec [VStr version])) <= length ks)%nat -> 200 <= ms ->
  let f := met unreadable version self other answer (l ++ map Turn ks ++ [Wait ms; Turn k]) in
  (exists e, at_d f = DGone e) /\ daemon_closed (wire f) = true /\ handled f = [].
Proof.
  intros u v self other an l ks ms k Dn L M f. destruct (met_fine u v self other an l) as [F _].
  destruct (turns_wait u v self other an (sent l) ks Dn _ F) as [F' T]. rewrite <- met_app in *.
  set (g := met u v self other an (l ++ map Turn ks)) in *. assert (Ef : f = daemon_turn u self other an k (wait ms g)) by (unfold f, g; rewrite app_assoc, met_app; reflexivity).
  assert (T' : (exists q, at_d g = DRequest q) \/ exists e, at_d g = DGone e).
  { destruct T as [(r & r' & T1 & T2 & T3)|T]; [|exact T]. exfalso. unfold fine in F, F'. rewrite T1 in F. rewrite T2 in F'. destruct F as (F & _). destruct F' as (_ & _ & _ & F' & _).
    assert (X : (length r <= length (version_bytes v))%nat) by (rewrite <- F, app_length; lia). unfold version_bytes in X. destruct r'; [congruence|]. cbn [length] in T3. lia. }
  rewrite Ef. clear T Ef f. unfold fine in F'. destruct T' as [(q & T)|(e & T)]; rewrite T in F'.
  - destruct F' as (F1 & F2 & F3 & F4). unfold daemon_turn, wait. rewrite T. cbn [at_d wire handled]. rewrite F2, Dn.
    replace (read_timeout <=? q + ms) with true by (symmetry; apply N.leb_le; unfold read_timeout; lia). rewrite !orb_true_r. cbn. eauto.
  - unfold daemon_turn, wait. rewrite T. cbn [at_d wire handled]. split; [eauto|]. destruct F' as (_ & F'). destruct e.
    + tauto.
    + destruct F' as [[F'|(pid & h & r & _ & _ & F')] F2]; [auto|congruence].
    + tauto.
    + destruct F' as ((pid & h & r & _ & _ & F' & _) & _). congruence.
Qed.
Print Assumptions C67_silent.

(** The milliseconds need not pass at a stretch: however often the daemon looks meanwhile,
    only a byte starts the wait anew. *)
Theorem C67_quiet : forall unreadable version self other answer l ks quiet k,
  decode_from connect_header (sent l) = None -> (length (encode_to version_header (VRec [VStr version])) <= length ks)%nat ->
  (forall b bs, ~ In (Arrive (b :: bs)) quiet) -> 200 <= silence quiet ->
  let f := met unreadable version self other answer (l ++ map Turn ks ++ quiet ++ [Turn k]) in
  (exists e, at_d f = DGone e) /\ daemon_closed (wire f) = true /\ handled f = [].
Proof.
  intros u v self other an l ks quiet k Dn L NA M f.
  assert (X : let g := met u v self other an (l ++ map Turn ks ++ quiet) in
    fine v self other an (sent l) g /\ ((exists q, at_d g = DRequest q /\ silence quiet <= q) \/ exists e, at_d g = DGone e)).
  { clear M f. induction quiet as [|x quiet IH] using rev_ind.
    - rewrite app_nil_r. destruct (met_fine u v self other an l) as [F _].
      destruct (turns_wait u v self other an (sent l) ks Dn _ F) as [F' T]. rewrite <- met_app in *. split; [exact F'|].
      destruct T as [(r & r' & T1 & T2 & T3)|[(q & T)|T]]; [|left; exists q; split; [exact T|apply N.le_0_l]|right; exact T].
      exfalso. unfold fine in F, F'. rewrite T1 in F. rewrite T2 in F'. destruct F as (F & _). destruct F' as (_ & _ & _ & F' & _).
      assert (X : (length r <= length (version_bytes v))%nat) by (rewrite <- F, app_length; lia). unfold version_bytes in X. destruct r'; [congruence|]. cbn [length] in T3. lia.
    - destruct (IH ltac:(intros b bs I; apply (NA b bs), in_or_app; auto)) as [F T]. clear IH.
      rewrite !app_assoc, met_snoc, <- app_assoc. set (g := met u v self other an (l ++ map Turn ks ++ quiet)) in *. cbv zeta.
      assert (Sx : silence (quiet ++ [x]) = match x with Wait ms => silence quiet + ms | Arrive (_ :: _) => 0 | _ => silence quiet end) by (unfold silence; rewrite fold_left_app; reflexivity).
      rewrite Sx. clear Sx. destruct x as [j|bs|ms|]; cbn [meet].
      + split; [apply turn_fine; exact F|]. destruct T as [(q & T & Q)|(e & T)]; unfold daemon_turn; rewrite T; [|right; eauto].
        unfold fine in F. rewrite T in F. destruct F as (_ & F & _). rewrite F, Dn.
        destruct (_ || _); [right; eexists; reflexivity|left; eauto].
      + destruct bs as [|b bs]; [|destruct (NA b bs); apply in_or_app; right; left; reflexivity].
        destruct (client_closed (wire g)); [auto|]. split; [rewrite <- (app_nil_r (sent l)); apply arrive_fine; exact F|].
        destruct T as [(q & T & Q)|(e & T)]; unfold arrive; rewrite T; cbn [at_d]; [left|right]; eauto.
      + split; [apply wait_fine; exact F|]. destruct T as [(q & T & Q)|(e & T)]; unfold wait; rewrite T; cbn [at_d]; [left|right; eauto].
        eexists. split; [reflexivity|]. lia.
      + split; [apply hang_fine; exact F|]. destruct T as [(q & T & Q)|(e & T)]; unfold hang_up; rewrite T; cbn [at_d]; [left|right]; eauto. }
  cbv zeta in X. assert (Ef : f = daemon_turn u self other an k (met u v self other an (l ++ map Turn ks ++ quiet))) by (unfold f; rewrite !app_assoc, met_snoc; reflexivity).
  rewrite Ef. clear Ef f. set (g := met _ _ _ _ _ _) in *. destruct X as [F [(q & T & Q)|(e & T)]]; unfold fine in F; rewrite T in F; unfold daemon_turn; rewrite T.
  - destruct F as (F1 & F2 & F3 & F4). rewrite F2, Dn.
    replace (read_timeout <=? q) with true by (symmetry; apply N.leb_le; unfold read_timeout; lia). rewrite !orb_true_r. cbn. eauto.
  - split; [eauto|]. destruct F as (_ & F'). destruct e.
    + tauto.
    + destruct F' as [[F'|(pid & h & r & _ & _ & F')] F2]; [auto|congruence].
    + tauto.
    + destruct F' as ((pid & h & r & _ & _ & F' & _) & _). congruence.
Qed.
Print Assumptions C67_quiet.
(** A peer that sends one byte, and then is looked at every 50 milliseconds. *)
Example C67_quiet_case : let quiet := [Wait 50; Turn 0; Wait 50; Arrive []; Turn 0; Wait 50; Turn 0; Wait 50] in
  decode_from connect_header (sent [Arrive [129]]) = None /\ (forall b bs, ~ In (Arrive (b :: bs)) quiet) /\ 200 <= silence quiet.
Proof. split; [vm_compute; reflexivity|]. split; [|vm_compute; discriminate]. intros b bs I. cbn [In] in I. repeat (destruct I as [I|I]; [discriminate|]). exact I. Qed.

(** Nobody else is: whoever stays, sends what is or may become a request, and never leaves
    200 milliseconds without a byte of it, is only let go with its answer. *)
Theorem C67_in_time : forall unreadable version self other answer l more e,
  patient unreadable -> ~ In HangUp l -> decode_from connect_header (sent l ++ more) <> None ->
  (forall before after, l = before ++ after -> silence before < 200) ->
  at_d (met unreadable version self other answer l) = DGone e -> e = Served \/ e = Refused.
Proof.
  intros u v self other an l more e Pa NH Dc Q.
  enough (G : let f := met u v self other an l in (forall q, at_d f = DRequest q -> q <= silence l) /\ (forall e, at_d f = DGone e -> e = Served \/ e = Refused)) by apply (proj2 G).
  revert more Dc. induction l as [|x l IH] using rev_ind; intros more Dc; [split; intros; discriminate|].
  assert (HU : hung_up l = false).
  { unfold hung_up. destruct (existsb _ l) eqn:E; [|reflexivity]. apply existsb_exists in E as (y & I & Y). destruct y; try discriminate. destruct NH. apply in_or_app. auto. }
  assert (Dc' : decode_from connect_header (sent l ++ match x with Arrive bs => bs ++ more | _ => more end) <> None).
  { rewrite sent_snoc, HU, <- app_assoc in Dc. destruct x; exact Dc. }
  destruct (IH ltac:(intros K; apply NH, in_or_app; auto) ltac:(intros b a E; apply (Q b (a ++ [x])); rewrite E, app_assoc; reflexivity) _ Dc') as [Iq Ig]. clear IH Dc.
  assert (Ql : silence l < 200) by (apply (Q l [x]); reflexivity).
  destruct (met_fine u v self other an l) as [F C]. rewrite HU in C. rewrite met_snoc. set (f := met u v self other an l) in *. cbv zeta.
  assert (Sx : silence (l ++ [x]) = match x with Wait ms => silence l + ms | Arrive (_ :: _) => 0 | _ => silence l end) by (unfold silence; rewrite fold_left_app; reflexivity).
  rewrite Sx. destruct x as [k|bs|ms|]; cbn [meet].
  - unfold daemon_turn. destruct (at_d f) as [rest|q|h|rest|h rest|e'] eqn:A.
    + rewrite C. destruct (skipn (S k) rest); cbn [at_d]; split; intros ? E; try discriminate. injection E as <-. lia.
    + unfold fine in F. rewrite A in F. destruct F as (_ & F & _). rewrite C, F. cbn [orb]. specialize (Iq q eq_refl). destruct (decode_from connect_header (sent l)) as [[h r]|] eqn:D; [cbn [at_d]; split; intros ? E; discriminate|].
      destruct (u connect_header (sent l)) eqn:U; [destruct Dc'; apply Pa; exact U|]. cbn [orb]. destruct (read_timeout <=? q) eqn:T; [apply N.leb_le in T; unfold read_timeout in T; lia|].
      rewrite A. split; intros ? E; [injection E as <-; exact Iq|discriminate].
    + destruct (check_peer self other); cbn [at_d]; split; intros ? E; discriminate.
    + destruct rest; [unfold end_with|rewrite C]; cbn [at_d]; split; intros ? E; try discriminate. injection E as <-. auto.
    + destruct rest; [destruct (is_attach h); unfold end_with|rewrite C]; cbn [at_d]; split; intros ? E; try discriminate; injection E as <-; auto.
    + rewrite A. split; intros ? E; [discriminate|apply Ig; exact E].
  - rewrite C. unfold arrive. cbn [at_d]. destruct (at_d f) as [rest|q|h|rest|h rest|e'] eqn:A; try (split; intros ? E; discriminate); [|split; intros ? E; [discriminate|apply Ig; exact E]].
    destruct bs; split; intros ? E; try discriminate; injection E as <-; [apply Iq; reflexivity|lia].
  - unfold wait. cbn [at_d]. destruct (at_d f) as [rest|q|h|rest|h rest|e'] eqn:A; try (split; intros ? E; discriminate); [|split; intros ? E; [discriminate|apply Ig; exact E]].
    split; intros ? E; [|discriminate]. injection E as <-. specialize (Iq q eq_refl). lia.
  - destruct NH. apply in_or_app. cbn. auto.
Qed.
Print Assumptions C67_in_time.

(** And that is the end: nothing that comes later is read, answered or done. *)
Theorem C67_final : forall unreadable version self other answer l l' e,
  at_d (met unreadable version self other answer l) = DGone e ->
  let f := met unreadable version self other answer l in let f' := met unreadable version self other answer (l ++ l') in
  at_d f' = DGone e /\ handled f' = handled f /\ down (wire f') = down (wire f) /\ daemon_closed (wire f') = daemon_closed (wire f).
Proof. intros u v self other an l l' e G f f'. unfold f'. rewrite met_app. apply gone_stays. exact G. Qed.
Print Assumptions C67_final.

(** A program that only connects to see whether the daemon is there does no harm. *)
Theorem C67_probe : forall unreadable version self other answer k l,
  let f := met unreadable version self other answer (HangUp :: Turn k :: l) in
  at_d f = DGone Probe /\ handled f = [] /\ down (wire f) = [].
Proof.
  intros u v self other an k l f. destruct (C67_final u v self other an [HangUp; Turn k] l Probe eq_refl) as (A & B & C & _). auto.
Qed.
Print Assumptions C67_probe.

(** Every connection is accepted under its own number, whatever accepting others came to,
    and what becomes of it depends on nothing but itself. *)
Theorem C67_each_alone : forall unreadable version self other answer l,
  conns (serve unreadable version self other answer l) =
  map (fun i => (N.of_nat i, met unreadable version self other answer (own 0 (N.of_nat i) l))) (seq 1 (N.to_nat (arrivals l))).
Proof. intros u v self other an l. apply serve_conns. Qed.
Print Assumptions C67_each_alone.

Definition same_user : peer * peer := ({| p_uid := 1000; p_pid := 7; p_exe := Some (lit "shpool") |}, {| p_uid := 1000; p_pid := 42; p_exe := Some (lit "shpool") |}).
Definition another_user : peer * peer := (fst same_user, {| p_uid := 1001; p_pid := 43; p_exe := Some (lit "shpool") |}).
Definition the_bytes : list byte := encode_to connect_header (request_message GetVars).
Definition vars_reply : WireSpec.reply := Switch None [(lit "w", lit "main")].
Definition the_answer (h : value) : list byte := encode_to maybe_switch (reply_message vars_reply).

(** A request that arrives in three pieces, with pauses in between. *)
Example C67_in_pieces :
  let l := [Turn 3; Arrive (firstn 2 the_bytes); Turn 100; Wait 100; Turn 0; Arrive (firstn 3 (skipn 2 the_bytes)); Wait 150; Turn 0; Arrive (skipn 5 the_bytes)] in
  ~ In HangUp l /\ decode_from connect_header (sent l) = Some (request_message GetVars, []) /\
  (forall e, at_d (met (fun _ _ => false) (lit "0.4.2") (fst same_user) (snd same_user) the_answer l) <> DGone e) /\
  handled (met (fun _ _ => false) (lit "0.4.2") (fst same_user) (snd same_user) the_answer (l ++ map Turn (repeat 7%nat 8))) = [(42%Z, request_message GetVars)].
Proof. vm_compute. repeat split; try discriminate. intros H; repeat destruct H as [H|H]; try discriminate; exact H. Qed.

(** This sender is never quiet for that long, and the last bytes come after 198 milliseconds. *)
Example C67_just_in_time :
  let l := [Turn 3; Turn 100; Turn 0; Arrive (firstn 2 the_bytes); Wait 199; Turn 0; Arrive (firstn 3 (skipn 2 the_bytes)); Turn 0; Wait 198; Turn 0; Arrive (skipn 5 the_bytes); Turn 0; Turn 0; Turn 99; Turn 0] in
  ~ In HangUp l /\ decode_from connect_header (sent l ++ []) <> None /\ forallb (fun n => silence (firstn n l) <? 200) (seq 0 16) = true /\
  at_d (met (fun _ _ => false) (lit "0.4.2") (fst same_user) (snd same_user) the_answer l) = DGone Served.
Proof. vm_compute. repeat split; try discriminate. intros H; repeat destruct H as [H|H]; try discriminate; exact H. Qed.

(** Nobody of another user gets anything done, and only an attach is told so. *)
Example C67_of_another_user :
  let f l := met (fun _ _ => false) (lit "0.4.2") (fst another_user) (snd another_user) the_answer (l ++ map Turn (repeat 99%nat 8)) in
  at_d (f [Arrive the_bytes]) = DGone Refused /\ handled (f [Arrive the_bytes]) = [] /\
  down (wire (f [Arrive the_bytes])) = encode_to version_header (reply_message (VersionIs (lit "0.4.2"))).
Proof. vm_compute. auto. Qed.

(** Three connections, the second of which was closed before it was accepted. *)
Example C67_a_crowd :
  map fst (conns (serve (fun _ _ => false) (lit "0.4.2") (fst same_user) (snd same_user) the_answer
    [Accept true; At 1 (Turn 3); Accept false; Accept true; At 2 HangUp; At 2 (Turn 0); Accept true; At 3 (Arrive the_bytes); At 1 (Arrive the_bytes)])) = [1; 2; 3].
Proof. vm_compute. reflexivity. Qed.

(** Between a client and the daemon of the same user, each program of this code: whatever
    the schedule, the delays and the cuts, and whether or not the client is killed, the
    daemon takes nothing but the client's request, and takes it once; what the client
    takes for the reply is the daemon's, and what the daemon writes after it is left in
    the stream, byte for byte. *)
Theorem C67_exact : forall unreadable version self other answer own_version silent background (q : WireSpec.request) (p : WireSpec.reply) frames pid l,
  patient unreadable -> text version -> WireSpec.request_ok q -> WireSpec.reply_ok p ->
  answer (request_message q) = encode_to (reply_type p) (reply_message p) ++ frames -> check_peer self other = Ok pid ->
  let t := talk_run unreadable self other answer own_version silent background (request_message q) (reply_type p) (begun version) l in
  (handled (daemon t) = [] \/ handled (daemon t) = [(pid, request_message q)]) /\
  forall v, at_c t = CDone v ->
    v = reply_message p /\ handled (daemon t) = [(pid, request_message q)] /\ begins (down (wire (daemon t))) frames /\
    (at_d (daemon t) = DGone Served -> down (wire (daemon t)) = frames).
Proof.
  intros u v self other an ov si ba q p fr pid l Pa Tv Rq Rp An Al t.
  assert (Ht : has_type version_header (VRec [VStr v])) by exact (t_reply (VersionIs v) Tv).
  assert (Ir : In (reply_type p) messages) by (destruct p; unfold messages; repeat (try (left; reflexivity); right)).
  pose proof (ok_run u v self other an ov si ba (request_message q) (reply_type p) (reply_message p) fr pid Pa Ht (t_request q Rq) Ir (t_reply p Rp) An Al l) as O. fold t in O. split.
  - eapply ok_handled. exact O.
  - intros w E. eapply ok_done; eauto using t_request, t_reply.
Qed.
Print Assumptions C67_exact.

(** And it comes to that: in a bounded number of rounds, as long as the versions can be
    compared and the daemon never waits for the client for 200 milliseconds. *)
Theorem C67_completes : forall unreadable version self other answer own_version silent background (q : WireSpec.request) (p : WireSpec.reply) frames pid rounds,
  patient unreadable -> text version -> WireSpec.request_ok q -> WireSpec.reply_ok p ->
  answer (request_message q) = encode_to (reply_type p) (reply_message p) ++ frames -> check_peer self other = Ok pid ->
  (forall e, client_new own_version (Some version) <> ConnectFails e) ->
  Forall round rounds -> Forall unharmed (concat rounds) ->
  (length (encode_to version_header (VRec [VStr version])) + length (encode_to connect_header (request_message q)) + length (answer (request_message q)) + 7 < length rounds)%nat ->
  let run := talk_run unreadable self other answer own_version silent background (request_message q) (reply_type p) (begun version) in
  (forall before after, concat rounds = before ++ after -> ~ waited 200 (daemon (run before))) ->
  at_c (run (concat rounds)) = CDone (reply_message p) /\ handled (daemon (run (concat rounds))) = [(pid, request_message q)].
Proof.
  intros u v self other an ov si ba q p fr pid rounds Pa Tv Rq Rp An Al Co Ro Un L run Wa.
  assert (Ht : has_type version_header (VRec [VStr v])) by exact (t_reply (VersionIs v) Tv).
  assert (Ir : In (reply_type p) messages) by (destruct p; unfold messages; repeat (try (left; reflexivity); right)).
  destruct (completes u v self other an ov si ba (request_message q) (reply_type p) (reply_message p) fr pid Pa Ht (t_request q Rq) Ir (t_reply p Rp) An Al Co rounds (begun v)) as [O (w & D)].
  - apply busy_begun.
  - exact Ro.
  - exact Un.
  - exact Wa.
  - unfold left_to_do, begun, accepted, md, mc. cbn [daemon at_c at_d]. unfold version_bytes. rewrite An in L. lia.
  - destruct (ok_done v an (request_message q) (reply_type p) (reply_message p) fr pid Ir (t_reply p Rp) An _ w O D) as (-> & H & _). split; [exact D|exact H].
Qed.
Print Assumptions C67_completes.

(** A conversation that meets the hypotheses, each program writing a byte or two at a time
    and ten milliseconds going by in each round. *)
Definition a_round : list move := [Daemon 0; Pass 10; Client 1; Key (GotByte 10)].
Definition held := talk_run (fun _ _ => false) (fst same_user) (snd same_user) the_answer (lit "0.4.2") false false (request_message GetVars) maybe_switch (begun (lit "0.5.0")).
Lemma in_time_checked (P : talk -> bool) (run : list move -> talk) (l : list move) : (forall t, P t = true -> ~ waited 200 (daemon t)) ->
  forallb (fun n => P (run (firstn n l))) (seq 0 (Datatypes.S (length l))) = true -> forall before after, l = before ++ after -> ~ waited 200 (daemon (run before)).
Proof.
  intros H A before after E. apply H. rewrite forallb_forall in A. specialize (A (length before)). rewrite E, firstn_app, firstn_all, Nat.sub_diag, firstn_O, app_nil_r in A.
  apply A. rewrite app_length. apply in_seq. lia.
Qed.
Example C67_held :
  let rounds := repeat a_round 75 in
  patient (fun _ _ => false) /\ text (lit "0.5.0") /\ WireSpec.request_ok GetVars /\ WireSpec.reply_ok vars_reply /\
  the_answer (request_message GetVars) = encode_to (reply_type vars_reply) (reply_message vars_reply) ++ [] /\
  check_peer (fst same_user) (snd same_user) = Ok 42%Z /\ client_new (lit "0.4.2") (Some (lit "0.5.0")) = WarnClientOlder /\
  Forall round rounds /\ Forall unharmed (concat rounds) /\
  (length (encode_to version_header (VRec [VStr (lit "0.5.0")])) + length (encode_to connect_header (request_message GetVars)) + length (the_answer (request_message GetVars)) + 7 < length rounds)%nat /\
  (forall before after, concat rounds = before ++ after -> ~ waited 200 (daemon (held before))).
Proof.
  cbv zeta. split; [intros ? ? ? H; discriminate|]. split; [split; [reflexivity|vm_compute; reflexivity]|]. split; [exact I|]. split.
  { cbn. split; [trivial|]. split; [|vm_compute; reflexivity]. repeat constructor; vm_compute; reflexivity. }
  split; [vm_compute; reflexivity|]. split; [reflexivity|]. split; [vm_compute; reflexivity|]. split.
  { apply Forall_forall. intros r Hr. apply repeat_spec in Hr. subst r. unfold round, a_round. split; [exists 0%nat; cbn; auto|]. split; [exists 1%nat; cbn; auto|cbn; auto]. }
  split. { apply Forall_forall. intros m Hm. apply in_concat in Hm as (r & Hr & Hm). apply repeat_spec in Hr. subst r. cbn in Hm. unfold unharmed.
    repeat destruct Hm as [<-|Hm]; try (split; discriminate). destruct Hm. }
  split; [vm_compute; lia|].
  apply (in_time_checked (fun t => match at_d (daemon t) with DRequest q => q <? 200 | _ => true end)).
  - intros t H (q & Q & L). rewrite Q in H. apply N.ltb_lt in H. lia.
  - vm_compute. reflexivity.
Qed.

(** A client does not give up on a daemon that never gets round to it: before the version
    has come, nothing but the user ends it. *)
Theorem C67_no_daemon : forall unreadable version self other answer own_version silent background request reply_ty l,
  patient unreadable -> text version -> (forall k, ~ In (Daemon k) l) -> ~ In Dies l ->
  at_c (talk_run unreadable self other answer own_version silent background request reply_ty (begun version) l) = CVersion.
Proof.
  intros u v self other an ov si ba rq ty l Pa Tv N1 N2.
  enough (G : let t := talk_run u self other an ov si ba rq ty (begun v) l in at_c t = CVersion /\ down (wire (daemon t)) = [] /\ daemon_closed (wire (daemon t)) = false) by apply G.
  unfold talk_run. induction l as [|m l IH] using rev_ind; [repeat split|]. rewrite fold_left_app. cbn [fold_left]. cbv zeta.
  assert (IH' := IH ltac:(intros k K; apply (N1 k), in_or_app; auto) ltac:(intros K; apply N2, in_or_app; auto)). clear IH. cbv zeta in IH'.
  set (t := fold_left _ l _) in *. destruct IH' as (A & B & C). destruct m as [k|k|r|ms|]; cbn [talk_step].
  - destruct (N1 k). apply in_or_app. cbn. auto.
  - unfold client_turn. rewrite A, B, C. cbn [orb]. rewrite nothing_reads. destruct (u version_header []) eqn:U; [|auto].
    apply (Pa _ _ (version_bytes v)) in U. cbn [app] in U. pose proof (round_trip version_header (VRec [VStr v]) [] ltac:(left; reflexivity) (t_reply (VersionIs v) Tv)) as H.
    rewrite app_nil_r in H. unfold version_bytes in U. congruence.
  - unfold typed. rewrite A. auto.
  - auto.
  - destruct N2. apply in_or_app. cbn. auto.
Qed.
Print Assumptions C67_no_daemon.

(** The user is asked exactly if the versions differ and the command may ask; and as long
    as nothing has been typed then, nothing is sent. *)
Theorem C67_asked : forall unreadable version self other answer own_version silent background (q : WireSpec.request) (p : WireSpec.reply) frames pid l,
  patient unreadable -> text version -> WireSpec.request_ok q -> WireSpec.reply_ok p ->
  answer (request_message q) = encode_to (reply_type p) (reply_message p) ++ frames -> check_peer self other = Ok pid ->
  let t := talk_run unreadable self other answer own_version silent background (request_message q) (reply_type p) (begun version) l in
  let differ := client_new own_version (Some version) = WarnClientOlder \/ client_new own_version (Some version) = WarnClientNewer in
  (at_c t = CAsk -> silent = false /\ background = false /\ differ) /\
  (silent = false -> background = false -> differ -> (forall r, ~ In (Key r) l) -> at_c t = CVersion \/ at_c t = CAsk \/ at_c t = CFailed).
Proof.
  intros u v self other an ov si ba q p fr pid l Pa Tv Rq Rp An Al t differ.
  assert (Ht : has_type version_header (VRec [VStr v])) by exact (t_reply (VersionIs v) Tv).
  assert (Ir : In (reply_type p) messages) by (destruct p; unfold messages; repeat (try (left; reflexivity); right)).
  exact (asked_run u v self other an ov si ba (request_message q) (reply_type p) (reply_message p) fr pid Pa Ht (t_request q Rq) Ir (t_reply p Rp) An Al l).
Qed.
Print Assumptions C67_asked.
