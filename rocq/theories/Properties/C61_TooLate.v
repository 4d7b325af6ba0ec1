(** C61: what comes of the answer to the question asked of a user whose daemon is of
    another version. *)
From Coq Require Import String List NArith ZArith Bool Arith Lia.
From Verif Require Import Model.Base Model.Version Model.Msgpack Model.Messages Model.Dial Model.Server Model.Handshake
  Spec.MessagesSpec Spec.WireSpec Spec.HandshakeSpec Proofs.MessagesProofs Proofs.WireProofs Proofs.HandshakeProofs Properties.C67_Handshake.
Import ListNotations.
Open Scope N_scope.

(** The question a user is asked when the versions differ promises that enter goes on
    anyway.  It does only if it is answered within a fifth of a second: the daemon has
    stopped waiting by then, and no schedule leads to a reply. *)
Theorem C61_asked_too_late : forall unreadable version self other answer own_version silent background (q : WireSpec.request) (p : WireSpec.reply) frames pid,
  patient unreadable -> text version -> WireSpec.request_ok q -> WireSpec.reply_ok p ->
  answer (request_message q) = encode_to (reply_type p) (reply_message p) ++ frames -> check_peer self other = Ok pid ->
  let run := talk_run unreadable self other answer own_version silent background (request_message q) (reply_type p) (begun version) in
  forall before k after, at_c (run before) = CAsk -> waited 200 (daemon (run before)) ->
  handled (daemon (run (before ++ Daemon k :: after))) = [] /\ forall v, at_c (run (before ++ Daemon k :: after)) <> CDone v.
Proof.
  intros u v self other an ov si ba q p fr pid Pa Tv Rq Rp An Al run before k after Ask W.
  assert (Ht : has_type version_header (VRec [VStr v])) by exact (t_reply (VersionIs v) Tv).
  assert (Ir : In (reply_type p) messages) by (destruct p; unfold messages; repeat (try (left; reflexivity); right)).
  assert (Okr : forall l, ok v (request_message q) (reply_type p) (reply_message p) fr pid (run l)).
  { intros l. exact (ok_run u v self other an ov si ba (request_message q) (reply_type p) (reply_message p) fr pid Pa Ht (t_request q Rq) Ir (t_reply p Rp) An Al l). }
  destruct (asked_late u v self other an ov si ba (request_message q) (reply_type p) (reply_message p) fr pid (run before) k (Okr before) Ask W) as [G H].
  assert (E : run (before ++ Daemon k :: after) = talk_run u self other an ov si ba (request_message q) (reply_type p) (talk_step u self other an ov si ba (request_message q) (reply_type p) (run before) (Daemon k)) after).
  { unfold run, talk_run. rewrite fold_left_app. reflexivity. }
  destruct (gone_run u self other an ov si ba (request_message q) (reply_type p) after _ _ G) as [_ H']. rewrite <- E, H in H'. split; [exact H'|].
  intros w D. destruct (ok_done v an (request_message q) (reply_type p) (reply_message p) fr pid Ir (t_reply p Rp) An _ w (Okr _) D) as (_ & X & _). congruence.
Qed.
Print Assumptions C61_asked_too_late.

(** So it is with an attach of version 0.4.2 to a daemon of version 0.5.0 whose user reads
    the warning for a quarter of a second. *)
Theorem C61_continue_anyway_refuted : exists before, at_c (held before) = CAsk /\ waited 200 (daemon (held before)) /\
  forall k after v, at_c (held (before ++ Daemon k :: Key (GotByte 10) :: after)) <> CDone v.
Proof.
  exists [Daemon 99; Client 99; Pass 250]. split; [vm_compute; reflexivity|]. split; [exists 250; split; [vm_compute; reflexivity|lia]|]. intros k after.
  refine (proj2 (C61_asked_too_late (fun _ _ => false) (lit "0.5.0") (fst same_user) (snd same_user) the_answer (lit "0.4.2") false false GetVars vars_reply [] 42%Z
    ltac:(intros ? ? ? H; discriminate) ltac:(split; vm_compute; reflexivity) I _ eq_refl eq_refl [Daemon 99; Client 99; Pass 250] k (Key (GotByte 10) :: after) eq_refl _)).
  - cbn. split; [trivial|]. split; [|vm_compute; reflexivity]. repeat constructor; vm_compute; reflexivity.
  - exists 250. split; [vm_compute; reflexivity|lia].
Qed.
Print Assumptions C61_continue_anyway_refuted.
