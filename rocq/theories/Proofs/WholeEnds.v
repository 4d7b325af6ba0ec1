(** Proofs that a command comes to its end, for C80. *)
From Coq Require Import String List NArith ZArith Bool Arith Lia.
From Verif Require Import Model.Base Model.Protocol Model.Msgpack Model.Messages Model.UserInfo Model.AttachClient Model.Commands
  Spec.MessagesSpec Spec.UserInfoSpec Spec.WireSpec Spec.ServerSpec Spec.HandshakeSpec Proofs.BaseLemmas Proofs.UserInfoProofs Proofs.WireProofs
  Proofs.ServerProofs Proofs.ServerMoves Proofs.ServerGossip Proofs.HandshakeProofs Proofs.WholeServer Model.WholeCommand Spec.WholeCommandSpec Proofs.WholeCommandProofs.
From Verif Require Model.Server Model.Handshake Model.Version Model.Dial.
Import ListNotations.
Open Scope N_scope.

(** A small answer. *)
Lemma answer_small cmd : exists a, has_type (answer_type cmd) a /\ (length (encode_to (answer_type cmd) a) <= 50)%nat.
Proof.
  destruct cmd as [| | |[]]; cbn [answer_type]; eexists; split.
  - apply (t_reply (Sessions [])). split; [constructor|cbn; lia].
  - apply Nat.leb_le. vm_compute. reflexivity.
  - apply (t_reply (KillFailed [])). split; [constructor|cbn; lia].
  - apply Nat.leb_le. vm_compute. reflexivity.
  - apply (t_reply (DetachFailed [] [])). split; (split; [constructor|cbn; lia]).
  - apply Nat.leb_le. vm_compute. reflexivity.
  - apply (t_reply (Switch None [])). split; [exact I|]. split; [constructor|cbn; lia].
  - apply Nat.leb_le. vm_compute. reflexivity.
  - apply (t_reply (Switch None [])). split; [exact I|]. split; [constructor|cbn; lia].
  - apply Nat.leb_le. vm_compute. reflexivity.
  - apply (t_reply WireSpec.VarSet). exact I.
  - apply Nat.leb_le. vm_compute. reflexivity.
  - apply (t_reply WireSpec.VarSet). exact I.
  - apply Nat.leb_le. vm_compute. reflexivity.
Qed.

(** The moves of a conversation a deed stands for; a key in between does nothing. *)
Definition tr (d : deed) : list Handshake.move :=
  match d with
  | Others _ => []
  | Daemon k => [Handshake.Daemon k]
  | Client k => [Handshake.Key (Dial.GotByte 10); Handshake.Client k]
  | Pass ms => [Handshake.Pass ms]
  | Dies => [Handshake.Dies]
  end.
Lemma tr_prefix m : forall p q, flat_map tr m = p ++ q ->
  exists m1 m2, m = m1 ++ m2 /\ (p = flat_map tr m1 \/ p = flat_map tr m1 ++ [Handshake.Key (Dial.GotByte 10)]).
Proof.
  induction m as [|d m IH]; intros p q E.
  - destruct p; [|discriminate]. exists [], []. auto.
  - destruct p as [|x p]; [exists [], (d :: m); auto|]. cbn [flat_map] in E.
    assert (Step : forall p' q', tr d ++ p' = x :: p -> flat_map tr m = p' ++ q' -> exists m1 m2, d :: m = m1 ++ m2 /\ (x :: p = flat_map tr m1 \/ x :: p = flat_map tr m1 ++ [Handshake.Key (Dial.GotByte 10)])).
    { intros p' q' X Y. destruct (IH p' q' Y) as (m1 & m2 & -> & H). exists (d :: m1), m2. split; [reflexivity|]. rewrite <- X. cbn [flat_map]. rewrite <- app_assoc. destruct H as [->| ->]; auto. }
    destruct d as [a|k|k|ms|]; cbn [tr app] in E.
    + exact (Step (x :: p) q eq_refl E).
    + injection E as <- E. exact (Step p q eq_refl E).
    + injection E as <- E. destruct p as [|y p]; [exists [], (Client k :: m); auto|]. injection E as <- E. exact (Step p q eq_refl E).
    + injection E as <- E. exact (Step p q eq_refl E).
    + injection E as <- E. exact (Step p q eq_refl E).
Qed.
Lemma tr_concat rounds : concat (map (flat_map tr) rounds) = flat_map tr (concat rounds).
Proof. induction rounds as [|r rounds IH]; [reflexivity|]. cbn [map concat]. rewrite IH, flat_map_app. reflexivity. Qed.
Lemma tr_unharmed m : ~ In Dies m -> Forall unharmed (flat_map tr m).
Proof.
  intros N. apply Forall_forall. intros x H. apply in_flat_map in H as (d & Hd & Hx). destruct d as [a|k|k|ms|]; cbn [tr] in Hx.
  - destruct Hx.
  - destruct Hx as [<-|[]]. split; discriminate.
  - destruct Hx as [<-|[<-|[]]]; split; discriminate.
  - destruct Hx as [<-|[]]. split; discriminate.
  - destruct (N Hd).
Qed.
Lemma tr_round r : turns r -> round (flat_map tr r).
Proof.
  intros [(k & Hk) (j & Hj)]. split; [|split].
  - exists k. apply in_flat_map. exists (Daemon k). split; [exact Hk|left; reflexivity].
  - exists j. apply in_flat_map. exists (Client j). split; [exact Hj|right; left; reflexivity].
  - apply in_flat_map. exists (Client j). split; [exact Hj|left; reflexivity].
Qed.

Section Ends.
  Variables (unreadable : ty -> list byte -> bool) (version : rstr) (self other : Server.peer) (own_version : rstr)
            (c : Server.conn) (current : option rstr) (cmd : command) (defaults : list (rstr * rstr)).
  Notation act := (act unreadable self other own_version c current cmd).
  Notation acts := (acts unreadable version self other own_version c current cmd defaults).
  Notation reply_to := (reply_to c).
  Notation told := (told unreadable version self other own_version c current cmd defaults).

  Variables (q : Server.request) (pid : Z) (request : value).
  Hypothesis patience : patient unreadable.
  Hypothesis version_ok : text version.
  Hypothesis meaning : meant current cmd q.
  Hypothesis wished : wish current cmd = Some request.
  Hypothesis request_ok : has_type connect_header request.
  Hypothesis request_is : request_of request = Some q.
  Hypothesis spoken : speakable q.
  Hypothesis allowed : Server.check_peer self other = Ok pid.
  Hypothesis comparable : forall e, Version.client_new own_version (Some version) <> Version.ConnectFails e.

  Notation ok a := (ok version request (answer_type cmd) a [] pid).
  Notation good_of l T := (good_all unreadable version self other own_version c current cmd defaults q pid request patience version_ok meaning wished request_ok request_is spoken allowed l T).
  Notation fair_of l T := (fair_all unreadable version self other own_version c current cmd defaults q pid request patience version_ok meaning wished request_ok request_is spoken allowed l T).

  Section Answer.
    Variable a : value.
    Hypothesis a_ok : has_type (answer_type cmd) a.
    Notation step := (Handshake.talk_step unreadable self other (fun _ => encode_to (answer_type cmd) a) own_version true false request (answer_type cmd)).
    Notation run := (Handshake.talk_run unreadable self other (fun _ => encode_to (answer_type cmd) a) own_version true false request (answer_type cmd)).

    Definition unasked (t : Handshake.talk) : Prop := Handshake.at_c t <> Handshake.CAsk.
    Lemma unasked_client k t : unasked t -> unasked (Handshake.client_turn unreadable own_version true false request (answer_type cmd) k t).
    Proof.
      intros N. unfold unasked in *. assert (D : forall x y, Handshake.at_c (Handshake.dialled_with true false request x y) <> Handshake.CAsk) by (intros [] y; discriminate).
      unfold Handshake.client_turn. destruct (Handshake.at_c t) eqn:E; try congruence.
      - destruct (decode_from version_header _) as [[v rest]|].
        + repeat match goal with
                 | |- context [match ?x with _ => _ end] => is_var x; destruct x; try (destruct (_ || _); [apply D|congruence])
                 end; apply D.
        + destruct (_ || _); [apply D|congruence].
      - destruct (Handshake.daemon_closed _); [discriminate|]. destruct (skipn _ _); discriminate.
      - destruct (decode_from _ _) as [[]|]; [discriminate|]. destruct (_ || _); [discriminate|congruence].
    Qed.
    Lemma typed_unasked r t : unasked t -> Handshake.typed request r t = t.
    Proof. intros N. unfold Handshake.typed, unasked in *. destruct (Handshake.at_c t); try reflexivity. congruence. Qed.

    Definition answered (w : world) : Prop := asked w = true /\ exists r, reply_to (srv w) = Some r /\ reply_value r = Some (answer_type cmd, a).
    Lemma like w d : d <> Dies -> unasked (talk w) -> asked (act w d) = false \/ answered w -> talk (act w d) = run (talk w) (tr d) /\ unasked (talk (act w d)).
    Proof.
      intros ND N H. destruct d as [x|k|k|ms|]; cbn [WholeCommand.act tr Handshake.talk_run fold_left] in *.
      - destruct (mine c x); auto.
      - unfold daemon_move in *. unfold Handshake.talk_run. cbn [fold_left Handshake.talk_step].
        destruct (Handshake.at_d (Handshake.daemon (talk w))) as [rest|qt|h|rest|h rest|e] eqn:E;
          try (cbn [talk]; rewrite (daemon_turn_answer unreadable self other (fun _ => []) (fun _ => encode_to (answer_type cmd) a) k _ ltac:(intros ? X; rewrite E in X; discriminate)); split; [reflexivity|exact N]).
        destruct (asked w) eqn:As; cbn [negb] in *; [|destruct H as [H|[H _]]; [discriminate|congruence]]. rewrite allowed in *.
        destruct H as [H|(_ & r & Hr & Hv)].
        + exfalso. destruct (WholeCommand.reply_to c (srv w)); [cbn in H; congruence|]. destruct (Server.handlers (srv w) c); cbn in H; congruence.
        + rewrite Hr. cbn [talk]. unfold reply_bytes. rewrite Hv. split; [reflexivity|exact N].
      - rewrite client_move_talk with (request := request) by exact wished. unfold Handshake.talk_run. cbn [fold_left Handshake.talk_step]. rewrite typed_unasked by exact N. split; [reflexivity|apply unasked_client; exact N].
      - cbn [talk]. split; [reflexivity|exact N].
      - congruence.
    Qed.
    Lemma likewise w m : ~ In Dies m -> unasked (talk w) -> (forall m1 d m2, m = m1 ++ d :: m2 -> asked (fold_left act (m1 ++ [d]) w) = false \/ answered (fold_left act m1 w)) ->
      talk (fold_left act m w) = run (talk w) (flat_map tr m) /\ unasked (talk (fold_left act m w)).
    Proof.
      intros ND N. induction m as [|d m IH] using rev_ind; intros H; [auto|].
      destruct IH as [I1 I2].
      - intros X. apply ND. apply in_or_app. auto.
      - intros m1 x m2 ->. apply (H m1 x (m2 ++ [d])). rewrite <- app_assoc. reflexivity.
      - specialize (H m d [] eq_refl). rewrite fold_left_app in *. cbn [fold_left] in *.
        destruct (like (fold_left act m w) d ltac:(intros ->; apply ND; apply in_or_app; right; left; reflexivity) I2 H) as [L1 L2]. split; [|exact L2].
        rewrite L1, I1, flat_map_app. cbn [flat_map]. rewrite app_nil_r. unfold Handshake.talk_run. rewrite fold_left_app. reflexivity.
    Qed.

    Lemma finishes w rounds : let m := concat rounds in ~ In Dies m -> unasked (talk w) ->
      (forall m1 d m2, m = m1 ++ d :: m2 -> asked (fold_left act (m1 ++ [d]) w) = false \/ answered (fold_left act m1 w)) ->
      (forall m1 m2, m = m1 ++ m2 -> ~ waited 200 (Handshake.daemon (talk (fold_left act m1 w)))) ->
      busy version request (answer_type cmd) a [] pid (talk w) -> Forall turns rounds ->
      (left_to_do request (answer_type cmd) a [] (talk w) < length rounds)%nat ->
      finished version request (answer_type cmd) a [] pid (talk (fold_left act m w)).
    Proof.
      intros m ND N H W B F L. destruct (likewise w m ND N H) as [-> _]. unfold m. rewrite <- tr_concat.
      apply (completes unreadable version self other (fun _ => encode_to (answer_type cmd) a) own_version true false request (answer_type cmd) a [] pid patience (version_typed version version_ok) request_ok (answer_known cmd) a_ok ltac:(rewrite app_nil_r; reflexivity) allowed comparable).
      - exact B.
      - apply Forall_map. eapply Forall_impl; [|exact F]. exact tr_round.
      - rewrite tr_concat. apply tr_unharmed. exact ND.
      - rewrite tr_concat. intros p p' E. fold m in E. destruct (tr_prefix m p p' E) as (m1 & m2 & Em & Ep).
        assert (N1 : ~ In Dies m1) by (intros X; apply ND; rewrite Em; apply in_or_app; auto).
        destruct (likewise w m1 N1 N) as [L1 L2]; [intros x d y ->; apply (H x d (y ++ m2)); rewrite Em, <- app_assoc; reflexivity|].
        assert (R1 : run (talk w) p = talk (fold_left act m1 w)).
        { destruct Ep as [->| ->]; [symmetry; exact L1|]. unfold Handshake.talk_run. rewrite fold_left_app. cbn [fold_left Handshake.talk_step]. fold (run (talk w) (flat_map tr m1)). rewrite <- L1. apply typed_unasked. exact L2. }
        rewrite R1. exact (W m1 m2 Em).
      - rewrite map_length. exact L.
    Qed.
  End Answer.

  Lemma lives m : ~ In Dies m -> killed (acts m) = false.
  Proof.
    clear allowed.
    induction m as [|d m IH] using rev_ind; intros N; [reflexivity|]. rewrite acts_snoc. assert (K : killed (acts m) = false) by (apply IH; intros X; apply N; apply in_or_app; auto).
    destruct d as [x|k|k|ms|]; cbn [WholeCommand.act].
    - destruct (mine c x); exact K.
    - unfold daemon_move. destruct (Handshake.at_d _); try exact K. destruct (negb _); [exact K|].
      destruct (Server.check_peer self other); [destruct (WholeCommand.reply_to _ _); [|destruct (Server.handlers _ _)]|]; exact K.
    - exact K.
    - exact K.
    - destruct N. apply in_or_app. right. left. reflexivity.
  Qed.
  Lemma reply_on l m r : reply_to (srv (acts l)) = Some r -> reply_to (srv (acts (l ++ m))) = Some r.
  Proof.
    induction m as [|d m IH] using rev_ind; intros E; [rewrite app_nil_r; exact E|]. rewrite app_assoc, acts_snoc, act_srv.
    specialize (IH E). revert IH. generalize (srv (acts (l ++ m))) (did self other c (acts (l ++ m)) d). clear. intros st x. revert st. induction x as [|b x IH]; intros st E; [exact E|].
    apply (IH (Server.step st b)). exact (reply_in_stays c _ _ _ E).
  Qed.
  Lemma replied_asked l r : told l -> reply_to (srv (acts l)) = Some r -> asked (acts l) = true.
  Proof.
    intros T E. rewrite srv_trace in E.
    destruct (story_reply c self other q pid defaults (meant_plain _ _ _ meaning) allowed _ r (g_own _ _ _ _ _ _ _ _ _ _ _ _ _ (good_of l T)) E) as (t1 & b & t2 & Et & _ & _ & _ & _ & Nh).
    destruct (trace_split _ _ _ _ _ _ _ _ _ _ _ _ _ Et) as (l1 & d & l2 & -> & <- & _).
    assert (T1 : told l1) by (intros x y ->; apply (T x (y ++ d :: l2)); rewrite app_assoc; reflexivity).
    rewrite <- srv_trace in Nh. apply (asked_later unreadable version self other own_version c current cmd defaults pid allowed).
    exact (was_asked unreadable version self other own_version c current cmd defaults q pid request patience version_ok meaning wished request_ok request_is spoken allowed l1 T1 Nh).
  Qed.

  (** The request arrives. *)
  Lemma arrives rounds : let l := concat rounds in told l -> ~ In Dies l ->
    (forall m1 m2, l = m1 ++ m2 -> ~ waited 200 (Handshake.daemon (talk (acts m1)))) -> Forall turns rounds ->
    (length (encode_to version_header (VRec [VStr version])) + length (encode_to connect_header request) + 60 < length rounds)%nat -> asked (acts l) = true.
  Proof.
    intros l T ND W F L. destruct (asked (acts l)) eqn:As; [reflexivity|]. exfalso.
    assert (None_yet : forall m1 m2, l = m1 ++ m2 -> asked (acts m1) = false).
    { intros m1 m2 E. destruct (asked (acts m1)) eqn:X; [|reflexivity]. rewrite E, (asked_later unreadable version self other own_version c current cmd defaults pid allowed m1 m2 X) in As. discriminate. }
    destruct (answer_small cmd) as (a & Ta & La).
    destruct (finishes a Ta (at_first version defaults) rounds ND) as [_ (v & D)].
    - discriminate.
    - intros m1 d m2 E. left. apply (None_yet (m1 ++ [d]) m2). unfold l. rewrite E, <- app_assoc. reflexivity.
    - exact W.
    - apply busy_begun.
    - exact F.
    - unfold left_to_do, at_first, Handshake.begun, Handshake.accepted, md, mc. cbn [talk Handshake.daemon Handshake.at_c Handshake.at_d]. unfold Handshake.version_bytes. rewrite app_nil_r. lia.
    - destruct (done_reply unreadable version self other own_version c current cmd defaults q pid request patience version_ok meaning wished request_ok request_is spoken allowed l v T D) as (r & R & _).
      rewrite (replied_asked l r T R) in As. discriminate.
  Qed.

  (** Once answered the command ends. *)
  Lemma past l a r : told l -> killed (acts l) = false -> has_type (answer_type cmd) a -> reply_to (srv (acts l)) = Some r -> reply_value r = Some (answer_type cmd, a) ->
    ok a (talk (acts l)) /\ late (Handshake.at_c (talk (acts l))) /\ Handshake.at_c (talk (acts l)) <> Handshake.CFailed /\
    match Handshake.at_d (Handshake.daemon (talk (acts l))) with
    | Handshake.DPeer _ | Handshake.DAnswer _ _ | Handshake.DGone Handshake.Served => True
    | _ => False
    end.
  Proof.
    intros T K Ta R V. pose proof (good_of l T) as G. pose proof (fair_of l T) as Fr. pose proof (replied_asked l r T R) as As.
    assert (Ok : ok a (talk (acts l))).
    { apply (g_wire _ _ _ _ _ _ _ _ _ _ _ _ _ G). split; [exact Ta|]. intros r' X. rewrite R in X. injection X as <-. exact V. }
    pose proof (f_late _ _ _ _ _ _ _ _ _ _ Fr As) as La.
    assert (NF : Handshake.at_c (talk (acts l)) <> Handshake.CFailed).
    { intros X. rewrite (failed_unanswered unreadable version self other own_version c current cmd defaults q pid request patience version_ok meaning wished request_ok request_is spoken allowed l T K X) in R. discriminate. }
    split; [exact Ok|]. split; [exact La|]. split; [exact NF|].
    destruct (Handshake.handled (Handshake.daemon (talk (acts l)))) as [|x hs] eqn:Hd.
    - destruct (f_mute _ _ _ _ _ _ _ _ _ _ Fr As Hd) as [[h ->]|(_ & _ & X)]; [exact I|congruence].
    - destruct Ok as (S & O & rr & ES & D & C). unfold dok in D. destruct (Handshake.at_d _) as [rest|qt|h|rest|h rest|e]; try exact I.
      + destruct D as (_ & _ & D & _). congruence.
      + destruct D as (_ & _ & D & _). congruence.
      + exact D.
      + assert (CC : Handshake.client_closed (Handshake.wire (Handshake.daemon (talk (acts l)))) = false).
        { unfold cok in C. destruct (Handshake.at_c (talk (acts l))); try contradiction; try tauto; try congruence. }
        destruct e; try exact I; destruct D as (_ & _ & _ & [D|[_ D]]); congruence.
  Qed.
  Lemma told_prefix l m : told (l ++ m) -> told l.
  Proof. intros T x y ->. apply (T x (y ++ m)). rewrite app_assoc. reflexivity. Qed.

  Lemma done_on v ds : forall w, Handshake.at_c (talk w) = Handshake.CDone v -> Handshake.at_c (talk (fold_left act ds w)) = Handshake.CDone v.
  Proof.
    induction ds as [|d ds IH]; intros w AC; [exact AC|]. cbn [fold_left]. apply IH.
    destruct d as [x|k|k|ms|]; cbn [WholeCommand.act].
    - destruct (mine c x); exact AC.
    - unfold daemon_move. destruct (Handshake.at_d _); try exact AC. destruct (negb _); [exact AC|].
      destruct (Server.check_peer self other); [destruct (WholeCommand.reply_to _ _); [|destruct (Server.handlers _ _)]|]; exact AC.
    - rewrite client_move_talk with (request := request) by exact wished. unfold Handshake.client_turn. rewrite AC. exact AC.
    - exact AC.
    - rewrite AC. exact AC.
  Qed.

  Lemma ends_answered l rounds r : let m := l ++ concat rounds in told m -> ~ In Dies m -> reply_to (srv (acts l)) = Some r -> Forall turns rounds ->
    (length (reply_bytes r) + 3 < length rounds)%nat ->
    exists a, reply_value r = Some (answer_type cmd, a) /\ ended current cmd (acts m) = Some (finish current cmd (Some a)).
  Proof.
    intros m T ND R F L. assert (Tl : told l) by exact (told_prefix _ _ T). assert (Nl : ~ In Dies l) by (intros X; apply ND; apply in_or_app; auto).
    destruct (reply_typed unreadable version self other own_version c current cmd defaults q pid request meaning wished request_is spoken allowed l r Tl (g_own _ _ _ _ _ _ _ _ _ _ _ _ _ (good_of l Tl)) R) as (a & V & Ta).
    exists a. split; [exact V|].
    assert (All : forall m1 m2, concat rounds = m1 ++ m2 -> told (l ++ m1) /\ killed (acts (l ++ m1)) = false /\ reply_to (srv (acts (l ++ m1))) = Some r).
    { intros m1 m2 E. split; [|split].
      - apply (told_prefix _ m2). rewrite <- app_assoc, <- E. exact T.
      - apply lives. intros X. apply ND. unfold m. rewrite E, app_assoc. apply in_or_app. auto.
      - apply reply_on. exact R. }
    destruct (past l a r Tl (lives l Nl) Ta R V) as (Ok & La & NF & AD).
    assert (Fin : finished version request (answer_type cmd) a [] pid (talk (acts m))).
    { destruct (Handshake.at_c (talk (acts l))) as [| | | |v|] eqn:AC; try (exfalso; exact La).
      - unfold m. rewrite acts_app. apply finishes; auto.
        + intros X. apply ND. apply in_or_app. auto.
        + unfold unasked. rewrite AC. discriminate.
        + intros m1 d m2 E. right. rewrite <- acts_app. destruct (All m1 (d :: m2) E) as (T1 & _ & R1). split; [exact (replied_asked _ r T1 R1)|eauto].
        + intros m1 m2 E (qq & X & _). rewrite <- acts_app in X. destruct (All m1 m2 E) as (T1 & K1 & R1). destruct (past _ a r T1 K1 Ta R1 V) as (_ & _ & _ & Y). rewrite X in Y. exact Y.
        + split; [exact Ok|]. rewrite AC. split; [exact I|]. destruct (Handshake.at_d _) as [| | | | |[]]; try exact I; contradiction.
        + unfold reply_bytes in L. rewrite V in L. unfold left_to_do, mc. rewrite AC. destruct Ok as (S & O & rr & ES & D & C). unfold dok in D. unfold md.
          destruct (Handshake.at_d _) as [rest|qt|h|rest|h rest|e]; try contradiction; try (rewrite app_nil_r; lia); [|lia].
          destruct D as (_ & _ & _ & _ & (x & _ & D) & _). rewrite app_nil_r in D. rewrite <- D, app_length in L. lia.
      - unfold m. split.
        + destruct (All (concat rounds) [] ltac:(rewrite app_nil_r; reflexivity)) as (T1 & K1 & R1). apply (past _ a r T1 K1 Ta R1 V).
        + exists v. rewrite acts_app. apply done_on. exact AC.
      - destruct (NF eq_refl). }
    destruct Fin as (Okm & v & D). unfold ended. rewrite (lives m ND), D. destruct (done_reply unreadable version self other own_version c current cmd defaults q pid request patience version_ok meaning wished request_ok request_is spoken allowed m v T D) as (r' & R' & V').
    unfold m in R'. rewrite (reply_on l (concat rounds) r R) in R'. injection R' as <-. rewrite V in V'. injection V' as <-. reflexivity.
  Qed.

  (** And so it does if the handler ends without a word. *)
  Definition mute (w : world) : Prop := asked w = true /\ Server.handlers (srv w) c = Server.HDone /\ reply_to (srv w) = None.
  Lemma mute_on l m : told (l ++ m) -> mute (acts l) -> mute (acts (l ++ m)).
  Proof.
    induction m as [|d m IH] using rev_ind; intros T M; [rewrite app_nil_r; exact M|]. rewrite app_assoc in *. pose proof (told_prefix _ _ T) as T1.
    destruct (IH T1 M) as (As & HR). split; [apply (asked_later unreadable version self other own_version c current cmd defaults pid allowed); exact As|].
    pose proof (good_of (l ++ m) T1) as G. pose proof (g_own _ _ _ _ _ _ _ _ _ _ _ _ _ (good_of _ T)) as Go.
    pose proof (story_life c self other q pid defaults (meant_plain _ _ _ meaning) allowed _ (g_own _ _ _ _ _ _ _ _ _ _ _ _ _ G)) as [K U]. rewrite <- srv_trace in K, U.
    rewrite trace_snoc in Go. apply Forall_app in Go as [_ Go]. rewrite acts_snoc, act_srv.
    assert (X : did self other c (acts (l ++ m)) d = [] \/ exists b, did self other c (acts (l ++ m)) d = [b]).
    { destruct d; cbn; auto; [destruct (mine c a); eauto|]. destruct (Handshake.at_d _); auto. destruct (negb _); eauto. }
    destruct X as [X|[b X]]; rewrite X in *; [exact HR|]. inversion Go; subst. unfold Server.run. cbn [fold_left].
    apply (done_mute self other c current cmd q pid meaning); assumption.
  Qed.
  Lemma mute_talk l : told l -> ~ In Dies l -> mute (acts l) ->
    (exists h, Handshake.at_d (Handshake.daemon (talk (acts l))) = Handshake.DPeer h) \/
    (exists e, Handshake.at_d (Handshake.daemon (talk (acts l))) = Handshake.DGone e) /\
    (Handshake.at_c (talk (acts l)) = Handshake.CReply -> Handshake.daemon_closed (Handshake.wire (Handshake.daemon (talk (acts l)))) = true /\ decode_from (answer_type cmd) (Handshake.down (Handshake.wire (Handshake.daemon (talk (acts l))))) = None).
  Proof.
    intros T ND (As & HD & RN). pose proof (good_of l T) as G. pose proof (fair_of l T) as Fr.
    assert (Hd : Handshake.handled (Handshake.daemon (talk (acts l))) = []).
    { destruct (Handshake.handled (Handshake.daemon (talk (acts l)))) eqn:X; [reflexivity|]. destruct (g_handled _ _ _ _ _ _ _ _ _ _ _ _ _ G); [rewrite X; discriminate|exact RN]. }
    destruct (f_mute _ _ _ _ _ _ _ _ _ _ Fr As Hd) as [X|[[e X] _]]; [left; exact X|right]. split; [eauto|]. intros AC.
    destruct (answer_small cmd) as (a & Ta & _).
    assert (Ok : ok a (talk (acts l))) by (apply (g_wire _ _ _ _ _ _ _ _ _ _ _ _ _ G); split; [exact Ta|intros r' Y; congruence]).
    destruct Ok as (S & O & rr & ES & D & C). unfold dok in D. unfold cok in C. rewrite X in D. rewrite AC in C. destruct C as (_ & C & CC).
    assert (Z : Handshake.daemon_closed (Handshake.wire (Handshake.daemon (talk (acts l)))) = true /\ O = Handshake.version_bytes version).
    { destruct e; try (destruct D as (_ & _ & D1 & [D2|[D2 _]]); [congruence|split; [exact D1|exact D2]]). destruct D as (D & _). congruence. }
    destruct Z as [Z1 Z2]. split; [exact Z1|]. rewrite Z2 in C. rewrite <- (app_nil_r (Handshake.version_bytes version)) in C at 1. apply app_inv_head in C. rewrite <- C.
    destruct (decode_from (answer_type cmd) []) as [[]|] eqn:Y; [|reflexivity]. apply (decode_more _ _ _ _ []) in Y as [_ Y]. cbn in Y. lia.
  Qed.

  Lemma gone_act w d e : Handshake.at_d (Handshake.daemon (talk w)) = Handshake.DGone e -> Handshake.at_d (Handshake.daemon (talk (act w d))) = Handshake.DGone e.
  Proof.
    intros E. destruct d as [x|k|k|ms|]; cbn [WholeCommand.act].
    - destruct (mine c x); exact E.
    - unfold daemon_move. rewrite E. cbn [talk Handshake.daemon]. unfold Handshake.daemon_turn. rewrite E. exact E.
    - rewrite client_move_talk with (request := request) by exact wished.
      exact (proj1 (gone_step unreadable self other (fun _ => []) own_version true false request (answer_type cmd) (talk w) (Handshake.Client k) e E)).
    - cbn [talk Handshake.daemon Handshake.wait Handshake.at_d]. rewrite E. reflexivity.
    - destruct (Handshake.at_c (talk w)); exact E.
  Qed.
  Lemma gone_on l m e : Handshake.at_d (Handshake.daemon (talk (acts l))) = Handshake.DGone e -> Handshake.at_d (Handshake.daemon (talk (acts (l ++ m)))) = Handshake.DGone e.
  Proof. intros E. induction m as [|d m IH] using rev_ind; [rewrite app_nil_r; exact E|]. rewrite app_assoc, acts_snoc. apply gone_act. exact IH. Qed.
  Lemma failed_on l m : Handshake.at_c (talk (acts l)) = Handshake.CFailed -> Handshake.at_c (talk (acts (l ++ m))) = Handshake.CFailed.
  Proof. intros E. induction m as [|d m IH] using rev_ind; [rewrite app_nil_r; exact E|]. rewrite app_assoc, acts_snoc. apply failed_stays with (pid := pid) (request := request); assumption. Qed.

  Lemma mute_daemon l r : told (l ++ r) -> ~ In Dies (l ++ r) -> mute (acts l) -> turns r -> exists e, Handshake.at_d (Handshake.daemon (talk (acts (l ++ r)))) = Handshake.DGone e.
  Proof.
    intros T ND M [(k & Hk) _]. apply in_split in Hk as (x & y & ->).
    assert (E : l ++ x ++ Daemon k :: y = ((l ++ x) ++ [Daemon k]) ++ y) by (rewrite <- !app_assoc; reflexivity). rewrite E in *. clear E.
    assert (T1 : told (l ++ x)) by (apply (told_prefix _ [Daemon k]); apply (told_prefix _ y); exact T).
    assert (N1 : ~ In Dies (l ++ x)) by (intros X; apply ND; apply in_or_app; left; apply in_or_app; auto).
    pose proof (mute_on l x T1 M) as M1. destruct (mute_talk (l ++ x) T1 N1 M1) as [[h P]|[[e P] _]].
    - exists Handshake.Failed. apply gone_on. rewrite acts_snoc. cbn [WholeCommand.act]. unfold daemon_move. destruct M1 as (A1 & A2 & A3). rewrite P, A1, A2, A3, allowed. reflexivity.
    - exists e. apply gone_on, gone_on. exact P.
  Qed.
  Lemma mute_client l r e : told (l ++ r) -> ~ In Dies (l ++ r) -> mute (acts l) -> Handshake.at_d (Handshake.daemon (talk (acts l))) = Handshake.DGone e -> turns r ->
    Handshake.at_c (talk (acts (l ++ r))) = Handshake.CFailed.
  Proof.
    intros T ND M Ge [_ (k & Hk)]. apply in_split in Hk as (x & y & ->).
    assert (E : l ++ x ++ Client k :: y = ((l ++ x) ++ [Client k]) ++ y) by (rewrite <- !app_assoc; reflexivity). rewrite E in *. clear E.
    assert (T1 : told (l ++ x)) by (apply (told_prefix _ [Client k]); apply (told_prefix _ y); exact T).
    assert (N1 : ~ In Dies (l ++ x)) by (intros X; apply ND; apply in_or_app; left; apply in_or_app; auto).
    pose proof (mute_on l x T1 M) as M1. pose proof (gone_on l x e Ge) as G1. apply failed_on. rewrite acts_snoc. cbn [WholeCommand.act]. rewrite client_move_talk with (request := request) by exact wished.
    destruct (mute_talk (l ++ x) T1 N1 M1) as [[h P]|[_ P]]; [congruence|].
    pose proof (f_late _ _ _ _ _ _ _ _ _ _ (fair_of _ T1) (proj1 M1)) as La. unfold Handshake.client_turn.
    destruct (Handshake.at_c (talk (acts (l ++ x)))) as [| | | |v|] eqn:AC; try (exfalso; exact La).
    - destruct (P eq_refl) as [P1 P2]. rewrite P2, P1. reflexivity.
    - exfalso. destruct (done_reply unreadable version self other own_version c current cmd defaults q pid request patience version_ok meaning wished request_ok request_is spoken allowed _ v T1 AC) as (r & R & _).
      destruct M1 as (_ & _ & X). congruence.
    - exact AC.
  Qed.
  Lemma ends_mute l rounds : let m := l ++ concat rounds in told m -> ~ In Dies m -> Server.handlers (srv (acts l)) c = Server.HDone -> reply_to (srv (acts l)) = None ->
    Forall turns rounds -> (1 < length rounds)%nat -> ended current cmd (acts m) = Some (finish current cmd None).
  Proof.
    intros m T ND HD RN F L. destruct rounds as [|r1 [|r2 rounds]]; [cbn in L; lia|cbn in L; lia|]. inversion F as [|? ? F1 F']; subst. inversion F' as [|? ? F2 _]; subst.
    assert (E : m = ((l ++ r1) ++ r2) ++ concat rounds) by (unfold m; cbn [concat]; rewrite <- !app_assoc; reflexivity).
    rewrite E in *. clear m E. set (rest := concat rounds) in *.
    assert (T2 : told ((l ++ r1) ++ r2)) by (apply (told_prefix _ rest); exact T). assert (T1 : told (l ++ r1)) by (apply (told_prefix _ r2); exact T2). assert (T0 : told l) by (apply (told_prefix _ r1); exact T1).
    assert (N2 : ~ In Dies ((l ++ r1) ++ r2)) by (intros X; apply ND; apply in_or_app; auto). assert (N1 : ~ In Dies (l ++ r1)) by (intros X; apply N2; apply in_or_app; auto).
    assert (M : mute (acts l)).
    { split; [|auto]. apply (was_asked unreadable version self other own_version c current cmd defaults q pid request patience version_ok meaning wished request_ok request_is spoken allowed l T0). rewrite HD. discriminate. }
    destruct (mute_daemon l r1 T1 N1 M F1) as [e Ge]. pose proof (mute_client (l ++ r1) r2 e T2 N2 (mute_on _ _ T1 M) Ge F2) as Fl.
    unfold ended. rewrite (lives _ ND), (failed_on _ rest Fl). reflexivity.
  Qed.
End Ends.

(** *** A command with nothing to name *)
Section Nothing.
  Variables (unreadable : ty -> list byte -> bool) (version : rstr) (self other : Server.peer) (own_version : rstr)
            (c : Server.conn) (current : option rstr) (cmd : command) (defaults : list (rstr * rstr)).
  Notation act := (act unreadable self other own_version c current cmd).
  Notation acts := (acts unreadable version self other own_version c current cmd defaults).
  Hypothesis unwished : wish current cmd = None.
  Hypothesis version_ok : text version.
  Notation V := (Handshake.version_bytes version).

  (** What is still to be written, or read, before the command gives up. *)
  Definition ahead (w : world) : nat :=
    match Handshake.at_c (talk w) with
    | Handshake.CVersion => match Handshake.at_d (Handshake.daemon (talk w)) with Handshake.DVersion rest => length rest + 2 | _ => 2 end
    | Handshake.CFailed => 0
    | _ => 1
    end%nat.
  Definition sane (w : world) : Prop :=
    match Handshake.at_c (talk w) with
    | Handshake.CVersion =>
        Handshake.client_closed (Handshake.wire (Handshake.daemon (talk w))) = false /\
        match Handshake.at_d (Handshake.daemon (talk w)) with
        | Handshake.DVersion rest => rest <> [] /\ Handshake.down (Handshake.wire (Handshake.daemon (talk w))) ++ rest = V
        | Handshake.DRequest _ | Handshake.DGone _ => Handshake.down (Handshake.wire (Handshake.daemon (talk w))) = V
        | _ => False
        end
    | Handshake.CRequest _ | Handshake.CFailed => True
    | _ => False
    end /\
    Handshake.up (Handshake.wire (Handshake.daemon (talk w))) = [] /\
    match Handshake.at_d (Handshake.daemon (talk w)) with Handshake.DVersion _ | Handshake.DRequest _ | Handshake.DGone _ => True | _ => False end.
  Lemma version_whole : decode_from version_header V = Some (VRec [VStr version], []).
  Proof.
    pose proof (round_trip version_header (VRec [VStr version]) []) as H. rewrite app_nil_r in H. apply H; [|exact (t_reply (VersionIs version) version_ok)].
    unfold messages. repeat (try (left; reflexivity); right).
  Qed.

  Definition waits_for (w : world) : bool :=
    match Handshake.at_c (talk w), Handshake.at_d (Handshake.daemon (talk w)) with Handshake.CVersion, Handshake.DVersion _ => true | _, _ => false end.
  Lemma sane_dialled x t : Handshake.up (Handshake.wire (Handshake.daemon t)) = [] ->
    match Handshake.at_d (Handshake.daemon t) with Handshake.DVersion _ | Handshake.DRequest _ | Handshake.DGone _ => True | _ => False end ->
    let u := Handshake.dialled_with true false VNone x t in
    Handshake.up (Handshake.wire (Handshake.daemon u)) = [] /\
    match Handshake.at_d (Handshake.daemon u) with Handshake.DVersion _ | Handshake.DRequest _ | Handshake.DGone _ => True | _ => False end /\
    match Handshake.at_c u with Handshake.CRequest _ | Handshake.CFailed => True | _ => False end.
  Proof. intros U D. unfold Handshake.dialled_with. destruct x; cbn; auto. Qed.

  Lemma nothing_step w d : d <> Dies -> sane w ->
    sane (act w d) /\ (ahead (act w d) < ahead w \/ ahead (act w d) = ahead w /\ waits_for (act w d) = waits_for w /\
      match d with Daemon _ => waits_for w = false | Client _ => waits_for w = true \/ ahead w = 0 | _ => True end)%nat.
  Proof.
    intros ND (C & U & D). destruct d as [x|k|k|ms|]; cbn [WholeCommand.act]; [| | | |congruence].
    - destruct (mine c x); split; try (split; [exact C|split; [exact U|exact D]]); right; auto.
    - unfold daemon_move. destruct (Handshake.at_d (Handshake.daemon (talk w))) as [rest|qt|h|rest|h rest|e] eqn:E; try contradiction.
      + unfold sane, ahead, waits_for. cbn [talk Handshake.daemon Handshake.at_c]. unfold Handshake.daemon_turn. rewrite E.
        destruct (Handshake.at_c (talk w)) eqn:AC; try contradiction.
        * destruct C as (C1 & C2 & C3). rewrite C1. pose proof (firstn_skipn (S k) rest) as FS. pose proof (skipn_shorter k rest C2) as SS.
          destruct (skipn (S k) rest) as [|b more] eqn:Sk; cbn [Handshake.wire Handshake.at_d Handshake.say_down Handshake.up Handshake.down Handshake.client_closed].
          -- split; [split; [split; [exact C1|]|auto]|].
             ++ rewrite app_nil_r in FS. rewrite FS. exact C3.
             ++ left. destruct rest; [congruence|cbn; lia].
          -- split; [split; [split; [exact C1|split; [discriminate|]]|auto]|].
             ++ rewrite <- app_assoc, FS. exact C3.
             ++ left. lia.
        * destruct (Handshake.client_closed _); [|destruct (skipn (S k) rest)]; cbn [Handshake.end_with Handshake.close_daemon Handshake.wire Handshake.at_d Handshake.say_down Handshake.up]; (split; [auto|right; auto]).
        * destruct (Handshake.client_closed _); [|destruct (skipn (S k) rest)]; cbn [Handshake.end_with Handshake.close_daemon Handshake.wire Handshake.at_d Handshake.say_down Handshake.up]; (split; [auto|right; auto]).
      + unfold sane, ahead, waits_for. cbn [talk Handshake.daemon Handshake.at_c]. unfold Handshake.daemon_turn. rewrite E, U.
        change (decode_from connect_header []) with (@None (value * list byte)). cbv iota.
        destruct (_ || _); cbn [Handshake.end_with Handshake.close_daemon Handshake.wire Handshake.at_d Handshake.up Handshake.down Handshake.client_closed]; rewrite ?E;
          (split; [split; [exact C|auto]|]); right; destruct (Handshake.at_c (talk w)); auto.
      + unfold sane, ahead, waits_for. cbn [talk Handshake.daemon Handshake.at_c]. unfold Handshake.daemon_turn. rewrite E, E.
        split; [split; [exact C|auto]|]. right. destruct (Handshake.at_c (talk w)); auto.
    - unfold client_move. rewrite unwished. unfold sane, ahead, waits_for. cbn [talk]. destruct (Handshake.at_c (talk w)) eqn:AC; try contradiction.
      + unfold Handshake.client_turn. rewrite AC.
        assert (Di : forall x rest, let u := Handshake.dialled_with true false VNone x (Handshake.mkTalk (Handshake.take_down rest (Handshake.daemon (talk w))) Handshake.CVersion) in
          match Handshake.at_c u with Handshake.CRequest _ | Handshake.CFailed => True | _ => False end /\ Handshake.up (Handshake.wire (Handshake.daemon u)) = [] /\
          match Handshake.at_d (Handshake.daemon u) with Handshake.DVersion _ | Handshake.DRequest _ | Handshake.DGone _ => True | _ => False end).
        { intros x rest u. destruct (sane_dialled x (Handshake.mkTalk (Handshake.take_down rest (Handshake.daemon (talk w))) Handshake.CVersion)) as (A1 & A2 & A3); [exact U|exact D|]. subst u. auto. }
        assert (Big : (2 <= match Handshake.at_d (Handshake.daemon (talk w)) with Handshake.DVersion rest => length rest + 2 | _ => 2 end)%nat) by (destruct (Handshake.at_d (Handshake.daemon (talk w))); lia).
        assert (Go : forall x rest, let u := Handshake.dialled_with true false VNone x (Handshake.mkTalk (Handshake.take_down rest (Handshake.daemon (talk w))) Handshake.CVersion) in
          ((match Handshake.at_c u with
            | Handshake.CVersion => Handshake.client_closed (Handshake.wire (Handshake.daemon u)) = false /\
                match Handshake.at_d (Handshake.daemon u) with
                | Handshake.DVersion rest => rest <> [] /\ Handshake.down (Handshake.wire (Handshake.daemon u)) ++ rest = V
                | Handshake.DRequest _ | Handshake.DGone _ => Handshake.down (Handshake.wire (Handshake.daemon u)) = V
                | _ => False
                end
            | Handshake.CRequest _ | Handshake.CFailed => True
            | _ => False
            end /\ Handshake.up (Handshake.wire (Handshake.daemon u)) = [] /\
            match Handshake.at_d (Handshake.daemon u) with Handshake.DVersion _ | Handshake.DRequest _ | Handshake.DGone _ => True | _ => False end) /\
           (match Handshake.at_c u with
            | Handshake.CVersion => match Handshake.at_d (Handshake.daemon u) with Handshake.DVersion rest => length rest + 2 | _ => 2 end
            | Handshake.CFailed => 0
            | _ => 1
            end < match Handshake.at_d (Handshake.daemon (talk w)) with Handshake.DVersion rest => length rest + 2 | _ => 2 end)%nat)).
        { intros x rest u. pose proof (Di x rest) as (A1 & A2 & A3). fold u in A1, A2, A3. split; [split; [|auto]|]; destruct (Handshake.at_c u); try contradiction; auto; lia. }
        cbv zeta in Go.
        destruct C as [C1 C2]. destruct (Handshake.at_d (Handshake.daemon (talk w))) as [rest|qt|h|rest|h rest|e] eqn:E; try contradiction.
        * (* still being written *)
          match goal with |- context [match ?s with Some _ => _ | None => _ end] => destruct s as [[v r]|] end.
          -- repeat match goal with
                    | |- context [match ?x with _ => _ end] => is_var x; destruct x
                    end;
             try (destruct (_ || _); [|rewrite AC, E]);
             try (match goal with |- context [Handshake.dialled_with true false VNone ?x (Handshake.mkTalk (Handshake.take_down ?y _) _)] => destruct (Go x y) as [G1 G2]; split; [exact G1|left; exact G2] end);
             (split; [split; [split; [exact C1|exact C2]|auto]|right; auto]).
          -- destruct (_ || _); [|rewrite AC, E].
             ++ match goal with |- context [Handshake.dialled_with true false VNone ?x (Handshake.mkTalk (Handshake.take_down ?y _) _)] => destruct (Go x y) as [G1 G2]; split; [exact G1|left; exact G2] end.
             ++ split; [split; [split; [exact C1|exact C2]|auto]|right; auto].
        * rewrite C2, version_whole. match goal with |- context [Handshake.dialled_with true false VNone ?x (Handshake.mkTalk (Handshake.take_down ?y _) _)] => destruct (Go x y) as [G1 G2]; split; [exact G1|left; exact G2] end.
        * rewrite C2, version_whole. match goal with |- context [Handshake.dialled_with true false VNone ?x (Handshake.mkTalk (Handshake.take_down ?y _) _)] => destruct (Go x y) as [G1 G2]; split; [exact G1|left; exact G2] end.
      + cbn. split; [auto|]. left. lia.
      + unfold Handshake.client_turn. rewrite AC, AC. split; [auto|]. right. auto.
    - unfold sane, ahead, waits_for. cbn [talk Handshake.daemon Handshake.at_c]. unfold Handshake.wait. cbn [Handshake.wire Handshake.at_d].
      destruct (Handshake.at_c (talk w)), (Handshake.at_d (Handshake.daemon (talk w))); auto.
  Qed.

  Lemma nothing_run m : ~ In Dies m -> forall w, sane w -> sane (fold_left act m w) /\ (ahead (fold_left act m w) <= ahead w)%nat.
  Proof.
    induction m as [|d m IH]; intros N w S; [auto|]. cbn [fold_left]. destruct (nothing_step w d ltac:(intros ->; apply N; left; reflexivity) S) as [S1 L].
    destruct (IH ltac:(intros X; apply N; right; exact X) _ S1) as [S2 L2]. split; [exact S2|]. destruct L as [L|[L _]]; lia.
  Qed.
  Lemma nothing_round m : ~ In Dies m -> forall w, sane w -> turns m \/ (waits_for w = true /\ exists k, In (Daemon k) m) \/ (waits_for w = false /\ exists k, In (Client k) m) ->
    (ahead (fold_left act m w) < ahead w \/ ahead (fold_left act m w) = 0)%nat.
  Proof.
    induction m as [|d m IH]; intros N w S T.
    { destruct T as [[(? & []) _]|[[_ (? & [])]|[_ (? & [])]]]. }
    cbn [fold_left]. assert (Nm : ~ In Dies m) by (intros X; apply N; right; exact X). destruct (nothing_step w d ltac:(intros ->; apply N; left; reflexivity) S) as [S1 L].
    assert (T' : (waits_for w = true /\ exists k, In (Daemon k) (d :: m)) \/ (waits_for w = false /\ exists k, In (Client k) (d :: m))).
    { destruct T as [[T1 T2]|T]; [|exact T]. destruct (waits_for w); auto. }
    destruct L as [L|(L & Wf & Wd)].
    - destruct (nothing_run m Nm _ S1) as [_ L2]. left. lia.
    - rewrite <- L. destruct T' as [[T1 (k & [T2|T2])]|[T1 (k & [T2|T2])]].
      + subst. congruence.
      + apply IH; auto. right. left. split; [congruence|eauto].
      + subst. destruct Wd as [Wd|Wd]; [congruence|]. right. destruct (nothing_run m Nm _ S1) as [_ L2]. lia.
      + apply IH; auto. right. right. split; [congruence|eauto].
  Qed.
  Lemma nothing_rounds rounds : ~ In Dies (concat rounds) -> Forall turns rounds -> forall w, sane w -> (ahead w <= length rounds)%nat -> ahead (fold_left act (concat rounds) w) = 0%nat.
  Proof.
    induction rounds as [|r rounds IH]; intros N F w S L; [cbn in *; lia|]. inversion F as [|? ? F1 F2]; subst. cbn [concat] in *. rewrite fold_left_app.
    assert (Nr : ~ In Dies r) by (intros X; apply N; apply in_or_app; auto). assert (N' : ~ In Dies (concat rounds)) by (intros X; apply N; apply in_or_app; auto).
    destruct (nothing_run r Nr w S) as [S1 _]. destruct (nothing_round r Nr w S (or_introl F1)) as [L1|L1].
    - apply IH; auto. cbn in L. lia.
    - destruct (nothing_run (concat rounds) N' _ S1) as [_ L2]. lia.
  Qed.
  Lemma nothing_ends rounds : ~ In Dies (concat rounds) -> Forall turns rounds -> (length V + 2 <= length rounds)%nat -> Handshake.at_c (talk (acts (concat rounds))) = Handshake.CFailed.
  Proof.
    intros N F L. assert (S : sane (at_first version defaults)).
    { split; [|cbn; auto]. cbn. split; [reflexivity|]. split; [|reflexivity]. intros X. assert (X' : V = []) by exact X. pose proof version_whole as H. rewrite X' in H. discriminate. }
    pose proof (nothing_rounds rounds N F _ S L) as Z. unfold WholeCommand.acts. destruct (nothing_run (concat rounds) N _ S) as [(S1 & _) _].
    unfold ahead in Z. destruct (Handshake.at_c _); try discriminate; try contradiction; [|reflexivity]. destruct (Handshake.at_d _); try discriminate; lia.
  Qed.
End Nothing.
