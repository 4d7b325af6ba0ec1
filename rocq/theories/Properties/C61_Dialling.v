(** C61: the question asked of a user whose daemon is of another version, and the path of
    the running program. *)
From Coq Require Import List NArith ZArith Bool Lia.
From Verif Require Import Model.Base Model.EtcEnvironment Model.Version Model.Dial Proofs.EtcEnvironmentProofs.
Import ListNotations.
Open Scope N_scope.

(** The versions do not fit. *)
Definition mismatch (r : connect_result) : Prop := r = WarnUnknownVersion \/ r = WarnClientOlder \/ r = WarnClientNewer.

(** What the reads of an unfinished answer look like. *)
Definition unfinished (r : tty_read) : Prop := r = Interrupted \/ exists b, r = GotByte b /\ b <> 10.

Lemma await_enter_spec reads :
  match await_enter reads with
  | None => forall r, In r reads -> unfinished r
  | Some (ok, rest) => exists pre last, reads = pre ++ last :: rest /\ (forall r, In r pre -> unfinished r) /\
      ((ok = true /\ (last = GotByte 10 \/ last = GotEof)) \/ (ok = false /\ last = ReadError))
  end.
Proof.
  induction reads as [|r reads IH]; cbn [await_enter]; [intros ? []|].
  assert (Hstep : unfinished r ->
    match await_enter reads with
    | None => forall r', In r' (r :: reads) -> unfinished r'
    | Some (ok, rest) => exists pre last, r :: reads = pre ++ last :: rest /\ (forall r', In r' pre -> unfinished r') /\
        ((ok = true /\ (last = GotByte 10 \/ last = GotEof)) \/ (ok = false /\ last = ReadError))
    end).
  { intros Hr. destruct (await_enter reads) as [[ok rest]|].
    - destruct IH as (pre & last & -> & Hp & Hl). exists (r :: pre), last. split; [reflexivity|]. split; [|exact Hl].
      intros r' [<-|H]; auto.
    - intros r' [<-|H]; auto. }
  destruct r as [b| | |].
  - destruct (b =? 10) eqn:Eb.
    + apply N.eqb_eq in Eb. subst b. exists [], (GotByte 10). split; [reflexivity|]. split; [intros ? []|]. left. auto.
    + apply Hstep. right. exists b. split; [reflexivity|]. intros ->. discriminate.
  - exists [], GotEof. split; [reflexivity|]. split; [intros ? []|]. left. auto.
  - apply Hstep. left. reflexivity.
  - exists [], ReadError. split; [reflexivity|]. split; [intros ? []|]. right. auto.
Qed.

(** The question is asked exactly when it should be: on a dial that is not silent, in
    the foreground, of a daemon whose version does not fit.  Then the keyboard is read
    up to the end of the line (or of the input) and no further, and the dial succeeds;
    in every other case nothing is read. *)
Theorem C61_asked_exactly_when : forall silent background c reads,
  (In HitEnter (snd (fst (dial_client silent background c reads))) <->
   silent = false /\ background = false /\ exists r, c = Connects r /\ mismatch r) /\
  (~ In HitEnter (snd (fst (dial_client silent background c reads))) -> snd (dial_client silent background c reads) = reads).
Proof.
  intros silent background c reads. unfold mismatch.
  destruct c as [| |[| | | |e]]; cbn [dial_client].
  1,2,3,7: (split; [split; [cbn; intros H; repeat destruct H as [H|H]; discriminate || contradiction|
     intros (_ & _ & r & E & Hr); try discriminate E; injection E as <-; repeat destruct Hr as [Hr|Hr]; discriminate Hr]|reflexivity]).
  all: destruct silent; [split; [split; [intros []|intros (H & _); discriminate H]|reflexivity]|].
  all: destruct background; [split; [split; [intros [H|[]]; discriminate H|intros (_ & H & _); discriminate H]|reflexivity]|].
  all: split; [split; [intros _; split; [reflexivity|]; split; [reflexivity|]; eauto 8|
    intros _; destruct (await_enter reads) as [[[] rest]|]; cbn; auto]|].
  all: intros H; exfalso; apply H; destruct (await_enter reads) as [[[] rest]|]; cbn; auto.
Qed.
Print Assumptions C61_asked_exactly_when.

Theorem C61_the_answer : forall r reads, mismatch r ->
  (forall pre last rest, reads = pre ++ last :: rest -> (forall x, In x pre -> unfinished x) ->
     ((last = GotByte 10 \/ last = GotEof) -> dial_client false false (Connects r) reads = (Dialled, [WarnRestart; HitEnter], rest)) /\
     (last = ReadError -> dial_client false false (Connects r) reads = (DialFailed, [WarnRestart; HitEnter], rest))) /\
  ((forall x, In x reads -> unfinished x) -> dial_client false false (Connects r) reads = (DialWaiting, [WarnRestart; HitEnter], [])).
Proof.
  intros r reads Hr.
  assert (E : dial_client false false (Connects r) reads =
    match await_enter reads with
    | None => (DialWaiting, [WarnRestart; HitEnter], [])
    | Some (true, rest) => (Dialled, [WarnRestart; HitEnter], rest)
    | Some (false, rest) => (DialFailed, [WarnRestart; HitEnter], rest)
    end) by (destruct Hr as [->|[->| ->]]; reflexivity).
  rewrite E. clear E. split.
  - intros pre last rest -> Hp.
    assert (Ea : await_enter (pre ++ last :: rest) = await_enter (last :: rest)).
    { clear -Hp. induction pre as [|x pre IH]; [reflexivity|]. cbn [app].
      rewrite <- IH by (intros y Hy; apply Hp; right; exact Hy).
      destruct (Hp x (or_introl eq_refl)) as [->|(b & -> & Hb)]; cbn [await_enter]; [reflexivity|].
      apply N.eqb_neq in Hb. rewrite Hb. reflexivity. }
    rewrite Ea. split; [intros [->| ->]; reflexivity|intros ->; reflexivity].
  - intros Hu.
    assert (Ea : await_enter reads = None).
    { induction reads as [|x reads IH]; [reflexivity|].
      destruct (Hu x (or_introl eq_refl)) as [->|(b & -> & Hb)]; cbn [await_enter].
      - apply IH. intros y Hy. apply Hu. right. exact Hy.
      - apply N.eqb_neq in Hb. rewrite Hb. apply IH. intros y Hy. apply Hu. right. exact Hy. }
    rewrite Ea. reflexivity.
Qed.
Print Assumptions C61_the_answer.

(** Success, otherwise, is what it was for the connection; nobody waits. *)
Theorem C61_other_dials : forall silent background c reads,
  (silent = true \/ background = true \/ ~ exists r, c = Connects r /\ mismatch r) ->
  (fst (fst (dial_client silent background c reads)) = Dialled <->
     exists r, c = Connects r /\ forall e, r <> ConnectFails e) /\
  fst (fst (dial_client silent background c reads)) <> DialWaiting.
Proof.
  intros silent background c reads H.
  destruct c as [| |[| | | |e]]; cbn [dial_client].
  1,2: (split; [split; [discriminate|intros (r & E & _); discriminate E]|discriminate]).
  5: (split; [split; [discriminate|intros (r & E & Hr); injection E as <-; contradiction (Hr e eq_refl)]|discriminate]).
  1: (split; [split; [intros _; eexists; split; [reflexivity|discriminate]|reflexivity]|discriminate]).
  all: destruct silent; [split; [split; [intros _; eexists; split; [reflexivity|discriminate]|reflexivity]|discriminate]|].
  all: destruct background; [split; [split; [intros _; eexists; split; [reflexivity|discriminate]|reflexivity]|discriminate]|].
  all: exfalso; destruct H as [H|[H|H]]; [discriminate H|discriminate H|]; apply H; eexists; split; [reflexivity|]; unfold mismatch; auto.
Qed.
Print Assumptions C61_other_dials.

(** However often one attach command dials, the user is asked at most once; and what is
    typed after the answer stays to be typed into the session. *)
Theorem C61_asked_at_most_once : forall background c cs reads,
  (length (filter (fun n => match n with HitEnter => true | _ => false end) (fst (dial_all false background (c :: cs) reads))) <= 1)%nat /\
  snd (dial_all false background (c :: cs) reads) = snd (dial_client false background c reads).
Proof.
  intros background c cs reads.
  assert (Hq : forall cs reads, filter (fun n => match n with HitEnter => true | _ => false end) (fst (dial_all true background cs reads)) = [] /\
    snd (dial_all true background cs reads) = reads).
  { clear. induction cs as [|c cs IH]; intros reads; [auto|]. cbn [dial_all].
    destruct c as [| |[| | | |e]]; cbn [dial_client]; try (split; reflexivity).
    all: specialize (IH reads); destruct (dial_all true background cs reads) as [told rest]; cbn [fst snd app] in *; exact IH. }
  cbn [dial_all]. destruct (dial_client false background c reads) as [[d told] rest] eqn:E.
  assert (Ht : (length (filter (fun n => match n with HitEnter => true | _ => false end) told) <= 1)%nat).
  { destruct c as [| |[| | | |e]]; cbn [dial_client] in E;
      try (injection E as _ <- _; cbn; lia);
      destruct background; try (injection E as _ <- _; cbn; lia);
      destruct (await_enter reads) as [[[] r']|]; injection E as _ <- _; cbn; lia. }
  destruct d; cbn [fst snd]; auto.
  destruct (Hq cs rest) as (H1 & H2). destruct (dial_all true background cs rest) as [told' rest']. cbn [fst snd] in *.
  rewrite filter_app, H1, app_nil_r. subst rest'. auto.
Qed.
Print Assumptions C61_asked_at_most_once.

(** What one whole attach command says: what its first dial says, and, if that goes
    through, that it could not connect exactly if the first of the later dials that does
    not get a conversation found no socket.  A mismatch is mentioned only once. *)
Theorem C61_whole_command : forall background c cs reads d told rest,
  dial_client false background c reads = (d, told, rest) ->
  let no_conversation c := match c with NoSuchFile | OtherError | Connects (ConnectFails _) => true | Connects _ => false end in
  (d <> Dialled -> fst (dial_all false background (c :: cs) reads) = told) /\
  (d = Dialled -> find no_conversation cs = Some NoSuchFile -> fst (dial_all false background (c :: cs) reads) = told ++ [CouldNotConnect]) /\
  (d = Dialled -> find no_conversation cs <> Some NoSuchFile -> fst (dial_all false background (c :: cs) reads) = told).
Proof.
  intros background c cs reads d told rest E. cbv zeta.
  set (bad := fun c => match c with NoSuchFile | OtherError | Connects (ConnectFails _) => true | Connects _ => false end).
  assert (Q : forall cs reads, fst (dial_all true background cs reads) = match find bad cs with Some NoSuchFile => [CouldNotConnect] | _ => [] end).
  { clear. induction cs as [|c cs IH]; intros reads; [reflexivity|]. cbn [dial_all find].
    destruct c as [| |[| | | |e]]; cbn [dial_client bad]; try reflexivity;
      specialize (IH reads); destruct (dial_all true background cs reads) as [t r]; exact IH. }
  cbn [dial_all]. rewrite E. split; [|split].
  - destruct d; [congruence|reflexivity|reflexivity].
  - intros -> F. specialize (Q cs rest). rewrite F in Q. destruct (dial_all true background cs rest) as [t r]. cbn [fst] in *. rewrite Q. reflexivity.
  - intros -> F. specialize (Q cs rest). destruct (dial_all true background cs rest) as [t r]. cbn [fst] in *. rewrite Q.
    destruct (find bad cs) as [[| |]|]; try congruence; apply app_nil_r.
Qed.
Print Assumptions C61_whole_command.

(** The path used to start programs again after the file was replaced: the system's mark
    for a deleted file is taken off, once, and any other path is left alone. *)
Theorem C61_own_path_partial : forall p,
  exe_current (p ++ lit " (deleted)") = p /\
  ((forall q, p <> q ++ lit " (deleted)") -> exe_current p = p).
(** Missing for the full claim: a program whose own name ends in the mark, for which it is false
    (C61_own_path_refuted). *)
Proof.
  intros p. unfold exe_current. split.
  - destruct (strip_suffix (lit " (deleted)") (p ++ lit " (deleted)")) as [r|] eqn:E.
    + apply strip_suffix_spec in E. apply app_inv_tail in E. symmetry. exact E.
    + exfalso. apply strip_suffix_none in E. apply E. exists p. reflexivity.
  - intros H. destruct (strip_suffix (lit " (deleted)") p) as [r|] eqn:E; [|reflexivity].
    apply strip_suffix_spec in E. contradiction (H r E).
Qed.
Print Assumptions C61_own_path_partial.

(** Full claim: "... is a path of the program".  Refuted for a program whose file name
    really ends that way: its own path, which exists, is cut down to another. *)
Theorem C61_own_path_refuted : exists p, exe_current p <> p /\ forall deleted, deleted = p ++ lit " (deleted)" -> exe_current deleted = p.
Proof.
  exists (lit "/opt/shpool (deleted)"). split; [discriminate|]. intros d ->. apply C61_own_path_partial.
Qed.
Print Assumptions C61_own_path_refuted.

(** What the user is told: that there is no daemon exactly if the socket is not there;
    of a mismatch unless told not to; nothing else. *)
Theorem C61_told_exactly : forall silent background c reads,
  let told := snd (fst (dial_client silent background c reads)) in
  (c = NoSuchFile -> told = [CouldNotConnect]) /\
  (forall r, c = Connects r -> mismatch r -> silent = false ->
     told = if background then [WarnBackground] else [WarnRestart; HitEnter]) /\
  (c <> NoSuchFile -> (silent = true \/ ~ exists r, c = Connects r /\ mismatch r) -> told = []).
Proof.
  intros silent background c reads. cbv zeta. split; [intros ->; reflexivity|]. split.
  - intros r -> Hr ->. destruct Hr as [->|[->| ->]]; cbn [dial_client]; (destruct background; [reflexivity|]);
      destruct (await_enter reads) as [[[] rest]|]; reflexivity.
  - intros N H. destruct c as [| |r]; [contradiction|reflexivity|].
    destruct r; try reflexivity.
    all: cbn [dial_client]; destruct silent; [reflexivity|]; destruct H as [H|H]; [discriminate H|]; exfalso; apply H; eexists; split; [reflexivity|]; unfold mismatch; auto.
Qed.
Print Assumptions C61_told_exactly.

Example C61_nonvacuous :
  dial_all false false [Connects WarnClientOlder; Connects WarnClientOlder] [Interrupted; GotByte 121; GotByte 10; GotByte 108] =
    ([WarnRestart; HitEnter], [GotByte 108]) /\
  dial_client false true (Connects WarnUnknownVersion) [GotByte 10] = (Dialled, [WarnBackground], [GotByte 10]) /\
  exe_current (lit "/usr/bin/shpool (deleted)") = lit "/usr/bin/shpool" /\
  mismatch WarnClientNewer /\ unfinished (GotByte 65).
Proof. repeat split; try reflexivity. right; right; reflexivity. right. exists 65. split; [reflexivity|discriminate]. Qed.
