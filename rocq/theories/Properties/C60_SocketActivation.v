(** C60: a daemon started by the service manager listens on the socket it was handed. *)
From Coq Require Import List NArith ZArith Bool Lia.
From Verif Require Import Model.Base Model.Activation Spec.Numerals Spec.ActivationSpec Proofs.NumeralProofs.
Import ListNotations.
Open Scope N_scope.

Lemma mode_test k p : p < 4096 ->
  (N.land (N.land (mode_of k p) SFLAG_KNOWN) S_IFSOCK =? S_IFSOCK) = match k with Socket => true | _ => false end.
Proof.
  intros Hp.
  assert (E : N.land (N.land (mode_of k p) SFLAG_KNOWN) S_IFSOCK = N.land (kind_code k * 4096) S_IFSOCK).
  { unfold mode_of. change SFLAG_KNOWN with (N.ones 16). change S_IFSOCK with (N.shiftl 3 14).
    rewrite <- N.land_assoc. change (N.land (N.ones 16) (N.shiftl 3 14)) with (N.shiftl 3 14).
    apply N.bits_inj. intros i. rewrite !N.land_spec.
    destruct (N.ltb_spec i 14) as [Hi|Hi].
    - rewrite (N.shiftl_spec_low 3 14 i) by exact Hi. rewrite !andb_false_r. reflexivity.
    - f_equal. change 4096 with (2 ^ 12).
      replace i with ((i - 12) + 12) by lia.
      rewrite <- !N.div_pow2_bits.
      rewrite N.div_add_l by (apply N.pow_nonzero; discriminate).
      rewrite (N.div_small p) by (change (2^12) with 4096; exact Hp).
      rewrite N.add_0_r, N.div_mul by (apply N.pow_nonzero; discriminate). reflexivity. }
  rewrite E. destruct k; reflexivity.
Qed.

(** Exactly when the handed socket is used: LISTEN_FDS is the number one, and descriptor
    three is open on a socket. *)
Theorem C60_inherited_exactly_when : forall env socket t fd,
  (forall n m, t n = Some m -> exists k p, p < 4096 /\ m = mode_of k p) ->
  snd (fst (choose_listener env socket t)) = Inherited fd <->
  fd = 3 /\ (exists v, env (lit "LISTEN_FDS") = Some v /\ int64 v 1) /\
  exists p, p < 4096 /\ t 3 = Some (mode_of Socket p).
Proof.
  intros env socket t fd Ht. unfold choose_listener, activation_socket.
  destruct (env (lit "LISTEN_FDS")) as [v|] eqn:Ev.
  2:{ split; [discriminate|]. intros (_ & (v & H & _) & _). discriminate. }
  destruct (parse_i64 v) as [n|] eqn:En.
  2:{ split; [discriminate|]. intros (_ & (v' & H & Hi) & _). injection H as <-. apply parse_i64_iff in Hi. rewrite En in Hi. discriminate. }
  destruct (Z.eqb n 1) eqn:E1; cbn [negb].
  2:{ split; [discriminate|]. intros (_ & (v' & H & Hi) & _). injection H as <-. apply parse_i64_iff in Hi. rewrite En in Hi.
      injection Hi as ->. discriminate. }
  apply Z.eqb_eq in E1. subst n. apply parse_i64_iff in En.
  unfold FIRST_ACTIVATION_SOCKET_FD. destruct (t 3) as [m|] eqn:Et.
  2:{ split; [discriminate|]. intros (_ & _ & p & _ & H). discriminate. }
  destruct (Ht _ _ Et) as (k & p & Hp & ->). rewrite (mode_test k p Hp).
  split.
  - destruct k; intros H; try discriminate H. injection H as <-. split; [reflexivity|]. split; [exists v; auto|]. exists p; auto.
  - intros (-> & _ & p' & Hp' & H). injection H as H.
    assert (k = Socket) by (destruct k; unfold mode_of, kind_code in H; try reflexivity; lia). subst k. reflexivity.
Qed.
Print Assumptions C60_inherited_exactly_when.

(** Why it is not used, when it is not: the reason the daemon logs is the true one. *)
Theorem C60_why_not : forall env t,
  (forall n m, t n = Some m -> exists k p, p < 4096 /\ m = mode_of k p) ->
  let v := env (lit "LISTEN_FDS") in let why := fst (activation_socket env t) in
  (why = Err NotSet <-> v = None) /\
  (why = Err NotANumber <-> exists w, v = Some w /\ forall n, ~ int64 w n) /\
  (why = Err WrongCount <-> exists w n, v = Some w /\ int64 w n /\ n <> 1%Z) /\
  (why = Err NoDescriptor <-> exists w, v = Some w /\ int64 w 1 /\ t 3 = None) /\
  (why = Err NotASocket <-> exists w k p, v = Some w /\ int64 w 1 /\ p < 4096 /\ t 3 = Some (mode_of k p) /\ k <> Socket).
Proof.
  intros env t Ht. cbv zeta. unfold activation_socket, FIRST_ACTIVATION_SOCKET_FD.
  assert (F : forall w n m, int64 w n -> int64 w m -> n = m).
  { intros w n m A B. apply parse_i64_iff in A, B. congruence. }
  destruct (env (lit "LISTEN_FDS")) as [v|] eqn:Ev.
  2:{ cbn [fst]. split; [tauto|]. repeat split; try discriminate; intros H; exfalso; [destruct H as (w & H & _)|destruct H as (w & n & H & _)|destruct H as (w & H & _)|destruct H as (w & k & p & H & _)]; discriminate H. }
  destruct (parse_i64 v) as [n|] eqn:En.
  2:{ assert (N : forall n, ~ int64 v n) by (intros n Hn; apply parse_i64_iff in Hn; congruence).
      cbn [fst]. repeat split; try discriminate.
      - intros _. exists v. auto.
      - intros (w & n & [= <-] & Hi & _). destruct (N _ Hi).
      - intros (w & [= <-] & Hi & _). destruct (N _ Hi).
      - intros (w & k & p & [= <-] & Hi & _). destruct (N _ Hi). }
  apply parse_i64_iff in En. destruct (Z.eqb_spec n 1) as [->|E1]; cbn [negb].
  2:{ cbn [fst]. repeat split; try discriminate.
      - intros (w & [= <-] & Hi). destruct (Hi _ En).
      - intros _. exists v, n. auto.
      - intros (w & [= <-] & Hi & _). destruct (E1 (F _ _ _ En Hi)).
      - intros (w & k & p & [= <-] & Hi & _). destruct (E1 (F _ _ _ En Hi)). }
  destruct (t 3) as [m|] eqn:Et.
  2:{ cbn [fst]. repeat split; try discriminate.
      - intros (w & [= <-] & Hi). destruct (Hi _ En).
      - intros (w & n & [= <-] & Hi & Hn). destruct (Hn (F _ _ _ Hi En)).
      - intros _. exists v. auto.
      - intros (w & k & p & _ & _ & _ & H & _). discriminate H. }
  destruct (Ht _ _ Et) as (k & p & Hp & ->). rewrite (mode_test k p Hp).
  assert (A : (exists w, Some v = Some w /\ forall n, ~ int64 w n) -> False) by (intros (w & [= <-] & Hi); destruct (Hi _ En)).
  assert (B : (exists w n, Some v = Some w /\ int64 w n /\ n <> 1%Z) -> False) by (intros (w & n & [= <-] & Hi & Hn); destruct (Hn (F _ _ _ Hi En))).
  assert (C : (exists w, Some v = Some w /\ int64 w 1 /\ Some (mode_of k p) = None) -> False) by (intros (w & _ & _ & H); discriminate H).
  assert (D : (exists w k' p', Some v = Some w /\ int64 w 1 /\ p' < 4096 /\ Some (mode_of k p) = Some (mode_of k' p') /\ k' <> Socket) <-> k <> Socket).
  { split; [|intros H; exists v, k, p; auto].
    intros (w & k' & p' & _ & _ & Hp' & [= H] & N) ->. apply N. destruct k'; unfold mode_of, kind_code in H; try reflexivity; lia. }
  destruct k; cbn [fst]; (split; [split; discriminate|]); (split; [split; [discriminate|intros H; destruct (A H)]|]);
    (split; [split; [discriminate|intros H; destruct (B H)]|]); (split; [split; [discriminate|intros H; destruct (C H)]|]);
    rewrite D; split; intros H; try discriminate; try reflexivity. destruct (H eq_refl).
Qed.
Print Assumptions C60_why_not.

(** Otherwise the daemon listens where it was told to.  A socket the daemon made is
    removed when it is told to stop, one it was handed is not; the other files are
    removed either way. *)
Theorem C60_the_listener_and_what_is_removed_partial : forall env socket t events pid,
  let '(cleanup, l, _) := choose_listener env socket t in
  (l = BoundAt socket \/ l = Inherited 3) /\
  forall f, In f (files_to_clean cleanup events pid) <->
    (l = BoundAt socket /\ f = socket) \/ f = events \/ pid = Some f.
(** Missing for the full claim: that a socket is taken over only if it was meant for this daemon, which is false
    (C60_meant_for_another_refuted). *)
Proof.
  intros env socket t events pid. unfold choose_listener.
  assert (Hp : forall f, In f (match pid with Some p => [p] | None => [] end) <-> pid = Some f).
  { intros f. destruct pid as [p|]; cbn; [split; [intros [->|[]]; reflexivity|intros [= ->]; auto]|split; [intros []|discriminate]]. }
  destruct (activation_socket env t) as [[fd|e] t'] eqn:E.
  - assert (fd = 3).
    { unfold activation_socket in E. destruct (env (lit "LISTEN_FDS")); [|discriminate].
      destruct (parse_i64 r); [|discriminate]. destruct (negb (Z.eqb z 1)); [discriminate|].
      destruct (t FIRST_ACTIVATION_SOCKET_FD); [|discriminate].
      destruct (N.land (N.land n SFLAG_KNOWN) S_IFSOCK =? S_IFSOCK); [|discriminate]. injection E as <- _. reflexivity. }
    subst fd. split; [right; reflexivity|]. intros f. unfold files_to_clean. cbn [app In]. rewrite Hp.
    split; [intros [->|H]; auto|]. intros [[H _]|[->|H]]; [discriminate|auto|auto].
  - split; [left; reflexivity|]. intros f. unfold files_to_clean. cbn [app In]. rewrite Hp.
    split; [intros [<-|[->|H]]; auto|]. intros [[_ ->]|[->|H]]; auto.
Qed.
Print Assumptions C60_the_listener_and_what_is_removed_partial.

(** No descriptor but the third is touched, and that one only when the environment
    speaks of exactly one descriptor and it turns out not to be a socket. *)
Theorem C60_descriptors_kept : forall env socket t n,
  let t' := snd (choose_listener env socket t) in
  t' n = t n \/
  (n = 3 /\ t' n = None /\ (exists v, env (lit "LISTEN_FDS") = Some v /\ int64 v 1) /\
   snd (fst (choose_listener env socket t)) = BoundAt socket).
Proof.
  intros env socket t n. unfold choose_listener, activation_socket.
  destruct (env (lit "LISTEN_FDS")) as [v|] eqn:Ev; [|left; reflexivity].
  destruct (parse_i64 v) as [z|] eqn:En; [|left; reflexivity].
  destruct (Z.eqb z 1) eqn:E1; cbn [negb]; [|left; reflexivity].
  apply Z.eqb_eq in E1. subst z. apply parse_i64_iff in En.
  assert (Hc : close_fd 3 t n = t n \/ n = 3 /\ close_fd 3 t n = None).
  { unfold close_fd. destruct (n =? 3) eqn:E; [right; apply N.eqb_eq in E; auto|left; reflexivity]. }
  unfold FIRST_ACTIVATION_SOCKET_FD. destruct (t 3) as [m|].
  - destruct (N.land (N.land m SFLAG_KNOWN) S_IFSOCK =? S_IFSOCK); [left; reflexivity|].
    cbn. destruct Hc as [Hc|(-> & Hc)]; [left; exact Hc|]. right. split; [reflexivity|]. split; [exact Hc|]. split; [|reflexivity]. exists v; auto.
  - cbn. destruct Hc as [Hc|(-> & Hc)]; [left; exact Hc|]. right. split; [reflexivity|]. split; [exact Hc|]. split; [|reflexivity]. exists v; auto.
Qed.
Print Assumptions C60_descriptors_kept.

(** Full claim: "... and only the process the socket was meant for takes it".  Refuted:
    LISTEN_PID, which names that process, is not looked at, so that a daemon which
    inherited the variables of another listens on its own third descriptor if that is a
    socket, whatever it is for, and closes it if it is open on something else. *)
Theorem C60_meant_for_another_refuted : forall env socket t pid p,
  env (lit "LISTEN_FDS") = Some (lit "1") -> env (lit "LISTEN_PID") = Some pid -> p < 4096 ->
  (t 3 = Some (mode_of Socket p) -> snd (fst (choose_listener env socket t)) = Inherited 3) /\
  (forall k, k <> Socket -> t 3 = Some (mode_of k p) -> snd (choose_listener env socket t) 3 = None).
Proof.
  intros env socket t pid p E1 _ Hp. unfold choose_listener, activation_socket. rewrite E1.
  change (parse_i64 (lit "1")) with (Some 1%Z). cbn [Z.eqb negb Pos.eqb].
  unfold FIRST_ACTIVATION_SOCKET_FD. split.
  - intros Et. rewrite Et, (mode_test Socket p Hp). reflexivity.
  - intros k Hk Et. rewrite Et, (mode_test k p Hp). destruct k; try reflexivity. contradiction Hk; reflexivity.
Qed.
Print Assumptions C60_meant_for_another_refuted.

Definition unit_env (k : rstr) : option rstr := if str_eqb k (lit "LISTEN_FDS") then Some (lit "+1") else if str_eqb k (lit "LISTEN_PID") then Some (lit "77") else None.
Definition unit_fds (n : N) : option N := if n <? 3 then Some (mode_of CharDevice 432) else if n =? 3 then Some (mode_of Socket 511) else None.
Definition file_fds (n : N) : option N := if n <? 3 then Some (mode_of CharDevice 432) else if n =? 3 then Some (mode_of RegularFile 420) else None.

Example C60_nonvacuous :
  snd (fst (choose_listener unit_env (lit "/run/s") unit_fds)) = Inherited 3 /\
  fst (choose_listener unit_env (lit "/run/s") file_fds) = (Some (lit "/run/s"), BoundAt (lit "/run/s")) /\
  snd (choose_listener unit_env (lit "/run/s") file_fds) 3 = None /\
  fst (choose_listener (fun _ => None) (lit "/run/s") unit_fds) = (Some (lit "/run/s"), BoundAt (lit "/run/s")) /\
  (forall n m, unit_fds n = Some m -> exists k p, p < 4096 /\ m = mode_of k p).
Proof.
  split; [reflexivity|]. split; [reflexivity|]. split; [reflexivity|]. split; [reflexivity|].
  intros n m. unfold unit_fds. destruct (n <? 3); [intros [= <-]; exists CharDevice, 432; split; [lia|reflexivity]|].
  destruct (n =? 3); [intros [= <-]; exists Socket, 511; split; [lia|reflexivity]|discriminate].
Qed.
