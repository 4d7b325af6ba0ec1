(** C04: duration strings mean what they say. *)
From Coq Require Import List NArith Lia.
From Verif Require Import Model.Base Model.Duration Spec.Numerals Spec.UnicodeSpec
  Proofs.NumeralProofs Proofs.DurationProofs.
Import ListNotations.
Open Scope N_scope.

(** Every documented form gives the documented number of seconds, in debug and
    release builds, as long as the total fits 64 bits. *)
(** Missing for the full claim: that every other string is rejected, which is false;
    see the refutations below. *)
Theorem C04_documented_forms_parse_partial : forall u, agrees_with_ascii u ->
  forall b s n, denotes s n -> n < 2 ^ 64 -> parse u b s = Secs n.
Proof. exact parse_denotes. Qed.
Print Assumptions C04_documented_forms_parse_partial.

Example C04_documented_example :
  agrees_with_ascii ascii_only /\ denotes (lit "20d") 1728000 /\
  denotes (lit "1:30") 90 /\
  parse ascii_only Release (lit "20d") = Secs 1728000 /\
  parse ascii_only Debug (lit "1:2:3:4") = Secs 93784.
Proof.
  split; [exact ascii_only_agrees|]. split; [|split; [|split; reflexivity]].
  - apply (den_suffix (lit "20") 20 100 86400); [|constructor].
    apply parse_digits_numeral. reflexivity.
  - apply (den_ms (lit "1") 1 (lit "30") 30); apply parse_digits_numeral; reflexivity.
Qed.

(** The exact behaviour on every string: what is taken ([takes]), what it is
    taken to mean in each build, and that everything else is rejected. *)
Theorem C04_exact_behaviour : forall u, agrees_with_ascii u -> forall s,
  (forall n, takes (u_numeric u) s n ->
     parse u Debug s = (if n <? 2 ^ 64 then Secs n else Panicked) /\
     parse u Release s = Secs (n mod 2 ^ 64)) /\
  ((~ exists n, takes (u_numeric u) s n) ->
     parse u Release s = Rejected /\ forall n, parse u Debug s <> Secs n).
Proof.
  intros u Hu s. split.
  - intros n H. split; [apply parse_debug|apply parse_release]; assumption.
  - apply parse_rejects; assumption.
Qed.
Print Assumptions C04_exact_behaviour.

(** Nothing is accepted that is not taken, in any build. *)
Theorem C04_only_listed_forms_accepted : forall u, agrees_with_ascii u ->
  forall b s m, parse u b s = Secs m -> exists n, takes (u_numeric u) s n.
Proof. exact parse_secs. Qed.
Print Assumptions C04_only_listed_forms_accepted.

(** Finding: text between the number and the final letter is ignored, so the
    property "every other string is rejected" is false: "1h30m" is one minute. *)
Theorem C04_junk_is_ignored_refuted :
  exists s n, parse ascii_only Release s = Secs n /\ s = lit "1h30m" /\ n = 60 /\
              ~ exists m, denotes s m.
Proof.
  exists (lit "1h30m"), 60. repeat split.
  intros [m H].
  assert (Hc : ~ In 58 (lit "1h30m")) by (cbn; intuition discriminate).
  inversion H as [ds n c k Hds Hk Es|a m' b s Ha Hb Es|a h b m' c s Ha Hb Hcc Es|a d b h c m' e s Ha Hb Hcc Hd Es].
  - assert (ds = lit "1h30").
    { apply (app_inj_tail ds (lit "1h30") c 109). exact Es. }
    subst ds. apply parse_digits_numeral in Hds. discriminate.
  - apply Hc. rewrite <- Es. apply in_or_app; right; left; reflexivity.
  - apply Hc. rewrite <- Es. apply in_or_app; right; left; reflexivity.
  - apply Hc. rewrite <- Es. apply in_or_app; right; left; reflexivity.
Qed.
Print Assumptions C04_junk_is_ignored_refuted.

(** Finding: unchecked arithmetic.  A duration of about 5.8e11 years is taken to
    be 44 seconds by a release build and panics in a debug build. *)
Theorem C04_overflow_refuted :
  exists s n, denotes s n /\ n >= 2 ^ 64 /\
    parse ascii_only Release s = Secs 44 /\ parse ascii_only Debug s = Panicked.
Proof.
  exists (lit "307445734561825861m"), (307445734561825861 * 60). split; [|repeat split; vm_compute; congruence].
  apply (den_suffix (lit "307445734561825861") 307445734561825861 109 60); [|constructor].
  apply parse_digits_numeral. reflexivity.
Qed.
Print Assumptions C04_overflow_refuted.
