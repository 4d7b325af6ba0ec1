(** C03: version compatibility check. *)
From Coq Require Import List NArith ZArith.
From Verif Require Import Model.Base Model.Version Spec.Numerals Proofs.NumeralProofs Proofs.VersionProofs.
Import ListNotations.

(** On two well formed versions: silent exactly when compatible, "newer" exactly
    when the client is newer, "older" exactly when the daemon is newer. *)
Theorem C03_warning_matches_semver : forall c d cM cm dM dm,
  is_version c cM cm -> is_version d dM dm ->
  (client_new c (Some d) = JustClient <-> compatible cM cm dM dm) /\
  (client_new c (Some d) = WarnClientNewer <-> newer cM cm dM dm) /\
  (client_new c (Some d) = WarnClientOlder <-> newer dM dm cM cm).
Proof. exact client_new_spec. Qed.
Print Assumptions C03_warning_matches_semver.

Example C03_example :
  is_version (lit "0.4.2") 0 4 /\ is_version (lit "0.3.9") 0 3 /\
  client_new (lit "0.4.2") (Some (lit "0.3.9")) = WarnClientNewer /\
  client_new (lit "0.4.2") (Some (lit "0.4.9")) = JustClient /\
  client_new (lit "1.0.0") (Some (lit "2.9.9")) = WarnClientOlder.
Proof.
  split; [|split]; try (apply version_parts_iff; eexists; reflexivity). repeat split.
Qed.

(** A version string is read one way only. *)
Theorem C03_version_unambiguous : forall v a b a' b',
  is_version v a b -> is_version v a' b' -> a = a' /\ b = b'.
Proof. exact is_version_fun. Qed.
Print Assumptions C03_version_unambiguous.

(** Anything that is not three dot separated 64 bit integers is an error, naming
    the right side, and an undecodable version header is only a warning. *)
Theorem C03_malformed_versions_reported : forall c d,
  ((~ exists a b, is_version c a b) -> client_new c (Some d) = ConnectFails BadClientVersion) /\
  (forall a b, is_version c a b -> (~ exists a b, is_version d a b) ->
     client_new c (Some d) = ConnectFails BadDaemonVersion) /\
  client_new c None = WarnUnknownVersion.
Proof. exact client_new_malformed. Qed.
Print Assumptions C03_malformed_versions_reported.

Example C03_malformed_example :
  client_new (lit "0.4") (Some (lit "0.4.2")) = ConnectFails BadClientVersion /\
  client_new (lit "0.4.2") (Some (lit "0.4.x")) = ConnectFails BadDaemonVersion /\
  client_new (lit "0.4.2") (Some (lit "0.4.9223372036854775808")) = ConnectFails BadDaemonVersion.
Proof. repeat split. Qed.

(** Order laws. *)
Theorem C03_swapping_sides_swaps_direction : forall v w o,
  version_ord v w = Ok o -> version_ord w v = Ok (CompOpp o).
Proof. exact version_ord_swap. Qed.
Print Assumptions C03_swapping_sides_swaps_direction.

Theorem C03_ordering_transitive : forall u v w o1 o2,
  version_ord u v = Ok o1 -> version_ord v w = Ok o2 -> o1 <> Gt -> o2 <> Gt ->
  exists o3, version_ord u w = Ok o3 /\ o3 <> Gt /\ (o3 = Eq -> o1 = Eq /\ o2 = Eq).
Proof. exact version_ord_trans. Qed.
Print Assumptions C03_ordering_transitive.

Example C03_ordering_example :
  version_ord (lit "0.3.1") (lit "0.4.0") = Ok Lt /\ version_ord (lit "0.4.0") (lit "1.0.0") = Ok Lt.
Proof. split; reflexivity. Qed.
