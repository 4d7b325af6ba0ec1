(** Small scripts used to show that the properties' hypotheses can be met. *)
From Coq Require Import List NArith ZArith Bool Arith.
From Verif Require Import Model.Base Model.Protocol Model.Names Model.Server Spec.ServerSpec.
Import ListNotations.
Open Scope nat_scope.

Definition me : peer := mkPeer 1000 42 (Some (lit "/usr/bin/shpool")).
Definition stranger : peer := mkPeer 1001 43 (Some (lit "/usr/bin/shpool")).
Definition hdr (n : rstr) (ttl : option N) : attach_header :=
  mkAttach n (lit "tmpl") (mkSize 24 80 0 0) [] ttl None None None.
Definition asks (c : conn) (q : request) : action := AConnect c me me (Some q).

Definition work : rstr := lit "work".
Definition play : rstr := lit "play".

(** Connection [c] creates a session, or attaches to one, and starts streaming. *)
Definition creates (c : conn) (n : rstr) (ttl : option N) : list action :=
  [asks c (QAttach (hdr n ttl)); AAttach c true 10; ASpawn c true 11 1000; AInsert c; AFetch c; AReply c true true; AStart c true].
Definition reattaches (c : conn) (n : rstr) : list action :=
  [asks c (QAttach (hdr n None)); AAttach c true 20; AReply c true true; AStart c true].
(** Connection [c] goes away, its shell still running, at time [now]. *)
Definition goes (c : conn) (now : Z) : list action := [AEnd c false true true; AUnwind c now; ALeave c].
(** The shell [s] connection [c] is attached to exits and is cleaned up. *)
Definition exits (c : conn) (s : sid) (now : Z) : list action := [AExit s 0; AEnd c true true true; AUnwind c now; ALeave c].

Definition fresh : server := server_new [].
