(** Vocabulary for the properties of the TTL reaper. *)
From Coq Require Import List NArith ZArith Bool Arith.
From Verif Require Import Model.Base Model.Protocol Model.Names Model.Server.
Import ListNotations.
Open Scope nat_scope.

(** Session [s] was created under name [n] with a TTL that ends at [d]. *)
Definition ttl_session (st : server) (n : rstr) (s : sid) (d : N) : Prop :=
  exists x, session_at st s = Some x /\ s_name x = n /\ s_deadline x = Some d.

(** The reaper has been told of session [s] but has not yet read that message. *)
Definition in_mail (st : server) (s : sid) : Prop := exists n t, In (n, t, s) (mailbox st).

(** The reaper has yet to act on what it was told about session [s]. *)
Definition pending (st : server) (s : sid) : Prop := in_mail st s \/ exists r, In r (heap st) /\ r_sid r = s.

(** Steps of the reaper alone, at time [inst]. *)
Definition reaper_only (inst : N) (l : list action) : Prop :=
  Forall (fun a => a = ARegister \/ exists k, a = AFire k inst) l.
