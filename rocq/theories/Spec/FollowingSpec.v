(** A program that follows the sessions: it is connected to the events socket and lists the
    sessions whenever a line has come. *)
From Coq Require Import List NArith ZArith Bool Arith.
From Verif Require Import Model.Base Model.Server Model.EventBus Model.Following Spec.ServerSpec Spec.EventBusSpec.
Import ListNotations.
Open Scope nat_scope.

Definition possible (w : world) : Prop := exists defaults l, w = acts (world_new defaults) l.

(** The daemon would now answer a request to list the sessions so. *)
Definition lists (st : server) (l : list session_info) : Prop :=
  exists c, replies (step st (AList c)) = replies st ++ [(c, RList l)].

(** Subscriber [i] has been sent everything that was published, and nothing was lost on
    the way. *)
Definition nothing_to_come (w : world) (i : nat) (sent : rstr) : Prop :=
  lost (bus_of w) = [] /\ channel (bus_of w) = [] /\
  exists b, find_sub i (subs (bus_of w)) = Some b /\ b_dropped b = false /\ b_pending b = [] /\ b_sent b = sent.

(** Which sessions there are, and since when; and whether somebody is attached. *)
Definition which (i : session_info) : rstr * Z := (i_name i, i_started i).
Definition and_status (i : session_info) : rstr * Z * bool := (i_name i, i_started i, i_attached i).

(** No attach is being set up, and none has been reported ended and not yet let go of its
    session. *)
Definition steady (h : handler) : bool :=
  match h with HFetch _ _ | HWaitInner _ _ | HReply _ _ _ | HLeave _ _ => false | _ => true end.
Definition all_steady (st : server) : Prop := forall c, steady (handlers st c) = true.
