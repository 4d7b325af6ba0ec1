(** The daemon and its events socket together, as a program that follows the events
    (EVENTS.md 1-7, 47-56) has to do with them: what the daemon publishes is what the
    sink is given. *)
From Coq Require Import List NArith ZArith Bool Arith.
From Verif Require Import Model.Base Model.Server Model.EventBus.
Import ListNotations.
Open Scope nat_scope.

(** server.rs 67-86: the daemon and the bus it owns. *)
Record world := mkWorld { daemon : server; bus_of : bus }.
(** server.rs 92-137 (Server::new). *)
Definition world_new (defaults : list (rstr * rstr)) : world := mkWorld (server_new defaults) bus_new.

(** A step of the daemon; of the sink, of a publisher on its way out of publish, or of a
    subscriber. *)
Inductive deed := Daemon (a : action) | Events (a : bus_action).

(** server.rs 362, 383, 464, 546-549, 759 and ttl_reaper.rs 121: each is called with the
    table locked, in the step that makes the change.  Simplification: the sink takes none
    of the events of one such step before the last has been published. *)
Definition new_events (before after : server) : list ev_kind :=
  map e_kind (skipn (length (events before)) (events after)).
Definition act (w : world) (d : deed) : world :=
  match d with
  | Daemon a =>
    let st := step (daemon w) a in
    mkWorld st (bus_run (bus_of w) (map BPublish (new_events (daemon w) st)))
  | Events (BPublish _) => w    (* nobody else publishes *)
  | Events a => mkWorld (daemon w) (bus_step (bus_of w) a)
  end.
(** Any schedule. *)
Definition acts (w : world) (l : list deed) : world := fold_left act l w.
