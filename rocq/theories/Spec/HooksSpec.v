(** Vocabulary for the properties of the callbacks. *)
From Coq Require Import List NArith ZArith Bool Arith.
From Verif Require Import Model.Base Model.Protocol Model.Names Model.Server Model.Hooks.
Import ListNotations.
Open Scope nat_scope.

(** What a connection's handler called, in order. *)
Definition calls_of (c : conn) (cs : list call) : list (hook * rstr) :=
  map (fun k => (k_hook k, k_name k)) (filter (fun k => k_conn k =? c) cs).

Definition opens (h : hook) : Prop := h = OnNewSession \/ h = OnReattach.
Definition closes (h : hook) : Prop := h = OnClientDisconnect \/ h = OnShellDisconnect.

(** The connections told that a session was busy, by callback and by reply. *)
Definition busy_calls (cs : list call) : list conn :=
  map k_conn (filter (fun k => match k_hook k with OnBusy => true | _ => false end) cs).
Definition busy_replies (rs : list (conn * reply)) : list conn :=
  map fst (filter (fun r => match snd r with RAttach Busy => true | _ => false end) rs).
