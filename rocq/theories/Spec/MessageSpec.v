(** Vocabulary for messages that ask a session to let its client go. *)
From Coq Require Import List NArith ZArith Bool Arith.
From Verif Require Import Model.Base Model.Protocol Model.Names Model.Server Spec.ServerSpec.
Import ListNotations.
Open Scope nat_scope.

(** Everything but the sessions, the handlers' positions and the replies is the same. *)
Definition same_books (a b : server) : Prop :=
  table b = table a /\ locked b = locked a /\ events b = events a /\ vars b = vars a /\
  signalled b = signalled a /\ mailbox b = mailbox a /\ heap b = heap a /\ gens b = gens a.

(** The shell [s] has an output thread that takes messages. *)
Definition heeds (st : server) (s : sid) : Prop :=
  exists x, session_at st s = Some x /\ (s_thread x = TWaiting \/ s_thread x = TRunning).

(** From [a] to [b] session [s] has let its client go, if it had one: nobody gets
    its output any more.  Its shell, its times, its records and whoever holds it
    are as before, and so are all other sessions. *)
Definition let_go (s : sid) (a b : server) : Prop :=
  same_books a b /\ length (sessions b) = length (sessions a) /\ (forall s', s' <> s -> session_at b s' = session_at a s') /\
  exists x y, session_at a s = Some x /\ session_at b s = Some y /\
    s_client y = None /\ s_thread y = TRunning /\
    s_name y = s_name x /\ s_born y = s_born x /\ s_started y = s_started x /\ s_exit y = s_exit x /\
    s_inner y = s_inner x /\ s_stream y = s_stream x /\ s_connected y = s_connected x /\
    s_disconnected y = s_disconnected x /\ s_attachment y = s_attachment x /\
    s_switches y = s_switches x /\ s_taken y = s_taken x /\ s_deadline y = s_deadline x.
