(** What it means that the daemon's account of a session agrees with what the session's
    output thread is doing. *)
From Coq Require Import List NArith ZArith Bool Arith.
From Verif Require Import Model.Base Model.Chunk Model.Protocol Model.Duration Model.Config Model.Restore Model.ShellToClient Model.Server Spec.ServerSpec.
Import ListNotations.
Open Scope nat_scope.

(** The state the daemon can see the thread in. *)
Definition seen {e : engines} (t : @s2c e) : thread :=
  match finished t with
  | Some EndOk => TFinished true
  | Some _ => TFinished false
  | None => if waiting t then TWaiting else TRunning
  end.

(** The client the thread writes to, as long as it runs. *)
Definition writes_to {e : engines} (t : @s2c e) : option nat :=
  match finished t with Some _ => None | None => client t end.

(** A state an output thread can get into. *)
Definition lived {e : engines} (b : build) (t : @s2c e) : Prop :=
  exists sup dump_motd c size t0 evs, s2c_new sup dump_motd c size = Some t0 /\ t = s2c_run b t0 evs.

(** The account of session [s] agrees with its thread [t]; the daemon may have collected a
    thread that has ended. *)
Definition in_step {e : engines} (st : server) (s : sid) (t : @s2c e) : Prop :=
  exists x, session_at st s = Some x /\ s_client x = writes_to t /\
    (s_thread x = seen t \/ (finished t <> None /\ s_thread x = TJoined)).

(** The thread, in state [t], takes the message [m] at event [ev]. *)
Definition takes {e : engines} (t : @s2c e) (ev : s2c_event) (m : conn_msg) : Prop :=
  finished t = None /\
  match ev with
  | First (Some m') _ _ => waiting t = true /\ m' = m
  | First None _ _ => False
  | Iter it => waiting t = false /\ sel it = SelConn m
  end.

(** No message about clients is taken. *)
Definition takes_none {e : engines} (t : @s2c e) (ev : s2c_event) : Prop := forall m, ~ takes t ev m.

(** What the thread does to the account by itself: end, or drop a client that cannot be
    written to. *)
Definition by_itself (s : sid) (a : action) : Prop := (exists ok, a = AThreadEnd s ok) \/ a = ADropClient s.

(** What a handler and the thread do together. *)
Definition together (s : sid) (h a : action) : Prop := a = h \/ by_itself s a.

(** The answers given by the thread at an event. *)
Definition said {e : engines} (before after : @s2c e) (new : list ack) : Prop := acks after = acks before ++ new.

(** A handler's stretch that talks to an output thread, or the thread's own doing. *)
Definition talks (a : action) : bool :=
  match a with
  | AStart _ _ | AEnd _ _ _ _ | ADetachNext _ _ | AMessageSend _ _ | AThreadEnd _ _ | ADropClient _ => true
  | _ => false
  end.
