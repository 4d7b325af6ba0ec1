(** What C64 and C65 say about the threads that serve an attached client. *)
From Coq Require Import List NArith ZArith Bool Arith.
From Verif Require Import Model.Base Model.Chunk Model.Keybindings Model.Input Model.Streaming Spec.InputSpec.
Import ListNotations.

(** The attachment is over: the handler of the connection has its result. *)
Definition over (s : stream) : Prop := exists r, boss_at s = KDone r.
(** A thread of it has ended. *)
Definition thread_ended (s : stream) : Prop :=
  (exists h, typist_at s = TEnded h) \/ (exists h, beater_at s = BEnded h) \/ watch_at s = WEnded.
Definition all_threads_ended (s : stream) : Prop :=
  (exists h, typist_at s = TEnded h) /\ (exists h, beater_at s = BEnded h) /\ watch_at s = WEnded.

(** A stretch of a schedule in which nobody is kept waiting: each of the threads moves at
    least once, and whatever it waits for then comes to an end, one way or another. *)
Definition settles (a : answer) : Prop := a <> NotYet /\ forall n, a <> Trickle n.
Definition full_round (l : list action) : Prop := forall w, exists a, settles a /\ In (Step w a) l.

(** Every chunk the schedule has the client send is one a read can return. *)
Definition sane (l : list action) : Prop := forall c, In (Types c) l -> good_read (N.to_nat BUF_SIZE) c.

(** What the client managed to send. *)
Fixpoint typed (s : stream) (l : list action) : list (list N) :=
  match l with
  | [] => []
  | x :: r => (match x with Types c => if gone s || shut s then [] else [c] | _ => [] end) ++ typed (step s x) r
  end.

(** The bytes a history of reads gives the shell (see Input.v and C09). *)
Definition written (r : read_result) : list N := match r with Continue _ w => w | Detached w => w end.
Definition prefix {A} (a b : list A) : Prop := exists c, b = a ++ c.

(** Nothing happens that should end an attachment: the shell lives, the client stays and is
    found there, nobody detaches it, reads and writes do not fail, and the output thread
    answers the heartbeats it takes.  It may be too busy to take one. *)
Definition uneventful (x : action) : Prop :=
  match x with
  | Step Typist a => a <> Lost
  | Step Beater a => a <> Lost /\ a <> Gone /\ a <> Reply false
  | ShellExits _ | Leaves | Shuts => False
  | _ => True
  end.

(** All the heartbeat hears from the output thread, if anything, is [b]. *)
Definition heartbeat_hears (b : answer) (x : action) : Prop := match x with Step Beater a => a = NotYet \/ a = b | _ => True end.

(** The write to the shell that client->shell is in goes on being refused. *)
Definition shell_reads_nothing (x : action) : Prop := match x with Step Typist a => a = NotYet | _ => True end.

(** Nothing goes wrong on the way: no read, write or acknowledgement fails. *)
Definition faultless (x : action) : Prop :=
  match x with
  | Step Typist a | Step Boss a => a <> Lost /\ a <> Busy /\ a <> Gone
  | Step Beater a => a <> Lost
  | _ => True
  end.

(** The client stays, is found there, is not detached and sends nothing. *)
Definition idle_client (x : action) : Prop :=
  match x with
  | Step Typist a => a <> Lost
  | Types _ | Leaves | Shuts => False
  | _ => True
  end.

(** Nothing but the end of the shell ends the attachment. *)
Definition only_the_shell (x : action) : Prop :=
  match x with
  | Step Typist a => a <> Lost
  | Step Beater a => a <> Lost /\ a <> Gone /\ a <> Reply false
  | Step Boss a => a <> Lost /\ a <> Busy /\ a <> Gone
  | Leaves | Shuts => False
  | _ => True
  end.
