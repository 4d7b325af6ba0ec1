(** Vocabulary for the properties of starting daemons. *)
From Coq Require Import List NArith ZArith Bool Arith.
From Verif Require Import Model.Daemonize.
Import ListNotations.
Open Scope nat_scope.

(** Connecting to the control socket reaches daemon [d]. *)
Definition reaches (st : world) (d : nat) : Prop := control st = Some d /\ listening (procs st d) = true.

(** [d] runs a socket of its own, whoever can reach it. *)
Definition serving (st : world) (d : nat) : Prop := exists auto, procs st d = DServe auto.

(** The process has decided to remove a control socket it found dead. *)
Definition removing (x : proc) : Prop :=
  match x with CUnlink _ | DUnlink _ => True | _ => False end.
(** The process has bound the control socket's name. *)
Definition bound (x : proc) : Prop :=
  match x with DListen _ | DServe _ | DCleanControl _ | DCleanEvents _ | DCleanPid _ => True | _ => False end.

(** Step [a] meets a refused connection where it matters. *)
Definition meets_refusal (st : world) (a : act) : Prop :=
  match a with
  | Go p => connect st = Refused /\ match procs st p with CProbe _ | DProbe _ => True | _ => False end
  | _ => False
  end.
(** Step [a] takes a daemon down that has bound the socket. *)
Definition takes_down (st : world) (a : act) : Prop :=
  match a with Term p | Kill p => bound (procs st p) | _ => False end.

Fixpoint always (P : world -> act -> Prop) (st : world) (l : list act) : Prop :=
  match l with [] => True | a :: r => P st a /\ always P (exec st a) r end.

(** Nothing is under way: every process has finished or serves. *)
Definition at_rest (x : proc) : Prop :=
  match x with Absent | CDone | CFailed | DServe _ | DExited | Dead => True | _ => False end.
Definition quiet (st : world) : Prop :=
  (forall p, at_rest (procs st p)) /\ (forall p, next st <= p -> procs st p = Absent) /\
  (forall o, control st = Some o -> o < next st).

(** A client by itself, and the daemon it launches. *)
Definition launch (patient : bool) (st : world) : world :=
  let c := next st in
  exec_all st (NewClient patient :: repeat (Go c) 3 ++ repeat (Go (S c)) 10 ++ [Go c]).

(** What happens between launches. *)
Inductive between := Launch (patient : bool) | Ended (p : nat) | Stopped (p : nat).
Definition happen (st : world) (b : between) : world :=
  match b with
  | Launch patient => launch patient st
  | Ended p => exec st (Kill p)
  | Stopped p => exec_all st [Term p; Go p; Go p; Go p]
  end.
