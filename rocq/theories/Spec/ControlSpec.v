(** Vocabulary for the control channels. *)
From Coq Require Import List Bool Arith.
From Verif Require Import Model.Control.
Import ListNotations.

(** A state the daemon can get to with [N] threads making requests on [M] sessions. *)
Definition reachable (N M : nat) (d : daemon) : Prop := exists l, d = run N M idle l.

(** A thread that is not in the middle of a request. *)
Definition at_rest (x : phase) : Prop := match x with Resting | Finished _ => True | _ => False end.

(** What happens by itself, no time-out striking and nothing breaking: locks and messages
    are taken, handled and acknowledged; an error is noticed. *)
Definition by_itself (a : action) : Prop :=
  match a with GetTable _ | Next _ | GetCtl _ | Take _ | Handled _ | Ack _ | Drain _ | Cut _ => True | _ => False end.
Definition waits_too_long (a : action) : Prop := match a with AckTimeout _ => True | _ => False end.

(** A sequence of steps that are all possible. *)
Inductive path (N M : nat) : daemon -> list action -> daemon -> Prop :=
| path_nil d : path N M d [] d
| path_cons d a d1 l d2 : step N M d a = Some d1 -> path N M d1 l d2 -> path N M d (a :: l) d2.

(** Thread [p] waits for an acknowledgement from session [s]. *)
Definition awaits (d : daemon) (p s : nat) : Prop := exists r n, phases d p = Waiting r n /\ on r = s.
(** The session's thread offers an acknowledgement. *)
Definition acking (d : daemon) (s : nat) : Prop := exists k n e, srv d s = Acking k n e.
(** An acknowledgement nobody waits for. *)
Definition orphaned (d : daemon) (s : nat) : Prop := acking d s /\ forall p, ~ awaits d p s.
(** A thread that has the table lock to wait for. *)
Definition wants_table (x : phase) : Prop := match x with WantTable _ | WantTableDetach _ => True | _ => False end.

(** Nothing goes wrong: no time-out strikes and no session's thread ends. *)
Definition calm (a : action) : Prop :=
  match a with SendTimeout _ | AckTimeout _ | End _ | Drop _ => False | Ask _ (Timed _ _ e) => e = false | _ => True end.
