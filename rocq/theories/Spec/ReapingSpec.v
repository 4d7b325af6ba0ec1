(** The daemon and its reaper thread together. *)
From Coq Require Import List NArith ZArith Bool Arith Permutation.
From Verif Require Import Model.Base Model.Protocol Model.Names Model.Server Spec.ServerSpec.
From Verif Require Model.Reaper Spec.ReaperThreadSpec.
Import ListNotations.
Open Scope nat_scope.

(** A deadline as the daemon's account has it, and as the thread has noted it. *)
Definition as_noted (q : reapable) : Reaper.reapable := Reaper.mkReapable (r_name q) (N.of_nat (r_gen q)) (r_at q).

(** The account has the deadlines the thread has, and the same one as the latest of each
    name. *)
Definition agrees (st : server) (r : Reaper.reaper) : Prop :=
  Permutation (map as_noted (heap st)) (Reaper.heap r) /\
  (forall n, N.of_nat (gen_of st n) = match lookup n (Reaper.gen_ids r) with Some g => g | None => 0%N end) /\
  Reaper.ended r = false.

(** What is the reaper's to do. *)
Definition reapers (a : action) : bool := match a with ARegister | AFire _ _ => true | _ => false end.

(** The daemon and the thread, as they can get with each other: whatever else the daemon
    does; the thread takes a message; it wakes up, having to wait for the table only if
    what it has is the latest deadline of its name. *)
Inductive daemon : server -> Reaper.reaper -> Prop :=
| d_new defaults : daemon (server_new defaults) Reaper.reaper_new
| d_else st r a : daemon st r -> reapers a = false -> daemon (step st a) r
| d_told st r n d s rest : daemon st r -> mailbox st = (n, d, s) :: rest -> daemon (step st ARegister) (Reaper.step r (Reaper.Message n d))
| d_wakes st r now k q : daemon st r -> nth_error (heap st) k = Some q -> Reaper.peek (Reaper.heap r) = Some (as_noted q) -> (r_at q <= now)%N ->
    locked st = None \/ gen_of st (r_name q) <> r_gen q -> daemon (step st (AFire k now)) (Reaper.step r (Reaper.Timer now)).

(** From [a] to [b] the session listed under [n], if there is one, has been ended: it is
    listed no more, its shell has been sent the hangup, and this is published; nothing
    else has happened. *)
Definition ended_by (n : rstr) (a b : server) : Prop :=
  table b = remove n (table a) /\ sessions b = sessions a /\ handlers b = handlers a /\ replies b = replies a /\ locked b = locked a /\ vars b = vars a /\
  mailbox b = mailbox a /\ gens b = gens a /\
  match lookup n (table a) with
  | Some s => signalled b = signalled a ++ [s] /\ events b = events a ++ [mkEvent ERemoved n (Some s) None]
  | None => signalled b = signalled a /\ events b = events a
  end.

(** Nothing a user could notice has happened. *)
Definition unnoticed (a b : server) : Prop :=
  table b = table a /\ sessions b = sessions a /\ handlers b = handlers a /\ replies b = replies a /\ locked b = locked a /\ vars b = vars a /\
  mailbox b = mailbox a /\ gens b = gens a /\ signalled b = signalled a /\ events b = events a.
