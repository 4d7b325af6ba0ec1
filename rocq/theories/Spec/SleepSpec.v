(** The waiting intervals a poll strategy promises. *)
From Coq Require Import List NArith Bool.
From Verif Require Import Model.Base Model.Sleep.
Open Scope N_scope.

(** The pause before the [i]-th re-check (if there is that much time left): the
    configured interval, or one millisecond if none was configured; with
    exponential backoff each pause is the scaled predecessor, capped. *)
Fixpoint interval (s : poll_strategy) (i : nat) : N :=
  match i with
  | O => match s with
         | Uniform d | Backoff d _ _ _ => match d with 0 => 1000000 | _ => d end
         end
  | S i => match s with
           | Uniform _ | Backoff _ false _ _ => interval s i
           | Backoff _ true scale cap => N.min (scale (interval s i)) cap
           end
  end.

(** A strategy whose pauses are never zero. *)
Definition always_pauses (s : poll_strategy) : Prop := forall i, 0 < interval s i.
