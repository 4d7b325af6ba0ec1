(** How a reader of the session's env file sees it: one NAME=value per line. *)
From Coq Require Import List NArith.
From Verif Require Import Model.Base.
Import ListNotations.
Open Scope N_scope.

Definition lines_of (t : rstr) : list rstr := split_on 10 t.

(** The line is the name, the first '=' and the value. *)
Definition line_is (line : rstr) (p : rstr * rstr) : Prop := line = fst p ++ 61 :: snd p /\ ~ In 61 (fst p).

(** An empty file has no variables. *)
Definition reads_as (t : rstr) (vars : list (rstr * rstr)) : Prop :=
  (t = [] /\ vars = []) \/ Forall2 line_is (lines_of t) vars.
