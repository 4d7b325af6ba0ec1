(** What is assumed of the Unicode tables: they agree with ASCII on ASCII. *)
From Coq Require Import NArith Bool.
From Verif Require Import Model.Base Model.Duration.
Open Scope N_scope.

Definition agrees_with_ascii (u : unicode) : Prop :=
  forall c, c < 128 ->
    (u_numeric u c = true <-> 48 <= c <= 57) /\
    (u_alphabetic u c = true <-> 65 <= c <= 90 \/ 97 <= c <= 122).

(** The table that knows ASCII only, for examples. *)
Definition ascii_only : unicode :=
  mkUnicode (fun c => (48 <=? c) && (c <=? 57))
            (fun c => ((65 <=? c) && (c <=? 90)) || ((97 <=? c) && (c <=? 122))).

Definition numeric (u : unicode) (c : N) : Prop := u_numeric u c = true.
Definition alphanumeric (u : unicode) (c : N) : Prop := u_alphabetic u c || u_numeric u c = true.
