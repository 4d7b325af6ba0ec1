(** Reading what the commands print. *)
From Coq Require Import List NArith Bool.
From Verif Require Import Model.Base.
Import ListNotations.
Open Scope N_scope.

(** A text made of exactly these lines. *)
Definition lines_are (text : rstr) (lines : list rstr) : Prop :=
  text = flat_map (fun l => l ++ [10]) lines /\ Forall (fun l => ~ In 10 l) lines.

(** A word a column can hold: no tab, no line break, no space. *)
Definition word (s : rstr) : Prop := ~ In 9 s /\ ~ In 10 s /\ ~ In 32 s.

(** A row of the table: the name, some spaces, a tab, the status. *)
Definition row (line name status : rstr) : Prop :=
  exists spaces, line = name ++ spaces ++ 9 :: status /\ Forall (eq 32) spaces.

Definition says_attached (attached : bool) (status : rstr) : Prop :=
  status = if attached then lit "attached" else lit "disconnected".
