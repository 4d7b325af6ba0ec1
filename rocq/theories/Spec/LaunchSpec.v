(** Files and instances. *)
From Coq Require Import List NArith Bool.
From Verif Require Import Model.Base Spec.PathSpec.
Import ListNotations.
Open Scope N_scope.

(** Two absolute paths that (without symbolic links) lead to the same file. *)
Definition same_file (a b : rstr) : Prop := components a = components b.

Definition absolute (p : rstr) : Prop := exists r, p = 47 :: r.

(** The file [name] of the directory [dir]. *)
Definition is_file_in (path dir name : rstr) : Prop :=
  (dir = [] \/ exists d, dir = d ++ [47]) /\ path = dir ++ name /\ ~ In 47 name.
