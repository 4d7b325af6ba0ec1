(** File types as the system reports them (inode(7)): the four bits above the twelve
    permission bits of the mode word. *)
From Coq Require Import NArith.
Open Scope N_scope.

Inductive file_kind := Fifo | CharDevice | Directory | BlockDevice | RegularFile | SymbolicLink | Socket.

Definition kind_code (k : file_kind) : N :=
  match k with
  | Fifo => 1 | CharDevice => 2 | Directory => 4 | BlockDevice => 6
  | RegularFile => 8 | SymbolicLink => 10 | Socket => 12
  end.

Definition mode_of (k : file_kind) (permissions : N) : N := kind_code k * 4096 + permissions.
