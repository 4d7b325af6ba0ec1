(** The shell's window and the terminal's. *)
From Coq Require Import List NArith Bool.
From Verif Require Import Model.Base Model.Protocol Model.ShellToClient Model.Winch Model.Window Spec.WinchSpec Spec.OutputSpec.
Import ListNotations.

(** A session's past: none, or an output thread that has had its first client. *)
Definition past_ok (past : list s2c_event) : Prop :=
  past = [] \/ exists m now ok its, past = First m now ok :: map Iter its.

(** The terminal's size after [l], having been [z] before. *)
Definition terminal (z : tty_size) (l : list happening) : tty_size :=
  last (flat_map (fun h => match h with Client (SizeChange y) => [y] | _ => [] end) l) z.

(** Nobody else asks the session for a size. *)
Definition alone (h : happening) : Prop := match h with Turn it => iter_size it = [] | _ => True end.

(** The client has been handed to the session; every change of the terminal's size has
    been reported and every report been answered well. *)
Definition settled_in (j : journey) : Prop :=
  attach_sent (user j) = true /\ held j = None /\
  signalled (user j) = false /\ at_ (user j) = Idle /\ all_heard (log (user j)).

(** A report reaches somebody while the attach has its size but is not done with it: the
    output thread, before the client has been handed to it; or a pager that is closing. *)
Definition too_early (j : journey) (h : happening) : Prop :=
  match h with
  | Report _ _ => held j <> None /\ match pager j with NoPager => life j <> [] | Showing => False | Closing => True end
  | _ => False
  end.
Fixpoint never (P : journey -> happening -> Prop) (j : journey) (l : list happening) : Prop :=
  match l with [] => True | h :: r => ~ P j h /\ never P (happens j h) r end.

(** The shell's window is [z], or will be when the delayed resize is carried out. *)
Definition window_is {e} (s : @s2c e) (z : tty_size) : Prop :=
  match resize_cmd s with None => winsize s = z | Some (z', _) => z' = z end.
