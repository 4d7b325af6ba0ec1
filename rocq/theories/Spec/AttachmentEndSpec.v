(** What the output thread did with what the threads of an attachment told it. *)
From Coq Require Import List NArith ZArith Bool Arith.
From Verif Require Import Model.Base Model.Chunk Model.Protocol Model.Duration Model.Config Model.Restore Model.ShellToClient Spec.InStepSpec.
From Verif Require Model.Streaming.
Import ListNotations.

Definition as_told (m : Streaming.tell) : conn_msg :=
  match m with Streaming.TellDisconnect => Disconnect | Streaming.TellExit z => DisconnectExit z end.

(** Told nothing, it did nothing; told something, it has taken it. *)
Definition output_did {e : engines} (b : build) (before : @s2c e) (told : list Streaming.tell) (after : @s2c e) : Prop :=
  match told with
  | [] => after = before
  | [m] => exists ev, takes before ev (as_told m) /\ after = s2c_step b before ev
  | _ => False
  end.

(** What the handler of the connection goes by: whether the session is over. *)
Definition says_over (r : Streaming.outcome) : bool := match r with Streaming.Returned d => d | _ => false end.
