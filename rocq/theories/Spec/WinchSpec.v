(** What a session has been told about its client's window. *)
From Coq Require Import List NArith.
From Verif Require Import Model.Base Model.Protocol Model.Winch.
Import ListNotations.

(** [knows name z l]: of the messages [l] about session [name] that took effect, the
    last one said [z]. *)
Inductive concerns (name : rstr) (z : tty_size) : told_msg -> Prop :=
| by_attach : concerns name z (MAttach name z)
| by_report : concerns name z (MReport name z ReportOk).

Definition knows (name : rstr) (z : tty_size) (l : list told_msg) : Prop :=
  exists before m after, l = before ++ m :: after /\ concerns name z m /\
    forall m' z', In m' after -> ~ concerns name z' m'.

(** Everything that was reported was reported successfully. *)
Definition all_heard (l : list told_msg) : Prop :=
  forall m, In m l -> match m with MAttach _ _ | MReport _ _ ReportOk => True | _ => False end.
