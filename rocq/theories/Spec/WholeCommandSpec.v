(** What a command is meant to ask, what can be said on the wire, and the moments between
    the asking and the end of a command. *)
From Coq Require Import List NArith ZArith Bool Arith.
From Verif Require Import Model.Base Model.Protocol Model.UserInfo Model.Commands Spec.UserInfoSpec Spec.WireSpec Spec.ServerSpec Spec.HandshakeSpec Model.Msgpack Model.Messages.
From Verif Require Model.Server Model.Handshake Model.WholeCommand.
Import ListNotations.
Open Scope N_scope.

(** A string a Rust program may have, short enough to be written. *)
Definition rust (s : rstr) : Prop := Forall scalar s /\ N.of_nat (length (str_bytes s)) < 2 ^ 32.

(** The sessions a kill or a detach is about: those named or, when none are, the one it is
    run in. *)
Inductive targets (current : option rstr) : list rstr -> list rstr -> Prop :=
| t_named n ns : targets current (n :: ns) (n :: ns)
| t_current s : current = Some s -> targets current [] [s].

(** What each command is for. *)
Inductive meant (current : option rstr) : WholeCommand.command -> Server.request -> Prop :=
| m_list : meant current WholeCommand.ListCmd Server.QList
| m_kill named names : targets current named names -> meant current (WholeCommand.KillCmd named) (Server.QKill names)
| m_detach named names : targets current named names -> meant current (WholeCommand.DetachCmd named) (Server.QDetach names)
| m_vars : meant current (WholeCommand.VarCmd VarList) Server.QGetVars
| m_get var : meant current (WholeCommand.VarCmd (VarGet var)) Server.QGetVars
| m_set var val : meant current (WholeCommand.VarCmd (Commands.VarSet var val)) (Server.QModify var (Some val))
| m_unset var : meant current (WholeCommand.VarCmd (Commands.VarUnset var)) (Server.QModify var None).

(** Its strings are Rust strings, and not too many. *)
Definition speakable (q : Server.request) : Prop :=
  match q with
  | Server.QKill names | Server.QDetach names => many rust names
  | Server.QModify var val => rust var /\ maybe rust val
  | _ => True
  end.

(** The same for all a daemon may be asked to tell; and its clock is that of these ages. *)
Definition tellable (st : Server.server) : Prop :=
  many (fun p => rust (fst p) /\ rust (snd p)) (Server.vars st) /\
  N.of_nat (length (Server.table st)) < 2 ^ 32 /\
  forall n s x, listed st n s -> Server.session_at st s = Some x ->
    rust n /\ i64 (Server.s_started x) /\ maybe i64 (Server.s_connected x) /\ maybe i64 (Server.s_disconnected x) /\
    maybe (fun w => rust (fst w) /\ (- 2 ^ 31 <= snd w < 2 ^ 31)%Z) (Server.s_attachment x).

(** Several words with spaces between them; a complaint about sessions, if there are any. *)
Inductive words : list rstr -> rstr -> Prop :=
| w_one s : words [s] s
| w_more s t l text : words (t :: l) text -> words (s :: t :: l) (s ++ [32] ++ text).
Inductive complaint (about : rstr) : list rstr -> rstr -> Prop :=
| c_none : complaint about [] []
| c_some l text : words l text -> complaint about l (about ++ text ++ [10]).

(** The daemon's own steps, as far as others take them: all but the arrival of this
    command's request. *)
Definition others (c : Server.conn) (l : list WholeCommand.deed) : list Server.action :=
  flat_map (fun d => match d with WholeCommand.Others a => if WholeCommand.mine c a then [] else [a] | _ => [] end) l.

(** The command asks for [q] and the daemon, run by the same user, takes it; both speak
    properly. *)
Record sensible (unreadable : ty -> list byte -> bool) (version : rstr) (self other : Server.peer) (current : option rstr)
    (cmd : WholeCommand.command) (q : Server.request) : Prop := {
  se_patient : patient unreadable;
  se_version : text version;
  se_meant : meant current cmd q;
  se_speakable : speakable q;
  se_allowed : exists pid, Server.check_peer self other = Ok pid
}.
(** It is so after every beginning of [l]. *)
Definition throughout (world : list WholeCommand.deed -> WholeCommand.world) (P : Server.server -> Prop) (l : list WholeCommand.deed) : Prop :=
  forall l1 l2, l = l1 ++ l2 -> P (WholeCommand.srv (world l1)).
(** The command has asked and has not ended yet. *)
Definition waiting (current : option rstr) (cmd : WholeCommand.command) (w : WholeCommand.world) : Prop :=
  WholeCommand.asked w = true /\ WholeCommand.ended current cmd w = None.
(** A stretch of a schedule in which both programs get a turn. *)
Definition turns (l : list WholeCommand.deed) : Prop := (exists k, In (WholeCommand.Daemon k) l) /\ (exists k, In (WholeCommand.Client k) l).
(** What the daemon does about a request of [c] it has taken, [sessions] being the number it
    has: a change of a variable is sent to each, and given up if one does not take it; for
    a detach each session named is talked to, at some time, and answers. *)
Inductive serves (c : Server.conn) (sessions : nat) : Server.request -> list Server.action -> Prop :=
| v_list : serves c sessions Server.QList [Server.AList c]
| v_kill names oks : serves c sessions (Server.QKill names) [Server.AKill c oks]
| v_get : serves c sessions Server.QGetVars [Server.AGetVars c]
| v_modify var val n : (sessions < n)%nat ->
    serves c sessions (Server.QModify var val) (Server.AModify c :: Server.ACollect c :: repeat (Server.ASend c true) n)
| v_detach names times : length times = length names ->
    serves c sessions (Server.QDetach names) (Server.ADetach c :: map (Server.ADetachNext c) times ++ [Server.ADetachFinish c]).
