(** What one turn of a session's output thread should do, given whether a client is
    attached. *)
From Coq Require Import List NArith ZArith Bool.
From Verif Require Import Model.Base Model.Chunk Model.Protocol Model.Duration Model.Config Model.Restore Model.Pager Model.Motd Model.Sentinel Model.ShellToClient.
Import ListNotations.
Open Scope N_scope.

(** Whether a client is attached. *)
Definition there (client : option nat) : bool := match client with Some _ => true | None => false end.

(** Everything a request needs works: the old client's socket can be closed, the pty's
    size set, somebody waits for the answer, the client's socket did not fail in another
    way than by being closed; and the request does not end the thread by itself. *)
Definition closes (attached : bool) (it : iter) : Prop := attached = true -> shutdown_ok it = true.
Definition size_fits (b : build) (z : tty_size) : Prop := b = Debug -> rows z < 65535 /\ cols z < 65535.
Definition request_works (b : build) (attached : bool) (it : iter) : Prop :=
  match sel it with
  | SelConn (NewConn _ z) => closes attached it /\ size_fits b z /\ oversize_ok it = true /\ ack_ok it = true
  | SelConn Disconnect => closes attached it /\ ack_ok it = true
  | SelConn (DisconnectExit _) | SelConnClosed | SelSizeClosed => False
  | SelSize _ => ack_ok it = true
  | SelHeartbeat => (attached = true -> w_sel it <> WriteErr) /\ ack_ok it = true
  | SelSwitch (Some _) => attached = true -> w_sel it <> WriteErr
  | SelSwitch None | SelSwitchClosed | SelNothing => True
  end.

(** The turn gets as far as looking at the pty. *)
Definition looks (attached : bool) (it : iter) : Prop :=
  match sel it with
  | SelSwitch enc => attached = true /\ enc <> None
  | SelSwitchClosed => False
  | _ => True
  end.

(** Nothing wrong with the pty, and no end of file. *)
Definition pty_works (it : iter) : Prop :=
  match poll it with PollTimeout | PollRead (Ok _) => True | _ => False end.

(** The ways to end well: told so, by the daemon dropping the session, or by the shell. *)
Definition ends_well (b : build) (attached : bool) (it : iter) : Prop :=
  match sel it with
  | SelConn (DisconnectExit _) => closes attached it /\ ack_ok it = true
  | SelConnClosed | SelSizeClosed => True
  | _ => request_works b attached it /\ looks attached it /\ exists p x, poll it = PollHangup p x
  end.

(** What the requester is told. *)
Definition answer (attached : bool) (it : iter) : list ack :=
  match sel it with
  | SelConn (NewConn _ _) => [if attached then AckReplaced else AckNew]
  | SelConn _ => [if attached then AckDetached else AckDetachNone]
  | SelSize _ => [AckSize]
  | SelHeartbeat => [AckHeartbeat (attached && match w_sel it with WroteAll => true | _ => false end)]
  | _ => []
  end.
Definition answered (b : build) (attached : bool) (it : iter) : Prop :=
  match sel it with
  | SelConn (DisconnectExit _) => closes attached it /\ ack_ok it = true
  | _ => request_works b attached it
  end.

(** The socket closed by the turn. *)
Definition closed_by (client : option nat) (it : iter) : list nat :=
  match sel it, client with
  | SelConn _, Some id => if shutdown_ok it then [id] else []
  | _, _ => []
  end.

(** Who is attached after the request. *)
Definition next_client (client : option nat) (it : iter) : option nat :=
  match sel it with
  | SelConn (NewConn id _) => Some id
  | SelConn _ => None
  | _ => client
  end.

(** Reads are bytes. *)
Definition byte_turn (it : iter) : Prop :=
  forall bs, poll it = PollRead (Ok bs) -> Forall (fun x => x < 256) bs.

(** A due message of the day is still to be dumped under the configuration in force. *)
Definition still_dump (due : bool) (it : iter) : Prop := due = true -> motd (conf it) = Some MotdDump.

(** Something the shell has printed is shown: [shown] is what the gate makes of a read. *)
Definition shows (shown : list N -> option (list N)) (it : iter) : Prop :=
  exists bs sh, bs <> [] /\ poll it = PollRead (Ok bs) /\ shown bs = Some sh.

(** The ways to panic: an attach from a window too large for the debug build's arithmetic,
    and showing the first output to a client with a message of the day still due that the
    configuration in force no longer wants dumped. *)
Definition panics (b : build) (due : bool) (client : option nat) (shown : list N -> option (list N)) (it : iter) : Prop :=
  (match sel it with SelConn (NewConn _ z) => closes (there client) it /\ ~ size_fits b z | _ => False end) \/
  (request_works b (there client) it /\ looks (there client) it /\ next_client client it <> None /\
   due = true /\ motd (conf it) <> Some MotdDump /\ shows shown it).
