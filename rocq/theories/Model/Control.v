(** How the threads of the daemon talk to the thread that serves a session's output
    (shell->client): rendezvous channels, their acknowledgements and time-outs, the
    session's control lock and the lock of the session table.
    libshpool/src/daemon/shell.rs 268-633, 655-803, 956-1020, 1071-1122 and server.rs
    625-662, 700-735, 810-900, 1108-1131.

    Every blocking point is a phase of the thread that blocks; a schedule says who moves.
    Time is not counted: a time-out may strike whenever its thread is blocked with one.
    Simplified: what the messages carry and what is written to clients is not here (see
    ShellToClient.v), only how long a thread may be at it; the work other requests do
    while they hold the table lock is one step. *)
From Coq Require Import List Bool Arith.
Import ListNotations.

(** shell.rs 1091-1122: the pairs of channels of a [ShellToClientCtl], all of capacity
    0, and the broadcast channel without acknowledgement, of capacity 10 (server.rs
    1108-1118). *)
Inductive chan := Conn | Size | Beat | Push.
(** shell.rs 1091-1122. *)
Definition chan_eqb (a b : chan) : bool :=
  match a, b with Conn, Conn | Size, Size | Beat, Beat | Push, Push => true | _, _ => false end.
(** shell.rs 1091-1122. *)
Definition push_capacity : nat := 10.

(** The shell->client thread.  [last]: it returns once this is acknowledged
    (DisconnectExit, shell.rs 373-397). *)
Inductive serving :=
| Serving                                        (* at recv or in its loop: shell.rs 301, 314-485 *)
| Handling (k : chan) (n : nat) (last : bool)    (* took message [n]; writing to a client, say *)
| Acking (k : chan) (n : nat) (last : bool)      (* in a blocking send on the acknowledgement channel *)
| Ended.                                         (* its ends of the channels are dropped *)

(** One message to one session's thread.  [patient]: send and recv without time-out.
    [tabled]: the sender holds the table lock; [todo]: the sessions to do afterwards.
    server.rs 632-650, 726-731, 861-868, 886-896; shell.rs 748-768, 980-1008. *)
Record req := mkReq { on : nat; via : chan; last : bool; patient : bool; tabled : bool; todo : list nat }.

(** Where a handler thread or a thread of an attachment is. *)
Inductive phase :=
| Resting
| WantTable (kills : list nat)        (* list, kill, the look-up of an attach, ...: server.rs 409, 744, 776, 829 *)
| WantTableDetach (l : list nat)      (* handle_detach: server.rs 630 *)
| AtTable (l : list nat)              (* in its loop, the lock held: server.rs 631 *)
| WantCtl (r : req)                   (* at shell_to_client_ctl.lock() *)
| Sending (r : req)                   (* at send or send_timeout, the control lock held *)
| Waiting (r : req) (n : nat)         (* its message [n] was taken; at recv or recv_timeout of the acknowledgement *)
| Finished (ok : bool).

(** The shared state: server.rs 69-75 (the table), shell.rs 1091-1122 (the control locks and
    channels). *)
Record daemon := mkDaemon {
  phases : nat -> phase;              (* by thread *)
  srv : nat -> serving;               (* by session *)
  ctl : nat -> option nat;            (* who holds a session's control lock *)
  table : option nat;                 (* who holds the table lock *)
  queue : nat -> nat;                 (* broadcasts not yet taken *)
  removed : nat -> bool;              (* the session is out of the table *)
  next : nat;                         (* messages taken so far *)
  acks : list (nat * nat)             (* (the message of the one who received an acknowledgement, the message it acknowledges) *)
}.

(** Bookkeeping for [daemon]: each sets or extends one field. *)
Definition upd {A} (f : nat -> A) (i : nat) (v : A) : nat -> A := fun j => if j =? i then v else f j.
(** Bookkeeping: one field changed. *)
Definition phase_to (p : nat) (x : phase) (d : daemon) : daemon :=
  mkDaemon (upd (phases d) p x) (srv d) (ctl d) (table d) (queue d) (removed d) (next d) (acks d).
(** Bookkeeping: one field changed. *)
Definition srv_to (s : nat) (x : serving) (d : daemon) : daemon :=
  mkDaemon (phases d) (upd (srv d) s x) (ctl d) (table d) (queue d) (removed d) (next d) (acks d).
(** Bookkeeping: one field changed. *)
Definition ctl_to (s : nat) (x : option nat) (d : daemon) : daemon :=
  mkDaemon (phases d) (srv d) (upd (ctl d) s x) (table d) (queue d) (removed d) (next d) (acks d).
(** Bookkeeping: one field changed. *)
Definition table_to (x : option nat) (d : daemon) : daemon :=
  mkDaemon (phases d) (srv d) (ctl d) x (queue d) (removed d) (next d) (acks d).
(** Bookkeeping: one field changed. *)
Definition queue_to (s n : nat) (d : daemon) : daemon :=
  mkDaemon (phases d) (srv d) (ctl d) (table d) (upd (queue d) s n) (removed d) (next d) (acks d).
(** Bookkeeping: the history of removals. *)
Definition remove_all (l : list nat) (d : daemon) : daemon :=
  mkDaemon (phases d) (srv d) (ctl d) (table d) (queue d) (fun s => existsb (Nat.eqb s) l || removed d s) (next d) (acks d).
(** Bookkeeping: messages are numbered. *)
Definition fresh_message (d : daemon) : daemon :=
  mkDaemon (phases d) (srv d) (ctl d) (table d) (queue d) (removed d) (S (next d)) (acks d).
(** Bookkeeping: the history of acknowledgements. *)
Definition record_ack (a b : nat) (d : daemon) : daemon :=
  mkDaemon (phases d) (srv d) (ctl d) (table d) (queue d) (removed d) (next d) (acks d ++ [(a, b)]).

(** The requests.
    [Timed s k last]: attaching, detaching at the end of a connection or by keybinding
    (shell.rs 684-705, 752-779, 1071-1084), a heartbeat (969-1017), a resize or detach of
    a session message (server.rs 855-896): all with time-outs.
    [Detach l]: handle_detach, without, under the table lock (server.rs 625-662).
    [Vars l]: the broadcast of a changed variable to the sessions (server.rs 716-733).
    [Table kills]: whatever needs the table lock only; handle_kill removes [kills]. *)
Inductive request := Timed (s : nat) (k : chan) (last : bool) | Detach (l : list nat) | Vars (l : list nat) | Table (kills : list nat).

(** server.rs 726-731: the broadcast goes to one session after the other. *)
Definition vars_phase (l : list nat) : phase :=
  match l with [] => Finished true | s :: r => WantCtl (mkReq s Push false false false r) end.
(** Where a request begins: server.rs 630, 726, 744, 856, 886. *)
Definition start (q : request) : phase :=
  match q with
  | Timed s k e => WantCtl (mkReq s k e false false [])
  | Detach l => WantTableDetach l
  | Vars l => vars_phase l
  | Table ks => WantTable ks
  end.

(** A message was dealt with, and the control lock released: the next session, if any.
    server.rs 631-655, 726-731. *)
Definition continue (p : nat) (r : req) (d : daemon) : daemon :=
  phase_to p (if tabled r then AtTable (todo r) else vars_phase (todo r)) (ctl_to (on r) None d).
(** An error ends the request ([?]); the locks are released on the way out. The [?] in server.rs 632-650, 726-731, 861-868, 886-896. *)
Definition fail (p : nat) (r : req) (d : daemon) : daemon :=
  phase_to p (Finished false) (if tabled r then table_to None (ctl_to (on r) None d) else ctl_to (on r) None d).

(** Who moves next; the lines are cited at [phase] and [serving]. *)
Inductive action :=
| Ask (p : nat) (q : request)
| GetTable (p : nat)
| Next (p : nat)
| GetCtl (p : nat)
| Take (p : nat)                  (* the message is taken *)
| Handled (s : nat)               (* the thread is done with it *)
| Ack (p : nat)                   (* the acknowledgement is received *)
| Drain (s : nat)                 (* a broadcast is taken *)
| SendTimeout (p : nat)
| AckTimeout (p : nat)
| Cut (p : nat)                   (* the other end of the channel is gone *)
| End (s : nat)                   (* the thread ends by itself: the shell has gone, an I/O error *)
| Drop (s : nat).                 (* the last handle of a removed session is dropped *)

(** Which session's control handle a thread has (an [Arc], server.rs 851-858). *)
Definition uses (s : nat) (x : phase) : bool :=
  match x with WantCtl r | Sending r | Waiting r _ => on r =? s | _ => false end.
(** A request concerns sessions there are. *)
Definition in_range (M : nat) (q : request) : bool :=
  match q with
  | Timed s k _ => (s <? M) && negb (chan_eqb k Push)
  | Detach l | Vars l | Table l => forallb (fun s => s <? M) l
  end.

(** One step of a daemon with [N] threads and [M] sessions; None: it is not possible.
    shell.rs 268-633, 655-803, 956-1020, 1071-1122; server.rs 625-662, 700-735, 810-900. *)
Definition step (N M : nat) (d : daemon) (a : action) : option daemon :=
  match a with
  | Ask p q =>
    match phases d p with
    | Resting | Finished _ => if (p <? N) && in_range M q then Some (phase_to p (start q) d) else None
    | _ => None
    end
  | GetTable p =>
    match table d, phases d p with
    | None, WantTable ks => Some (phase_to p (Finished true) (remove_all ks d))
    | None, WantTableDetach l => Some (phase_to p (AtTable l) (table_to (Some p) d))
    | _, _ => None
    end
  | Next p =>
    match phases d p with
    | AtTable [] => Some (phase_to p (Finished true) (table_to None d))
    | AtTable (s :: r) =>
      if removed d s then Some (phase_to p (AtTable r) d)       (* not found *)
      else Some (phase_to p (WantCtl (mkReq s Conn false true true r)) d)
    | _ => None
    end
  | GetCtl p =>
    match phases d p with
    | WantCtl r => match ctl d (on r) with None => Some (phase_to p (Sending r) (ctl_to (on r) (Some p) d)) | Some _ => None end
    | _ => None
    end
  | Take p =>
    match phases d p with
    | Sending r =>
      if chan_eqb (via r) Push then
        match srv d (on r) with
        | Ended => None
        | _ => if queue d (on r) <? push_capacity then Some (continue p r (queue_to (on r) (S (queue d (on r))) d)) else None
        end
      else match srv d (on r) with
           | Serving => Some (phase_to p (Waiting r (next d)) (srv_to (on r) (Handling (via r) (next d) (last r)) (fresh_message d)))
           | _ => None
           end
    | _ => None
    end
  | Handled s => match srv d s with Handling k n e => Some (srv_to s (Acking k n e) d) | _ => None end
  | Ack p =>
    match phases d p with
    | Waiting r n =>
      match srv d (on r) with
      | Acking k m e =>
        if chan_eqb k (via r) then Some (continue p r (record_ack n m (srv_to (on r) (if e then Ended else Serving) d))) else None
      | _ => None
      end
    | _ => None
    end
  | Drain s => match srv d s with Serving => match queue d s with 0 => None | S n => Some (queue_to s n d) end | _ => None end
  | SendTimeout p => match phases d p with Sending r => if patient r then None else Some (fail p r d) | _ => None end
  | AckTimeout p => match phases d p with Waiting r _ => if patient r then None else Some (fail p r d) | _ => None end
  | Cut p =>
    match phases d p with
    | Sending r | Waiting r _ => match srv d (on r) with Ended => Some (fail p r d) | _ => None end
    | _ => None
    end
  | End s => match srv d s with Serving | Handling _ _ _ => Some (srv_to s Ended d) | _ => None end
  | Drop s => if removed d s && forallb (fun p => negb (uses s (phases d p))) (seq 0 N) then Some (srv_to s Ended d) else None
  end.
(** A step that cannot be taken changes nothing. *)
Definition exec (N M : nat) (d : daemon) (a : action) : daemon := match step N M d a with Some d' => d' | None => d end.
(** Any number of steps, one after the other. *)
Definition run (N M : nat) (d : daemon) (l : list action) : daemon := fold_left (exec N M) l d.

(** A daemon that has not been asked anything: server.rs 126-137. *)
Definition idle : daemon := mkDaemon (fun _ => Resting) (fun _ => Serving) (fun _ => None) None (fun _ => 0) (fun _ => false) 0 [].
