(** Model of starting the daemon: libshpool/src/daemonize.rs (maybe_launch_daemon and
    daemonize), the start of libshpool/src/daemon/mod.rs (run), the binding of the
    events socket in daemon/events.rs and the signal handler of daemon/signals.rs.

    Processes take turns; one turn is one system call on the directory the socket is
    in, or on a socket.  The directory holds three names: the control socket, the
    events socket and the pid file.  A socket file is known by the process that bound
    it.  Not modelled here: systemd activation (Activation.v), the forks and redirections of daemonize
    (a daemon is one process here), the contents of the pid file, errors of the file
    system other than the name existing or not. *)
From Coq Require Import List NArith ZArith Bool Arith.
Import ListNotations.
Open Scope nat_scope.

(** Where a process is. Each is at one system call of daemonize.rs 40-121, 149-260 or
    daemon/mod.rs 36-117. *)
Inductive proc :=
| Absent
(* a client, maybe_launch_daemon *)
| CProbe (patient : bool)                   (* connect, daemonize.rs 52 *)
| CUnlink (patient : bool)                  (* remove_file, 63 *)
| CSpawn (patient : bool)                   (* spawn, 74-88 *)
| CPoll (tries : option nat) (sleep : nat)   (* connect and sleep, 92-121; None: no limit *)
| CDone
| CFailed
(* a daemon *)
| DOpen                                     (* open the pid file, daemonize.rs 170-176 *)
| DFlock (inode : nat)                      (* flock, 177-185 *)
| DLocked (inode : nat)                     (* fork, write the pid, return: 189-202 *)
| DEventsCheck (auto : bool)                (* events.rs 86 *)
| DEventsRemove (auto : bool)               (* events.rs 87 *)
| DEventsBind (auto : bool)                 (* events.rs 90 *)
| DProbe (auto : bool)                      (* connect, mod.rs 86 *)
| DUnlink (auto : bool)                     (* remove_file, mod.rs 89 *)
| DBind (auto : bool)                       (* the bind of UnixListener::bind, mod.rs 92 *)
| DListen (auto : bool)                     (* the listen of UnixListener::bind *)
| DServe (auto : bool)                      (* mod.rs 107 *)
| DCleanControl (auto : bool)               (* signals.rs 61-67, one socket at a time *)
| DCleanEvents (auto : bool)
| DCleanPid (auto : bool)
| DDropEvents (auto : bool)                 (* leaving run with an error: EventBusHandle, *)
| DDropPid (auto : bool)                    (* then PidFileGuard are dropped *)
| DExited
| Dead.                                     (* killed *)

(** The processes and the files of daemonize.rs 40-260, daemon/mod.rs 36-117 and
    daemon/events.rs 85-112. *)
Record world := mkWorld {
  procs : nat -> proc;
  next : nat;                 (* the next process id *)
  control : option nat;       (* the control socket file *)
  events : option nat;        (* the events socket file *)
  pid_file : option nat;      (* the pid file's inode *)
  inodes : nat                (* the next inode *)
}.

(** Bookkeeping for the record above: each changes one field. *)
Definition set_proc (st : world) (p : nat) (x : proc) : world :=
  mkWorld (fun q => if q =? p then x else procs st q) (next st) (control st) (events st) (pid_file st) (inodes st).
(** Bookkeeping: one field changed. *)
Definition set_control (st : world) (c : option nat) : world := mkWorld (procs st) (next st) c (events st) (pid_file st) (inodes st).
(** Bookkeeping: one field changed. *)
Definition set_events (st : world) (c : option nat) : world := mkWorld (procs st) (next st) (control st) c (pid_file st) (inodes st).
(** Bookkeeping: one field changed. *)
Definition set_pid (st : world) (c : option nat) : world := mkWorld (procs st) (next st) (control st) (events st) c (inodes st).
(** Bookkeeping: a process more. *)
Definition spawn (st : world) (x : proc) : world :=
  mkWorld (fun q => if q =? next st then x else procs st q) (S (next st)) (control st) (events st) (pid_file st) (inodes st).

(** A listening socket accepts connections until its process ends. daemon/mod.rs 70-117. *)
Definition listening (x : proc) : bool :=
  match x with DServe _ | DCleanControl _ | DCleanEvents _ | DCleanPid _ => true | _ => false end.

(** connect(2). *)
Inductive connected := Connected | Refused | NotFound.
(** connect(2); nothing of the code. *)
Definition connect (st : world) : connected :=
  match control st with
  | None => NotFound
  | Some o => if listening (procs st o) then Connected else Refused
  end.

(** flock(2): a process holds the lock between taking it and returning from
    daemonize, where the Flock is dropped (daemonize.rs 202-203). *)
Definition held (st : world) (i : nat) : bool :=
  existsb (fun p => match procs st p with DLocked j => j =? i | _ => false end) (seq 0 (next st)).

(** Where an error takes a daemon.  Before the events socket is bound there is no
    EventBusHandle to drop. daemon/mod.rs 36-117. *)
Definition after_events_error (auto : bool) : proc := if auto then DDropPid auto else DExited.

(** One turn of process [p]. daemonize.rs 40-121, 149-260; daemon/mod.rs 36-117; the calls
    are cited at [proc]. *)
Definition turn (st : world) (p : nat) : world :=
  match procs st p with
  | CProbe patient =>
    match connect st with
    | Connected => set_proc st p CDone
    | Refused => set_proc st p (CUnlink patient)
    | NotFound => set_proc st p (CSpawn patient)
    end
  | CUnlink patient =>
    match control st with
    | None => set_proc st p CFailed
    | Some _ => set_proc (set_control st None) p (CSpawn patient)
    end
  | CSpawn patient => spawn (set_proc st p (CPoll (if patient then None else Some 9) 10)) DOpen
  | CPoll tries sleep =>
    match tries with
    | Some 0 => set_proc st p CFailed
    | _ =>
      match connect st with
      | Connected => set_proc st p CDone
      | _ =>
        set_proc st p
          match tries with
          | Some n => CPoll (Some (n - 1)) (2 * sleep)
          | None => CPoll None (if 2000 <? 2 * sleep then 2000 else 2 * sleep)
          end
      end
    end
  | DOpen =>
    match pid_file st with
    | Some i => set_proc st p (DFlock i)
    | None => set_proc (mkWorld (procs st) (next st) (control st) (events st) (Some (inodes st)) (S (inodes st))) p (DFlock (inodes st))
    end
  | DFlock i => if held st i then set_proc st p DExited else set_proc st p (DLocked i)
  | DLocked _ => set_proc st p (DEventsCheck true)
  | DEventsCheck auto => set_proc st p (match events st with Some _ => DEventsRemove auto | None => DEventsBind auto end)
  | DEventsRemove auto =>
    match events st with
    | None => set_proc st p (after_events_error auto)
    | Some _ => set_proc (set_events st None) p (DEventsBind auto)
    end
  | DEventsBind auto =>
    match events st with
    | Some _ => set_proc st p (after_events_error auto)
    | None => set_proc (set_events st (Some p)) p (DProbe auto)
    end
  | DProbe auto => set_proc st p (match connect st with Refused => DUnlink auto | _ => DBind auto end)
  | DUnlink auto =>
    match control st with
    | None => set_proc st p (DDropEvents auto)
    | Some _ => set_proc (set_control st None) p (DBind auto)
    end
  | DBind auto =>
    match control st with
    | Some _ => set_proc st p (DDropEvents auto)
    | None => set_proc (set_control st (Some p)) p (DListen auto)
    end
  | DListen auto => set_proc st p (DServe auto)
  | DCleanControl auto => set_proc (set_control st None) p (DCleanEvents auto)
  | DCleanEvents auto => set_proc (set_events st None) p (if auto then DCleanPid auto else DExited)
  | DCleanPid auto => set_proc (set_pid st None) p DExited
  | DDropEvents auto => set_proc (set_events st None) p (if auto then DDropPid auto else DExited)
  | DDropPid auto => set_proc (set_pid st None) p DExited
  | Absent | CDone | CFailed | DServe _ | DExited | Dead => st
  end.

(** Who moves next, and what comes from outside: daemon/signals.rs 30-75 for [Term]. *)
Inductive act :=
| NewClient (patient : bool)  (* a client subcommand; patient: nodaemonize_timeout *)
| NewDaemon                   (* the daemon subcommand, run by hand *)
| Go (p : nat)
| Term (p : nat)              (* a termination signal *)
| Kill (p : nat).

(** One of these. *)
Definition exec (st : world) (a : act) : world :=
  match a with
  | NewClient patient => spawn st (CProbe patient)
  | NewDaemon => spawn st (DEventsCheck false)
  | Go p => turn st p
  | Term p =>
    match procs st p with
    | DServe auto => set_proc st p (DCleanControl auto)
    | DCleanControl _ | DCleanEvents _ | DCleanPid _ => set_proc st p Dead   (* the second signal exits at once *)
    | Absent | CDone | CFailed | DExited | Dead => st
    | _ => set_proc st p Dead
    end
  | Kill p =>
    match procs st p with
    | Absent | CDone | CFailed | DExited | Dead => st
    | _ => set_proc st p Dead
    end
  end.

(** Any history of them. *)
Definition exec_all (st : world) (l : list act) : world := fold_left exec l st.

(** The directory at first: nothing runs; the files may be left over by processes
    of the past. Bookkeeping: the numbers the processes and inodes of the past had. *)
Definition past (o : option nat) : nat := match o with Some p => S p | None => 0 end.
(** As said above; nothing of the code. *)
Definition boot (c e p : option nat) : world := mkWorld (fun _ => Absent) (past c + past e) c e p (past p).
