(** Dialling the daemon from attach, libshpool/src/attach.rs 333-375, and the path of the
    running program, libshpool/src/exe.rs. *)
From Coq Require Import List NArith ZArith Bool.
From Verif Require Import Model.Base Model.EtcEnvironment Model.Version.
Import ListNotations.
Open Scope N_scope.

(** What one [read] of one byte from standard input gives. attach.rs 333-375. *)
Inductive tty_read := GotByte (b : N) | GotEof | Interrupted | ReadError.

(** attach.rs 351-362: waiting for the user.  The answer is whether to go on, and the
    reads left; [None]: still waiting when the reads given are used up. *)
Fixpoint await_enter (reads : list tty_read) : option (bool * list tty_read) :=
  match reads with
  | [] => None
  | GotByte b :: rest => if b =? 10 then Some (true, rest) else await_enter rest
  | GotEof :: rest => Some (true, rest)
  | Interrupted :: rest => await_enter rest
  | ReadError :: rest => Some (false, rest)
  end.

(** What the user is told on standard error (the text of the warning itself is left out).
    attach.rs 333-375. *)
Inductive notice := WarnBackground | WarnRestart | HitEnter | CouldNotConnect.

(** How a dial ends. attach.rs 333-375. *)
Inductive dialled := Dialled | DialFailed | DialWaiting.

(** The outcome of connecting: refused by the system because the socket file is not
    there, for another reason, or connected with this result of [Client::new]. attach.rs
    333-375; protocol.rs 154-189. *)
Inductive connecting := NoSuchFile | OtherError | Connects (r : connect_result).

(** attach.rs 333-375. *)
Definition dial_client (silent background : bool) (c : connecting) (reads : list tty_read)
    : dialled * list notice * list tty_read :=
  match c with
  | NoSuchFile => (DialFailed, [CouldNotConnect], reads)
  | OtherError => (DialFailed, [], reads)
  | Connects (ConnectFails _) => (DialFailed, [], reads)
  | Connects JustClient => (Dialled, [], reads)
  | Connects (WarnUnknownVersion | WarnClientOlder | WarnClientNewer) =>
      if silent then (Dialled, [], reads)
      else if background then (Dialled, [WarnBackground], reads)
      else match await_enter reads with
           | None => (DialWaiting, [WarnRestart; HitEnter], [])
           | Some (true, rest) => (Dialled, [WarnRestart; HitEnter], rest)
           | Some (false, rest) => (DialFailed, [WarnRestart; HitEnter], rest)
           end
  end.

(** attach.rs 101-104 and 163, 176, 211, 241: the dials of one attach command, in order;
    the first is the only one that is not silent.  Each comes with the outcome of
    connecting; the command ends with the first dial that fails. *)
Fixpoint dial_all (silent background : bool) (cs : list connecting) (reads : list tty_read)
    : list notice * list tty_read :=
  match cs with
  | [] => ([], reads)
  | c :: cs' =>
      match dial_client silent background c reads with
      | (Dialled, told, rest) =>
          let '(told', rest') := dial_all true background cs' rest in (told ++ told', rest')
      | (_, told, rest) => (told, rest)
      end
  end.

(** exe.rs 4-21 on Linux: [path] is what /proc/self/exe links to, valid UTF-8 here. *)
Definition exe_current (path : rstr) : rstr :=
  match strip_suffix (lit " (deleted)") path with Some p => p | None => path end.
