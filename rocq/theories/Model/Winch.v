(** Reporting window size changes: libshpool/src/attach.rs 420-507 (the client's SIGWINCH
    thread), with the places where the client tells it which session to report to and
    the size sent with an attach request (attach.rs 112-133, 246-252).

    The terminal, the main thread and the signal thread take turns.  [signal_hook]
    remembers that a signal arrived while the thread was busy, and remembers it once
    however many arrived. *)
From Coq Require Import List NArith Bool.
From Verif Require Import Model.Base Model.Protocol.
Import ListNotations.

(** The replies attach.rs 482-499 tells apart. *)
Inductive report_answer := ReportOk | ReportNotFound | ReportOdd.

(** What the daemon was told, in order.  A report is entered when its answer comes; an
    attempt that fails before that leaves [MFailed]. attach.rs 457-502. *)
Inductive told_msg :=
| MAttach (name : rstr) (size : tty_size)
| MReport (name : rstr) (size : tty_size) (answer : report_answer)
| MFailed.

(** The thread: waiting for a signal; dialling (attach.rs 459-465); connected and
    about to look at the size (467); about to send (471-478); waiting for the reply (480). *)
Inductive thread_at := Idle | Dialling | Connected | Measured (size : tty_size) | Asked (name : rstr) (size : tty_size).

(** attach.rs 421-424 and 427-455, with the terminal and the daemon's log. *)
Record winch := mkWinch {
  size_now : tty_size;         (* the terminal's size *)
  slot_name : rstr;            (* the shared session name *)
  attach_sent : bool;          (* an attach request for that session has been sent *)
  signalled : bool;            (* a signal not yet taken up *)
  at_ : thread_at;
  log : list told_msg }.

(** What happens next, here or in attach.rs 431-502. *)
Inductive winch_event :=
| SizeChange (size : tty_size)       (* the user resizes the window *)
| Rename (name : rstr)               (* attach.rs 129-132: following a template *)
| AttachSent                         (* attach.rs 246-252 and 274: the request of dial_attach *)
| Take                               (* the thread takes up a signal *)
| Dial (ok : bool)
| Measure (ok : bool)
| Send (ok : bool)
| Reply (answer : option report_answer).   (* None: the connection broke *)

(** attach.rs 112-116: the thread starts with the first name. *)
Definition winch_start (size : tty_size) (name : rstr) : winch := mkWinch size name false false Idle [].

(** Bookkeeping: the thread goes on, or is done with a signal. *)
Definition at_step (s : winch) (a : thread_at) : winch :=
  mkWinch (size_now s) (slot_name s) (attach_sent s) (signalled s) a (log s).
(** Bookkeeping: done with a signal. *)
Definition finish (s : winch) (m : told_msg) : winch :=
  mkWinch (size_now s) (slot_name s) (attach_sent s) (signalled s) Idle (log s ++ [m]).

(** attach.rs 431-502, one step; an event that does not fit where the thread is does
    not happen.  Looking at the size and sending the attach request are one step. *)
Definition winch_step (s : winch) (e : winch_event) : winch :=
  match e, at_ s with
  | SizeChange z, _ => mkWinch z (slot_name s) (attach_sent s) true (at_ s) (log s)
  | Rename n, _ => mkWinch (size_now s) n false (signalled s) (at_ s) (log s)
  | AttachSent, _ =>
      mkWinch (size_now s) (slot_name s) true (signalled s) (at_ s) (log s ++ [MAttach (slot_name s) (size_now s)])
  | Take, Idle =>
      if signalled s
      then mkWinch (size_now s) (slot_name s) (attach_sent s) false Dialling (log s)
      else s
  | Dial ok, Dialling => if ok then at_step s Connected else finish s MFailed
  | Measure ok, Connected => if ok then at_step s (Measured (size_now s)) else finish s MFailed
  | Send ok, Measured z => if ok then at_step s (Asked (slot_name s) z) else finish s MFailed
  | Reply r, Asked n z => finish s (match r with Some o => MReport n z o | None => MFailed end)
  | _, _ => s
  end.

(** Any history of it. *)
Definition winch_run (s : winch) (es : list winch_event) : winch := fold_left winch_step es s.
