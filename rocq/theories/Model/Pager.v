(** The motd pager: libshpool/src/daemon/pager.rs, together with the part of the
    session message dispatch that routes resizes to it (server.rs 837-900). *)
From Coq Require Import List NArith Bool.
From Verif Require Import Model.Base Model.Chunk Model.Protocol.
Import ListNotations.
Open Scope N_scope.

(** consts.rs 22, in nanoseconds. *)
Definition HEARTBEAT_DURATION : N := 500000000.

(** pager.rs 389-393 and the [anyhow::Result<TtySize>] of [display]. *)
Inductive pager_result := PagerOk (size : tty_size) | PagerHangup | PagerErr.

(** Outcome of writing a chunk to the client and flushing. pager.rs 187-311. *)
Inductive write_outcome := WroteAll | BrokenPipe | WriteErr.

(** What the system answers during one turn of the loop of [display]
    (pager.rs 223-310).  [pty_ready]/[client_ready] are the two poll entries; the
    poll timed out when neither is ready.  A read result [Ok []] is end of file. *)
Record turn := {
  poll_ok : bool;
  pager_exited : bool;
  now : N;
  pty_ready : bool;
  client_ready : bool;
  pty_read : result (list N) unit;
  client_write : write_outcome;
  client_read : result (list N) unit;
  pty_write_ok : bool;
  pty_flush_ok : bool
}.

(** The locals of pager.rs 99-312, and what came of them. *)
Record pager_state := {
  slot : bool;                     (* the control handle is registered *)
  tty : tty_size;                  (* pager.rs 183: the shared size *)
  pager_winsize : tty_size;        (* the size of the pager's own pty *)
  last_heartbeat : N;
  typed : list N;                  (* written to the pager so far *)
  frames_out : list chunk;         (* written to the client so far *)
  returned : option pager_result;  (* the loop has been left with this result *)
  shell_resizes : list tty_size;   (* resizes handed to the session's shell->client thread *)
  shell_detaches : nat             (* detach requests handed to the shell->client thread *)
}.

(** pager.rs 112-127 and 180-185: the slot is claimed (a slot already taken is an
    error and stays as it was), the pager starts with the size the client reported.
    Creating the temporary file and forking may fail ([setup_ok]); the guard then
    clears the slot again. *)
Definition pager_start (taken setup_ok : bool) (init : tty_size) (now : N) : pager_state :=
  {| slot := taken || setup_ok; tty := init; pager_winsize := init; last_heartbeat := now; typed := [];
     frames_out := []; returned := if taken then Some PagerErr else if setup_ok then None else Some PagerErr;
     shell_resizes := []; shell_detaches := 0 |}.

(** Bookkeeping for the record above; nothing of the code. *)
Definition with_returned (s : pager_state) (r : pager_result) : pager_state :=
  {| slot := slot s; tty := tty s; pager_winsize := pager_winsize s; last_heartbeat := last_heartbeat s;
     typed := typed s; frames_out := frames_out s; returned := Some r; shell_resizes := shell_resizes s;
     shell_detaches := shell_detaches s |}.

(** Writing one chunk to the client; a failed write delivers nothing (a partial
    write followed by an error is not modelled). pager.rs 187-311. *)
Definition send_client (s : pager_state) (c : chunk) (w : write_outcome) : pager_state :=
  match w with
  | WroteAll =>
      {| slot := slot s; tty := tty s; pager_winsize := pager_winsize s; last_heartbeat := last_heartbeat s;
         typed := typed s; frames_out := frames_out s ++ [c]; returned := returned s;
         shell_resizes := shell_resizes s; shell_detaches := shell_detaches s |}
  | BrokenPipe => with_returned s PagerHangup
  | WriteErr => with_returned s PagerErr
  end.

(** Bookkeeping for the record above; nothing of the code. *)
Definition set_heartbeat (s : pager_state) (t : N) : pager_state :=
  {| slot := slot s; tty := tty s; pager_winsize := pager_winsize s; last_heartbeat := t;
     typed := typed s; frames_out := frames_out s; returned := returned s;
     shell_resizes := shell_resizes s; shell_detaches := shell_detaches s |}.

(** Bookkeeping for the record above; nothing of the code. *)
Definition type_in (s : pager_state) (bs : list N) : pager_state :=
  {| slot := slot s; tty := tty s; pager_winsize := pager_winsize s; last_heartbeat := last_heartbeat s;
     typed := typed s ++ bs; frames_out := frames_out s; returned := returned s;
     shell_resizes := shell_resizes s; shell_detaches := shell_detaches s |}.

(** pager.rs 262-283: output of the pager. *)
Definition pager_output (s : pager_state) (t : turn) : pager_state :=
  match pty_read t with
  | Err _ => with_returned s PagerErr
  | Ok [] => with_returned s (PagerOk (tty s))
  | Ok bs => send_client s (mkChunk Data bs) (client_write t)
  end.

(** pager.rs 285-308: input from the client, passed on as it is. *)
Definition pager_input (s : pager_state) (t : turn) : pager_state :=
  match client_read t with
  | Err _ => with_returned s PagerErr
  | Ok [] => with_returned s (PagerOk (tty s))
  | Ok bs =>
      if negb (pty_write_ok t) then with_returned s (PagerOk (tty s))
      else if negb (pty_flush_ok t) then with_returned (type_in s bs) (PagerOk (tty s))
      else type_in s bs
  end.

(** pager.rs 223-310: one turn of the loop. *)
Definition pager_turn (s : pager_state) (t : turn) : pager_state :=
  match returned s with
  | Some _ => s
  | None =>
      if negb (poll_ok t) then with_returned s PagerErr
      else if pager_exited t then with_returned s (PagerOk (tty s))
      else if negb (pty_ready t) && negb (client_ready t) then
        if last_heartbeat s + HEARTBEAT_DURATION <=? now t
        then send_client (set_heartbeat s (now t)) (mkChunk Heartbeat []) (client_write t)
        else s
      else
        let s1 := if pty_ready t then pager_output s t else s in
        match returned s1 with
        | Some _ => s1
        | None => if client_ready t then pager_input s1 t else s1
        end
  end.

(** pager.rs 189-209 and server.rs 841-879: a resize request.  The requester holds
    the lock of the slot from looking at it until the acknowledgement, and the
    guard needs that lock to clear the slot, so the whole exchange is one step.
    The timeouts of the exchange are not modelled: the listening thread only waits
    for requests. *)
Definition pager_resize (s : pager_state) (size : tty_size) : pager_state :=
  if slot s then
    {| slot := slot s; tty := size; pager_winsize := size; last_heartbeat := last_heartbeat s;
       typed := typed s; frames_out := frames_out s; returned := returned s;
       shell_resizes := shell_resizes s; shell_detaches := shell_detaches s |}
  else
    {| slot := slot s; tty := tty s; pager_winsize := pager_winsize s; last_heartbeat := last_heartbeat s;
       typed := typed s; frames_out := frames_out s; returned := returned s;
       shell_resizes := shell_resizes s ++ [size]; shell_detaches := shell_detaches s |}.

(** server.rs 881-900: a detach request of the session goes to the shell->client
    thread, whether or not a pager is running. *)
Definition pager_detach (s : pager_state) : pager_state :=
  {| slot := slot s; tty := tty s; pager_winsize := pager_winsize s; last_heartbeat := last_heartbeat s;
     typed := typed s; frames_out := frames_out s; returned := returned s;
     shell_resizes := shell_resizes s; shell_detaches := S (shell_detaches s) |}.

(** pager.rs 315-330: once a result exists the guards run: the pager process is
    killed first (up to 1.27 s), then the slot is cleared. *)
Definition pager_unregister (s : pager_state) : pager_state :=
  match returned s with
  | Some _ =>
      {| slot := false; tty := tty s; pager_winsize := pager_winsize s; last_heartbeat := last_heartbeat s;
         typed := typed s; frames_out := frames_out s; returned := returned s;
         shell_resizes := shell_resizes s; shell_detaches := shell_detaches s |}
  | None => s
  end.

(** A turn of the loop of pager.rs 187-311, or a message from another thread. *)
Inductive pager_event := Turn (t : turn) | Resize (size : tty_size) | DetachRequest | Unregister.

(** One of these. *)
Definition pager_step (s : pager_state) (e : pager_event) : pager_state :=
  match e with
  | Turn t => pager_turn s t
  | Resize size => pager_resize s size
  | DetachRequest => pager_detach s
  | Unregister => pager_unregister s
  end.

(** Any history of them. *)
Definition pager_run (s : pager_state) (es : list pager_event) : pager_state := fold_left pager_step es s.

(** pager.rs 355-387: the guard's way of getting rid of the pager: SIGTERM, seven
    looks at the exit flag with pauses of 10 ms doubling, then SIGKILL.  [exited i]
    is the i-th look.  The answer lists the signals and the pauses in milliseconds. *)
Fixpoint backoff (n : nat) (i : nat) (sleep_ms : N) (exited : nat -> bool) : bool * list N :=
  match n with
  | O => (false, [])
  | S n' => if exited i then (true, []) else
              let '(b, l) := backoff n' (S i) (2 * sleep_ms) exited in (b, sleep_ms :: l)
  end.

(** The signals of pager.rs 356-387. *)
Inductive pager_signal := Term | Kill.
(** pager.rs 356-387. *)
Definition pager_kill (exited : nat -> bool) : list pager_signal * list N :=
  let '(gone, l) := backoff 7 0 10 exited in (if gone then [Term] else [Term; Kill], l).
