(** The thread that carries a shell's output to whichever client is attached:
    libshpool/src/daemon/shell.rs 268-649. *)
From Coq Require Import List NArith ZArith Bool.
From Verif Require Import Model.Base Model.Chunk Model.Protocol Model.Duration Model.Sentinel Model.Config Model.Restore
  Model.Pipe Model.Pager Model.Motd.
Import ListNotations.
Open Scope N_scope.

(** shell.rs 56, in nanoseconds. *)
Definition REATTACH_RESIZE_DELAY : N := 50000000.

(** shell.rs 237-247: [ClientConnectionMsg].  A connection is named by a number; its
    stream and sink are the log entries carrying that number. *)
Inductive conn_msg := NewConn (id : nat) (size : tty_size) | Disconnect | DisconnectExit (status : Z).

(** shell.rs 250-262: [ClientConnectionStatus], and the other acknowledgements. *)
Inductive ack := AckNew | AckReplaced | AckDetached | AckDetachNone | AckSize | AckHeartbeat (present : bool).

(** Which arm of the select fires (shell.rs 315-492). *)
Inductive select_case :=
| SelConn (m : conn_msg) | SelConnClosed
| SelSize (size : tty_size) | SelSizeClosed
| SelHeartbeat
| SelSwitch (encoded : option (list N))   (* the encoding of the message, if it could be encoded *)
| SelSwitchClosed
| SelNothing.

(** What poll and read give (shell.rs 543-577). [PollHangup pending exit]: the pty hung
    up with [pending] bytes still unread; [exit] is the exit status, if it becomes
    known in time.  A read gives at most a buffer of bytes. *)
Inductive poll_case :=
| PollErr | PollTimeout | PollMany
| PollHangup (pending : list N) (exit : option Z)
| PollRead (r : result (list N) unit).

(** How the thread of shell.rs 268-633 ends. *)
Inductive s2c_end := EndOk | EndErr | EndPanic.

(** One turn of the loop as the outside world shapes it. shell.rs 314-627. *)
Record iter := {
  sel : select_case;
  t_sel : N;                      (* the clock where a resize is scheduled *)
  t_due : N;                      (* the clock where a resize is due or not *)
  oversize_ok : bool;             (* set_fd of the oversize *)
  shutdown_ok : bool;             (* shutting down the old client's socket *)
  ack_ok : bool;                  (* somebody still holds the other end *)
  conf : config;                  (* the configuration in force *)
  w_sel : write_outcome;          (* heartbeat, MaybeSwitch or exit chunk *)
  w_restore : nat -> write_outcome;
  w_motd : write_outcome;
  w_data : write_outcome;
  w_exit : write_outcome;
  cr : option (list N);           (* the terminal's carriage return *)
  motd_text : result (list N) unit;
  poll : poll_case
}.

(** Whether the writes of shell.rs 314-627 went through. *)
Definition wrote (w : write_outcome) : bool := match w with WroteAll => true | _ => false end.

(** A frame handed to a client's sink, and whether it got there. shell.rs 323, 359, 378,
    424, 468, 518, 562, 610, 616. *)
Record sent := mkSent { to : nat; what : chunk; arrived : bool }.

Section Thread.
  Context {e : engines}.
  Variable b : build.

  (** The locals of the thread: shell.rs 278-312. *)
  Record s2c := {
    waiting : bool;                          (* still before the loop *)
    out_spool : spool e;
    out_gate : gate;
    motd_due : bool;                         (* needs_initial_motd_dump *)
    client : option nat;                     (* client_conn, when it is New *)
    resize_cmd : option (tty_size * N);
    winsize : tty_size;                      (* the size of the pty *)
    log : list sent;
    shut : list nat;                         (* sockets shut down *)
    acks : list ack;
    took : list (list N);                    (* the reads done so far: what has left the pty *)
    finished : option s2c_end
  }.

  (** shell.rs 273-297.  The spool gets the size the client asked for when it created the
      session; the pty has no size yet (the kernel starts it at 0x0). *)
  Definition s2c_new (supports_sentinels dump_motd : bool) (c : config) (size : tty_size) : option s2c :=
    match gate_new supports_sentinels with
    | None => None
    | Some g =>
        Some {| waiting := true; out_spool := spool_new e c size (scrollback_lines c); out_gate := g; motd_due := dump_motd;
                client := None; resize_cmd := None; winsize := mkSize 0 0 0 0; log := []; shut := []; acks := []; took := []; finished := None |}
    end.

  (** Bookkeeping for the record above: each sets or extends one field. *)
  Definition fin (s : s2c) (r : s2c_end) : s2c :=
    {| waiting := waiting s; out_spool := out_spool s; out_gate := out_gate s; motd_due := motd_due s; client := client s;
       resize_cmd := resize_cmd s; winsize := winsize s; log := log s; shut := shut s; acks := acks s; took := took s; finished := Some r |}.
  (** Bookkeeping: what has been written to a client. *)
  Definition emit (s : s2c) (id : nat) (c : chunk) (w : write_outcome) : s2c :=
    {| waiting := waiting s; out_spool := out_spool s; out_gate := out_gate s; motd_due := motd_due s; client := client s;
       resize_cmd := resize_cmd s; winsize := winsize s; log := log s ++ [mkSent id c (wrote w)]; shut := shut s;
       acks := acks s; took := took s; finished := finished s |}.
  (** Bookkeeping: one field changed. *)
  Definition with_client (s : s2c) (c : option nat) : s2c :=
    {| waiting := waiting s; out_spool := out_spool s; out_gate := out_gate s; motd_due := motd_due s; client := c;
       resize_cmd := resize_cmd s; winsize := winsize s; log := log s; shut := shut s; acks := acks s; took := took s; finished := finished s |}.
  (** Bookkeeping: one field changed. *)
  Definition with_resize (s : s2c) (r : option (tty_size * N)) : s2c :=
    {| waiting := waiting s; out_spool := out_spool s; out_gate := out_gate s; motd_due := motd_due s; client := client s;
       resize_cmd := r; winsize := winsize s; log := log s; shut := shut s; acks := acks s; took := took s; finished := finished s |}.
  (** Bookkeeping: one field changed. *)
  Definition with_winsize (s : s2c) (z : tty_size) : s2c :=
    {| waiting := waiting s; out_spool := out_spool s; out_gate := out_gate s; motd_due := motd_due s; client := client s;
       resize_cmd := resize_cmd s; winsize := z; log := log s; shut := shut s; acks := acks s; took := took s; finished := finished s |}.
  (** Bookkeeping: one field changed. *)
  Definition with_spool (s : s2c) (p : spool e) : s2c :=
    {| waiting := waiting s; out_spool := p; out_gate := out_gate s; motd_due := motd_due s; client := client s;
       resize_cmd := resize_cmd s; winsize := winsize s; log := log s; shut := shut s; acks := acks s; took := took s; finished := finished s |}.
  (** Bookkeeping: one field changed. *)
  Definition with_gate (s : s2c) (g : gate) : s2c :=
    {| waiting := waiting s; out_spool := out_spool s; out_gate := g; motd_due := motd_due s; client := client s;
       resize_cmd := resize_cmd s; winsize := winsize s; log := log s; shut := shut s; acks := acks s; took := took s; finished := finished s |}.
  (** Bookkeeping: one field changed. *)
  Definition with_took (s : s2c) (bytes : list N) : s2c :=
    {| waiting := waiting s; out_spool := out_spool s; out_gate := out_gate s; motd_due := motd_due s; client := client s;
       resize_cmd := resize_cmd s; winsize := winsize s; log := log s; shut := shut s; acks := acks s; took := took s ++ [bytes];
       finished := finished s |}.
  (** Bookkeeping: one field changed. *)
  Definition motd_done (s : s2c) : s2c :=
    {| waiting := waiting s; out_spool := out_spool s; out_gate := out_gate s; motd_due := false; client := client s;
       resize_cmd := resize_cmd s; winsize := winsize s; log := log s; shut := shut s; acks := acks s; took := took s; finished := finished s |}.
  (** Bookkeeping: a client's stream is shut down. *)
  Definition shutdown (s : s2c) (id : nat) : s2c :=
    {| waiting := waiting s; out_spool := out_spool s; out_gate := out_gate s; motd_due := motd_due s; client := client s;
       resize_cmd := resize_cmd s; winsize := winsize s; log := log s; shut := id :: shut s; acks := acks s; took := took s; finished := finished s |}.
  (** Sending an acknowledgement; with nobody left to receive it the thread ends. shell.rs
      353, 368, 388, 412, 442. *)
  Definition acknowledge (s : s2c) (a : ack) (ok : bool) : s2c :=
    if ok then
      {| waiting := waiting s; out_spool := out_spool s; out_gate := out_gate s; motd_due := motd_due s; client := client s;
         resize_cmd := resize_cmd s; winsize := winsize s; log := log s; shut := shut s; acks := acks s ++ [a]; took := took s; finished := finished s |}
    else fin s EndErr.

  (** shell.rs 635-649: [write_exit_chunk]: errors are only reported. *)
  Definition write_exit_chunk (s : s2c) (id : nat) (status : Z) (w : write_outcome) : s2c :=
    emit s id (mkChunk ExitStatus (i32_bytes status)) w.

  (** [conn.size.rows + 1] on u16. *)
  Definition add1_u16 (n : N) : option N :=
    if n + 1 <? 65536 then Some (n + 1) else match b with Debug => None | Release => Some 0 end.

  (** shell.rs 301-312: the first message, whatever it is, is acknowledged as new. *)
  Definition s2c_first (s : s2c) (m : option conn_msg) (now : N) (ok : bool) : s2c :=
    match m with
    | None => fin s EndErr
    | Some m =>
        let s := {| waiting := false; out_spool := out_spool s; out_gate := out_gate s; motd_due := motd_due s;
                    client := match m with NewConn id _ => Some id | _ => None end;
                    resize_cmd := match m with NewConn _ size => Some (size, now) | _ => None end;
                    winsize := winsize s; log := log s; shut := shut s; acks := acks s; took := took s; finished := finished s |} in
        acknowledge s AckNew ok
    end.

  (** What the select leads to: the rest of the turn (with or without the reattach
      protocol), the next turn at once, or the end of the thread. shell.rs 316-485. *)
  Inductive flow := Rest (reattach : bool) | Again.

  (** Saying goodbye to the old client (shell.rs 321-323, 358-360, 374-379). *)
  Definition farewell (s : s2c) (it : iter) (id : nat) (status : Z) : s2c :=
    let s := write_exit_chunk s id status (w_sel it) in
    if shutdown_ok it then shutdown s id else fin s EndErr.

  (** shell.rs 315-492: the select. *)
  Definition s2c_select (s : s2c) (it : iter) : s2c * flow :=
    match sel it with
    | SelConn (NewConn id size) =>
        let '(s, a) := match client s with
                       | Some old => (farewell s it old 0, AckReplaced)
                       | None => (s, AckNew)
                       end in
        match finished s with
        | Some _ => (s, Rest false)
        | None =>
            let s := with_spool s (spool_resize (conf it) (out_spool s) size) in
            match add1_u16 (rows size), add1_u16 (cols size) with
            | Some r, Some c =>
                if oversize_ok it then
                  let s := with_winsize s (mkSize r c (xpixel size) (ypixel size)) in
                  let s := with_resize s (Some (size, t_sel it + REATTACH_RESIZE_DELAY)) in
                  let s := with_client s (Some id) in
                  (acknowledge s a (ack_ok it), Rest true)
                else (fin s EndErr, Rest false)
            | _, _ => (fin s EndPanic, Rest false)
            end
        end
    | SelConn Disconnect =>
        let '(s, a) := match client s with
                       | Some old => (farewell s it old 0, AckDetached)
                       | None => (s, AckDetachNone)
                       end in
        match finished s with
        | Some _ => (s, Rest false)
        | None => (acknowledge (with_client s None) a (ack_ok it), Rest false)
        end
    | SelConn (DisconnectExit status) =>
        let '(s, a) := match client s with
                       | Some old => (farewell s it old status, AckDetached)
                       | None => (s, AckDetachNone)
                       end in
        match finished s with
        | Some _ => (s, Rest false)
        | None =>
            let s := acknowledge s a (ack_ok it) in
            match finished s with Some _ => (s, Rest false) | None => (fin s EndOk, Rest false) end
        end
    | SelConnClosed => (fin s EndOk, Rest false)
    | SelSize size =>
        let s := with_spool s (spool_resize (conf it) (out_spool s) size) in
        let s := with_resize s (Some (size, t_sel it)) in
        (acknowledge s AckSize (ack_ok it), Rest false)
    | SelSizeClosed => (fin s EndOk, Rest false)
    | SelHeartbeat =>
        match client s with
        | Some id =>
            let s := emit s id (mkChunk Heartbeat []) (w_sel it) in
            match w_sel it with
            | WroteAll => (acknowledge s (AckHeartbeat true) (ack_ok it), Rest false)
            | BrokenPipe => (acknowledge s (AckHeartbeat false) (ack_ok it), Rest false)
            | WriteErr => (fin s EndErr, Rest false)
            end
        | None => (acknowledge s (AckHeartbeat false) (ack_ok it), Rest false)
        end
    | SelSwitch encoded =>
        match client s, encoded with
        | Some id, Some bytes =>
            let s := emit s id (mkChunk MaybeSwitch bytes) (w_sel it) in
            match w_sel it with
            | WroteAll | BrokenPipe => (s, Rest false)
            | WriteErr => (fin s EndErr, Rest false)
            end
        | _, _ => (s, Again)
        end
    | SelSwitchClosed => (s, Again)
    | SelNothing => (s, Rest false)
    end.

  (** shell.rs 494-511: the pending resize.  A failing set_fd is only reported and the
      command is dropped ([winsize] is then wrong; taken to succeed). *)
  Definition s2c_resize (s : s2c) (it : iter) : s2c :=
    match resize_cmd s with
    | Some (size, when) => if when <=? t_due it then with_resize (with_winsize s size) None else s
    | None => s
    end.

  (** Several frames one after the other, as shell.rs 515-521 writes them. *)
  Fixpoint emit_all (s : s2c) (id : nat) (cs : list chunk) (i : nat) (w : nat -> write_outcome) : s2c :=
    match cs with
    | [] => s
    | c :: cs' => emit_all (emit s id c (w i)) id cs' (S i) w
    end.

  (** shell.rs 513-537: the reattach protocol; write errors are only reported. *)
  Definition s2c_restore (s : s2c) (it : iter) : s2c :=
    match client s with
    | Some id => emit_all s id (restore_frames (spool_restore (out_spool s))) 0 (w_restore it)
    | None => s
    end.

  (** shell.rs 595-627: what of a read goes to the spool and to the client. *)
  Definition s2c_output (s : s2c) (it : iter) (shown : list N) : s2c :=
    let s := with_spool s (spool_process (out_spool s) shown) in
    match client s with
    | None => s
    | Some id =>
        let s :=
          if motd_due s then
            let s := motd_done s in
            match dump (motd (conf it)) (cr it) (motd_text it) with
            | Dumped c => emit s id c (w_motd it)
            | DumpErr => s
            | DumpPanicked => fin s EndPanic
            end
          else s in
        match finished s with
        | Some _ => s
        | None =>
            let s := emit s id (mkChunk Data shown) (w_data it) in
            match w_data it with WroteAll => s | _ => with_client s None end
        end
    end.

  (** shell.rs 543-627: poll, hangup, read. *)
  Definition s2c_poll (s : s2c) (it : iter) : s2c :=
    match poll it with
    | PollErr => fin s EndErr
    | PollTimeout => s
    | PollMany => fin s EndErr
    | PollHangup _ exit =>
        match client s, exit with
        | Some id, Some status => fin (write_exit_chunk s id status (w_exit it)) EndOk
        | _, _ => fin s EndOk
        end
    | PollRead (Err _) => fin s EndErr
    | PollRead (Ok []) => s
    | PollRead (Ok bytes) =>
        let s := with_took s bytes in
        match gate_read (out_gate s) bytes with
        | None => fin s EndPanic
        | Some (g, shown) =>
            let s := with_gate s g in
            match shown with Some bs => s2c_output s it bs | None => s end
        end
    end.

  (** shell.rs 313-628: one turn of the loop. *)
  Definition s2c_turn (s : s2c) (it : iter) : s2c :=
    match finished s with
    | Some _ => s
    | None =>
        let '(s, f) := s2c_select s it in
        match finished s, f with
        | Some _, _ => s
        | None, Again => s
        | None, Rest reattach =>
            let s := s2c_resize s it in
            let s := if reattach then s2c_restore s it else s in
            s2c_poll s it
        end
    end.

  (** What the thread of shell.rs 268-633 meets: the first message, and the turns of its
      loop. *)
  Inductive s2c_event := First (m : option conn_msg) (now : N) (ok : bool) | Iter (it : iter).

  (** A first message is only taken before the loop, a turn only within it. shell.rs
      268-633. *)
  Definition s2c_step (s : s2c) (ev : s2c_event) : s2c :=
    match ev with
    | First m now ok => match finished s with Some _ => s | None => if waiting s then s2c_first s m now ok else s end
    | Iter it => if waiting s then s else s2c_turn s it
    end.

  (** Any number of turns. *)
  Definition s2c_run (s : s2c) (evs : list s2c_event) : s2c := fold_left s2c_step evs s.
End Thread.
