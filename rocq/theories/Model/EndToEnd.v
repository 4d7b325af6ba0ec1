(** The two ends of an attach put together: what the daemon's threads write to the
    socket is what the client's threads read from it, and the other way round
    (libshpool/src/protocol.rs 71-127 and 265-404, daemon/shell.rs 806-953).

    A socket delivers the bytes written to it in order and unchanged; how many of them
    have been delivered is up to the schedule. *)
From Coq Require Import List NArith ZArith Bool Arith.
From Verif Require Import Model.Base Model.Chunk Model.Protocol Model.Pipe.
Import ListNotations.
Open Scope nat_scope.

(** protocol.rs 84-99: frames written one after the other; [None]: the assertion about
    the length of an exit frame fails. *)
Fixpoint written (cs : list chunk) : option (list N) :=
  match cs with
  | [] => Some []
  | c :: cs' =>
      match write_to c, written cs' with
      | Some bs, Some rest => Some (bs ++ rest)
      | _, _ => None
      end
  end.

(** protocol.rs 304-404: the frames the sock->stdout thread gets to see of the bytes
    [stream].  A frame that is not complete is waited for, unless the stream has ended;
    a frame that is not one, and the end of the stream, make the thread fail. *)
Definition frames_read (decode : list N -> option var_list) (stream : list N) (ended : bool) : list frame_in :=
  match read_all BUF_SIZE stream with
  | None => []                                     (* does not happen: C01_reader_terminates *)
  | Some (cs, e) =>
      map (classify decode) cs ++
      match e with EofInFrame => if ended then [FBroken] else [] | _ => [FBroken] end
  end.

(** What poll and read say about standard input (protocol.rs 277-293). *)
Inductive stdin_poll := PollFailed | NotYet | Readable (r : result (list N) unit).

(** One turn of the stdin->sock thread: whether the result slot is found filled, the
    input, how many bytes write_all gets rid of, whether the flush works. protocol.rs
    270-300. *)
Record stdin_turn := mkStdin { told_to_stop : bool; polled : stdin_poll; accepted : nat; flush_ok : bool }.

(** protocol.rs 266-302: all that the thread writes to the socket. *)
Fixpoint forward (ts : list stdin_turn) : list N :=
  match ts with
  | [] => []
  | t :: ts' =>
      if told_to_stop t then []
      else match polled t with
           | PollFailed | Readable (Err _) | Readable (Ok []) => []
           | NotYet => forward ts'
           | Readable (Ok bs) =>
               if accepted t <? length bs then firstn (accepted t) bs
               else if flush_ok t then bs ++ forward ts' else bs
           end
  end.
