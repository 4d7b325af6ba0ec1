(** The attach client's streaming phase: libshpool/src/protocol.rs 250-519
    (pipe_bytes), three threads sharing a result slot. *)
From Coq Require Import List NArith ZArith Bool.
From Verif Require Import Model.Base Model.Protocol Model.Chunk.
Import ListNotations.
Open Scope N_scope.

(** protocol.rs 135-140 (PipeBytesResult). *)
Inductive pipe_result := Exit (status : Z) | Switch (vars : var_list).

(** What the socket thread makes of a frame (protocol.rs 338-401).  [FBroken] is a
    failure to read or decode it. *)
Inductive frame_in := FIdle | FShow (bytes : list N) | FExit (status : Z) | FSwitch (vars : var_list) | FBroken.

(** i32::to_le_bytes, as used by daemon/shell.rs 635-637. *)
Definition i32_bytes (s : Z) : list N := le32 (Z.to_N (s mod 4294967296)).

(** byteorder's [read_i32::<LittleEndian>] on a buffer (protocol.rs 378-380). *)
Definition read_i32 (buf : list N) : option Z :=
  match buf with
  | a :: b :: c :: d :: _ =>
      let v := of_le32 a b c d in
      Some (if v <? 2147483648 then Z.of_N v else (Z.of_N v - 4294967296)%Z)
  | _ => None
  end.

(** protocol.rs 338-401: [decode] is the MessagePack decoder of the variable list. *)
Definition classify (decode : list N -> option var_list) (c : chunk) : frame_in :=
  match c_kind c with
  | Heartbeat => FIdle
  | Data => FShow (c_buf c)
  | ExitStatus => match read_i32 (c_buf c) with Some s => FExit s | None => FBroken end
  | MaybeSwitch => match decode (c_buf c) with Some v => FSwitch v | None => FBroken end
  end.

(** Each worker thread is at the top of its loop (about to look at the slot), past
    the look (polling, reading, writing), or finished. protocol.rs 265-385. *)
Inductive worker := AtTop | Past | Finished.

(** The main thread: waiting for a first thread to finish; in the first grace period
    (lines 421-437); about to fill the slot (443-448); in the second grace period
    (450-470); gone. *)
Inductive main_phase := Watching | Grace1 | Filling | Grace2 | Returned (r : pipe_result) | Died (code : Z).

(** What the threads of protocol.rs 250-519 share, and where they are. *)
Record pipe := mkPipe {
  slot : option pipe_result;
  stdin_thread : worker;
  sock_thread : worker;
  frames : list frame_in;    (* not yet read *)
  shown : list N;            (* written to standard output *)
  main : main_phase }.

(** protocol.rs 257-263. *)
Definition pipe_start (fs : list frame_in) : pipe := mkPipe None AtTop AtTop fs [] Watching.

(** [JoinHandle::is_finished] and [Option::is_some], protocol.rs 394-408. *)
Definition is_finished (w : worker) : bool := match w with Finished => true | _ => false end.
(** Rust's Option::is_some. *)
Definition is_some {A} (o : option A) : bool := match o with Some _ => true | None => false end.

(** One scheduling choice.  The Booleans are what the environment does: whether
    standard output accepts a write, whether standard input ends (or an error occurs)
    rather than data being forwarded, whether a grace period is over. protocol.rs 250-519. *)
Inductive pipe_event := SockGo (stdout_ok : bool) | SockIdle | StdinGo (ends : bool) | StdinIdle | MainGo (timeout : bool).

Section Pipe.
  (** The caller's decision about a variable update (attach.rs 225-228). *)
  Variable follow : var_list -> bool.

  (** protocol.rs 304-404: one step of sock->stdout. *)
  Definition sock_step (ok : bool) (p : pipe) : pipe :=
    match sock_thread p with
    | Finished => p
    | AtTop => mkPipe (slot p) (stdin_thread p) (if is_some (slot p) then Finished else Past) (frames p) (shown p) (main p)
    | Past =>
        match frames p with
        | [] => p                                        (* still waiting for data *)
        | FIdle :: fs => mkPipe (slot p) (stdin_thread p) AtTop fs (shown p) (main p)
        | FShow b :: fs =>
            if ok then mkPipe (slot p) (stdin_thread p) AtTop fs (shown p ++ b) (main p)
            else mkPipe (slot p) (stdin_thread p) Finished fs (shown p) (main p)
        | FExit s :: fs => mkPipe (Some (Exit s)) (stdin_thread p) AtTop fs (shown p) (main p)
        | FSwitch v :: fs => mkPipe (if follow v then Some (Switch v) else slot p) (stdin_thread p) AtTop fs (shown p) (main p)
        | FBroken :: fs => mkPipe (slot p) (stdin_thread p) Finished fs (shown p) (main p)
        end
    end.

  (** protocol.rs 268-302: one step of stdin->sock. *)
  Definition stdin_step (ends : bool) (p : pipe) : pipe :=
    match stdin_thread p with
    | Finished => p
    | AtTop => mkPipe (slot p) (if is_some (slot p) then Finished else Past) (sock_thread p) (frames p) (shown p) (main p)
    | Past => mkPipe (slot p) (if ends then Finished else AtTop) (sock_thread p) (frames p) (shown p) (main p)
    end.

  (** protocol.rs 406-517: one step of the main thread. *)
  Definition main_step (timeout : bool) (p : pipe) : pipe :=
    let go m := mkPipe (slot p) (stdin_thread p) (sock_thread p) (frames p) (shown p) m in
    match main p with
    | Watching =>
        if is_finished (stdin_thread p) && negb (is_finished (sock_thread p)) then go Grace1
        else if is_finished (sock_thread p) then go Filling
        else p
    | Grace1 =>
        if is_finished (sock_thread p) || is_some (slot p) || timeout then go Filling else p
    | Filling =>
        mkPipe (match slot p with None => Some (Exit 1) | s => s end)
          (stdin_thread p) (sock_thread p) (frames p) (shown p) Grace2
    | Grace2 =>
        if is_finished (stdin_thread p) && is_finished (sock_thread p) then
          go (Returned (match slot p with Some r => r | None => Exit 1 end))
        else if timeout then
          go (Died (match slot p with Some (Exit s) => s | _ => 1%Z end))
        else p
    | Returned _ | Died _ => p
    end.

  (** A process that has died takes no further steps; threads are joined before
      the result is returned. protocol.rs 250-519. *)
  Definition pipe_step (p : pipe) (e : pipe_event) : pipe :=
    match main p with
    | Returned _ | Died _ => p
    | _ =>
        match e with
        | SockGo ok => sock_step ok p
        | SockIdle => match sock_thread p with
                      | Past => mkPipe (slot p) (stdin_thread p) AtTop (frames p) (shown p) (main p)
                      | _ => p
                      end
        | StdinGo ends => stdin_step ends p
        | StdinIdle => match stdin_thread p with
                       | Past => mkPipe (slot p) AtTop (sock_thread p) (frames p) (shown p) (main p)
                       | _ => p
                       end
        | MainGo t => main_step t p
        end
    end.

  (** Any schedule of the three threads. *)
  Definition pipe_run (es : list pipe_event) (p : pipe) : pipe := fold_left pipe_step es p.
End Pipe.
