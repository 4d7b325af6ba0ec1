(** The exit status latch (libshpool/src/daemon/exit_notify.rs), the child watcher
    that fills it (daemon/server.rs 1043-1077) and Session::kill, which waits on it
    (daemon/shell.rs 125-151). *)
From Coq Require Import List NArith ZArith Bool.
From Verif Require Import Model.Base.
Import ListNotations.
Open Scope N_scope.

(** Where a caller of [wait] is.  exit_notify.rs 39-60.  [Parked timed]: asleep on
    the condition variable, with or without a timeout.  [Notified]: woken by
    notify_all, about to take the mutex again.  [Expired]: its timeout fired before
    any notification, about to take the mutex again. *)
Inductive waiting := Parked (timed : bool) | Notified | Expired.

(** A caller of exit_notify.rs 39. *)
Definition waiter := nat.

(** exit_notify.rs 20-24.  The condition variable is the set of callers inside
    [wait]; [returned] logs, oldest first, what each finished call returned. *)
Record latch := {
  slot : option Z;
  inside : list (waiter * waiting);
  returned : list (waiter * option Z)
}.

(** exit_notify.rs 26-28. *)
Definition new_latch : latch := {| slot := None; inside := []; returned := [] |}.

(** What can happen, one mutex-protected step at a time. exit_notify.rs 31-61. *)
Inductive latch_event :=
| Notify (status : Z)            (* notify_exit(status) *)
| Call (w : waiter) (timed : bool) (* w enters wait(Some _) / wait(None) *)
| TimeOut (w : waiter)           (* the timeout of the parked w fires *)
| Resume (w : waiter).           (* w takes the mutex again and returns *)

Fixpoint find_waiter (w : waiter) (l : list (waiter * waiting)) : option waiting :=
  match l with
  | [] => None
  | (w', x) :: l' => if Nat.eqb w w' then Some x else find_waiter w l'
  end.

(** Bookkeeping: a caller has returned. *)
Fixpoint drop_waiter (w : waiter) (l : list (waiter * waiting)) : list (waiter * waiting) :=
  match l with
  | [] => []
  | (w', x) :: l' => if Nat.eqb w w' then drop_waiter w l' else (w', x) :: drop_waiter w l'
  end.

(** notify_all wakes exactly the parked callers. exit_notify.rs 31-35. *)
Definition wake (x : waiting) : waiting := match x with Parked _ => Notified | x => x end.

(** One step; [None]: the event cannot happen in this state.  parking_lot's
    condition variable has no spurious wakeups, and [timed_out] is reported exactly
    when no notification reached the caller. exit_notify.rs 31-61. *)
Definition latch_step (s : latch) (e : latch_event) : option latch :=
  match e with
  | Notify status =>
      (* exit_notify.rs 31-35 *)
      Some {| slot := Some status;
              inside := map (fun p => (fst p, wake (snd p))) (inside s);
              returned := returned s |}
  | Call w timed =>
      match find_waiter w (inside s) with
      | Some _ => None                       (* a thread is in one call at a time *)
      | None =>
          match slot s with
          | Some _ =>                        (* exit_notify.rs 44-46 *)
              Some {| slot := slot s; inside := inside s; returned := returned s ++ [(w, slot s)] |}
          | None =>                          (* 48-59: waits *)
              Some {| slot := slot s; inside := (w, Parked timed) :: inside s; returned := returned s |}
          end
      end
  | TimeOut w =>
      match find_waiter w (inside s) with
      | Some (Parked true) =>
          Some {| slot := slot s; inside := (w, Expired) :: drop_waiter w (inside s); returned := returned s |}
      | _ => None
      end
  | Resume w =>
      match find_waiter w (inside s) with
      | Some Notified =>                     (* 53, 58: *slot *)
          Some {| slot := slot s; inside := drop_waiter w (inside s); returned := returned s ++ [(w, slot s)] |}
      | Some Expired =>                      (* 51: None *)
          Some {| slot := slot s; inside := drop_waiter w (inside s); returned := returned s ++ [(w, None)] |}
      | _ => None
      end
  end.

(** Any order of such steps that the mutex allows. *)
Fixpoint latch_run (s : latch) (es : list latch_event) : option latch :=
  match es with
  | [] => Some s
  | e :: es' => match latch_step s e with Some s' => latch_run s' es' | None => None end
  end.

(** server.rs 1046-1076: the status the child watcher records for the result of
    waitpid: -1 is an error, otherwise the status word (libc's WIFEXITED and
    WEXITSTATUS).  A return of 0 is retried; it cannot be returned without WNOHANG. *)
Inductive waitpid_result := WaitFailed | WaitStatus (word : N).

(** server.rs 1045-1076: the status the thread waiting for the shell hands to notify_exit. *)
Definition watcher_status (r : waitpid_result) : Z :=
  match r with
  | WaitFailed => 1%Z
  | WaitStatus word =>
      if N.land word 127 =? 0 then Z.of_N (N.land (N.shiftr word 8) 255) else 1%Z
  end.

(** *** Session::kill *)

(** The signals of shell.rs 128-154. *)
Inductive sig := SIGHUP | SIGKILL.

(** kill(2) as far as Session::kill distinguishes its results. *)
Inductive kill_result := Sent | NoSuchProcess | KillError.

(** Processes: a pid names at most one process at a time; [proc] identifies a
    process for ever. shell.rs 128-154. *)
Definition proc := nat.
(** shell.rs 128-154. *)
Definition pid := N.

(** What a kill does: the signals it asked for, in order, with the process that
    received each (if any), and whether it reported success. shell.rs 128-154. *)
Record kill_effect := { asked : list (pid * sig); hit : list (proc * sig); succeeded : bool }.

(** daemon/shell.rs 128-151.  [at_hup]/[at_kill]: which process has the pid when
    each signal is sent (the daemon does not look); [hup_err]/[kill_err]: whether
    the call fails for another reason, such as EPERM; [seen]: the answer of
    child_exit_notifier.wait(Some(500ms)). *)
Definition session_kill (child_pid : pid) (at_hup at_kill : pid -> option proc) (hup_err kill_err : bool)
  (seen : option Z) : kill_effect :=
  let try who err := match who child_pid with
                     | None => NoSuchProcess
                     | Some _ => if (err : bool) then KillError else Sent
                     end in
  let hits who err s := match who child_pid with
                        | Some p => if (err : bool) then [] else [(p, s)]
                        | None => []
                        end in
  match try at_hup hup_err with
  | NoSuchProcess => {| asked := [(child_pid, SIGHUP)]; hit := []; succeeded := true |}
  | KillError => {| asked := [(child_pid, SIGHUP)]; hit := []; succeeded := false |}
  | Sent =>
      match seen with
      | Some _ => {| asked := [(child_pid, SIGHUP)]; hit := hits at_hup hup_err SIGHUP; succeeded := true |}
      | None =>
          {| asked := [(child_pid, SIGHUP); (child_pid, SIGKILL)];
             hit := hits at_hup hup_err SIGHUP ++ hits at_kill kill_err SIGKILL;
             succeeded := match try at_kill kill_err with KillError => false | _ => true end |}
      end
  end.
