(** The end of the events socket: who stops the thread that serves it, and what becomes of
    the socket file and the connections.  daemon/events.rs 74-125, 165-230, 258-345 and
    daemon/mod.rs 71-75.  An action is one step of the daemon's main thread, of a publisher,
    of the thread, of a subscriber or of another program.  Simplifications: a turn of the
    thread is one step and its subscribers take what they are sent ([EventBus] has the turn
    in pieces and slow subscribers); the channel has room; panics of the thread are left
    out. *)
From Coq Require Import List Arith Bool Lia.
Import ListNotations.

(** The thread waits in [poll], has come out of it, having seen the shutdown pipe and the
    wake pipe as told, or has returned. *)
Inductive thread := Waiting | Woken (shutdown wake : bool) | Over.
(** The main thread has the handle, is in its [drop], or is through with it. *)
Inductive owner := Holds | Joins | Done.
(** [file]: what the name of the socket stands for: nothing, the thread's listener (0) or
    another file.  [nudge] and [wake]: a byte is in the pipe.  [buses]: the clones of the
    publishers' handle.  [pending]: the listener's queue.  [closed]: the connections the
    daemon has closed. *)
Record state := mkState {
  file : option nat; nudge : bool; wake : bool; buses : nat; sink : thread; main : owner;
  next : nat; pending : list nat; served : list nat; closed : list nat;
  channel : list nat; sent : list (nat * nat) }.

(** events.rs 82-117: after the bind. *)
Definition start : state := mkState (Some 0) false false 1 Waiting Holds 0 [] [] [] [] [].

Inductive action :=
| Connect                     (* a subscriber *)
| Publish (event : nat)       (* events.rs 126-158 *)
| Clone | Release             (* a publisher's handle *)
| DropHandle                  (* events.rs 171-180: the nudge *)
| Join                        (* events.rs 181-185 *)
| Poll (writable : bool)      (* events.rs 258-278; [writable]: a subscriber that is waited for is ready *)
| Turn                        (* events.rs 280-396 *)
| Other (f : option nat).     (* another program removes the file, or puts its own (not 0) there *)

Definition running (t : thread) : bool := match t with Over => false | _ => true end.
(** The write end of the wake pipe is closed when no clone is left: events.rs 318-330. *)
Definition nobody (n : nat) : bool := n =? 0.
(** Vec::is_empty. *)
Definition empty (l : list nat) : bool := match l with [] => true | _ => false end.

(** events.rs 219-231, 205-213: [run] returns, and all it owns is dropped: the guard removes
    the file of that name, the listener and the subscribers' connections are closed. *)
Definition return_ (s : state) : state :=
  mkState None (nudge s) (wake s) (buses s) Over (main s) (next s) [] [] (closed s ++ served s ++ pending s) [] (sent s).
(** events.rs 299-316. *)
Definition accept_all (s : state) : state :=
  mkState (file s) (nudge s) (wake s) (buses s) (sink s) (main s) (next s) [] (served s ++ pending s) (closed s) (channel s) (sent s).
(** events.rs 337-370. *)
Definition broadcast (s : state) : state :=
  mkState (file s) (nudge s) false (buses s) Waiting (main s) (next s) (pending s) (served s) (closed s) []
    (sent s ++ flat_map (fun e => map (fun c => (c, e)) (served s)) (channel s)).
(** Bookkeeping: one field changed. *)
Definition set_sink (s : state) (t : thread) : state :=
  mkState (file s) (nudge s) (wake s) (buses s) t (main s) (next s) (pending s) (served s) (closed s) (channel s) (sent s).
(** Bookkeeping: one field changed. *)
Definition set_main (s : state) (n : bool) (o : owner) : state :=
  mkState (file s) n (wake s) (buses s) (sink s) o (next s) (pending s) (served s) (closed s) (channel s) (sent s).
(** Bookkeeping: one field changed. *)
Definition set_buses (s : state) (n : nat) : state :=
  mkState (file s) (nudge s) (wake s) n (sink s) (main s) (next s) (pending s) (served s) (closed s) (channel s) (sent s).
(** Bookkeeping: one field changed. *)
Definition set_file (s : state) (f : option nat) : state :=
  mkState f (nudge s) (wake s) (buses s) (sink s) (main s) (next s) (pending s) (served s) (closed s) (channel s) (sent s).

(** What each action does, with the lines given there. *)
Definition step (s : state) (a : action) : state :=
  match a with
  | Connect =>
      match file s with
      | Some 0 => if running (sink s)
                  then mkState (file s) (nudge s) (wake s) (buses s) (sink s) (main s) (S (next s)) (pending s ++ [next s]) (served s) (closed s) (channel s) (sent s)
                  else s
      | _ => s
      end
  | Publish e =>
      if nobody (buses s) then s
      else if running (sink s)
      then mkState (file s) (nudge s) true (buses s) (sink s) (main s) (next s) (pending s) (served s) (closed s) (channel s ++ [e]) (sent s)
      else s
  | Clone => if nobody (buses s) then s else set_buses s (S (buses s))
  | Release => set_buses s (pred (buses s))
  | DropHandle => match main s with Holds => set_main s (running (sink s)) Joins | _ => s end
  | Join => match main s with Joins => if running (sink s) then s else set_main s (nudge s) Done | _ => s end
  | Poll w =>
      match sink s with
      | Waiting =>
          if nudge s || wake s || nobody (buses s) || negb (empty (pending s)) || (w && negb (empty (served s)))
          then set_sink s (Woken (nudge s) (wake s || nobody (buses s)))
          else s
      | _ => s
      end
  | Turn =>
      match sink s with
      | Woken true _ => return_ s
      | Woken false w =>
          let s := accept_all s in
          if w then if nobody (buses s) then return_ s else broadcast s
          else set_sink s Waiting
      | _ => s
      end
  | Other f => match f with Some 0 => s | _ => set_file s f end
  end.
(** Any number of steps, one after the other. *)
Definition run (s : state) (l : list action) : state := fold_left step l s.
