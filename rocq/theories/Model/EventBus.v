(** The events socket: libshpool/src/daemon/events.rs and the events subcommand
    libshpool/src/events.rs.

    Publishers and the one sink thread interleave; an action is one step of a
    publisher, of the sink or of a connecting subscriber.  Simplifications:
    subscribers are numbered in the order they connect; what the kernel answers
    (write results, poll results, accept errors) is an argument of the action;
    a poll may also return for no reason; a panic of the sink after a failing
    poll or read of its own pipes is left out; so is the end of the sink when
    every publisher is gone (wake pipe EOF), which takes the daemon with it. *)
From Coq Require Import List NArith ZArith Bool Arith.
From Verif Require Import Model.Base Model.Server.
Import ListNotations.
Open Scope nat_scope.

(** events.rs 49, 53. *)
Definition subscriber_queue_depth := 64.
(** events.rs 49, 53. *)
Definition event_channel_cap := 4096.

(** events.rs 56-67 with serde's internally tagged representation, and
    serialize_line 479-494. *)
Definition event_type (e : ev_kind) : rstr :=
  match e with
  | ECreated => lit "session.created"
  | EAttached => lit "session.attached"
  | EDetached => lit "session.detached"
  | ERemoved => lit "session.removed"
  end.
(** JSON. *)
Definition quote : N := 34%N.
(** JSON lines. *)
Definition newline : N := 10%N.
(** events.rs 479-494. *)
Definition serialize_line (e : ev_kind) : rstr :=
  lit "{" ++ [quote] ++ lit "type" ++ [quote] ++ lit ":" ++ [quote] ++ event_type e ++ [quote] ++ lit "}" ++ [newline].

(** A write(2) on a subscriber's socket: some bytes (never more than offered),
    EAGAIN, EINTR, another error. *)
Inductive wres := Wrote (n : nat) | WouldBlock | Interrupted | Broken.

(** events.rs 443-472 (drive_pending).  [sent]: the bytes accepted so far by the
    kernel.  Each write consumes an answer; no answer left is EAGAIN. *)
Fixpoint drive_pending (ws : list wres) (sent : rstr) (pending : list rstr) (off : nat) : rstr * list rstr * nat * bool :=
  match pending with
  | [] => (sent, pending, off, true)
  | front :: rest =>
    let bytes := skipn off front in
    match ws with
    | [] | WouldBlock :: _ => (sent, pending, off, true)
    | Interrupted :: ws' => drive_pending ws' sent pending off
    | Broken :: _ => (sent, pending, off, false)
    | Wrote k :: ws' =>
      let n := Nat.min k (length bytes) in
      if n =? 0 then (sent, pending, off, false)
      else if length front <=? off + n then drive_pending ws' (sent ++ firstn n bytes) rest 0
      else drive_pending ws' (sent ++ firstn n bytes) pending (off + n)
    end
  end.

(** events.rs 380-391 (SubscriberWriter).  For stating properties: its number,
    the bytes written to it, the events offered to it and how many events had been
    taken from the channel when it was accepted. *)
Record sub := mkSub {
  b_id : nat;
  b_pending : list rstr;
  b_off : nat;
  b_dropped : bool;
  b_sent : rstr;
  b_offered : list ev_kind;
  b_since : nat
}.

(** events.rs 406-409 (SubscriberWriter::new). *)
Definition sub_new (i since : nat) : sub := mkSub i [] 0 false [] [] since.

(** events.rs 411-417 (enqueue). *)
Definition enqueue (b : sub) (line : rstr) : option sub :=
  if subscriber_queue_depth <=? length (b_pending b) then None
  else Some (mkSub (b_id b) (b_pending b ++ [line]) (b_off b) (b_dropped b) (b_sent b) (b_offered b) (b_since b)).

(** Bookkeeping for the record above; nothing of the code. *)
Definition set_dropped (b : sub) : sub := mkSub (b_id b) (b_pending b) (b_off b) true (b_sent b) (b_offered b) (b_since b).
(** Bookkeeping: one field changed. *)
Definition set_offered (b : sub) o : sub := mkSub (b_id b) (b_pending b) (b_off b) (b_dropped b) (b_sent b) o (b_since b).

(** events.rs 419-421 (drive) and what its callers do with an error. *)
Definition drive (ws : list wres) (b : sub) : sub :=
  match drive_pending ws (b_sent b) (b_pending b) (b_off b) with
  | (sent, pending, off, ok) => mkSub (b_id b) pending off (if ok then b_dropped b else true) sent (b_offered b) (b_since b)
  end.

(** events.rs 423-425. *)
Definition wants_pollout (b : sub) : bool := match b_pending b with [] => false | _ => true end.

(** events.rs 331-347: one event, one subscriber. *)
Definition offer (ws : list wres) (e : ev_kind) (b : sub) : sub :=
  if b_dropped b then b else
  let was_empty := negb (wants_pollout b) in
  let b0 := set_offered b (b_offered b ++ [e]) in
  match enqueue b0 (serialize_line e) with
  | None => set_dropped b0
  | Some b1 => if was_empty then drive ws b1 else b1
  end.

(** What poll reports for a subscriber's socket. daemon/events.rs 228-387. *)
Inductive revent := Quiet | Writable | Hangup.

(** Where the sink is in its loop (events.rs 240-372).  [ready]: the subscribers in
    the poll set, by position, with what poll reported. *)
Inductive sink :=
| Polling
| Accepting (woken : bool) (ready : list (nat * revent))
| Draining (ready : list (nat * revent))
| Driving (ready : list (nat * revent))
| Stopped.

(** daemon/events.rs 74-112 (EventBus), 219-226 (Sink). *)
Record bus := mkBus {
  channel : list ev_kind;     (* event_tx / event_rx *)
  wake : bool;                (* a byte is in the wake pipe *)
  waking : nat;               (* publishers between try_send and write *)
  backlog : list nat;         (* connections the listener has queued *)
  next : nat;                 (* connections so far *)
  subs : list sub;
  sink_at : sink;
  gone : list sub;            (* subscribers dropped, for stating properties *)
  published : list ev_kind;   (* events put into the channel *)
  taken : list ev_kind;       (* events taken from the channel *)
  lost : list ev_kind         (* events not put into the channel *)
}.

(** daemon/events.rs 85-112 (start). *)
Definition bus_new : bus := mkBus [] false 0 [] 0 [] Polling [] [] [] [].

(** events.rs 259-264: the poll set. *)
Fixpoint poll_set (i : nat) (l : list sub) : list nat :=
  match l with
  | [] => []
  | b :: r => (if wants_pollout b then [i] else []) ++ poll_set (S i) r
  end.

(** events.rs 352-370: writes for the subscribers whose socket is ready. *)
Definition drive_one (ws : list wres) (rev : revent) (b : sub) : sub :=
  if b_dropped b then b else
  match rev with
  | Hangup => set_dropped b
  | Writable => drive ws b
  | Quiet => b
  end.
(** events.rs 352-370. *)
Fixpoint change_sub (l : list sub) (i : nat) (f : sub -> sub) : list sub :=
  match l, i with
  | [], _ => []
  | b :: r, O => f b :: r
  | b :: r, S i' => b :: change_sub r i' f
  end.
(** events.rs 352-370. *)
Definition drive_ready (os : nat -> list wres) (l : list sub) (ready : list (nat * revent)) : list sub :=
  fold_left (fun l p => change_sub l (fst p) (fun b => drive_one (os (b_id b)) (snd p) b)) ready l.

(** What the publishers and the sink do, one step at a time. *)
Inductive bus_action :=
| BPublish (e : ev_kind)                        (* try_send, events.rs 119-138 *)
| BWake                                         (* the byte, events.rs 139-146 *)
| BConnect                                      (* a subscriber connects *)
| BPoll (revs : nat -> revent) (shutdown : bool)  (* events.rs 259-292; [revs] by subscriber *)
| BAccept (ok : bool)                           (* one accept, 303-316 *)
| BAcceptFailed                                 (* accept error other than EAGAIN: 312-315 *)
| BRecv (os : nat -> list wres)                 (* one event, 330-348; [os]: write results by subscriber *)
| BDrive (os : nat -> list wres).               (* 352-370 and retain, 371 *)

(** Bookkeeping for the record above; nothing of the code. *)
Definition set_sink st x := mkBus (channel st) (wake st) (waking st) (backlog st) (next st) (subs st) x (gone st) (published st) (taken st) (lost st).

(** events.rs 318-329: after the accepts, the wake pipe is drained if poll reported
    it. *)
Definition after_accepts (st : bus) (w : bool) (ready : list (nat * revent)) : bus :=
  if w then mkBus (channel st) false (waking st) (backlog st) (next st) (subs st) (Draining ready) (gone st) (published st) (taken st) (lost st)
  else set_sink st (Driving ready).

(** daemon/events.rs 120-147, 228-387; the lines are cited at [bus_action]. *)
Definition bus_step (st : bus) (a : bus_action) : bus :=
  match a with
  | BPublish e =>
    match sink_at st with
    | Stopped => mkBus (channel st) (wake st) (waking st) (backlog st) (next st) (subs st) (sink_at st) (gone st) (published st) (taken st) (lost st ++ [e])
    | _ =>
      if length (channel st) <? event_channel_cap
      then mkBus (channel st ++ [e]) (wake st) (S (waking st)) (backlog st) (next st) (subs st) (sink_at st) (gone st) (published st ++ [e]) (taken st) (lost st)
      else mkBus (channel st) (wake st) (waking st) (backlog st) (next st) (subs st) (sink_at st) (gone st) (published st) (taken st) (lost st ++ [e])
    end
  | BWake =>
    match waking st with
    | O => st
    | S k => mkBus (channel st) true k (backlog st) (next st) (subs st) (sink_at st) (gone st) (published st) (taken st) (lost st)
    end
  | BConnect => mkBus (channel st) (wake st) (waking st) (backlog st ++ [next st]) (S (next st)) (subs st) (sink_at st) (gone st) (published st) (taken st) (lost st)
  | BPoll revs shutdown =>
    match sink_at st with
    | Polling =>
      if shutdown then set_sink st Stopped
      else set_sink st (Accepting (wake st)
             (map (fun i => (i, match nth_error (subs st) i with Some b => revs (b_id b) | None => Quiet end)) (poll_set 0 (subs st))))
    | _ => st
    end
  | BAccept ok =>
    match sink_at st with
    | Accepting w ready =>
      match backlog st with
      | i :: rest =>
        mkBus (channel st) (wake st) (waking st) rest (next st) (if ok then subs st ++ [sub_new i (length (taken st))] else subs st)
              (sink_at st) (gone st) (published st) (taken st) (lost st)
      | [] => after_accepts st w ready
      end
    | _ => st
    end
  | BAcceptFailed =>
    match sink_at st with
    | Accepting w ready => after_accepts st w ready
    | _ => st
    end
  | BRecv os =>
    match sink_at st with
    | Draining ready =>
      match channel st with
      | e :: rest =>
        mkBus rest (wake st) (waking st) (backlog st) (next st) (map (fun b => offer (os (b_id b)) e b) (subs st)) (sink_at st) (gone st)
              (published st) (taken st ++ [e]) (lost st)
      | [] => set_sink st (Driving ready)
      end
    | _ => st
    end
  | BDrive os =>
    match sink_at st with
    | Driving ready =>
      let l := drive_ready os (subs st) ready in
      mkBus (channel st) (wake st) (waking st) (backlog st) (next st) (filter (fun b => negb (b_dropped b)) l) Polling
            (gone st ++ filter b_dropped l) (published st) (taken st) (lost st)
    | _ => st
    end
  end.

(** Any schedule of them. *)
Definition bus_run (st : bus) (l : list bus_action) : bus := fold_left bus_step l st.

(** libshpool/src/events.rs 18-31: the events subcommand copies lines until the
    stream ends; BufRead::lines also yields what follows the last newline, if
    anything does, and removes a carriage return before a newline. *)
Definition chomp_cr (l : rstr) : rstr :=
  match rev l with
  | c :: r => if (c =? 13)%N then rev r else l
  | [] => l
  end.
(** libshpool/src/events.rs 18-31. *)
Fixpoint lines_of (cur : rstr) (s : rstr) : list rstr :=
  match s with
  | [] => match cur with [] => [] | _ => [cur] end
  | c :: r => if (c =? newline)%N then chomp_cr cur :: lines_of [] r else lines_of (cur ++ [c]) r
  end.
(** libshpool/src/events.rs 18-31. *)
Definition events_command (stream : rstr) : rstr := concat (map (fun l => l ++ [newline]) (lines_of [] stream)).
