(** The threads that serve one attached client: libshpool/src/daemon/shell.rs 655-803
    (bidi_stream, from the thread scope on), 806-953 (client->shell), 956-1020
    (heartbeat), 1023-1064 (supervisor), 1071-1084 (action_detach).

    Every point where a thread can wait is a phase of it, and a schedule says who moves
    and what the rest of the world answers.  Time is not counted: a sleep or a time-out is
    over when the schedule says so.  Simplified: waiting for the control lock is part of
    waiting for the output thread (who may hold it is Control.v's subject); the output
    thread is what it answers and whether it has yet to close the stream (what it does is
    ShellToClient.v's); one [write_all] is one phase, whatever system calls it makes. *)
From Coq Require Import List NArith ZArith Bool Arith.
From Verif Require Import Model.Base Model.Chunk Model.Keybindings Model.Input.
Import ListNotations.
Open Scope nat_scope.

(** What a thread's closure returns. Anyhow::Result of the closures in shell.rs 831-951,
    964-1017, or a panic of theirs. *)
Inductive ended := Good | Bad | Panic.

(** client->shell, 831-951.  [k]: its state between two reads (see Input.v). *)
Inductive typist :=
| TStart (b : option bindings)               (* 834: compiling the keybindings; None: that is an error *)
| TCheck (k : c2s)                           (* 844-847 *)
| TRead (k : c2s)                            (* 856-858: in read *)
| TWrite (next : option c2s) (bytes : list N) (* 884-886, 945-947: in write_all; None: a detach fired *)
| TDetach                                    (* 915: in action_detach *)
| TEnded (how : ended).

(** heartbeat, 964-1017. *)
Inductive beater :=
| BSleep                                     (* 969-973: in sleep_unless *)
| BAsk                                       (* 980-997: sending *)
| BAwait                                     (* 999-1008: waiting for the answer *)
| BEnded (how : ended).

(** supervisor, 1034-1062. *)
Inductive watch := WCheck | WWait | WEnded.

(** What bidi_stream comes to. shell.rs 655-660, 803. *)
Inductive outcome := Returned (child_done : bool) | Failed | Panicked.

(** bidi_stream's own thread. shell.rs 708-803. *)
Inductive boss :=
| KPoll                                      (* 724-738: looking whether a thread has ended *)
| KTell                                      (* 744-757: sending the disconnect *)
| KAwait                                     (* 766-768: waiting for the acknowledgement *)
| KJoinTypist | KJoinBeater | KJoinWatch     (* 772-790 *)
| KScope (r : outcome)                       (* leaving the scope, which joins what is left *)
| KDone (r : outcome).

(** What the output thread is told: ClientConnectionMsg, shell.rs 237-246. *)
Inductive tell := TellDisconnect | TellExit (status : Z).

(** What the threads of shell.rs 708-803 share. *)
Record stream := mkStream {
  typist_at : typist; beater_at : beater; watch_at : watch; boss_at : boss;
  stop : bool;                               (* 711 *)
  child_done : bool;                         (* 713 *)
  exited : option Z;                         (* the exit notifier *)
  unread : list (list N);                    (* what the client sent, as the reads will return it *)
  gone : bool;                               (* the client has hung up *)
  shut : bool;                               (* the stream was shut down on our side *)
  owed : bool;                               (* the output thread took a disconnect and has yet to shut the stream *)
  pty : list N;                              (* what the shell was given to read *)
  told : list tell                           (* what bidi_stream told the output thread *)
}.

(** Bookkeeping for [stream]: each sets or extends one field. *)
Definition set_typist (x : typist) (s : stream) : stream :=
  mkStream x (beater_at s) (watch_at s) (boss_at s) (stop s) (child_done s) (exited s) (unread s) (gone s) (shut s) (owed s) (pty s) (told s).
(** Bookkeeping: one field changed. *)
Definition set_beater (x : beater) (s : stream) : stream :=
  mkStream (typist_at s) x (watch_at s) (boss_at s) (stop s) (child_done s) (exited s) (unread s) (gone s) (shut s) (owed s) (pty s) (told s).
(** Bookkeeping: one field changed. *)
Definition set_watch (x : watch) (s : stream) : stream :=
  mkStream (typist_at s) (beater_at s) x (boss_at s) (stop s) (child_done s) (exited s) (unread s) (gone s) (shut s) (owed s) (pty s) (told s).
(** Bookkeeping: one field changed. *)
Definition set_boss (x : boss) (s : stream) : stream :=
  mkStream (typist_at s) (beater_at s) (watch_at s) x (stop s) (child_done s) (exited s) (unread s) (gone s) (shut s) (owed s) (pty s) (told s).
(** Bookkeeping: one field changed. *)
Definition set_stop (s : stream) : stream :=
  mkStream (typist_at s) (beater_at s) (watch_at s) (boss_at s) true (child_done s) (exited s) (unread s) (gone s) (shut s) (owed s) (pty s) (told s).
(** Bookkeeping: one field changed. *)
Definition set_child_done (s : stream) : stream :=
  mkStream (typist_at s) (beater_at s) (watch_at s) (boss_at s) (stop s) true (exited s) (unread s) (gone s) (shut s) (owed s) (pty s) (told s).
(** Bookkeeping: one field changed. *)
Definition set_exited (z : Z) (s : stream) : stream :=
  mkStream (typist_at s) (beater_at s) (watch_at s) (boss_at s) (stop s) (child_done s) (Some z) (unread s) (gone s) (shut s) (owed s) (pty s) (told s).
(** Bookkeeping: one field changed. *)
Definition set_unread (l : list (list N)) (s : stream) : stream :=
  mkStream (typist_at s) (beater_at s) (watch_at s) (boss_at s) (stop s) (child_done s) (exited s) l (gone s) (shut s) (owed s) (pty s) (told s).
(** Bookkeeping: one field changed. *)
Definition set_gone (s : stream) : stream :=
  mkStream (typist_at s) (beater_at s) (watch_at s) (boss_at s) (stop s) (child_done s) (exited s) (unread s) true (shut s) (owed s) (pty s) (told s).
(** Bookkeeping: one field changed. *)
Definition set_shut (s : stream) : stream :=
  mkStream (typist_at s) (beater_at s) (watch_at s) (boss_at s) (stop s) (child_done s) (exited s) (unread s) (gone s) true (owed s) (pty s) (told s).
(** Bookkeeping: one field changed. *)
Definition set_owed (b : bool) (s : stream) : stream :=
  mkStream (typist_at s) (beater_at s) (watch_at s) (boss_at s) (stop s) (child_done s) (exited s) (unread s) (gone s) (shut s) b (pty s) (told s).
(** Bookkeeping: what has been written to the pty. *)
Definition give (l : list N) (s : stream) : stream :=
  mkStream (typist_at s) (beater_at s) (watch_at s) (boss_at s) (stop s) (child_done s) (exited s) (unread s) (gone s) (shut s) (owed s) (pty s ++ l) (told s).
(** Bookkeeping: what the output thread has been told. *)
Definition say (m : tell) (s : stream) : stream :=
  mkStream (typist_at s) (beater_at s) (watch_at s) (boss_at s) (stop s) (child_done s) (exited s) (unread s) (gone s) (shut s) (owed s) (pty s) (told s ++ [m]).

(** What a waiting thread is answered.  Each phase says what it makes of each; one that
    makes no sense there counts as [Fine]. The results told apart in shell.rs 744-768,
    856-875, 980-1008, 1040-1060 and 1071-1084. *)
Inductive answer :=
| NotYet                                     (* it goes on waiting *)
| Fine                                       (* what it waits for happened *)
| Busy                                       (* the other side did not take the message in time *)
| Lost                                       (* the other side took it and did not answer in time; an I/O error *)
| Gone                                       (* the other end of the channel was dropped *)
| Reply (present : bool)                     (* the answer to a heartbeat *)
| Trickle (n : nat).                         (* [n] more bytes were accepted *)

(** 844-951.  A read returns what there is to read, then end of file once either side is
    shut; [Lost]: it fails (a reset connection).  A write that fails has written some
    prefix ([Trickle] before [Lost]).  The state of a panicking thread is of no interest. *)
Definition typist_step (s : stream) (a : answer) : stream :=
  match typist_at s with
  | TStart None => set_typist (TEnded Bad) s
  | TStart (Some b) => set_typist (TCheck (c2s_start b (N.to_nat BUF_SIZE))) s
  | TCheck k => if stop s then set_typist (TEnded Good) s else set_typist (TRead k) s
  | TRead k =>
      match a with
      | NotYet => s
      | Lost => set_typist (TEnded Bad) s
      | _ =>
        match unread s with
        | [] => if shut s || gone s then set_typist (TEnded Good) s else s
        | bytes :: rest =>
            match read_once k bytes with
            | None => set_typist (TEnded Panic) (set_unread rest s)
            | Some (Continue k' w) => set_typist (TWrite (Some k') w) (set_unread rest s)
            | Some (Detached w) => set_typist (TWrite None w) (set_unread rest s)
            end
        end
      end
  | TWrite next bytes =>
      match a with
      | NotYet => s
      | Trickle n => set_typist (TWrite next (skipn n bytes)) (give (firstn n bytes) s)
      | Lost => set_typist (TEnded Bad) s
      | _ => set_typist (match next with Some k => TCheck k | None => TDetach end) (give bytes s)
      end
  | TDetach =>
      match a with
      | NotYet => s
      | Busy | Gone => set_typist (TEnded Bad) s          (* 1075-1076 *)
      | Lost => set_typist (TEnded Bad) (set_owed true s) (* 1077-1080 *)
      | _ => set_typist (TEnded Good) (set_shut s)        (* the output thread has closed the stream: 343-371 *)
      end
  | TEnded _ => s
  end.

(** 967-1017. *)
Definition beater_step (s : stream) (a : answer) : stream :=
  match beater_at s with
  | BSleep =>
      if stop s then set_beater (BEnded Good) s
      else match a with NotYet => s | _ => set_beater BAsk s end
  | BAsk =>
      match a with
      | NotYet => s
      | Gone => set_beater (BEnded Good) s                (* 987-989 *)
      | Busy => set_beater BSleep s                       (* 995-997 *)
      | _ => set_beater BAwait s
      end
  | BAwait =>
      match a with
      | NotYet => s
      | Gone => set_beater (BEnded Good) s                (* 1006 *)
      | Lost => set_beater (BEnded Bad) s                 (* 1007 *)
      | Reply false => set_beater (BEnded Good) s         (* 1010-1014 *)
      | _ => set_beater BSleep s
      end
  | BEnded _ => s
  end.

(** 1037-1061.  A wait that begins after the exit was recorded answers at once; one that
    began before may still time out ([Busy]). *)
Definition watch_step (s : stream) (a : answer) : stream :=
  match watch_at s with
  | WCheck =>
      if stop s then set_watch WEnded s
      else match exited s with
           | Some _ => set_watch WEnded (set_child_done s)
           | None => set_watch WWait s
           end
  | WWait =>
      match a, exited s with
      | NotYet, _ => s
      | Busy, _ => set_watch WCheck s
      | _, Some _ => set_watch WEnded (set_child_done s)
      | _, None => set_watch WCheck s
      end
  | WEnded => s
  end.

(** shell.rs 724-732: [is_finished] of the join handles. *)
Definition typist_over (s : stream) : bool := match typist_at s with TEnded _ => true | _ => false end.
(** shell.rs 724-732. *)
Definition beater_over (s : stream) : bool := match beater_at s with BEnded _ => true | _ => false end.
(** shell.rs 724-732. *)
Definition watch_over (s : stream) : bool := match watch_at s with WEnded => true | _ => false end.

(** What [join] and its [?] make of a thread's result: the next phase, or out of the scope.
    shell.rs 772-790. *)
Definition after_join (how : ended) (next : boss) : boss :=
  match how with Good => next | Bad => KScope Failed | Panic => KScope Panicked end.

(** 724-802. *)
Definition boss_step (s : stream) (a : answer) : stream :=
  match boss_at s with
  | KPoll =>
      if typist_over s || beater_over s || watch_over s || child_done s
      then set_boss KTell (set_stop s) else s
  | KTell =>
      let m := if child_done s
               then TellExit (match exited s with Some z => z | None => 1%Z end) (* 750-752 *)
               else TellDisconnect in
      match a with
      | NotYet => s
      | Busy | Gone => set_boss KJoinTypist (set_shut s)  (* 759-764 *)
      | _ => set_boss KAwait (say m s)
      end
  | KAwait =>
      match a with
      | NotYet => s
      | Busy | Lost | Gone => set_boss (KScope Failed) (set_owed true s)
      | _ => set_boss KJoinTypist (set_shut s)
      end
  | KJoinTypist => match typist_at s with TEnded h => set_boss (after_join h KJoinBeater) s | _ => s end
  | KJoinBeater => match beater_at s with BEnded h => set_boss (after_join h KJoinWatch) s | _ => s end
  | KJoinWatch => match watch_at s with WEnded => set_boss (KScope (Returned false)) s | _ => s end
  | KScope r =>
      if typist_over s && beater_over s && watch_over s
      then match r with
           | Returned _ => set_boss (KDone (Returned (child_done s))) (if child_done s then set_shut s else s) (* 795-802 *)
           | r => set_boss (KDone r) s
           end
      else s
  | KDone _ => s
  end.

(** The output thread gets round to closing the stream: 343-397. *)
Definition output_step (s : stream) : stream := if owed s then set_shut (set_owed false s) else s.

(** The threads of shell.rs 708-803, and the output thread (268-633). *)
Inductive who := Typist | Beater | Watch | Boss | Output.
(** Who moves next, or what happens outside. *)
Inductive action :=
| Step (w : who) (a : answer)
| ShellExits (status : Z)                    (* the child watcher records it: server.rs 1043-1077 *)
| Types (bytes : list N)                     (* the client sends this, to be returned by one read *)
| Leaves                                     (* the client hangs up *)
| Shuts.                                     (* another request ends the attachment: shpool detach, attach -f *)

(** One action; a read returns between 1 and BUF_SIZE bytes. *)
Definition step (s : stream) (x : action) : stream :=
  match x with
  | Step Typist a => typist_step s a
  | Step Beater a => beater_step s a
  | Step Watch a => watch_step s a
  | Step Boss a => boss_step s a
  | Step Output _ => output_step s
  | ShellExits z => match exited s with None => set_exited z s | Some _ => s end
  | Types bytes =>
      if gone s || shut s || (length bytes =? 0) || (BUF_SIZE <? N.of_nat (length bytes))%N || negb (forallb (fun c => (c <? 256)%N) bytes) then s
      else set_unread (unread s ++ [bytes]) s
  | Leaves => set_gone s
  | Shuts => set_shut s
  end.
(** Any number of steps, one after the other. *)
Definition run (s : stream) (l : list action) : stream := fold_left step l s.

(** 716-722: the three threads are running.  [b]: the compiled keybindings, or None. *)
Definition opened (b : option bindings) : stream :=
  mkStream (TStart b) BSleep WCheck KPoll false false None [] false false false [] [].
(** 702-722: a thread could not be started, and [?] leaves the scope; the ones that were
    started before it go on.  [beater]: the heartbeat thread was. *)
Definition half_opened (b : option bindings) (beater : bool) : stream :=
  mkStream (TStart b) (if beater then BSleep else BEnded Good) WEnded (KScope Failed) false false None [] false false false [] [].
