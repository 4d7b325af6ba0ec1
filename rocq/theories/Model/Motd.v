(** Message of the day: libshpool/src/daemon/show_motd.rs and its use in
    daemon/server.rs 306-336. *)
From Coq Require Import List NArith ZArith Bool.
From Verif Require Import Model.Base Model.Chunk Model.Protocol Model.Config Model.Duration Model.Pager.
Import ListNotations.
Open Scope Z_scope.

(** show_motd.rs 170-174: [Debouncer].  Times are nanoseconds since the epoch on the
    system clock, which can be set back at will. *)
Record debouncer := { last_fired : Z; dur : Z }.

(** Times are in nanoseconds: show_motd.rs 172-194. *)
Definition NANOS : Z := 1000000000.

(** show_motd.rs 176-179: [Debouncer::new].  [None] is the panic of [dur * 2] when the
    doubled duration has more than 2^64 seconds, or of the subtraction when the
    result is before what a [SystemTime] can hold (signed 64 bit seconds). *)
Definition debouncer_new (now dur : Z) : option debouncer :=
  if 2 ^ 64 * NANOS <=? dur * 2 then None
  else if now - dur * 2 <? - 2 ^ 63 * NANOS then None
  else Some {| last_fired := now - dur * 2; dur := dur |}.

(** show_motd.rs 181-194: [should_fire].  The clock is read twice: [t1] for
    [elapsed], which fails if the clock is behind the stored time, and [t2] for the
    new stored time.  The mutex makes the call atomic. *)
Definition should_fire (d : debouncer) (t1 t2 : Z) : result (bool * debouncer) unit :=
  if t1 <? last_fired d then Err tt
  else if dur d <=? t1 - last_fired d then Ok (true, {| last_fired := t2; dur := dur d |})
  else Ok (false, d).

(** [config::MotdDisplayMode::default()]. config.rs 381. *)
Definition motd_mode_of (m : option motd_mode) : motd_mode :=
  match m with Some m => m | None => MotdNever end.

(** What show_motd.rs 39-55 returns. *)
Inductive made := Made (d : option debouncer) | MakeFailed | MakePanicked.

(** show_motd.rs 38-54: [DailyMessenger::new], from the configuration at daemon
    start.  Creating the resolver of the motd crate is not modelled. *)
Definition messenger_new (u : unicode) (b : build) (motd : option motd_mode) (now : Z) : made :=
  match motd_mode_of motd with
  | MotdPager _ (Some src) =>
      match parse u b src with
      | Secs n => match debouncer_new now (Z.of_N n * NANOS) with Some d => Made (Some d) | None => MakePanicked end
      | Rejected => MakeFailed
      | Panicked => MakePanicked
      end
  | _ => Made None
  end.

(** show_motd.rs 128-143: the arguments handed to the motd resolver; [None] is "work
    them out from the PAM configuration". *)
Definition resolver_args (motd_args : option (list rstr)) : option (list rstr) :=
  match motd_args with
  | Some args => Some (if existsb (fun a => str_eqb a (lit "noupdate")) args then args else args ++ [lit "noupdate"])
  | None => None
  end.

(** show_motd.rs 153-168: [convert_to_raw].  [cr] is the terminal's carriage return
    capability.  Strings are taken as their UTF-8 bytes. *)
Definition convert_to_raw (cr : option (list N)) (motd : list N) : result (list N) unit :=
  match cr with
  | None => Err tt
  | Some cr => Ok (concat (map (fun line => line ++ [10%N] ++ cr) (split_on 10%N motd)))
  end.

(** What show_motd.rs 58-82 returns. *)
Inductive dumped := Dumped (c : chunk) | DumpErr | DumpPanicked.

(** show_motd.rs 57-72: [dump].  [mode] is the mode configured now, [motd] what the
    resolver answers. *)
Definition dump (mode : option motd_mode) (cr : option (list N)) (motd : result (list N) unit) : dumped :=
  match motd_mode_of mode with
  | MotdDump =>
      match motd with
      | Err _ => DumpErr
      | Ok m => match convert_to_raw cr m with Ok raw => Dumped (mkChunk Data raw) | Err _ => DumpErr end
      end
  | _ => DumpPanicked
  end.

(** What show_motd.rs 85-125 returns. *)
Inductive shown := Shown (size : tty_size) | NotYet | ShownHangup | ShowErr.

(** show_motd.rs 84-126: [display_in_pager].  [show bin text size] is what
    [Pager::display] answers. *)
Definition display_in_pager (d : option debouncer) (t1 t2 : Z) (mode : option motd_mode)
  (motd : result (list N) unit) (show : rstr -> list N -> tty_size -> pager_result) (size : tty_size)
  : shown * option debouncer :=
  let go d :=
    (match motd_mode_of mode with
     | MotdPager bin _ =>
         match motd with
         | Err _ => ShowErr
         | Ok m => match show bin m size with PagerOk sz => Shown sz | PagerHangup => ShownHangup | PagerErr => ShowErr end
         end
     | _ => ShowErr
     end, d) in
  match d with
  | None => go None
  | Some db =>
      match should_fire db t1 t2 with
      | Err _ => (ShowErr, d)
      | Ok (false, db') => (NotYet, Some db')
      | Ok (true, db') => go (Some db')
      end
  end.

(** What the motd section of an attach leads to. server.rs 306-336. *)
Inductive motd_outcome :=
| Proceed (size : tty_size)      (* streaming starts, with this size *)
| Bail                           (* the attach ends quietly *)
| Fail.                          (* the attach ends with an error *)

(** One attach: the clock readings, the configured mode when the attach looks
    ([amode]) and when the messenger looks again ([amode']: a reload can come
    between), and the rest of the world. server.rs 306-336, show_motd.rs 58-194. *)
Record motd_attach := {
  at1 : Z; at2 : Z; amode : option motd_mode; amode' : option motd_mode;
  amotd : result (list N) unit;
  ashow : rstr -> list N -> tty_size -> pager_result;
  asize : tty_size
}.

(** server.rs 306-336. *)
Definition attach_motd (d : option debouncer) (a : motd_attach) : motd_outcome * option debouncer :=
  match motd_mode_of (amode a) with
  | MotdPager _ _ =>
      let '(r, d') := display_in_pager d (at1 a) (at2 a) (amode' a) (amotd a) (ashow a) (asize a) in
      (match r with
       | Shown sz => Proceed sz
       | NotYet => Proceed (asize a)
       | ShownHangup => Bail
       | ShowErr => Fail
       end, d')
  | _ => (Proceed (asize a), d)
  end.

(** server.rs 512-519: is the dump asked of the session being created? *)
Definition dump_on_new_session (mode : option motd_mode) : bool :=
  match motd_mode_of mode with MotdDump => true | _ => false end.

(** The answers to a sequence of calls of [should_fire]; an error leaves the state.
    show_motd.rs 183-194. *)
Fixpoint fire_run (d : debouncer) (calls : list (Z * Z)) : list (result bool unit) :=
  match calls with
  | [] => []
  | (t1, t2) :: calls' =>
      match should_fire d t1 t2 with
      | Err e => Err e :: fire_run d calls'
      | Ok (b, d') => Ok b :: fire_run d' calls'
      end
  end.

(** The attaches of a daemon's life one after the other: the one messenger of the daemon
    (server.rs 125) is handed from attach to attach. *)
Fixpoint attach_run (d : option debouncer) (l : list motd_attach) : list motd_outcome :=
  match l with
  | [] => []
  | a :: l' => let '(o, d') := attach_motd d a in o :: attach_run d' l'
  end.
