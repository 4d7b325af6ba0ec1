(** The logs: libshpool/src/lib.rs 60-80, 236-246, 300-359, 386-417 and 482-486,
    libshpool/src/set_log_level.rs 22-46 and libshpool/src/daemon/server.rs 664-684.
    Left out: the form of an entry (it is a text here, written in one piece while the
    file's lock is held, lib.rs 301-339 and 349-353), the entries tracing makes when a
    span begins or ends, writes that fail, files renamed or removed while open, and two
    paths that lead to one file. *)
From Coq Require Import String List NArith ZArith Bool Arith.
From Verif Require Import Model.Base Model.Msgpack Model.Messages.
Import ListNotations.
Open Scope N_scope.

(** tracing's levels and its filters, in its order: an entry passes a filter that is not
    below its level. *)
Inductive severity := SError | SWarn | SInfo | SDebug | STrace.
(** tracing's LevelFilter. *)
Inductive filter := FOff | FError | FWarn | FInfo | FDebug | FTrace.
(** tracing's order. *)
Definition severity_number (s : severity) : N := match s with SError => 1 | SWarn => 2 | SInfo => 3 | SDebug => 4 | STrace => 5 end.
(** tracing's order. *)
Definition filter_number (f : filter) : N := match f with FOff => 0 | FError => 1 | FWarn => 2 | FInfo => 3 | FDebug => 4 | FTrace => 5 end.
(** tracing's comparison of a level with a filter. *)
Definition passes (f : filter) (s : severity) : bool := severity_number s <=? filter_number f.

(** The filter a program starts with; [verbose] is how often -v was given. lib.rs 386-392. *)
Definition initial_filter (verbose : N) : filter :=
  if verbose =? 0 then FInfo else if verbose =? 1 then FDebug else FTrace.

(** The words the command line takes for a level. shpool-protocol/src/lib.rs 107-116
    (ValueEnum). *)
Definition levels : list (rstr * rstr) :=
  [(lit "off", lit "Off"); (lit "error", lit "Error"); (lit "warn", lit "Warn"); (lit "info", lit "Info"); (lit "debug", lit "Debug"); (lit "trace", lit "Trace")].
(** What set-log-level sends for one. set_log_level.rs 39-41. *)
Definition level_request (word : rstr) : option value :=
  option_map (fun n => VVar (lit "SetLogLevel") (Some (VRec [VVar n None]))) (lookup word levels).
(** The filter a request asks for. server.rs 670-677. *)
Definition asked_filter (v : value) : option filter :=
  match v with
  | VVar r (Some (VRec [VVar n None])) =>
      if str_eqb r (lit "SetLogLevel") then
        if str_eqb n (lit "Off") then Some FOff
        else if str_eqb n (lit "Error") then Some FError
        else if str_eqb n (lit "Warn") then Some FWarn
        else if str_eqb n (lit "Info") then Some FInfo
        else if str_eqb n (lit "Debug") then Some FDebug
        else if str_eqb n (lit "Trace") then Some FTrace
        else None
      else None
  | _ => None
  end.

(** A program: its filter, the log file with the place its next entry goes to, whether it
    is the daemon, what its log has put on its standard error stream (an error its start ends with is
    said there, too: [Main]), and its exit status. *)
Record program := mkProgram {
  p_filter : filter; p_file : option (rstr * nat); p_daemon : bool; p_stderr : list byte; p_status : option Z }.
(** The disk, the programs and the daemons that have confirmed a change of level, in order. *)
Record world := mkWorld { disk : rstr -> option (list byte); programs : nat -> option program; confirmed : list nat }.
(** Bookkeeping: one field changed. *)
Definition set_program (w : world) (p : nat) (g : program) : world :=
  mkWorld (disk w) (fun q => if Nat.eqb q p then Some g else programs w q) (confirmed w).
(** Bookkeeping: one field changed. *)
Definition set_disk (w : world) (path : rstr) (content : list byte) : world :=
  mkWorld (fun q => if str_eqb q path then Some content else disk w q) (programs w) (confirmed w).

(** write(2) at the place the file was left at; a gap reads as zeros. *)
Definition write_at (content : list byte) (place : nat) (bytes : list byte) : list byte :=
  firstn place content ++ repeat 0 (place - length content) ++ bytes ++ skipn (place + length bytes) content.

(** LogWriterBuilder::make_writer and the write. lib.rs 346-359. *)
Definition emit (w : world) (p : nat) (g : program) (bytes : list byte) : world :=
  match p_file g with
  | Some (path, place) =>
      set_disk (set_program w p (mkProgram (p_filter g) (Some (path, place + length bytes)%nat) (p_daemon g) (p_stderr g) (p_status g)))
               path (write_at match disk w path with Some c => c | None => [] end place bytes)
  | None =>
      if p_daemon g then set_program w p (mkProgram (p_filter g) None true (p_stderr g ++ bytes) (p_status g))
      else w
  end.
(** lib.rs 346-359. *)
Definition log (w : world) (p : nat) (s : severity) (bytes : list byte) : world :=
  match programs w p with
  | Some g => match p_status g with
              | None => if passes (p_filter g) s then emit w p g bytes else w
              | Some _ => w
              end
  | None => w
  end.

Inductive action :=
(** A program starts; [creatable]: its log file can be made. *)
| Start (p : nat) (daemon : bool) (log_file : option rstr) (verbose : N) (creatable : bool)
(** One of its threads makes an entry. *)
| Log (p : nat) (s : severity) (bytes : list byte)
(** The daemon takes a request for a level; [taken]: the filter can be changed. *)
| Level (p : nat) (v : value) (taken : bool)
(** It ends, with an error that is logged or without. *)
| Finish (p : nat) (error : option (list byte)).

(** File::create empties the file, and an error there ends the program before it has a
    log. lib.rs 396-400. *)
Definition start (w : world) (p : nat) (daemon : bool) (log_file : option rstr) (verbose : N) (creatable : bool) : world :=
  match programs w p with
  | Some _ => w
  | None =>
      let g := mkProgram (initial_filter verbose) (option_map (fun f => (f, O)) log_file) daemon [] None in
      match log_file with
      | None => set_program w p g
      | Some path => if creatable then set_disk (set_program w p g) path []
                     else set_program w p (mkProgram (initial_filter verbose) None daemon [] (Some 1%Z))
      end
  end.
(** server.rs 664-684: a filter that cannot be changed is logged, and the request confirmed
    all the same. *)
Definition no_change : list byte := lit "modifying log level: ".
(** server.rs 664-684. *)
Definition level (w : world) (p : nat) (v : value) (taken : bool) : world :=
  match programs w p, asked_filter v with
  | Some g, Some f =>
      match p_daemon g, p_status g with
      | true, None =>
          let w' := if taken then set_program w p (mkProgram f (p_file g) true (p_stderr g) None) else log w p SError no_change in
          mkWorld (disk w') (programs w') (confirmed w' ++ [p])
      | _, _ => w
      end
  | _, _ => w
  end.
(** lib.rs 482-488. *)
Definition finish (w : world) (p : nat) (error : option (list byte)) : world :=
  let w' := match error with Some bytes => log w p SError bytes | None => w end in
  match programs w' p with
  | Some g => match p_status g with
              | None => set_program w' p (mkProgram (p_filter g) (p_file g) (p_daemon g) (p_stderr g) (Some match error with Some _ => 1%Z | None => 0%Z end))
              | Some _ => w'
              end
  | None => w'
  end.
(** What each action does; the lines are with its function. *)
Definition step (w : world) (a : action) : world :=
  match a with
  | Start p d f v c => start w p d f v c
  | Log p s b => log w p s b
  | Level p v t => level w p v t
  | Finish p e => finish w p e
  end.
(** No program runs at first; what is on the disk is [before]. *)
Definition begun (before : rstr -> option (list byte)) : world := mkWorld before (fun _ => None) [].
(** Any number of steps, one after the other. *)
Definition run (before : rstr -> option (list byte)) (l : list action) : world := fold_left step l (begun before).
