(** Output spools: libshpool/src/session_restore.rs, and the choice of the scrollback
    size in daemon/server.rs 1146-1154.  The two terminal emulators are external
    crates: arbitrary state types with arbitrary operations. *)
From Coq Require Import List NArith Bool.
From Verif Require Import Model.Base Model.Chunk Model.Protocol Model.Config.
Import ListNotations.
Open Scope N_scope.

(** session_restore.rs 23. *)
Definition VTERM_WIDTH : N := 1024.

(** session_restore.rs 33-38: [vterm_width]. *)
Definition vterm_width (c : config) : N :=
  match vt100_output_spool_width c with Some w => w | None => VTERM_WIDTH end.

(** The shpool_vt100 and shpool_vterm crates. *)
Record engines := {
  vt100 : Type;
  vt100_new : N -> N -> N -> vt100;              (* rows, cols, scrollback *)
  vt100_set_size : vt100 -> N -> N -> vt100;     (* rows, cols *)
  vt100_process : vt100 -> list N -> vt100;
  contents_formatted : vt100 -> list N;
  last_n_rows_contents_formatted : vt100 -> N -> list N;
  input_mode_formatted : vt100 -> list N;
  vterm : Type;
  vterm_new : N -> N -> N -> vterm;              (* scrollback, height, width *)
  vterm_resize : vterm -> N -> N -> vterm;       (* height, width *)
  vterm_process : vterm -> list N -> vterm;
  vterm_screen : vterm -> list N;
  vterm_bottom_lines : vterm -> N -> list N
}.

(** session_restore.rs 62-155: the spools. *)
Inductive spool (e : engines) :=
| NullSpool
| Vt100Screen (p : vt100 e)
| Vt100Lines (p : vt100 e) (nlines : N)
| VtermSpool (t : vterm e) (mode : restore_mode).
Arguments NullSpool {e}.
Arguments Vt100Screen {e} p.
Arguments Vt100Lines {e} p nlines.
Arguments VtermSpool {e} t mode.

(** session_restore.rs 158-184: [new]. *)
Definition spool_new (e : engines) (c : config) (size : tty_size) (scrollback_lines : N) : spool e :=
  let engine := match session_restore_engine c with Some x => x | None => Vt100 end in
  let mode := match session_restore_mode c with Some m => m | None => Screen end in
  match mode, engine with
  | Simple, _ => NullSpool
  | Screen, Vt100 => Vt100Screen (vt100_new e (rows size) (vterm_width c) scrollback_lines)
  | Lines n, Vt100 => Vt100Lines (vt100_new e (rows size) (vterm_width c) scrollback_lines) n
  | m, Vterm => VtermSpool (vterm_new e scrollback_lines (rows size) (cols size)) m
  end.

(** The [resize] methods (63, 80-82, 115-117, 142-145); the width of the vt100 spools
    is read from the configuration in force at that moment. *)
Definition spool_resize {e} (c : config) (s : spool e) (size : tty_size) : spool e :=
  match s with
  | NullSpool => NullSpool
  | Vt100Screen p => Vt100Screen (vt100_set_size e p (rows size) (vterm_width c))
  | Vt100Lines p n => Vt100Lines (vt100_set_size e p (rows size) (vterm_width c)) n
  | VtermSpool t m => VtermSpool (vterm_resize e t (rows size) (cols size)) m
  end.

(** The [process] methods. session_restore.rs 71, 100, 130, 157. *)
Definition spool_process {e} (s : spool e) (bytes : list N) : spool e :=
  match s with
  | NullSpool => NullSpool
  | Vt100Screen p => Vt100Screen (vt100_process e p bytes)
  | Vt100Lines p n => Vt100Lines (vt100_process e p bytes) n
  | VtermSpool t m => VtermSpool (vterm_process e t bytes) m
  end.

(** The [restore_buffer] methods (65-68, 84-97, 119-128, 147-155). *)
Definition spool_restore {e} (s : spool e) : list N :=
  match s with
  | NullSpool => []
  | Vt100Screen p => contents_formatted e p ++ input_mode_formatted e p
  | Vt100Lines p n => last_n_rows_contents_formatted e p n ++ input_mode_formatted e p
  | VtermSpool t m =>
      match m with
      | Simple => []
      | Screen => vterm_screen e t
      | Lines n => vterm_bottom_lines e t n
      end
  end.

(** daemon/server.rs 58. *)
Definition DEFAULT_OUTPUT_SPOOL_LINES : N := 500.

(** daemon/server.rs 1146-1154.  The configuration is read twice; a reload in
    between is not modelled. *)
Definition scrollback_lines (c : config) : N :=
  match output_spool_lines c, session_restore_mode c with
  | Some l, _ => l
  | None, Some (Lines l) => l
  | None, _ => DEFAULT_OUTPUT_SPOOL_LINES
  end.

(** [slice::chunks(n)] for n > 0: pieces of n bytes, the last one possibly shorter. *)
Fixpoint chunks_fuel (fuel : nat) (n : nat) (l : list N) : list (list N) :=
  match fuel, l with
  | O, _ => []
  | _, [] => []
  | S fuel', _ => firstn n l :: chunks_fuel fuel' n (skipn n l)
  end.
(** Rust's slice::chunks. *)
Definition chunks (n : nat) (l : list N) : list (list N) := chunks_fuel (length l) n l.

(** daemon/shell.rs 513-537: the frames of the reattach protocol. *)
Definition restore_frames (buf : list N) : list chunk := map (mkChunk Data) (chunks (N.to_nat 16384) buf).
