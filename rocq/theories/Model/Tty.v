(** Terminal attributes of the attaching terminal: libshpool/src/tty.rs. *)
From Coq Require Import List NArith Bool.
From Verif Require Import Model.Base.
Import ListNotations.
Open Scope N_scope.

(** struct termios: four flag words, the control characters and the speeds.  A flag
    word is a number; its flags are its bits. tty.rs 82-140. *)
Record termios := {
  input_flags : N; output_flags : N; control_flags : N; local_flags : N;
  control_chars : list N; speeds : N * N }.

(** The Linux values of the flags named in tty.rs (libc, octal in the headers). tty.rs 84,
    106-121. *)
Definition IGNBRK := 0x1. Definition BRKINT := 0x2. Definition PARMRK := 0x8. Definition ISTRIP := 0x20.
(** tty.rs 84, 106-121. *)
Definition INLCR := 0x40. Definition IGNCR := 0x80. Definition ICRNL := 0x100. Definition IXON := 0x400.
(** tty.rs 84, 106-121. *)
Definition OPOST := 0x1.
(** tty.rs 84, 106-121. *)
Definition ECHO := 0x8. Definition ECHONL := 0x40. Definition ICANON := 0x2. Definition ISIG := 0x1.
(** tty.rs 84, 106-121. *)
Definition IEXTEN := 0x8000.
(** tty.rs 84, 106-121. *)
Definition CSIZE := 0x30. Definition PARENB := 0x100. Definition CS8 := 0x30.

(** [flags &= !mask] and [flags |= mask]. tty.rs 84, 106-121. *)
Definition clear_flags (flags mask : N) : N := N.ldiff flags mask.
(** Bookkeeping: one field changed. *)
Definition set_flags (flags mask : N) : N := N.lor flags mask.

(** tty.rs 92-109: the attributes used while attached. *)
Definition attach_flags (old : termios) : termios :=
  {| input_flags := clear_flags (input_flags old)
       (N.lor IGNBRK (N.lor BRKINT (N.lor PARMRK (N.lor ISTRIP (N.lor INLCR (N.lor IGNCR (N.lor ICRNL IXON)))))));
     output_flags := clear_flags (output_flags old) OPOST;
     local_flags := clear_flags (local_flags old)
       (N.lor ECHO (N.lor ECHONL (N.lor ICANON (N.lor ISIG IEXTEN))));
     control_flags := set_flags (clear_flags (control_flags old) (N.lor CSIZE PARENB)) CS8;
     control_chars := control_chars old; speeds := speeds old |}.

(** tty.rs 69-76 (disable_echo), applied to the shell's pty when `noecho` is set. *)
Definition disable_echo (t : termios) : termios :=
  {| input_flags := input_flags t; output_flags := output_flags t; control_flags := control_flags t;
     local_flags := clear_flags (local_flags t) ECHO;
     control_chars := control_chars t; speeds := speeds t |}.

(** The flag bits the nix crate has names for: reading attributes drops the others
    (bitflags' from_bits_truncate). tty.rs 83, 101. *)
Record known_bits := { known_input : N; known_output : N; known_control : N; known_local : N }.

(** What nix's tcgetattr makes of the kernel's flags. *)
Definition truncate (k : known_bits) (t : termios) : termios :=
  {| input_flags := N.land (input_flags t) (known_input k);
     output_flags := N.land (output_flags t) (known_output k);
     control_flags := N.land (control_flags t) (known_control k);
     local_flags := N.land (local_flags t) (known_local k);
     control_chars := control_chars t; speeds := speeds t |}.

(** The outside world of one attachment: which of stdin, stdout and stderr are
    terminals, and whether each terminal call succeeds (a failing call changes
    nothing). tty.rs 91-140. *)
Record tty_world := {
  in_tty : bool; out_tty : bool; err_tty : bool;
  get_ok : bool; set_ok : bool; restore_ok : bool }.

(** tty.rs 78-113 (set_attach_flags): the attributes afterwards and the guard
    (the attributes to restore), or an error. *)
Definition set_attach_flags (k : known_bits) (w : tty_world) (t : termios) : termios * result (option termios) unit :=
  if negb (in_tty w) || negb (out_tty w) || negb (err_tty w) then (t, Ok None)
  else if negb (get_ok w) then (t, Err tt)
  else let old := truncate k t in
       if set_ok w then (attach_flags old, Ok (Some old)) else (t, Err tt).

(** tty.rs 120-128 (Drop for AttachFlagsGuard). *)
Definition drop_guard (w : tty_world) (t : termios) (guard : option termios) : termios :=
  match guard with
  | Some old => if restore_ok w then old else t
  | None => t
  end.

(** protocol.rs 250-519 (pipe_bytes) as far as the terminal is concerned: the flags
    are set at the start, and the guard is dropped on every way out: an early error,
    the normal return, the exit of a process with a stuck thread (drop(tty_guard)
    before exit) and an unwinding panic.  The result lists the attributes in force
    while bytes are piped (if it gets that far) and those left behind. *)
Definition pipe_terminal (k : known_bits) (w : tty_world) (t : termios) : option termios * termios :=
  match set_attach_flags k w t with
  | (t1, Err _) => (None, t1)
  | (t1, Ok guard) => (Some t1, drop_guard w t1 guard)
  end.

(** attach.rs 117-135: one pipe_bytes per attachment, again after every switch. *)
Fixpoint attach_terminal (k : known_bits) (ws : list tty_world) (t : termios) : list (option termios) * termios :=
  match ws with
  | [] => ([], t)
  | w :: ws' =>
      let '(during, t1) := pipe_terminal k w t in
      let '(rest, t2) := attach_terminal k ws' t1 in
      (during :: rest, t2)
  end.
