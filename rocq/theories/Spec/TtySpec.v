(** Raw mode, flag by flag, as termios(3) describes cfmakeraw: bit numbers on Linux. *)
From Coq Require Import List NArith Bool.
From Verif Require Import Model.Base Model.Tty.
Import ListNotations.
Open Scope N_scope.

(** Bits that are off in raw mode.  Input: 0 IGNBRK, 1 BRKINT, 3 PARMRK, 5 ISTRIP,
    6 INLCR, 7 IGNCR, 8 ICRNL, 10 IXON.  Output: 0 OPOST.  Local: 0 ISIG, 1 ICANON,
    3 ECHO, 6 ECHONL, 15 IEXTEN.  Control: 8 PARENB; bits 4 and 5 (the character size)
    are both on, which means 8 bits. *)
Definition raw_input := [0; 1; 3; 5; 6; 7; 8; 10].
Definition raw_output := [0].
Definition raw_local := [0; 1; 3; 6; 15].

(** [new] is [old] with exactly the bits in [off] turned off. *)
Definition only_off (off : list N) (old new : N) : Prop :=
  forall i, N.testbit new i = N.testbit old i && negb (existsb (N.eqb i) off).

Definition is_raw_of (old new : termios) : Prop :=
  only_off raw_input (input_flags old) (input_flags new) /\
  only_off raw_output (output_flags old) (output_flags new) /\
  only_off raw_local (local_flags old) (local_flags new) /\
  (forall i, N.testbit (control_flags new) i =
     if (i =? 4) || (i =? 5) then true else if i =? 8 then false else N.testbit (control_flags old) i) /\
  control_chars new = control_chars old /\ speeds new = speeds old.

(** Bit for bit: [part] is what [whole] and [known] have in common. *)
Definition only_known (known whole part : N) : Prop :=
  forall i, N.testbit part i = N.testbit whole i && N.testbit known i.

(** [new] is [old] without the flag bits that the library has no names for. *)
Definition is_known_part (k : known_bits) (old new : termios) : Prop :=
  only_known (known_input k) (input_flags old) (input_flags new) /\
  only_known (known_output k) (output_flags old) (output_flags new) /\
  only_known (known_control k) (control_flags old) (control_flags new) /\
  only_known (known_local k) (local_flags old) (local_flags new) /\
  control_chars new = control_chars old /\ speeds new = speeds old.

(** Attributes all of whose bits the library knows. *)
Definition all_known (k : known_bits) (t : termios) : Prop := is_known_part k t t.
