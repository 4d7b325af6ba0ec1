(** Where the daemon's listening socket comes from: libshpool/src/daemon/systemd.rs
    29-52 and libshpool/src/daemon/mod.rs 76-94, 109-113. *)
From Coq Require Import List NArith ZArith Bool.
From Verif Require Import Model.Base.
Import ListNotations.
Open Scope N_scope.

(** The open descriptors of the process: the mode word that fstat gives for each. systemd.rs
    33-52. *)
Definition fd_table := N -> option N.
(** systemd.rs 33-52. *)
Definition close_fd (n : N) (t : fd_table) : fd_table := fun m => if m =? n then None else t m.

(** systemd.rs 29. *)
Definition FIRST_ACTIVATION_SOCKET_FD : N := 3.

(** libc's S_IFSOCK and S_IFMT (0o140000, 0o170000); nix's SFlag knows the bits of
    S_IFMT and the twelve permission bits. *)
Definition S_IFSOCK : N := 49152.
(** nix's SFlag, as above. *)
Definition SFLAG_KNOWN : N := 65535.

(** The errors of systemd.rs 33-52. *)
Inductive activation_error := NotSet | NotANumber | WrongCount | NoDescriptor | NotASocket.

(** systemd.rs 33-52: the descriptor is owned from line 45 on, so that it is closed if
    a later step fails.  The variable is read as text; [parse::<isize>] is that of a
    64-bit machine. *)
Definition activation_socket (env : rstr -> option rstr) (t : fd_table)
    : result N activation_error * fd_table :=
  match env (lit "LISTEN_FDS") with
  | None => (Err NotSet, t)
  | Some v =>
      match parse_i64 v with
      | None => (Err NotANumber, t)
      | Some n =>
          if negb (Z.eqb n 1) then (Err WrongCount, t)
          else
            let fd := FIRST_ACTIVATION_SOCKET_FD in
            match t fd with
            | None => (Err NoDescriptor, close_fd fd t)
            | Some mode =>
                if N.land (N.land mode SFLAG_KNOWN) S_IFSOCK =? S_IFSOCK
                then (Ok fd, t)
                else (Err NotASocket, close_fd fd t)
            end
      end
  end.

(** mod.rs 76-94: the listener, and the file to remove at the end, if any. *)
Inductive listener := Inherited (fd : N) | BoundAt (path : rstr).
(** mod.rs 76-94. *)
Definition choose_listener (env : rstr -> option rstr) (socket : rstr) (t : fd_table)
    : option rstr * listener * fd_table :=
  match activation_socket env t with
  | (Ok fd, t') => (None, Inherited fd, t')
  | (Err _, t') => (Some socket, BoundAt socket, t')
  end.

(** mod.rs 99-104: the files a terminating signal removes. *)
Definition files_to_clean (cleanup_socket : option rstr) (events_socket : rstr) (pid_file : option rstr) : list rstr :=
  match cleanup_socket with Some s => [s] | None => [] end ++ [events_socket] ++
  match pid_file with Some p => [p] | None => [] end.
