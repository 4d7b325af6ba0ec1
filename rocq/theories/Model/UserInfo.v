(** What the system says in bytes and the program keeps as text: the entry of the
    user database (libshpool/src/user.rs 20-94) and the directory a command is run in
    (libshpool/src/attach.rs 263, libshpool/src/daemon/server.rs 949-954). *)
From Coq Require Import List NArith Bool.
From Verif Require Import Model.Base Model.Protocol Model.Config Model.ShellEnv Model.AttachClient Model.Spawn.
Import ListNotations.
Open Scope N_scope.

(** U+FFFD. What [String::from_utf8_lossy] puts in, user.rs 85-91. *)
Definition REPLACEMENT : rchar := 65533.

(** UTF-8, as user.rs 85-91 decodes it: a byte that goes on a character. *)
Definition continues (b : byte) : bool := (128 <=? b) && (b <=? 191).

(** The second bytes that may follow the first byte of a longer character. user.rs 85-91. *)
Definition second (a b : byte) : bool :=
  if a =? 224 then (160 <=? b) && (b <=? 191)
  else if a =? 237 then (128 <=? b) && (b <=? 159)
  else if a =? 240 then (144 <=? b) && (b <=? 191)
  else if a =? 244 then (128 <=? b) && (b <=? 143)
  else continues b.

(** String::from_utf8_lossy (user.rs 85-91) and OsStr::to_string_lossy (attach.rs 263),
    with the loop of core::str::Utf8Chunks::next: what has been accepted of a character
    that breaks off is replaced as a whole, and reading goes on with the byte that broke
    it off. *)
Fixpoint lossy (s : list byte) : rstr :=
  match s with
  | [] => []
  | a :: r =>
      if a <=? 127 then a :: lossy r
      else if (194 <=? a) && (a <=? 223) then
        match r with
        | b :: r1 => if continues b then ((a - 192) * 64 + (b - 128)) :: lossy r1 else REPLACEMENT :: lossy r
        | [] => [REPLACEMENT]
        end
      else if (224 <=? a) && (a <=? 239) then
        match r with
        | b :: r1 =>
            if second a b then
              match r1 with
              | c :: r2 => if continues c then ((a - 224) * 4096 + (b - 128) * 64 + (c - 128)) :: lossy r2
                           else REPLACEMENT :: lossy r1
              | [] => [REPLACEMENT]
              end
            else REPLACEMENT :: lossy r
        | [] => [REPLACEMENT]
        end
      else if (240 <=? a) && (a <=? 244) then
        match r with
        | b :: r1 =>
            if second a b then
              match r1 with
              | c :: r2 =>
                  if continues c then
                    match r2 with
                    | d :: r3 =>
                        if continues d
                        then ((a - 240) * 262144 + (b - 128) * 4096 + (c - 128) * 64 + (d - 128)) :: lossy r3
                        else REPLACEMENT :: lossy r2
                    | [] => [REPLACEMENT]
                    end
                  else REPLACEMENT :: lossy r1
              | [] => [REPLACEMENT]
              end
            else REPLACEMENT :: lossy r
        | [] => [REPLACEMENT]
        end
      else REPLACEMENT :: lossy r
  end.

(** The bytes of a Rust string, which is what a system call gets. server.rs 954 passes one. *)
Definition char_bytes (c : rchar) : list byte :=
  if c <? 128 then [c]
  else if c <? 2048 then [192 + c / 64; 128 + c mod 64]
  else if c <? 65536 then [224 + c / 4096; 128 + (c / 64) mod 64; 128 + c mod 64]
  else [240 + c / 262144; 128 + (c / 4096) mod 64; 128 + (c / 64) mod 64; 128 + c mod 64].
(** server.rs 954. *)
Definition str_bytes (s : rstr) : list byte := flat_map char_bytes s.

(** An entry of the user database. user.rs 28-61. *)
Record passwd := mkPasswd { pw_uid : N; pw_name : list byte; pw_passwd : list byte; pw_gecos : list byte;
                            pw_dir : list byte; pw_shell : list byte }.

(** getpwuid_r: the first entry with that number.  Its five texts, each with its final
    NUL, are put into the caller's buffer; if they do not fit, ERANGE.  Databases that
    cannot be asked at all are not modelled. user.rs 65-82. *)
Inductive looked_up := Entry (p : passwd) | NoEntry | Errno (e : N).
(** The error number (libc). *)
Definition ERANGE : N := 34.
(** getpwuid_r(3): what it needs room for; nothing of the code. *)
Definition room (p : passwd) : N :=
  N.of_nat (length (pw_name p) + length (pw_passwd p) + length (pw_gecos p) + length (pw_dir p) + length (pw_shell p) + 5).
(** getpwuid_r(3); nothing of the code. *)
Definition getpwuid_r (db : list passwd) (uid buflen : N) : looked_up :=
  match find (fun p => pw_uid p =? uid) db with
  | None => NoEntry
  | Some p => if room p <=? buflen then Entry p else Errno ERANGE
  end.

(** user.rs 27, 60-93. *)
Inductive info_error := CouldNotFind | ErrorResolving (errno : N).
(** user.rs 27, 60-93. *)
Definition PASSWD_BUF : N := 4096.
(** user.rs 27, 60-93. *)
Definition info (db : list passwd) (uid : N) : result user_info info_error :=
  match getpwuid_r db uid PASSWD_BUF with
  | NoEntry => Err CouldNotFind
  | Errno e => Err (ErrorResolving e)
  | Entry p => Ok (mkUser (lossy (pw_dir p)) (lossy (pw_shell p)) (lossy (pw_name p)))
  end.

(** chdir: the directory meant by a path in a process working in [here]. server.rs 954 has
    it done. *)
Definition resolve (here path : list byte) : list byte :=
  match path with 47 :: _ => path | _ => here ++ 47 :: path end.

(** attach.rs 243-291 in a client working in [here]; [world] is the rest of what it
    looks at. *)
Definition world_in (w : client_world) (here : list byte) : client_world :=
  {| c_tty := c_tty w; c_env := c_env w; c_cwd := Some (lossy here); c_config := c_config w |}.

(** server.rs 266, 906-954: the directory the new shell is started in, by a daemon
    working in [daemon_dir] for the user [uid]; [None] if nothing is started. *)
Definition started_in (split : rstr -> option (list rstr)) (cfg : config) (db : list passwd) (uid : N)
    (daemon_dir : list byte) (h : attach_header) : option (list byte) :=
  match info db uid with
  | Err _ => None
  | Ok u => match spawn_command split cfg u h with
            | Ok sp => Some (resolve daemon_dir (str_bytes (cwd sp)))
            | Err _ => None
            end
  end.
