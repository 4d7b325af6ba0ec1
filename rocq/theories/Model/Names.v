(** Session names and the paths derived from them. *)
From Coq Require Import List NArith Bool.
From Verif Require Import Model.Base Model.Protocol.
Import ListNotations.
Open Scope N_scope.

(** The errors of server.rs 249-263 and attach.rs 141-156. *)
Inductive name_error := BlankName | HasWhitespace | HasSlash | SpecialDir.

(** libshpool/src/attach.rs 141-156: the client's check, in its order.  '/' is 47, '.' is 46. *)
Definition client_check (name : rstr) : option name_error :=
  if match name with [] => true | _ => false end then Some BlankName
  else if existsb is_whitespace name then Some HasWhitespace
  else if existsb (N.eqb 47) name then Some HasSlash
  else if str_eqb name [46] || str_eqb name [46; 46] then Some SpecialDir
  else None.

(** libshpool/src/daemon/server.rs 249-253: the daemon's check (true: rejected). *)
Definition daemon_rejects (name : rstr) : bool :=
  existsb (fun c => (47 =? c) || is_whitespace c) name
  || str_eqb name [46]
  || str_eqb name [46; 46]
  || match name with [] => true | _ => false end.

(** std::path::Path::join for Unix paths, kept as strings. Used in server.rs 1290-1300. *)
Definition last_is_slash (p : rstr) : bool := match rev p with c :: _ => c =? 47 | [] => false end.

(** The same. *)
Definition path_join (base p : rstr) : rstr :=
  match p with
  | c :: _ => if c =? 47 then p
              else if match base with [] => true | _ => last_is_slash base end then base ++ p
              else base ++ 47 :: p
  | [] => if match base with [] => true | _ => last_is_slash base end then base else base ++ [47]
  end.

(** server.rs 1298-1300 (session_dir). *)
Definition session_dir (runtime_dir name : rstr) : rstr :=
  path_join (path_join runtime_dir (lit "sessions")) name.

(** server.rs 1294-1296 (ssh_auth_sock_symlink). *)
Definition ssh_auth_sock_symlink (runtime_dir name : rstr) : rstr :=
  path_join (session_dir runtime_dir name) (lit "ssh-auth-sock.socket").

(** server.rs 1290-1292 (session_env_file). *)
Definition session_env_file (runtime_dir name : rstr) : rstr :=
  path_join (session_dir runtime_dir name) (lit "forward.env").

(** server.rs 614-618: the text written to the session's env file on each attach;
    '=' is 61. *)
Definition env_file_text (h : attach_header) : rstr :=
  join_with 10 (map (fun p => fst p ++ 61 :: snd p) (h_env h)).

(** server.rs 574-605 (link_ssh_auth_sock): what ends up in the per-session
    directory.  [None]: nothing is done; [Some (link, target)]: the sessions
    directory is made private (mode 700) and [link] replaced by a symlink to
    [target].  File system errors are not modelled here. *)
Definition link_ssh_auth_sock (nosymlink : option bool) (runtime_dir : rstr) (h : attach_header) : option (rstr * rstr) :=
  match nosymlink with
  | Some true => None
  | _ => match local_env_get h (lit "SSH_AUTH_SOCK") with
         | Some target => Some (ssh_auth_sock_symlink runtime_dir (h_name h), target)
         | None => None
         end
  end.
