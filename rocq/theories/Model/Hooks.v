(** The callbacks of the wrapping binary: libshpool/src/hooks.rs 36-64 and where
    daemon/server.rs calls them. *)
From Coq Require Import List NArith ZArith Bool Arith.
From Verif Require Import Model.Base Model.Protocol Model.Names Model.Server.
Import ListNotations.
Open Scope nat_scope.

(** hooks.rs 36-64 (trait Hooks). *)
Inductive hook := OnNewSession | OnReattach | OnBusy | OnClientDisconnect | OnShellDisconnect.

(** A call: the connection whose handler makes it, the callback and its argument.
    What a callback does and returns does not matter: errors are logged (server.rs
    351-353, 386-388, 465-467, 511-513, 522-524).  A callback that blocks or panics is
    not modelled. *)
Record call := mkCall { k_conn : conn; k_hook : hook; k_name : rstr }.

(** server.rs 420-524: the calls made while a session is looked for.  The busy call
    comes after the reply, whose writing is taken to work. *)
Definition attach_calls (st : server) (c : conn) (env_ok : bool) : list call :=
  match handlers st c with
  | HAccepted _ (QAttach h) =>
    if daemon_rejects (h_name h) then []
    else if negb env_ok then []
    else match locked st with
    | Some _ => []
    | None =>
      match lookup (h_name h) (table st) with
      | None => [mkCall c OnNewSession (h_name h)]
      | Some s =>
        match session_at st s with
        | None => []
        | Some x =>
          match s_inner x with
          | Some _ => [mkCall c OnBusy (h_name h)]
          | None =>
            match s_exit x, is_finished (s_thread x) with
            | None, false => [mkCall c OnReattach (h_name h)]
            | _, _ =>
              match s_thread x with
              | TFinished false => []
              | _ => [mkCall c OnNewSession (h_name h)]
              end
            end
          end
        end
      end
    end
  | _ => []
  end.

(** server.rs 339-353: when streaming has ended because the shell is done. *)
Definition end_calls (st : server) (c : conn) (c_done ok : bool) : list call :=
  match handlers st c with
  | HStream h s _ =>
    match session_at st s with
    | None => []
    | Some x =>
      if c_done && match s_exit x with None => true | Some _ => false end then []
      else if c_done && ok then [mkCall c OnShellDisconnect (h_name h)] else []
    end
  | _ => []
  end.

(** server.rs 375-388: otherwise, after the detachment has been recorded. *)
Definition unwind_calls (st : server) (c : conn) : list call :=
  match handlers st c, locked st with
  | HUnwind h _ false, None => [mkCall c OnClientDisconnect (h_name h)]
  | _, _ => []
  end.

(** The calls made by a step of the daemon. hooks.rs 36-63. *)
Definition step_calls (st : server) (a : action) : list call :=
  match a with
  | AAttach c env_ok _ => attach_calls st c env_ok
  | AEnd c c_done _ ok => end_calls st c c_done ok
  | AUnwind c _ => unwind_calls st c
  | _ => []
  end.

(** All calls of a schedule, in order. hooks.rs 36-63. *)
Fixpoint calls (st : server) (l : list action) : list call :=
  match l with
  | [] => []
  | a :: r => step_calls st a ++ calls (step st a) r
  end.
