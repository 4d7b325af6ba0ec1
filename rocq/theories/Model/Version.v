(** Version comparison between client and daemon: libshpool/src/protocol.rs
    152-189 and 205-240. *)
From Coq Require Import List NArith ZArith Bool.
From Verif Require Import Model.Base.
Import ListNotations.
Open Scope N_scope.

(** The errors of protocol.rs 208-245. *)
Inductive version_error := BadClientVersion | BadDaemonVersion.

(** protocol.rs 206-216 / 218-228: split on '.', parse every part as i64, insist
    on three parts. *)
Definition version_parts (v : rstr) : option (Z * Z * Z) :=
  match map_opt parse_i64 (split_on 46 v) with
  | Some [a; b; c] => Some (a, b, c)
  | _ => None
  end.

(** protocol.rs 205-240: [Client::version_ord]. *)
Definition version_ord (client daemon : rstr) : result comparison version_error :=
  match version_parts client with
  | None => Err BadClientVersion
  | Some (c0, c1, _) =>
      match version_parts daemon with
      | None => Err BadDaemonVersion
      | Some (d0, d1, _) =>
          if (Z.eqb c0 0 && Z.eqb d0 0)%bool then Ok (Z.compare c1 d1)
          else Ok (Z.compare c0 d0)
      end
  end.

(** What the user gets to see from [Client::new] (protocol.rs 152-189).
    [None] as the daemon version is a version header that failed to decode. *)
Inductive connect_result :=
| JustClient
| WarnUnknownVersion
| WarnClientOlder
| WarnClientNewer
| ConnectFails (e : version_error).

(** protocol.rs 152-189: [Client::new] after the socket has been connected. *)
Definition client_new (client : rstr) (daemon : option rstr) : connect_result :=
  match daemon with
  | None => WarnUnknownVersion
  | Some d =>
      match version_ord client d with
      | Err e => ConnectFails e
      | Ok Eq => JustClient
      | Ok Lt => WarnClientOlder
      | Ok Gt => WarnClientNewer
      end
  end.
