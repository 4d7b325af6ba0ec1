(** The messages of the wire protocol: shpool-protocol/src/lib.rs. *)
From Coq Require Import List NArith ZArith Bool.
From Verif Require Import Model.Base.
Import ListNotations.
Open Scope N_scope.

(** lib.rs 355-363: [TtySize]; four u16. *)
Record tty_size := mkSize { rows : N; cols : N; xpixel : N; ypixel : N }.

(** lib.rs 206-250: [AttachHeader]. *)
Record attach_header := mkAttach {
  h_name : rstr;
  h_name_template : rstr;
  h_tty : tty_size;
  h_env : list (rstr * rstr);
  h_ttl_secs : option N;
  h_cmd : option rstr;
  h_dir : option rstr;
  h_start_cmd : option rstr
}.

(** lib.rs 252-256: [local_env_get]: the first entry. *)
Definition local_env_get (h : attach_header) (var : rstr) : option rstr := lookup var (h_env h).

(** lib.rs 324-353: [AttachStatus]. *)
Inductive attach_status :=
| Attached (warnings : list rstr)
| Created (warnings : list rstr)
| Busy
| Forbidden (reason : rstr)
| UnexpectedError (err : rstr).

(** lib.rs 365-379: [MaybeSwitch]: only [vars] is used by this client. *)
Definition var_list := list (rstr * rstr).
