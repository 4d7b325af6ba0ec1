(** The two sockets of a daemon and whoever calls there: libshpool/src/daemon/mod.rs 69-100,
    daemon/events.rs 87-91 and 299-316, daemon/server.rs 140-239.

    The paths of the sockets, the directories above them and their modes do not change;
    nothing in the daemon changes them.  Taken from other files: the conversation on the
    control socket (Handshake.v) and the events socket (EventBus.v). *)
From Coq Require Import String List NArith ZArith Bool.
From Verif Require Import Model.Base Model.Msgpack Model.Messages Model.Server Model.Handshake Model.EventBus Spec.PathSpec Model.SessionFiles.
Import ListNotations.
Open Scope N_scope.

(** Somebody with an account: their process as the kernel reports it to the daemon, and
    whether they are in the group of the daemon's files. server.rs 1338-1409 asks about the
    process. *)
Record caller := mkCaller { as_peer : peer; in_group : bool }.

(** The three bits of a mode that count for a caller. The kernel's rule; nothing of the
    code. *)
Definition bits (owner : N) (c : caller) (mode : N) : N :=
  if p_uid (as_peer c) =? owner then N.shiftr mode 6
  else if in_group c then N.shiftr mode 3 else mode.
(** The kernel's rule; nothing of the code. *)
Definition may_search (owner : N) (c : caller) (mode : N) : bool :=
  (p_uid (as_peer c) =? 0) || N.testbit (bits owner c mode) 0.
(** The kernel's rule; nothing of the code. *)
Definition may_write (owner : N) (c : caller) (mode : N) : bool :=
  (p_uid (as_peer c) =? 0) || N.testbit (bits owner c mode) 1.

(** The kernel walks the path from the outside in; [[]] is where it starts. The kernel's
    rule; nothing of the code. *)
Fixpoint may_reach (owner : N) (c : caller) (f : fs) (p : path) : bool :=
  match p with
  | [] => true
  | _ :: up =>
      match up with
      | [] => true
      | _ => may_reach owner c f up &&
             match f up with Some (Dir m) => may_search owner c m | _ => false end
      end
  end.

(** bind(2): a socket is made with all bits but those of the umask.  connect(2) needs
    write permission for it. *)
Definition socket_mode (umask : N) : N := N.ldiff 511 umask.
(** The kernel's rule; nothing of the code. *)
Definition may_connect (owner umask : N) (f : fs) (c : caller) (sock : path) : bool :=
  may_reach owner c f sock && may_write owner c (socket_mode umask).

Section Daemon.
  (** The conversation's, as in Handshake.v. *)
  Variables (unreadable : ty -> list byte -> bool) (version : rstr) (self : peer) (answer : value -> list byte).
  (** The daemon's umask when it binds the sockets, the directories and the two paths. *)
  Variables (umask : N) (f : fs) (control events : path).

  (** Who is on which connection of the control socket, and what happened on it; the
      events socket, and who is on its connections, in the order they came. server.rs
      140-163; daemon/events.rs 228-387. *)
  Record doors := mkDoors { talks : list (caller * list Handshake.event); the_bus : bus; listeners : list caller }.
  (** daemon/mod.rs 36-117 has not bound them yet. *)
  Definition closed_yet : doors := mkDoors [] bus_new [].

  (** What anybody may do at the two sockets. *)
  Inductive knock :=
  | DialControl (c : caller)
  | OnControl (i : nat) (e : Handshake.event)
  | DialEvents (c : caller)
  | OnEvents (a : bus_action).

  (** Bookkeeping for the record above; nothing of the code. *)
  Fixpoint on_nth (i : nat) (e : Handshake.event) (l : list (caller * list Handshake.event)) :=
    match l, i with
    | [], _ => []
    | (c, es) :: r, O => (c, es ++ [e]) :: r
    | x :: r, S j => x :: on_nth j e r
    end.

  (** server.rs 140-239 and daemon/events.rs 228-387 for each connection the kernel lets
      through. *)
  Definition door_step (d : doors) (k : knock) : doors :=
    match k with
    | DialControl c =>
        if may_connect (p_uid self) umask f c control then mkDoors (talks d ++ [(c, [])]) (the_bus d) (listeners d) else d
    | OnControl i e => mkDoors (on_nth i e (talks d)) (the_bus d) (listeners d)
    | DialEvents c =>
        if may_connect (p_uid self) umask f c events
        then mkDoors (talks d) (bus_step (the_bus d) BConnect) (listeners d ++ [c]) else d
    | OnEvents BConnect => d
    | OnEvents a => mkDoors (talks d) (bus_step (the_bus d) a) (listeners d)
    end.
  (** Any history of it. *)
  Definition door_run (l : list knock) : doors := fold_left door_step l closed_yet.

  (** The daemon's end of a connection of the control socket (server.rs 166-239). *)
  Definition front_of (t : caller * list Handshake.event) : front :=
    met unreadable version self (as_peer (fst t)) answer (snd t).
End Daemon.
