(** The start of a conversation: the daemon's accept loop and the front end of a
    connection, libshpool/src/daemon/server.rs 140-239, 1310-1331; the client's side,
    libshpool/src/protocol.rs 150-210 and attach.rs 101-108, 333-375. *)
From Coq Require Import String List NArith ZArith Bool Arith.
From Verif Require Import Model.Base Model.Version Model.Msgpack Model.Messages Model.Dial Model.Server.
Import ListNotations.
Open Scope N_scope.

(** consts.rs 17 (SOCK_STREAM_TIMEOUT), in milliseconds. *)
Definition read_timeout : N := 200.

(** A Unix stream socket: the bytes on their way in each direction, and who has closed his
    end.  Simplification: it holds any number of bytes, so a write never has to wait (and
    the write timeout of write_reply, server.rs 1322-1324, never matters). *)
Record line := mkLine { up : list byte; down : list byte; client_closed : bool; daemon_closed : bool }.

(** Where the thread of a connection is in handle_conn (server.rs 166-239). *)
Inductive ending := Probe | Failed | Refused | Served.
Inductive daemon_at :=
| DVersion (rest : list byte)          (* 182-208, writing what is left of the version header *)
| DRequest (quiet : N)                 (* 210, reading; nothing has come for so many milliseconds *)
| DPeer (h : value)                    (* 212 *)
| DRefuse (rest : list byte)           (* 214-222 *)
| DAnswer (h : value) (rest : list byte)   (* 231-238, what is left of what the handler writes *)
| DGone (e : ending).

(** The daemon's end: where it is, and the requests passed on to the handlers, each with
    the process number of the peer. server.rs 166-239. *)
Record front := mkFront { wire : line; at_d : daemon_at; handled : list (Z * value) }.

(** server.rs 212-217: only an attach is told that it is refused. *)
Definition is_attach (h : value) : bool := match h with VVar n _ => str_eqb n (lit "Attach") | _ => false end.

Section Conversation.
  (** What the deserializer makes of bytes that are not a whole message yet: whether it
      gives up on them already. *)
  Variable unreadable : ty -> list byte -> bool.
  (** The daemon: its version, itself and the peer as the kernel has them, and what the
      handlers write in answer to a request (the reply, and for an attach the frames that
      follow it). *)
  Variable version : rstr.
  Variables self other : peer.
  Variable answer : value -> list byte.

  (** Bookkeeping for [line]: the daemon's stream is dropped (end of server.rs 166-239), or
      written to (182-208). *)
  Definition close_daemon (l : line) : line := mkLine (up l) (down l) (client_closed l) true.
  (** Bookkeeping: server.rs 182-208. *)
  Definition say_down (bs : list byte) (l : line) : line := mkLine (up l) (down l ++ bs) (client_closed l) (daemon_closed l).

  (** server.rs 186-196. *)
  Definition version_bytes : list byte := encode_to version_header (VRec [VStr version]).
  (** server.rs 216-220.  Simplification: of the error's text only the first line. *)
  Definition forbidden_bytes (why : rstr) : list byte :=
    encode_to attach_reply_header (VRec [VVar (lit "Forbidden") (Some (VStr why))]).

  (** The connection as it is accepted. server.rs 140-163. *)
  Definition accepted : front := mkFront (mkLine [] [] false false) (DVersion version_bytes) [].

  (** The ways out of server.rs 166-239. *)
  Definition end_with (e : ending) (f : front) : front := mkFront (close_daemon (wire f)) (DGone e) (handled f).

  (** One turn of the thread; a write takes up to [S k] bytes. server.rs 166-239. *)
  Definition daemon_turn (k : nat) (f : front) : front :=
    let l := wire f in
    match at_d f with
    | DVersion rest =>
        if client_closed l then end_with Probe f
        else let l' := say_down (firstn (S k) rest) l in
             match skipn (S k) rest with
             | [] => mkFront l' (DRequest 0) (handled f)
             | more => mkFront l' (DVersion more) (handled f)
             end
    | DRequest quiet =>
        match decode_from connect_header (up l) with
        | Some (h, rest) => mkFront (mkLine rest (down l) (client_closed l) (daemon_closed l)) (DPeer h) (handled f)
        | None => if client_closed l || unreadable connect_header (up l) || (read_timeout <=? quiet) then end_with Failed f else f
        end
    | DPeer h =>
        match check_peer self other with
        | Ok pid => mkFront l (DAnswer h (answer h)) (handled f ++ [(pid, h)])
        | Err why => mkFront l (DRefuse (if is_attach h then forbidden_bytes why else [])) (handled f)
        end
    | DRefuse [] => end_with Refused f
    | DRefuse rest =>
        if client_closed l then end_with Failed f
        else mkFront (say_down (firstn (S k) rest) l) (DRefuse (skipn (S k) rest)) (handled f)
    | DAnswer h [] =>
        (* the handlers drop the stream, except that of an attach, whose threads are
           those of Streaming.v *)
        if is_attach h then mkFront l (DGone Served) (handled f) else end_with Served f
    | DAnswer h rest =>
        if client_closed l then end_with Failed f
        else mkFront (say_down (firstn (S k) rest) l) (DAnswer h (skipn (S k) rest)) (handled f)
    | DGone _ => f
    end.

  (** Bytes arrive: the read in progress, if any, starts its wait anew. The read timeout of server.rs 171 counts from the last bytes. *)
  Definition arrive (bs : list byte) (f : front) : front :=
    let l := wire f in
    mkFront (mkLine (up l ++ bs) (down l) (client_closed l) (daemon_closed l))
      (match at_d f, bs with DRequest _, _ :: _ => DRequest 0 | a, _ => a end) (handled f).
  (** Time passes. *)
  Definition wait (ms : N) (f : front) : front :=
    mkFront (wire f) (match at_d f with DRequest q => DRequest (q + ms) | a => a end) (handled f).
  (** The other end is closed. *)
  Definition hang_up (f : front) : front :=
    let l := wire f in mkFront (mkLine (up l) (down l) true (daemon_closed l)) (at_d f) (handled f).

  (** A connection with anybody at all at the other end. What may happen to a connection in
      server.rs 166-239. *)
  Inductive event := Turn (k : nat) | Arrive (bs : list byte) | Wait (ms : N) | HangUp.
  (** server.rs 166-239. *)
  Definition meet (f : front) (e : event) : front :=
    match e with
    | Turn k => daemon_turn k f
    | Arrive bs => if client_closed (wire f) then f else arrive bs f
    | Wait ms => wait ms f
    | HangUp => hang_up f
    end.
  (** Any number of steps, one after the other. *)
  Definition met (l : list event) : front := fold_left meet l accepted.

  (** server.rs 140-163 (serve): the connections so far, each with its number.  The
      error of an accept is only logged. *)
  Record hall := mkHall { counter : N; conns : list (N * front) }.
  (** server.rs 140-163. *)
  Inductive happening := Accept (ok : bool) | At (id : N) (e : event).
  (** server.rs 140-163. *)
  Definition serve_step (h : hall) (x : happening) : hall :=
    match x with
    | Accept true => mkHall (counter h + 1) (conns h ++ [(counter h + 1, accepted)])
    | Accept false => h
    | At id e => mkHall (counter h) (map (fun c => if fst c =? id then (fst c, meet (snd c) e) else c) (conns h))
    end.
  (** Any number of steps, one after the other. *)
  Definition serve (l : list happening) : hall := fold_left serve_step l (mkHall 0 []).

  (** The client: its version, how it dials (attach.rs 333), what it asks and the type
      of the reply it waits for. *)
  Variable own_version : rstr.
  Variables silent background : bool.
  Variable request : value.
  Variable reply_ty : ty.

  (** Where the client is. *)
  Inductive client_at :=
  | CVersion                              (* protocol.rs 155 *)
  | CAsk                                  (* attach.rs 351-362 *)
  | CRequest (rest : list byte)           (* protocol.rs 191-194 *)
  | CReply                                (* protocol.rs 196-202 *)
  | CDone (v : value)
  | CFailed.

  (** Both ends of one connection: attach.rs 333-375 and server.rs 166-239. *)
  Record talk := mkTalk { daemon : front; at_c : client_at }.
  (** attach.rs 333-375; server.rs 166-239. *)
  Definition begun : talk := mkTalk accepted CVersion.

  (** Returning an error drops the client's stream: attach.rs 333-375. *)
  Definition give_up (t : talk) : talk := mkTalk (hang_up (daemon t)) CFailed.
  (** attach.rs 333-375. *)
  Definition take_down (rest : list byte) (f : front) : front :=
    mkFront (mkLine (up (wire f)) rest (client_closed (wire f)) (daemon_closed (wire f))) (at_d f) (handled f).

  (** protocol.rs 191-194. *)
  Definition ready : client_at := CRequest (encode_to connect_header request).

  (** attach.rs 333-375 after Client::new. *)
  Definition dialled_with (r : connect_result) (t : talk) : talk :=
    match r with
    | JustClient => mkTalk (daemon t) ready
    | ConnectFails _ => give_up t
    | WarnUnknownVersion | WarnClientOlder | WarnClientNewer =>
        if silent || background then mkTalk (daemon t) ready else mkTalk (daemon t) CAsk
    end.

  (** One turn of the client; a write takes up to [S k] bytes, and of a version header
      that cannot be read the first [k] are gone. attach.rs 333-375, protocol.rs 150-202. *)
  Definition client_turn (k : nat) (t : talk) : talk :=
    let l := wire (daemon t) in
    match at_c t with
    | CVersion =>
        match decode_from version_header (down l) with
        | Some (VRec [VStr v], rest) => dialled_with (client_new own_version (Some v)) (mkTalk (take_down rest (daemon t)) (at_c t))
        | _ => if daemon_closed l || unreadable version_header (down l)
               then dialled_with (client_new own_version None) (mkTalk (take_down (skipn k (down l)) (daemon t)) (at_c t))
               else t
        end
    | CAsk => t
    | CRequest rest =>
        if daemon_closed l then give_up t
        else let d := arrive (firstn (S k) rest) (daemon t) in
             match skipn (S k) rest with
             | [] => mkTalk d CReply
             | more => mkTalk d (CRequest more)
             end
    | CReply =>
        match decode_from reply_ty (down l) with
        | Some (v, rest) => mkTalk (take_down rest (daemon t)) (CDone v)
        | None => if daemon_closed l || unreadable reply_ty (down l) then give_up t else t
        end
    | CDone _ | CFailed => t
    end.

  (** attach.rs 353-362: what the user types while being asked. *)
  Definition typed (r : tty_read) (t : talk) : talk :=
    match at_c t with
    | CAsk => match await_enter [r] with
              | Some (true, _) => mkTalk (daemon t) ready
              | Some (false, _) => give_up t
              | None => t
              end
    | _ => t
    end.

  (** Who moves next, or what happens outside. *)
  Inductive move := Daemon (k : nat) | Client (k : nat) | Key (r : tty_read) | Pass (ms : N) | Dies.
  (** Both ends: attach.rs 333-375 and server.rs 166-239. *)
  Definition talk_step (t : talk) (m : move) : talk :=
    match m with
    | Daemon k => mkTalk (daemon_turn k (daemon t)) (at_c t)
    | Client k => client_turn k t
    | Key r => typed r t
    | Pass ms => mkTalk (wait ms (daemon t)) (at_c t)
    | Dies => give_up t
    end.
  (** Any number of steps, one after the other. *)
  Definition talk_run (t : talk) (l : list move) : talk := fold_left talk_step l t.
End Conversation.
