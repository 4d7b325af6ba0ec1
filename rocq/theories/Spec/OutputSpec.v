(** What a client sees of a session, read off the frames handed to its connection. *)
From Coq Require Import List NArith ZArith Bool.
From Verif Require Import Model.Base Model.Chunk Model.Protocol Model.Config Model.Restore Model.Motd Model.ShellToClient.
Import ListNotations.
Open Scope N_scope.

(** The frames handed to connection [id], in order. *)
Definition frames_to (id : nat) (l : list sent) : list chunk :=
  flat_map (fun x => if Nat.eqb (to x) id then [what x] else []) l.

(** The terminal output among them. *)
Definition data_of_frames (cs : list chunk) : list N :=
  flat_map (fun c => match c_kind c with Data => c_buf c | _ => [] end) cs.
Definition data_to (id : nat) (l : list sent) : list N := data_of_frames (frames_to id l).

(** Every frame handed to [id] arrived. *)
Definition all_arrived (id : nat) (l : list sent) : Prop := forall x, In x l -> to x = id -> arrived x = true.

(** The frames that arrived before the first one that did not. *)
Fixpoint received (id : nat) (l : list sent) : list chunk :=
  match l with
  | [] => []
  | x :: l' => if Nat.eqb (to x) id then (if arrived x then what x :: received id l' else []) else received id l'
  end.

(** Sizes asked for, by attaching or by a resize. *)
Definition first_size (m : option conn_msg) : list tty_size :=
  match m with Some (NewConn _ z) => [z] | _ => [] end.
Definition iter_size (it : iter) : list tty_size :=
  match sel it with SelConn (NewConn _ z) => [z] | SelSize z => [z] | _ => [] end.
Definition size_requests (m : option conn_msg) (its : list iter) : list tty_size :=
  first_size m ++ flat_map iter_size its.

(** Connections handed over, by number. *)
Definition first_conn (m : option conn_msg) : list nat := match m with Some (NewConn i _) => [i] | _ => [] end.
Definition iter_conn (it : iter) : list nat := match sel it with SelConn (NewConn i _) => [i] | _ => [] end.
Definition connections (m : option conn_msg) (its : list iter) : list nat := first_conn m ++ flat_map iter_conn its.

(** No exit frame but possibly the last one. *)
Definition exit_only_last (cs : list chunk) : Prop :=
  forall pre x post, cs = pre ++ x :: post -> c_kind x = ExitStatus -> post = [].

(** A history of the scrollback: what was fed to it, what sizes it was given. *)
Inductive spool_op := OpResize (c : config) (z : tty_size) | OpFeed (bytes : list N).
Definition spool_apply {e} (sp : spool e) (o : spool_op) : spool e :=
  match o with OpResize c z => spool_resize c sp z | OpFeed bs => spool_process sp bs end.
Definition fed (os : list spool_op) : list (list N) := flat_map (fun o => match o with OpFeed bs => [bs] | _ => [] end) os.
Definition resized (os : list spool_op) : list tty_size := flat_map (fun o => match o with OpResize _ z => [z] | _ => [] end) os.

(** The message of the day as it would be dumped during a turn. *)
Definition iter_motd (it : iter) : list (list N) :=
  match dump (motd (conf it)) (cr it) (motd_text it) with Dumped c => [c_buf c] | _ => [] end.

(** What ends a connection with status [st]: another client taking over or a detach
    (both 0), the supervisor passing on the shell's status, or the pty hanging up with
    that status known. *)
Definition exit_cause (its : list iter) (st : Z) : Prop :=
  exists it, In it its /\
    ((st = 0%Z /\ exists i z, sel it = SelConn (NewConn i z)) \/ (st = 0%Z /\ sel it = SelConn Disconnect) \/
     sel it = SelConn (DisconnectExit st) \/ (exists p, poll it = PollHangup p (Some st))).

(** What one turn takes from outside fits a client's buffer: the read (always so: the
    thread reads into a buffer of that size), the message about variables, the message
    of the day. *)
Definition small_turn (it : iter) : Prop :=
  (forall bs, sel it = SelSwitch (Some bs) -> len bs <= BUF_SIZE) /\
  (forall bs, poll it = PollRead (Ok bs) -> len bs <= BUF_SIZE) /\
  (forall m raw, motd_text it = Ok m -> convert_to_raw (cr it) m = Ok raw -> len raw <= BUF_SIZE).

(** The terminal emulators run over a history. *)
Definition vt100_after (e : engines) (p : vt100 e) (os : list spool_op) : vt100 e :=
  fold_left (fun p o => match o with
    | OpResize c z => vt100_set_size e p (rows z) (match vt100_output_spool_width c with Some w => w | None => 1024 end)
    | OpFeed bs => vt100_process e p bs end) os p.
Definition vterm_after (e : engines) (t : vterm e) (os : list spool_op) : vterm e :=
  fold_left (fun t o => match o with
    | OpResize _ z => vterm_resize e t (rows z) (cols z)
    | OpFeed bs => vterm_process e t bs end) os t.
