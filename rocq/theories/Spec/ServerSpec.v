(** Vocabulary for the properties of the daemon's request handling. *)
From Coq Require Import List NArith ZArith Bool Arith.
From Verif Require Import Model.Base Model.Protocol Model.Names Model.Server.
Import ListNotations.
Open Scope nat_scope.

(** A state some schedule leads to, from a daemon that has just started. *)
Definition reachable (st : server) : Prop := exists defaults l, st = run (server_new defaults) l.

(** The session a handler is attached to: from the moment it has been given the
    session until it lets go of it. *)
Definition attached_session (h : handler) : option sid :=
  match h with
  | HReply _ s _ | HStart _ s | HStream _ s _ | HUnwind _ s _ | HLeave s _ => Some s
  | _ => None
  end.
Definition attached (st : server) (c : conn) (s : sid) : Prop := attached_session (handlers st c) = Some s.

(** Client [k]'s connection carries the session's output and keystrokes. *)
Definition connected (st : server) (k : conn) (s : sid) : Prop :=
  exists c h, handlers st c = HStream h s k.

(** The shell of session [s] is running. *)
Definition shell_running (st : server) (s : sid) : Prop :=
  exists x, session_at st s = Some x /\ s_exit x = None.

(** A session is listed under a name. *)
Definition listed (st : server) (n : rstr) (s : sid) : Prop := lookup n (table st) = Some s.

(** Everything but the handlers' positions and the replies is the same. *)
Definition same_world (a b : server) : Prop :=
  table b = table a /\ sessions b = sessions a /\ locked b = locked a /\ events b = events a /\
  vars b = vars a /\ signalled b = signalled a /\ mailbox b = mailbox a /\ heap b = heap a /\ gens b = gens a.

(** ... and of the handlers only [c]'s may have moved. *)
Definition only_handler (c : conn) (a b : server) : Prop := forall c', c' <> c -> handlers b c' = handlers a c'.

(** The table as the events tell it. *)
Definition replay1 (t : list (rstr * sid)) (e : event) : list (rstr * sid) :=
  match e_kind e, e_sid e with
  | ECreated, Some s => insert (e_name e) s t
  | ERemoved, _ => remove (e_name e) t
  | _, _ => t
  end.
Definition replay (es : list event) : list (rstr * sid) := fold_left replay1 es [].

Definition kind_eqb (a b : ev_kind) : bool :=
  match a, b with
  | ECreated, ECreated | EAttached, EAttached | EDetached, EDetached | ERemoved, ERemoved => true
  | _, _ => false
  end.
(** How many events of a kind were published. *)
Definition count (k : ev_kind) (es : list event) : nat := length (filter (fun e => kind_eqb (e_kind e) k) es).

(** No kill request of the schedule names a session twice. *)
Definition no_repeated_kills (l : list action) : Prop :=
  forall c self p names, In (AConnect c self p (Some (QKill names))) l -> NoDup names.

(** The attach and detach events a connection caused, in order. *)
Definition is_for (c : conn) (e : event) : bool :=
  match e_conn e with Some c' => c' =? c | None => false end &&
  match e_kind e with EAttached | EDetached => true | _ => false end.
Definition comings_and_goings (c : conn) (es : list event) : list ev_kind := map e_kind (filter (is_for c) es).

(** Steps that take the session listed under [n] away from it other than by its
    own end: a kill request naming it, the reaper, the creation of another session
    of that name, and the cleanup of another session [s0] of that name. *)
Definition taken_away (st : server) (a : action) (n : rstr) (s : sid) : Prop :=
  (exists c oks pid names, a = AKill c oks /\ handlers st c = HAccepted pid (QKill names) /\ In n names) \/
  (exists k inst r, a = AFire k inst /\ nth_error (heap st) k = Some r /\ r_name r = n /\ (r_at r <= inst)%N) \/
  (exists c h s0, a = AInsert c /\ handlers st c = HInsert h s0 /\ h_name h = n /\ s0 <> s) \/
  (exists c h s0 now, a = AUnwind c now /\ handlers st c = HUnwind h s0 true /\ h_name h = n /\ s0 <> s).

(** A schedule in which no attach request is broken off between being given its
    session and starting to stream. *)
Fixpoint calm (st : server) (l : list action) : Prop :=
  match l with
  | [] => True
  | a :: r =>
    match a with
    | AReply c _ _ => match handlers st c with HReply h s _ => handlers (step st a) c = HStart h s | _ => True end
    | _ => True
    end /\ calm (step st a) r
  end.
