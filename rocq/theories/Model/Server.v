(** The daemon's request handlers as an interleaving of their critical
    sections: libshpool/src/daemon/server.rs, ttl_reaper.rs and the parts of
    shell.rs that touch the session table.

    Every accepted connection has a handler thread; [handler] is its program
    counter.  One [action] is one stretch of a handler (or of the reaper, a
    shell or an output thread) during which it holds a lock or touches state no
    other thread can touch; a schedule is an arbitrary list of actions.  An
    action that is not enabled (its thread is elsewhere, or the lock it needs is
    taken) leaves the state unchanged, so a thread that stays blocked is one
    whose actions never become enabled.

    Simplifications: names identify connections and sessions by number; what the
    operating system decides (fork or write failures, clock readings, whether a
    channel answered in time, a shell exiting) is an argument of the action; the
    mutexes are not fair or unfair, any order of acquisition is a schedule; the
    user hooks and log messages are left out; a reply is recorded when the daemon
    writes it, whether or not the peer still reads. *)
From Coq Require Import List NArith ZArith Bool Arith.
From Verif Require Import Model.Base Model.Protocol Model.Names.
Import ListNotations.
Open Scope nat_scope.

(** Connections are numbered in the order of accept (server.rs 140-163), sessions in the
    order in which they are created (server.rs 539-549). *)
Definition conn := nat.
(** server.rs 140-163; server.rs 539-549. *)
Definition sid := nat.

(** The state of a session's output (shell->client) thread and of the join
    handle kept for it: shell.rs 157-173 (shell_to_client_join_h), 268-312. *)
Inductive thread :=
| TWaiting                    (* spawned, no first message yet *)
| TRunning
| TFinished (ok : bool)       (* returned Ok or Err, not yet joined *)
| TJoined.                    (* handle taken and joined *)

(** shell.rs 70-123, 157-173: a [Session] with its lifecycle record and inner part.
    [s_inner]: the handler holding the inner lock; [s_stream]: whose stream is in
    [client_stream]; [s_client]: the client the output thread writes to;
    [s_switches]: the maybe_switch channel.  For stating properties only:
    [s_born], the connection that created it; [s_taken], the messages taken from
    that channel with the client they were sent on to, if any; [s_deadline], the
    time it is registered to be reaped at, if it has a TTL. *)
Record session := mkSession {
  s_name : rstr;
  s_born : conn;
  s_started : Z;
  s_exit : option Z;
  s_thread : thread;
  s_inner : option conn;
  s_stream : option conn;
  s_client : option conn;
  s_connected : option Z;
  s_disconnected : option Z;
  s_attachment : option (rstr * Z);
  s_switches : list var_list;
  s_taken : list (option conn * var_list);
  s_deadline : option N
}.

(** Bookkeeping for the fields of [Session] (shell.rs 70-123): each sets one. *)
Definition set_exit (x : session) v := mkSession (s_name x) (s_born x) (s_started x) v (s_thread x) (s_inner x) (s_stream x) (s_client x) (s_connected x) (s_disconnected x) (s_attachment x) (s_switches x) (s_taken x) (s_deadline x).
(** Bookkeeping: one field changed. *)
Definition set_thread (x : session) v := mkSession (s_name x) (s_born x) (s_started x) (s_exit x) v (s_inner x) (s_stream x) (s_client x) (s_connected x) (s_disconnected x) (s_attachment x) (s_switches x) (s_taken x) (s_deadline x).
(** Bookkeeping: one field changed. *)
Definition set_inner (x : session) v := mkSession (s_name x) (s_born x) (s_started x) (s_exit x) (s_thread x) v (s_stream x) (s_client x) (s_connected x) (s_disconnected x) (s_attachment x) (s_switches x) (s_taken x) (s_deadline x).
(** Bookkeeping: one field changed. *)
Definition set_stream (x : session) v := mkSession (s_name x) (s_born x) (s_started x) (s_exit x) (s_thread x) (s_inner x) v (s_client x) (s_connected x) (s_disconnected x) (s_attachment x) (s_switches x) (s_taken x) (s_deadline x).
(** Bookkeeping: one field changed. *)
Definition set_client (x : session) v := mkSession (s_name x) (s_born x) (s_started x) (s_exit x) (s_thread x) (s_inner x) (s_stream x) v (s_connected x) (s_disconnected x) (s_attachment x) (s_switches x) (s_taken x) (s_deadline x).
(** Bookkeeping: one field changed. *)
Definition set_switches (x : session) v w := mkSession (s_name x) (s_born x) (s_started x) (s_exit x) (s_thread x) (s_inner x) (s_stream x) (s_client x) (s_connected x) (s_disconnected x) (s_attachment x) v w (s_deadline x).

(** shell.rs 76-80 (record_attached). *)
Definition record_attached (x : session) (now : Z) (who : rstr * Z) :=
  mkSession (s_name x) (s_born x) (s_started x) (s_exit x) (s_thread x) (s_inner x) (s_stream x) (s_client x)
            (Some now) (s_disconnected x) (Some who) (s_switches x) (s_taken x) (s_deadline x).

(** shell.rs 83-87 (record_detached). *)
Definition record_detached (x : session) (now : Z) :=
  mkSession (s_name x) (s_born x) (s_started x) (s_exit x) (s_thread x) (s_inner x) (s_stream x) (s_client x)
            (s_connected x) (Some now) None (s_switches x) (s_taken x) (s_deadline x).

(** events.rs 54-67.  On the wire an event is its kind alone; name, session and
    connection are kept to state properties. *)
Inductive ev_kind := ECreated | EAttached | EDetached | ERemoved.
(** events.rs 54-67. *)
Record event := mkEvent { e_kind : ev_kind; e_name : rstr; e_sid : option sid; e_conn : option conn }.

(** shpool-protocol/src/lib.rs 274-321 (Session). *)
Record session_info := mkInfo {
  i_name : rstr;
  i_started : Z;
  i_connected : option Z;
  i_disconnected : option Z;
  i_attached : bool;
  i_attachments : list (rstr * Z)
}.

(** shpool-protocol/src/lib.rs 82-104, 127, 138, 179-203, 262-350: the replies. *)
Inductive reply :=
| RAttach (s : attach_status)
| RDetach (not_found not_attached : list rstr)
| RKill (not_found : list rstr)
| RList (sessions : list session_info)
| RModify
| RLogLevel
| RVars (vars : var_list)
| RMessage (found : bool).

(** shpool-protocol/src/lib.rs 42-70: the requests; Resize session messages are
    modelled with the output thread and the pager, not here. *)
Inductive request :=
| QAttach (h : attach_header)
| QDetach (names : list rstr)
| QKill (names : list rstr)
| QList
| QMessageDetach (name : rstr)
| QLogLevel
| QGetVars
| QModify (var : rstr) (val : option rstr).

(** What the kernel says about the other end of a connection: [p_exe] is the
    target of /proc/pid/exe, if it can be read. server.rs 1338-1409 (check_peer). *)
Record peer := mkPeer { p_uid : N; p_pid : Z; p_exe : option rstr }.

(** Program counters of the handler threads. Lines of server.rs unless said otherwise. *)
Inductive handler :=
| HIdle                                             (* not connected yet *)
| HAccepted (pid : Z) (q : request)                 (* server.rs 229: about to be dispatched *)
| HSpawn (h : attach_header) (pid : Z)              (* 521: about to create a shell *)
| HInsert (h : attach_header) (s : sid)             (* 539: shell created, not in the table *)
| HFetch (h : attach_header) (s : sid)              (* 552: inserted, about to fetch it again *)
| HWaitInner (h : attach_header) (s : sid)          (* 563: holds the table lock, waits for the inner lock *)
| HReply (h : attach_header) (s : sid) (created : bool) (* 285: holds the inner lock from here on *)
| HStart (h : attach_header) (s : sid)              (* 338: replied, pager done *)
| HStream (h : attach_header) (s : sid) (client : conn)  (* shell.rs 708: streaming *)
| HUnwind (h : attach_header) (s : sid) (done : bool)    (* 347: streaming ended *)
| HLeave (s : sid) (done : bool)                    (* 366, 385: table updated, inner lock still held *)
| HDetach (todo not_found not_attached : list rstr) (* 628: holds the table lock *)
| HMessage (s : sid)                                (* 886: control handle of the session at hand *)
| HCollect (vars : var_list)                        (* 719: variables changed *)
| HSends (vars : var_list) (sent todo : list sid)   (* 726: sending to each session in turn *)
| HDone.

(** ttl_reaper.rs 131-135 (Reapable); [r_sid] tells which session it was
    registered for, the reaper does not know. *)
Record reapable := mkReapable { r_name : rstr; r_gen : nat; r_at : N; r_sid : sid }.

(** server.rs 67-86 (Server), with everything the handler threads of server.rs 140-163
    share. *)
Record server := mkServer {
  table : list (rstr * sid);       (* the shells map *)
  sessions : list session;         (* every session ever spawned; a [sid] is its position *)
  locked : option conn;            (* a handler blocked while it holds the table lock *)
  handlers : conn -> handler;
  events : list event;             (* in order of publication *)
  replies : list (conn * reply);   (* in order *)
  vars : var_list;
  signalled : list sid;            (* sessions whose shell was sent SIGHUP by kill() *)
  mailbox : list (rstr * N * sid); (* the reaper's channel; the session is not part of the message *)
  heap : list reapable;            (* the reaper's heap *)
  gens : list (rstr * nat)
}.

(** Bookkeeping for the fields of [Server] (server.rs 67-86): each sets one. *)
Definition with_table st t := mkServer t (sessions st) (locked st) (handlers st) (events st) (replies st) (vars st) (signalled st) (mailbox st) (heap st) (gens st).
(** Bookkeeping: one field changed. *)
Definition with_sessions st x := mkServer (table st) x (locked st) (handlers st) (events st) (replies st) (vars st) (signalled st) (mailbox st) (heap st) (gens st).
(** Bookkeeping: one field changed. *)
Definition with_locked st x := mkServer (table st) (sessions st) x (handlers st) (events st) (replies st) (vars st) (signalled st) (mailbox st) (heap st) (gens st).
(** Bookkeeping: one field changed. *)
Definition with_handlers st x := mkServer (table st) (sessions st) (locked st) x (events st) (replies st) (vars st) (signalled st) (mailbox st) (heap st) (gens st).
(** Bookkeeping: one field changed. *)
Definition with_events st x := mkServer (table st) (sessions st) (locked st) (handlers st) x (replies st) (vars st) (signalled st) (mailbox st) (heap st) (gens st).
(** Bookkeeping: one field changed. *)
Definition with_replies st x := mkServer (table st) (sessions st) (locked st) (handlers st) (events st) x (vars st) (signalled st) (mailbox st) (heap st) (gens st).
(** Bookkeeping: one field changed. *)
Definition with_vars st x := mkServer (table st) (sessions st) (locked st) (handlers st) (events st) (replies st) x (signalled st) (mailbox st) (heap st) (gens st).
(** Bookkeeping: one field changed. *)
Definition with_signalled st x := mkServer (table st) (sessions st) (locked st) (handlers st) (events st) (replies st) (vars st) x (mailbox st) (heap st) (gens st).
(** Bookkeeping: one field changed. *)
Definition with_reaper st m h g := mkServer (table st) (sessions st) (locked st) (handlers st) (events st) (replies st) (vars st) (signalled st) m h g.

(** Bookkeeping: a handler thread goes on elsewhere (server.rs 166-239). *)
Definition goto (st : server) (c : conn) (h : handler) : server :=
  with_handlers st (fun c' => if c' =? c then h else handlers st c').
(** events.rs 120-147 (EventBus::publish); what becomes of the event is EventBus.v. *)
Definition publish (st : server) (e : event) : server := with_events st (events st ++ [e]).
(** server.rs 1318-1331 (write_reply). *)
Definition say (st : server) (c : conn) (r : reply) : server := with_replies st (replies st ++ [(c, r)]).

(** The session with a given number, and changing it. server.rs 69-75: the sessions are held
    in [Arc]s, here by number. *)
Definition session_at (st : server) (s : sid) : option session := nth_error (sessions st) s.
(** server.rs 69-75. *)
Fixpoint change_nth {A} (l : list A) (n : nat) (f : A -> A) : list A :=
  match l, n with
  | [], _ => []
  | x :: r, O => f x :: r
  | x :: r, S n' => x :: change_nth r n' f
  end.
(** server.rs 69-75. *)
Definition change (st : server) (s : sid) (f : session -> session) : server :=
  with_sessions st (change_nth (sessions st) s f).

(** server.rs 90-137 (Server::new): the variables come from the configuration,
    a later default for the same name replacing an earlier one. *)
Definition initial_vars (defaults : var_list) : var_list :=
  fold_left (fun m p => insert (fst p) (snd p) m) defaults [].
(** server.rs 90-137. *)
Definition server_new (defaults : var_list) : server :=
  mkServer [] [] None (fun _ => HIdle) [] [] (initial_vars defaults) [] [] [] [].

(** shell.rs 171: [JoinHandle::is_finished] of the output thread, used in server.rs 453-455
    and 492-494. *)
Definition is_finished (t : thread) : bool := match t with TFinished _ => true | _ => false end.
(** shell.rs 171; server.rs 453-455. *)
Definition is_live (t : thread) : bool := match t with TWaiting | TRunning => true | _ => false end.

(** server.rs 1333-1363 (check_peer, Linux): only the user id and whether both
    executables can be named decide; a different executable is only logged.
    [Err] carries the first line of the error's text. *)
Definition check_peer (self : peer) (p : peer) : result Z rstr :=
  if negb (p_uid p =? p_uid self)%N then Err (lit "shpool prohibits connections across users")
  else match p_exe p with
       | None => Err (lit "could not resolve exe from the pid")
       | Some _ => match p_exe self with
                   | None => Err (lit "could not resolve our own exe")
                   | Some _ => Ok (p_pid p)
                   end
       end.

(** server.rs 166-239 (handle_conn) up to the dispatch.  [q]: the request, if the
    version could be written and the request read and parsed. *)
Definition connect (st : server) (c : conn) (self p : peer) (q : option request) : server :=
  match handlers st c with
  | HIdle =>
    match q with
    | None => goto st c HDone
    | Some q =>
      match check_peer self p with
      | Ok pid => goto st c (HAccepted pid q)
      | Err why => match q with
                   | QAttach _ => goto (say st c (RAttach (Forbidden why))) c HDone
                   | _ => goto st c HDone
                   end
      end
    end
  | _ => st
  end.

(** server.rs 249-283 and 420-518: the name check, what may fail before the table
    is looked at ([env_ok]: user::info and build_shell_env worked), and the first
    critical section. *)
Definition attach_select (st : server) (c : conn) (env_ok : bool) (now : Z) : server :=
  match handlers st c with
  | HAccepted pid (QAttach h) =>
    if daemon_rejects (h_name h)
    then goto (say st c (RAttach (UnexpectedError (lit "invalid session name '" ++ h_name h ++ lit "'")))) c HDone
    else if negb env_ok then goto st c HDone
    else match locked st with
    | Some _ => st
    | None =>
      match lookup (h_name h) (table st) with
      | None => goto st c (HSpawn h pid)
      | Some s =>
        match session_at st s with
        | None => st
        | Some x =>
          match s_inner x with
          | Some _ => goto (say st c (RAttach Busy)) c HDone
          | None =>
            let st1 := match s_exit x with
                       | None => change st s (fun y => record_attached (set_stream y (Some c)) now (h_name_template h, pid))
                       | Some _ => st
                       end in
            match s_exit x, is_finished (s_thread x) with
            | None, false =>
              goto (publish (change st1 s (fun y => set_inner y (Some c)))
                            (mkEvent EAttached (h_name h) (Some s) (Some c)))
                   c (HReply h s false)
            | _, _ =>
              match s_thread x with
              | TFinished ok =>
                let st2 := change st1 s (fun y => set_thread y TJoined) in
                if ok then goto st2 c (HSpawn h pid) else goto st2 c HDone
              | _ => goto st1 c (HSpawn h pid)
              end
            end
          end
        end
      end
    end
  | _ => st
  end.

(** i64::MAX, the largest second an Instant can hold on Linux. *)
Definition instant_max : N := 9223372036854775807.

(** server.rs 521-538 and 906-1181: spawn_subshell and the first
    record_attached.  [inst] is the Instant in milliseconds; the reaper's channel
    holds ten registrations and a full channel blocks; adding a TTL beyond the
    range of Instant panics. *)
Definition attach_spawn (st : server) (c : conn) (ok : bool) (now : Z) (inst : N) : server :=
  match handlers st c with
  | HSpawn h pid =>
    if negb ok then goto st c HDone else
    let s := length (sessions st) in
    let done st' d :=
      goto (with_sessions st' (sessions st' ++
              [mkSession (h_name h) c now None TWaiting None (Some c) None (Some now) None (Some (h_name_template h, pid)) [] [] d]))
           c (HInsert h s) in
    match h_ttl_secs h with
    | None => done st None
    | Some ttl =>
      if (instant_max <? inst / 1000 + ttl)%N then goto st c HDone
      else if length (mailbox st) <? 10
      then let at_ := (inst + 1000 * ttl)%N in
           done (with_reaper st (mailbox st ++ [(h_name h, at_, s)]) (heap st) (gens st)) (Some at_)
      else st
    end
  | _ => st
  end.

(** server.rs 539-550: the second critical section. *)
Definition attach_insert (st : server) (c : conn) : server :=
  match handlers st c, locked st with
  | HInsert h s, None =>
    let st1 := match lookup (h_name h) (table st) with
               | Some old => publish st (mkEvent ERemoved (h_name h) (Some old) (Some c))
               | None => st
               end in
    let st2 := with_table st1 (insert (h_name h) s (table st1)) in
    let st3 := publish st2 (mkEvent ECreated (h_name h) (Some s) (Some c)) in
    let st4 := publish st3 (mkEvent EAttached (h_name h) (Some s) (Some c)) in
    goto st4 c (HFetch h s)
  | _, _ => st
  end.

(** server.rs 552-570: the third critical section up to the point where it needs
    the inner lock; a session that vanished ends the request without a reply
    (lines 392-394). *)
Definition attach_fetch (st : server) (c : conn) : server :=
  match handlers st c, locked st with
  | HFetch h _, None =>
    match lookup (h_name h) (table st) with
    | None => goto st c HDone
    | Some s =>
      match session_at st s with
      | None => st
      | Some x =>
        match s_inner x with
        | None => goto (change st s (fun y => set_inner y (Some c))) c (HReply h s true)
        | Some _ => goto (with_locked st (Some c)) c (HWaitInner h s)
        end
      end
    end
  | _, _ => st
  end.

(** server.rs 563 (lock_arc): the wait ends when the inner lock is free. *)
Definition attach_wake (st : server) (c : conn) : server :=
  match handlers st c with
  | HWaitInner h s =>
    match session_at st s with
    | Some x =>
      match s_inner x with
      | None => goto (with_locked (change st s (fun y => set_inner y (Some c))) None) c (HReply h s true)
      | Some _ => st
      end
    | None => st
    end
  | _ => st
  end.

(** server.rs 285-337: linking the agent socket, the env file, the reply, the
    pager.  [link_ok]: both file operations worked; [pager_ok]: no pager was
    needed or it finished; a failure drops the inner lock and ends the request.
    The reply goes to the stream kept in the session. *)
Definition attach_reply (st : server) (c : conn) (link_ok pager_ok : bool) : server :=
  match handlers st c with
  | HReply h s created =>
    let leave st' := goto (change st' s (fun y => set_inner y None)) c HDone in
    if negb link_ok then leave st else
    match session_at st s with
    | None => st
    | Some x =>
      match s_stream x with
      | None => leave st
      | Some c' =>
        let st1 := say st c' (RAttach (if created then Created [] else Attached [])) in
        if pager_ok then goto st1 c (HStart h s) else leave st1
      end
    end
  | _ => st
  end.

(** shell.rs 655-706: bidi_stream takes the stream and hands it to the output
    thread; [ok]: the thread took it and acknowledged in time. *)
Definition attach_start (st : server) (c : conn) (ok : bool) : server :=
  match handlers st c with
  | HStart h s =>
    match session_at st s with
    | None => st
    | Some x =>
      match s_stream x with
      | None => goto st c (HUnwind h s false)
      | Some c' =>
        let st1 := change st s (fun y => set_stream y None) in
        if ok && is_live (s_thread x)
        then goto (change st1 s (fun y => set_thread (set_client y (Some c')) TRunning)) c (HStream h s c')
        else goto st1 c (HUnwind h s false)
      end
    end
  | _ => st
  end.

(** shell.rs 724-803: streaming ends.  [c_done]: the supervisor saw the shell
    exit; [delivered]: the output thread took the Disconnect or DisconnectExit
    (only a live thread can); [ok]: no error was returned. *)
Definition attach_end (st : server) (c : conn) (c_done delivered ok : bool) : server :=
  match handlers st c with
  | HStream h s _ =>
    match session_at st s with
    | None => st
    | Some x =>
      if c_done && match s_exit x with None => true | Some _ => false end then st else
      let st1 := if delivered && is_live (s_thread x)
                 then change st s (fun y => set_client (if c_done then set_thread y (TFinished true) else y) None)
                 else st in
      goto st1 c (HUnwind h s (c_done && ok))
    end
  | _ => st
  end.

(** server.rs 349-384: cleanup after streaming; both branches go by name. *)
Definition attach_unwind (st : server) (c : conn) (now : Z) : server :=
  match handlers st c, locked st with
  | HUnwind h s done, None =>
    let st1 :=
      match lookup (h_name h) (table st) with
      | None => st
      | Some s' =>
        if done
        then publish (with_table st (remove (h_name h) (table st))) (mkEvent ERemoved (h_name h) (Some s') (Some c))
        else publish (change st s' (fun y => record_detached y now)) (mkEvent EDetached (h_name h) (Some s') (Some c))
      end in
    goto st1 c (HLeave s done)
  | _, _ => st
  end.

(** server.rs 366-396: after a shell exit the output thread is joined first; then
    the inner lock is dropped. *)
Definition attach_leave (st : server) (c : conn) : server :=
  match handlers st c with
  | HLeave s done =>
    match session_at st s with
    | None => st
    | Some x =>
      if done && is_live (s_thread x) then st else
      let st1 := if done then change st s (fun y => set_thread y TJoined) else st in
      goto (change st1 s (fun y => set_inner y None)) c HDone
    end
  | _ => st
  end.

(** A shell exits and its status is latched (C45); its output thread ends, with
    or without an error; the output thread drops a client it cannot write to. *)
Definition shell_exit (st : server) (s : sid) (status : Z) : server :=
  change st s (fun y => match s_exit y with None => set_exit y (Some status) | Some _ => y end).
(** The output thread's steps, as above. *)
Definition thread_end (st : server) (s : sid) (ok : bool) : server :=
  change st s (fun y => if is_live (s_thread y) then set_client (set_thread y (TFinished ok)) None else y).
(** The output thread's steps, as above. *)
Definition thread_drop_client (st : server) (s : sid) : server :=
  change st s (fun y => if is_live (s_thread y) then set_client y None else y).

(** server.rs 744-755: the loop of a kill request; [kill_ok] is the result of
    the n-th call of Session::kill. *)
Fixpoint kill_loop (st : server) (todo : list rstr) (kill_ok : list bool) (not_found to_remove : list rstr)
  : server * option (list rstr * list rstr) :=
  match todo with
  | [] => (st, Some (not_found, to_remove))
  | n :: rest =>
    match lookup n (table st) with
    | None => kill_loop st rest kill_ok (not_found ++ [n]) to_remove
    | Some s =>
      let st1 := with_signalled st (signalled st ++ [s]) in
      match kill_ok with
      | false :: _ => (st1, None)
      | _ => kill_loop st1 rest (tl kill_ok) not_found (to_remove ++ [n])
      end
    end
  end.

(** server.rs 757-760. *)
Definition remove_one (st : server) (n : rstr) : server :=
  publish (with_table st (remove n (table st))) (mkEvent ERemoved n (lookup n (table st)) None).

(** server.rs 738-769 (handle_kill). *)
Definition handle_kill (st : server) (c : conn) (kill_ok : list bool) : server :=
  match handlers st c, locked st with
  | HAccepted _ (QKill names), None =>
    match kill_loop st names kill_ok [] [] with
    | (st1, None) => goto st1 c HDone
    | (st1, Some (not_found, to_remove)) =>
      goto (say (fold_left remove_one to_remove st1) c (RKill not_found)) c HDone
    end
  | _, _ => st
  end.

(** server.rs 625-662 (handle_detach): the table lock is taken ... *)
Definition detach_begin (st : server) (c : conn) : server :=
  match handlers st c, locked st with
  | HAccepted _ (QDetach names), None => goto (with_locked st (Some c)) c (HDetach names [] [])
  | _, _ => st
  end.

(** ... each session is talked to in turn, without a timeout; [now] is the clock.
    A thread waiting for its first message acknowledges anything as a new
    client (shell.rs 301-312); a finished thread has dropped its end of the
    channel, and the error ends the request without a reply ... *)
Definition detach_next (st : server) (c : conn) (now : Z) : server :=
  match handlers st c with
  | HDetach (n :: rest) nf na =>
    match lookup n (table st) with
    | None => goto st c (HDetach rest (nf ++ [n]) na)
    | Some s =>
      match session_at st s with
      | None => st
      | Some x =>
        match s_thread x, s_client x with
        | TWaiting, _ => goto (change st s (fun y => record_detached (set_thread y TRunning) now)) c (HDetach rest nf na)
        | TRunning, Some _ => goto (change st s (fun y => record_detached (set_client y None) now)) c (HDetach rest nf na)
        | TRunning, None => goto st c (HDetach rest nf (na ++ [n]))
        | _, _ => goto (with_locked st None) c HDone
        end
      end
    end
  | _ => st
  end.

(** ... and at the end the lock is released and the reply written. server.rs 656-661. *)
Definition detach_finish (st : server) (c : conn) : server :=
  match handlers st c with
  | HDetach [] nf na => goto (say (with_locked st None) c (RDetach nf na)) c HDone
  | _ => st
  end.

(** server.rs 874-898: a Detach sent by the attached client's own tooling: the
    session's control handle is fetched, then talked to with a timeout;
    [ok]: answered in time. *)
Definition message_begin (st : server) (c : conn) : server :=
  match handlers st c, locked st with
  | HAccepted _ (QMessageDetach name), None =>
    match lookup name (table st) with
    | None => goto (say st c (RMessage false)) c HDone
    | Some s => goto st c (HMessage s)
    end
  | _, _ => st
  end.
(** server.rs 874-898. *)
Definition message_send (st : server) (c : conn) (ok : bool) : server :=
  match handlers st c with
  | HMessage s =>
    match session_at st s with
    | None => st
    | Some x =>
      if ok && is_live (s_thread x)
      then goto (say (change st s (fun y => set_thread (set_client y None) TRunning)) c (RMessage true)) c HDone
      else goto st c HDone
    end
  | _ => st
  end.

(** server.rs 772-807 (handle_list): a time before the epoch is an error. *)
Definition after_epoch (t : option Z) : bool := match t with Some z => (0 <=? z)%Z | None => true end.
(** server.rs 772-807. *)
Definition info_of (name : rstr) (x : session) : option session_info :=
  if after_epoch (s_connected x) && after_epoch (s_disconnected x) && after_epoch (Some (s_started x))
  then Some (mkInfo name (s_started x) (s_connected x) (s_disconnected x)
                    (match s_inner x with Some _ => true | None => false end)
                    (match s_attachment x with Some a => [a] | None => [] end))
  else None.
(** server.rs 772-807. *)
Definition list_entry (st : server) (p : rstr * sid) : option session_info :=
  match session_at st (snd p) with Some x => info_of (fst p) x | None => None end.
(** server.rs 772-807. *)
Definition handle_list (st : server) (c : conn) : server :=
  match handlers st c, locked st with
  | HAccepted _ QList, None =>
    match map_opt (list_entry st) (table st) with
    | Some l => goto (say st c (RList l)) c HDone
    | None => goto st c HDone
    end
  | _, _ => st
  end.

(** server.rs 665-684 (handle_set_log_level); the log filter is not modelled. *)
Definition handle_log_level (st : server) (c : conn) : server :=
  match handlers st c with
  | HAccepted _ QLogLevel => goto (say st c RLogLevel) c HDone
  | _ => st
  end.

(** server.rs 687-697 (handle_get_vars). *)
Definition handle_get_vars (st : server) (c : conn) : server :=
  match handlers st c with
  | HAccepted _ QGetVars => goto (say st c (RVars (vars st))) c HDone
  | _ => st
  end.

(** server.rs 700-735 (handle_modify_var): the variables are changed and copied
    under their own lock ... *)
Definition modify_begin (st : server) (c : conn) : server :=
  match handlers st c with
  | HAccepted _ (QModify var val) =>
    let vs := match val with Some v => insert var v (vars st) | None => remove var (vars st) end in
    goto (with_vars st vs) c (HCollect vs)
  | _ => st
  end.
(** ... the sessions' control handles are collected under the table lock ... *)
Definition modify_collect (st : server) (c : conn) : server :=
  match handlers st c, locked st with
  | HCollect vs, None => goto st c (HSends vs [] (map snd (table st)))
  | _, _ => st
  end.
(** ... the copy is sent to each; the channel holds ten messages, a full channel
    times out ([late]) and a finished thread has dropped its end: both end the
    request without a reply. *)
Definition modify_send (st : server) (c : conn) (late : bool) : server :=
  match handlers st c with
  | HSends vs _ [] => goto (say st c RModify) c HDone
  | HSends vs sent (s :: rest) =>
    match session_at st s with
    | None => st
    | Some x =>
      if negb (is_live (s_thread x)) then goto st c HDone
      else if length (s_switches x) <? 10
      then goto (change st s (fun y => set_switches y (s_switches y ++ [vs]) (s_taken y))) c (HSends vs (sent ++ [s]) rest)
      else if late then goto st c HDone else st
    end
  | _ => st
  end.
(** shell.rs 445-489: the running output thread takes a message; without a client
    it is dropped. *)
Definition thread_switch (st : server) (s : sid) : server :=
  change st s (fun y =>
    match s_thread y, s_switches y with
    | TRunning, vs :: rest =>
      set_switches y rest (s_taken y ++ [(s_client y, vs)])
    | _, _ => y
    end).

(** ttl_reaper.rs 50-66, 77-95: a registration is taken from the channel. *)
Definition gen_of (st : server) (n : rstr) : nat := match lookup n (gens st) with Some g => g | None => 0 end.
(** ttl_reaper.rs 50-66, 77-95. *)
Definition reaper_register (st : server) : server :=
  match mailbox st with
  | [] => st
  | (n, at_, s) :: rest =>
    let g := S (gen_of st n) in
    with_reaper st rest (mkReapable n g at_ s :: heap st) (insert n g (gens st))
  end.

(** The heap's top: an entry with the least deadline, [k] choosing among equals;
    BinaryHeap does not say which of two equal entries it pops. ttl_reaper.rs 96-98. *)
Fixpoint remove_nth {A} (n : nat) (l : list A) : list A :=
  match l, n with
  | [], _ => []
  | _ :: r, O => r
  | x :: r, S n' => x :: remove_nth n' r
  end.
(** BinaryHeap::pop, as above. *)
Definition is_top (hp : list reapable) (r : reapable) : bool := forallb (fun q => (r_at r <=? r_at q)%N) hp.

(** ttl_reaper.rs 96-122: the timer of the heap's top fires, at [inst] not before
    the deadline; the table lock is only needed for a current generation.  The
    result of kill() is ignored. *)
Definition reaper_fire (st : server) (k : nat) (inst : N) : server :=
  match nth_error (heap st) k with
  | Some r =>
    if is_top (heap st) r && (r_at r <=? inst)%N then
      let st1 := with_reaper st (mailbox st) (remove_nth k (heap st)) (gens st) in
      if negb (gen_of st (r_name r) =? r_gen r) then st1
      else match locked st with
      | Some _ => st
      | None =>
        match lookup (r_name r) (table st) with
        | None => st1
        | Some s => remove_one (with_signalled st1 (signalled st1 ++ [s])) (r_name r)
        end
      end
    else st
  | None => st
  end.

(** What a thread of the daemon does next: a stretch of server.rs 166-1181, shell.rs 268-803
    or ttl_reaper.rs 38-154; each is cited at the function that models it. *)
Inductive action :=
| AConnect (c : conn) (self p : peer) (q : option request)
| AAttach (c : conn) (env_ok : bool) (now : Z)
| ASpawn (c : conn) (ok : bool) (now : Z) (inst : N)
| AInsert (c : conn)
| AFetch (c : conn)
| AWake (c : conn)
| AReply (c : conn) (link_ok pager_ok : bool)
| AStart (c : conn) (ok : bool)
| AEnd (c : conn) (c_done delivered ok : bool)
| AUnwind (c : conn) (now : Z)
| ALeave (c : conn)
| AExit (s : sid) (status : Z)
| AThreadEnd (s : sid) (ok : bool)
| ADropClient (s : sid)
| AKill (c : conn) (kill_ok : list bool)
| ADetach (c : conn)
| ADetachNext (c : conn) (now : Z)
| ADetachFinish (c : conn)
| AMessage (c : conn)
| AMessageSend (c : conn) (ok : bool)
| AList (c : conn)
| ALogLevel (c : conn)
| AGetVars (c : conn)
| AModify (c : conn)
| ACollect (c : conn)
| ASend (c : conn) (late : bool)
| ASwitch (s : sid)
| ARegister
| AFire (k : nat) (inst : N).

(** One action (server.rs 142-239: every connection has its thread, so any of them may be
    next). *)
Definition step (st : server) (a : action) : server :=
  match a with
  | AConnect c self p q => connect st c self p q
  | AAttach c env_ok now => attach_select st c env_ok now
  | ASpawn c ok now inst => attach_spawn st c ok now inst
  | AInsert c => attach_insert st c
  | AFetch c => attach_fetch st c
  | AWake c => attach_wake st c
  | AReply c link_ok pager_ok => attach_reply st c link_ok pager_ok
  | AStart c ok => attach_start st c ok
  | AEnd c c_done delivered ok => attach_end st c c_done delivered ok
  | AUnwind c now => attach_unwind st c now
  | ALeave c => attach_leave st c
  | AExit s status => shell_exit st s status
  | AThreadEnd s ok => thread_end st s ok
  | ADropClient s => thread_drop_client st s
  | AKill c kill_ok => handle_kill st c kill_ok
  | ADetach c => detach_begin st c
  | ADetachNext c now => detach_next st c now
  | ADetachFinish c => detach_finish st c
  | AMessage c => message_begin st c
  | AMessageSend c ok => message_send st c ok
  | AList c => handle_list st c
  | ALogLevel c => handle_log_level st c
  | AGetVars c => handle_get_vars st c
  | AModify c => modify_begin st c
  | ACollect c => modify_collect st c
  | ASend c late => modify_send st c late
  | ASwitch s => thread_switch st s
  | ARegister => reaper_register st
  | AFire k inst => reaper_fire st k inst
  end.

(** Any schedule of them. *)
Definition run (st : server) (l : list action) : server := fold_left step l st.
