(** Becoming a daemon: libshpool/src/daemonize.rs 149-260 (daemonize,
    redirect_std_fds_to_null, become_child), called from daemon/mod.rs 47-70, in a process
    in which lib.rs 442 has already started the thread that watches the configuration
    files (config.rs 74-100, config_watcher.rs 170-177).

    The kernel's part: fork(2) copies the calling thread only, and the memory with the
    locks as they are; setsid(2); open files and flock(2), which belong to the open file
    description and so are shared across a fork; terminals.  Any number of such daemons
    start at the same time, with one name for the pid file.  Process numbers are not used
    again.  Not modelled here: the sockets (Daemonize.v). *)
From Coq Require Import List NArith ZArith Bool Arith.
From Verif Require Import Model.Base Model.Json.
Import ListNotations.
Open Scope nat_scope.

(** What a descriptor refers to: /dev/null, the pid file as opened by some process, or
    something the process was started with. daemonize.rs 170-185 and 207-233. *)
Inductive file := Null (writable : bool) | PidFile (opened_by : nat) | Inherited (n : nat).
(** Descriptors by number. *)
Definition table := nat -> option file.

(** What a process is started with. daemon/mod.rs 47-48 looks at its environment. *)
Record start := mkStart {
  s_auto : bool;              (* SHPOOL__INTERNAL__AUTODAEMONIZE is "true" *)
  s_leads : bool;             (* started as a job of its own, which leads its group *)
  s_group : nat;              (* the group otherwise *)
  s_session : nat;
  s_tty : option nat;         (* the controlling terminal *)
  s_files : table;
  s_dir : rstr;
  s_mask : N
}.

(** The thread watching the configuration files: none, waiting, and its way through a
    reload (config.rs 77-89): writing to the log, with the configuration locked, and both. *)
Inductive watcher := WNone | WIdle | WLogs | WLoads | WLoadsLogs.

(** Where the main thread is. The lines of daemonize.rs 149-260 and daemon/mod.rs 47-117
    where it can be interrupted. *)
Inductive place :=
| PRuntime (auto : bool)         (* before main *)
| PUmask                         (* daemonize.rs 150-151 *)
| PChdir                         (* 157 *)
| PFork1                         (* 165, 245 *)
| PWait (child : nat)            (* 248-252 *)
| PSetsid                        (* 167 *)
| PLogSid                        (* 168 *)
| POpen                          (* 170-176 *)
| PLock                          (* 177-185 *)
| PFork2                         (* 189, 245 *)
| PExit                          (* 254 *)
| PTruncate                      (* 193 *)
| PSeek                          (* 194 *)
| PWrite (rest : list byte)      (* 195 *)
| PNull                          (* 208-213 *)
| PDup (null target : nat)       (* 216-229, one after the other *)
| PClose (null : nat)            (* 232, nullfd goes out of scope *)
| PUnlock                        (* 202-203, so does the lock *)
| PStarting                      (* mod.rs 69 *)
| PServe (answered : nat)        (* mod.rs 107 *)
| PFail                          (* an error goes up to main *)
| Exited (status : nat)
| Killed.

(** How a process came about. daemonize.rs 165 and 189. *)
Inductive birth := Started (s : start) | Forked1 | Forked2.

(** A process as the kernel keeps it, with what lib.rs 442 has set up in it. *)
Record process := mkProcess {
  born : birth; parent : nat; group : nat; session : nat; tty : option nat;
  files : table; dir : rstr; mask : N;
  pid_fd : option (nat * nat * nat);   (* descriptor, inode and opener of the pid file *)
  config : nat; watch : watcher; changed : bool; log_held : bool; config_held : bool;
  at_ : place
}.

(** All processes, and the pid file of daemon/mod.rs 56. *)
Record world := mkWorld {
  procs : nat -> option process;
  others : nat;                  (* process numbers below are other programs' *)
  next : nat;
  name : option nat;             (* the inode the pid file's name leads to *)
  inodes : nat;
  data : nat -> list byte;       (* by inode *)
  offset : nat -> nat;           (* by the process that opened it *)
  locks : nat -> option nat;     (* by inode: the opener whose description holds the lock *)
  disk : nat                     (* the configuration in the files *)
}.

(** Setters. Bookkeeping for the records above; nothing of the code. *)
Definition upd {A} (f : nat -> A) (n : nat) (a : A) : nat -> A := fun m => if m =? n then a else f m.
(** Bookkeeping. *)
Definition put (st : world) (p : nat) (x : process) : world :=
  mkWorld (upd (procs st) p (Some x)) (others st) (next st) (name st) (inodes st) (data st) (offset st) (locks st) (disk st).
(** Bookkeeping: one field changed. *)
Definition with_locks (st : world) (l : nat -> option nat) : world :=
  mkWorld (procs st) (others st) (next st) (name st) (inodes st) (data st) (offset st) l (disk st).
(** Bookkeeping: one field changed. *)
Definition with_data (st : world) (d : nat -> list byte) (o : nat -> nat) : world :=
  mkWorld (procs st) (others st) (next st) (name st) (inodes st) d o (locks st) (disk st).
(** Bookkeeping: where the process is. *)
Definition go (x : process) (a : place) : process :=
  mkProcess (born x) (parent x) (group x) (session x) (tty x) (files x) (dir x) (mask x) (pid_fd x)
    (config x) (watch x) (changed x) (log_held x) (config_held x) a.
(** Bookkeeping: one field changed. *)
Definition with_files (x : process) (f : table) : process :=
  mkProcess (born x) (parent x) (group x) (session x) (tty x) f (dir x) (mask x) (pid_fd x)
    (config x) (watch x) (changed x) (log_held x) (config_held x) (at_ x).
(** Bookkeeping: one field changed. *)
Definition with_pid (x : process) (o : option (nat * nat * nat)) (f : table) : process :=
  mkProcess (born x) (parent x) (group x) (session x) (tty x) f (dir x) (mask x) o
    (config x) (watch x) (changed x) (log_held x) (config_held x) (at_ x).
(** Bookkeeping: one field changed. *)
Definition with_env (x : process) (d : rstr) (m : N) : process :=
  mkProcess (born x) (parent x) (group x) (session x) (tty x) (files x) d m (pid_fd x)
    (config x) (watch x) (changed x) (log_held x) (config_held x) (at_ x).
(** Bookkeeping: one field changed. *)
Definition with_ids (x : process) (g s : nat) (t : option nat) : process :=
  mkProcess (born x) (parent x) g s t (files x) (dir x) (mask x) (pid_fd x)
    (config x) (watch x) (changed x) (log_held x) (config_held x) (at_ x).
(** Bookkeeping: one field changed. *)
Definition with_mind (x : process) (c : nat) (w : watcher) (ch lh chh : bool) : process :=
  mkProcess (born x) (parent x) (group x) (session x) (tty x) (files x) (dir x) (mask x) (pid_fd x)
    c w ch lh chh (at_ x).

(** The process has not ended. *)
Definition live (x : process) : bool := match at_ x with Exited _ | Killed => false | _ => true end.

(** fork(2): the child has the memory, the descriptors and the ids, and only this thread. *)
Definition child_of (p : nat) (x : process) (b : birth) (a : place) : process :=
  mkProcess b p (group x) (session x) (tty x) (files x) (dir x) (mask x) (pid_fd x)
    (config x) WNone (changed x) (log_held x) (config_held x) a.
(** fork(2); nothing of the code. *)
Definition fork (st : world) (p : nat) (x : process) (parent_at : place) (b : birth) (child_at : place) : world :=
  mkWorld (upd (upd (procs st) p (Some (go x parent_at))) (next st) (Some (child_of p x b child_at)))
    (others st) (S (next st)) (name st) (inodes st) (data st) (offset st) (locks st) (disk st).

(** The end of a process closes its descriptors; flock(2): the lock goes with the last
    descriptor of the description. *)
Definition shared (st : world) (p d : nat) : bool :=
  existsb (fun q => negb (q =? p) && match procs st q with
                                     | Some y => live y && match pid_fd y with Some (_, _, e) => e =? d | None => false end
                                     | None => false
                                     end) (seq 0 (next st)).
(** flock(2); nothing of the code. *)
Definition unlock (st : world) (i d : nat) : world :=
  match locks st i with
  | Some e => if e =? d then with_locks st (upd (locks st) i None) else st
  | None => st
  end.
(** exit(2); nothing of the code. *)
Definition finish (st : world) (p : nat) (x : process) (a : place) : world :=
  let st' := match pid_fd x with
             | Some (_, i, d) => if shared st p d then st else unlock st i d
             | None => st
             end in
  put st' p (go x a).

(** std's start: descriptors 0 to 2 are never closed in a Rust program (library/std
    sys/pal/unix, sanitize_standard_fds). *)
Definition sane (f : table) : table :=
  fun n => match f n with Some x => Some x | None => if n <? 3 then Some (Null true) else None end.

(** What is written to the pid file: its number and a newline. daemonize.rs 195. *)
Definition pid_text (p : nat) : list byte := integer (Z.of_nat p) ++ [10%N].

(** write(2) at the offset. *)
Definition write_at (old : list byte) (off : nat) (bs : list byte) : list byte :=
  firstn off (old ++ repeat 0%N (off - length old)) ++ bs ++ skipn (off + length bs) old.

(** One turn of the main thread of [p].  [ok]: the system call succeeds; [n]: the
    descriptor the kernel gives, which must be a free one, or one less than the number of
    bytes a write takes. daemonize.rs 149-260 and daemon/mod.rs 47-70, line by line as cited
    at [place]. *)
Definition turn (st : world) (p : nat) (ok : bool) (n : nat) : world :=
  match procs st p with
  | None => st
  | Some x =>
    match at_ x with
    | PRuntime auto => put st p (go (with_files x (sane (files x))) (if auto then PUmask else PStarting))
    | PUmask => if log_held x then st else put st p (go (with_env x (dir x) 0%N) PChdir)
    | PChdir => if ok then put st p (go (with_env x (lit "/") (mask x)) PFork1) else put st p (go x PFail)
    | PFork1 => if ok then fork st p x (PWait (next st)) Forked1 PSetsid else put st p (go x PFail)
    | PWait c =>
        match procs st c with
        | Some y => match at_ y with
                    | Exited s => finish st p x (Exited s)
                    | Killed => finish st p x (Exited 1)
                    | _ => st
                    end
        | None => st
        end
    | PSetsid => if negb ok || (group x =? p) then put st p (go x PFail) else put st p (go (with_ids x p p None) PLogSid)
    | PLogSid => if log_held x then st else put st p (go x POpen)
    | POpen =>
        match ok, files x n with
        | true, None =>
            let i := match name st with Some i => i | None => inodes st end in
            let st' := mkWorld (procs st) (others st) (next st) (Some i) (match name st with Some _ => inodes st | None => S (inodes st) end)
                         (match name st with Some _ => data st | None => upd (data st) i [] end) (upd (offset st) p 0) (locks st) (disk st) in
            put st' p (go (with_pid x (Some (n, i, p)) (upd (files x) n (Some (PidFile p)))) PLock)
        | _, _ => put st p (go x PFail)
        end
    | PLock =>
        match pid_fd x with
        | Some (_, i, d) =>
            if negb ok || match locks st i with Some e => negb (e =? d) | None => false end then put st p (go x PFail)
            else put (with_locks st (upd (locks st) i (Some d))) p (go x PFork2)
        | None => st
        end
    | PFork2 => if ok then fork st p x PExit Forked2 PTruncate else put st p (go x PFail)
    | PExit => finish st p x (Exited 0)
    | PTruncate =>
        match pid_fd x with
        | Some (_, i, d) => if ok then put (with_data st (upd (data st) i []) (offset st)) p (go x PSeek) else put st p (go x PFail)
        | None => st
        end
    | PSeek =>
        match pid_fd x with
        | Some (_, i, d) => if ok then put (with_data st (data st) (upd (offset st) d 0)) p (go x (PWrite (pid_text p))) else put st p (go x PFail)
        | None => st
        end
    | PWrite rest =>
        match pid_fd x with
        | Some (_, i, d) =>
            if ok then
              let bs := firstn (S n) rest in
              let st' := with_data st (upd (data st) i (write_at (data st i) (offset st d) bs)) (upd (offset st) d (offset st d + length bs)) in
              put st' p (go x (match skipn (S n) rest with [] => PNull | more => PWrite more end))
            else put st p (go x PFail)
        | None => st
        end
    | PNull =>
        match ok, files x n with
        | true, None => put st p (go (with_files x (upd (files x) n (Some (Null false)))) (PDup n 0))
        | _, _ => put st p (go x PFail)
        end
    | PDup null i =>
        if ok then put st p (go (with_files x (upd (files x) i (files x null))) (if i <? 2 then PDup null (S i) else PClose null))
        else put st p (go x PFail)
    | PClose null => put st p (go (with_files x (upd (files x) null None)) PUnlock)
    | PUnlock =>
        match pid_fd x with
        | Some (k, i, d) => put (unlock st i d) p (go (with_pid x None (upd (files x) k None)) PStarting)
        | None => st
        end
    | PStarting => if log_held x then st else put st p (go x (PServe 0))
    | PServe k => if log_held x || config_held x then st else put st p (go x (PServe (S k)))   (* a request: logged, and the configuration looked at *)
    | PFail =>
        (* the lock, if it has been taken, goes out of scope (Flock's drop unlocks); lib.rs
           482-485 logs the error and exits with 1 *)
        if log_held x then st
        else match pid_fd x with
        | Some (k, i, d) => put (unlock st i d) p (go x (Exited 1))
        | None => put st p (go x (Exited 1))
        end
    | Exited _ | Killed => st
    end
  end.

(** One turn of the thread watching the configuration files of [p]. config.rs 74-100,
    config_watcher.rs 376-411. *)
Definition watch_turn (st : world) (p : nat) (log : bool) : world :=
  match procs st p with
  | None => st
  | Some x =>
    if negb (live x) then st
    else match watch x with
         | WNone => st
         | WIdle => if changed x then put st p (with_mind x (config x) WLogs false true (config_held x)) else st
         | WLogs => put st p (with_mind x (config x) WLoads (changed x) false true)
         | WLoads => if log then put st p (with_mind x (config x) WLoadsLogs (changed x) true true)
                     else put st p (with_mind x (disk st) WIdle (changed x) (log_held x) false)
         | WLoadsLogs => put st p (with_mind x (config x) WLoads (changed x) false true)
         end
  end.

(** The process as it is started, with the watching thread of lib.rs 442 in it.
    Simplification: the thread is there from the beginning. *)
Definition started (p : nat) (d : nat) (s : start) : process :=
  mkProcess (Started s) 0 (if s_leads s then p else s_group s) (s_session s) (s_tty s) (s_files s) (s_dir s) (s_mask s)
    None d WIdle false false false (PRuntime (s_auto s)).

(** Bookkeeping: a change of all processes. *)
Definition map_procs (f : process -> process) (st : world) : world :=
  mkWorld (fun q => option_map f (procs st q)) (others st) (next st) (name st) (inodes st) (data st) (offset st) (locks st) (disk st).

(** Who moves next: a process through daemonize.rs 149-260, a watching thread through
    config.rs 74-100, or the world outside. *)
Inductive action :=
| Start (s : start)
| Turn (p : nat) (ok : bool) (n : nat)
| Watch (p : nat) (log : bool)
| Edit (n : nat)                      (* the configuration files are edited: the threads are told *)
| OpenTty (p t : nat)                 (* a serving daemon opens a terminal *)
| Unlink                              (* somebody removes the pid file (Daemonize.v) *)
| Kill (p : nat).

(** One of these. *)
Definition step (st : world) (a : action) : world :=
  match a with
  | Start s =>
      (* from a job of another program *)
      if negb ((s_group s <? others st) && (s_session s <? others st)) then st
      else mkWorld (upd (procs st) (next st) (Some (started (next st) (disk st) s))) (others st) (S (next st)) (name st) (inodes st) (data st) (offset st) (locks st) (disk st)
  | Turn p ok n => turn st p ok n
  | Watch p log => watch_turn st p log
  | Edit n =>
      let st' := map_procs (fun x => with_mind x (config x) (watch x) true (log_held x) (config_held x)) st in
      mkWorld (procs st') (others st) (next st) (name st) (inodes st) (data st) (offset st) (locks st) n
  | OpenTty p t =>
      (* tty_ioctl(4): a session leader without a terminal gets the one it opens *)
      match procs st p with
      | Some x => match at_ x, tty x with
                  | PServe _, None => if session x =? p then put st p (with_ids x (group x) (session x) (Some t)) else st
                  | _, _ => st
                  end
      | None => st
      end
  | Unlink => mkWorld (procs st) (others st) (next st) None (inodes st) (data st) (offset st) (locks st) (disk st)
  | Kill p =>
      match procs st p with
      | Some x => if live x then finish st p x Killed else st
      | None => st
      end
  end.
(** Any number of steps, one after the other. *)
Definition run (st : world) (l : list action) : world := fold_left step l st.

(** At first: process numbers below [n] are taken, by others; the pid file may be left
    over, with any contents. The state before anything is run (daemon/mod.rs 47). *)
Definition boot (n : nat) (left : option (list byte)) (d : nat) : world :=
  mkWorld (fun _ => None) n n (match left with Some _ => Some 0 | None => None end) 1
    (fun i => match left with Some bs => bs | None => [] end) (fun _ => 0) (fun _ => None) d.
