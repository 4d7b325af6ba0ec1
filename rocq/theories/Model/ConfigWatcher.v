(** Model of libshpool/src/config_watcher.rs: watching the configuration files and
    scheduling reloads.

    The file system and the notify crate are external: whether a path can be watched
    or canonicalized at the moment it is tried is an argument of every step, and so
    are the events notify reports.  A watch is known to notify by its path.

    Time is counted in milliseconds by the worker's clock. *)
From Coq Require Import List NArith ZArith Bool Arith.
From Verif Require Import Model.Base.
Import ListNotations.
Open Scope nat_scope.

(** A std::path::Path by its components; the first one is "/" if the path is
    absolute. Paths as config_watcher.rs 37-82 handles them. *)
Definition path := list rstr.
(** Rust's library: equality of paths. *)
Definition slash : rstr := lit "/".

(** Rust's library: [==] on paths. *)
Fixpoint path_eqb (a b : path) : bool :=
  match a, b with
  | [], [] => true
  | x :: a', y :: b' => str_eqb x y && path_eqb a' b'
  | _, _ => false
  end.

(** Path::ancestors: the path, its parent, and so on to "/" or to "". Used in
    config_watcher.rs 44 and 65. *)
Fixpoint ups (reversed : path) : list path :=
  match reversed with
  | [] => [[]]
  | c :: r =>
    rev (c :: r) :: match r with
                    | [] => if str_eqb c slash then [] else ups r
                    | _ => ups r
                    end
  end.
(** config_watcher.rs 44. *)
Definition ancestors (p : path) : list path := ups (rev p).

(** Path::strip_prefix. Used in config_watcher.rs 76-78. *)
Fixpoint strip_prefix (base p : path) : option path :=
  match base, p with
  | [], _ => Some p
  | x :: base', y :: p' => if str_eqb x y then strip_prefix base' p' else None
  | _ :: _, [] => None
  end.

(** What the file system answers at the moment it is asked. config_watcher.rs 39-45, 66,
    469. *)
Record fs := mkFs {
  can_watch : path -> bool;             (* notify's Watcher::watch *)
  canonical : path -> option path       (* Path::canonicalize *)
}.

(** config_watcher.rs 37-55. *)
Fixpoint canonicalize_from (f : fs) (p : path) (l : list path) : path :=
  match l with
  | [] => p
  | a :: r =>
    match canonical f a with
    | Some c => match strip_prefix a p with Some rest => c ++ rest | None => canonicalize_from f p r end
    | None => canonicalize_from f p r
    end
  end.
(** config_watcher.rs 37-55. *)
Definition canonicalize_path (f : fs) (p : path) : path :=
  match canonical f p with
  | Some c => c
  | None => canonicalize_from f p (tl (ancestors p))
  end.

(** notify's table of watches. The notify crate, as config_watcher.rs 66 and 345-374 use it. *)
Definition unwatch (w : path) (ws : list path) : list path := filter (fun x => negb (path_eqb x w)) ws.
(** The notify crate, as above. *)
Definition watch (w : path) (ws : list path) : list path := unwatch w ws ++ [w].

(** config_watcher.rs 59-82.  [None]: no ancestor could be watched (the error). *)
Fixpoint first_watchable (f : fs) (l : list path) : option path :=
  match l with
  | [] => None
  | a :: r => if can_watch f a then Some a else first_watchable f r
  end.
Definition best_effort_watch (f : fs) (ws : list path) (p : path) : option (path * option rstr * list path) :=
  match first_watchable f (ancestors p) with
  | None => None
  | Some w =>
    match strip_prefix w p with
    | Some rest => Some (w, match rest with [] => None | c :: _ => Some c end, watch w ws)
    | None => None            (* the expect: an ancestor is a prefix *)
    end
  end.

(** ConfigWatcherInner::paths (config_watcher.rs 244-246): target, watched path and
    immediate child. *)
Definition table := list (path * (path * path)).
(** config_watcher.rs 244-246. *)
Definition t_get (k : path) (t : table) : option (path * path) :=
  match find (fun e => path_eqb (fst e) k) t with Some e => Some (snd e) | None => None end.
(** config_watcher.rs 244-246. *)
Definition t_remove (k : path) (t : table) : table := filter (fun e => negb (path_eqb (fst e) k)) t.
(** config_watcher.rs 244-246. *)
Fixpoint t_insert (k : path) (v : path * path) (t : table) : table :=
  match t with
  | [] => [(k, v)]
  | e :: r => if path_eqb (fst e) k then (k, v) :: r else e :: t_insert k v r
  end.

(** config_watcher.rs 462-500.  [None]: the error. *)
Definition watch_and_add (f : fs) (ws : list path) (t : table) (k : path) : option bool * list path * table :=
  match best_effort_watch f ws k with
  | Some (w, ic, ws') =>
    let watched := match canonical f w with Some c => c | None => w end in
    let immediate := watched ++ match ic with Some c => [c] | None => [] end in
    (Some (path_eqb watched k), ws', t_insert k (watched, immediate) t)
  | None => (None, ws, t_remove k t)
  end.

(** notify::Event, as far as handle_event looks at it. config_watcher.rs 423-460. *)
Inductive kind := Create | Remove | Rename | Modify | OtherKind.
(** config_watcher.rs 423-460. *)
Record event := mkEvent { e_kind : kind; e_rescan : bool; e_paths : list path }.
(** config_watcher.rs 415-420 (ReWatch). *)
Inductive rewatching := Some_of (l : list (path * path)) | All.

(** [event.paths.contains], config_watcher.rs 423-460. *)
Definition mentions (ps : list path) (p : path) : bool := existsb (fun x => path_eqb x p) ps.

(** config_watcher.rs 423-457. *)
Definition handle_event (ev : event) (t : table) : rewatching * bool :=
  if e_rescan ev then (All, true)
  else
    let is_original := existsb (fun p => match t_get p t with Some _ => true | None => false end) (e_paths ev) in
    match e_kind ev with
    | Remove | Create | Rename =>
      (Some_of (map (fun e => (fst e, fst (snd e)))
                 (filter (fun e => existsb (fun p => path_eqb p (fst (snd e)) || path_eqb p (snd (snd e))) (e_paths ev)) t)),
       is_original)
    | Modify => (Some_of [], is_original)
    | OtherKind => (Some_of [], false)
    end.

(** config_watcher.rs 345-366.  Iterator::any stops at the first path that needs a
    reload or cannot be watched. *)
Fixpoint rewatch_each (f : fs) (l : list (path * path)) (ws : list path) (t : table) : bool * list path * table :=
  match l with
  | [] => (false, ws, t)
  | (p, w) :: r =>
    match watch_and_add f (unwatch w ws) t p with
    | (Some false, ws', t') => rewatch_each f r ws' t'
    | (_, ws', t') => (true, ws', t')
    end
  end.
(** config_watcher.rs 345-366. *)
Definition rewatch (f : fs) (rw : rewatching) (ws : list path) (t : table) : bool * list path * table :=
  match rw with
  | Some_of l => rewatch_each f l ws t
  | All => rewatch_each f (map (fun e => (fst e, fst (snd e))) t) ws []
  end.

(** config_watcher.rs 225-248 (ConfigWatcherInner), with a log of the calls of its handler. *)
Record watcher := mkWatcher {
  debounce : nat;
  clock : nat;
  deadline : option nat;
  watches : list path;
  paths : table;
  reloads : list nat;          (* the times at which the handler was called *)
  stopped : bool
}.

(** config_watcher.rs 131-190, with_debounce. *)
Definition watcher_new (d : nat) : watcher := mkWatcher d 0 None [] [] [] false.

(** config_watcher.rs 323-327. *)
Definition trigger_reload (st : watcher) : watcher :=
  mkWatcher (debounce st) (clock st) (match deadline st with Some d => Some d | None => Some (clock st + debounce st) end)
            (watches st) (paths st) (reloads st) (stopped st).

(** config_watcher.rs 330-342.  The boolean: whether the request is answered Ok. *)
Definition add_watch_by_command (f : fs) (p : path) (st : watcher) : watcher * bool :=
  let key := canonicalize_path f p in
  match t_get key (paths st) with
  | Some _ => (st, false)
  | None =>
    match watch_and_add f (watches st) (paths st) key with
    | (Some reload, ws, t) =>
      let st' := mkWatcher (debounce st) (clock st) (deadline st) ws t (reloads st) (stopped st) in
      (if reload then trigger_reload st' else st', true)
    | (None, ws, t) => (mkWatcher (debounce st) (clock st) (deadline st) ws t (reloads st) (stopped st), false)
    end
  end.

(** What the worker's select yields (config_watcher.rs 253-263).  [WSwap]: the order
    in which a HashMap is iterated is not determined. *)
Inductive outcome :=
| WEvent (f : fs) (ev : event)
| WError (f : fs)
| WAdd (f : fs) (p : path)
| WTimeout
| WSwap (n : nat)
| WShutdown.

(** HashMap does not fix an order: two neighbours of the table change places. *)
Fixpoint swap {A} (n : nat) (l : list A) : list A :=
  match l, n with
  | a :: b :: r, O => b :: a :: r
  | a :: r, S n' => a :: swap n' r
  | _, _ => l
  end.

(** notify forgets a watch whose file is removed. The notify crate: inotify says IN_IGNORED;
    nothing of config_watcher.rs 345-374 does it. *)
Definition forget (ev : event) (ws : list path) : list path :=
  match e_kind ev with
  | Remove => filter (fun w => negb (mentions (e_paths ev) w)) ws
  | _ => ws
  end.

(** config_watcher.rs 381-395. *)
Definition on_event (f : fs) (rw : rewatching) (reload : bool) (st : watcher) : watcher :=
  match rewatch f rw (watches st) (paths st) with
  | (again, ws, t) =>
    let st' := mkWatcher (debounce st) (clock st) (deadline st) ws t (reloads st) (stopped st) in
    if reload || again then trigger_reload st' else st'
  end.

(** One turn of the loop, config_watcher.rs 376-411; [dt]: the time since the turn
    before.  The timeout can only be selected once the deadline has come. *)
Definition wstep (st : watcher) (a : nat * outcome) : watcher :=
  if stopped st then st else
  let st := mkWatcher (debounce st) (clock st + fst a) (deadline st) (watches st) (paths st) (reloads st) (stopped st) in
  match snd a with
  | WEvent f ev =>
    let st := mkWatcher (debounce st) (clock st) (deadline st) (forget ev (watches st)) (paths st) (reloads st) (stopped st) in
    let (rw, reload) := handle_event ev (paths st) in
    on_event f rw reload st
  | WError f => on_event f All false st
  | WAdd f p => fst (add_watch_by_command f p st)
  | WTimeout =>
    match deadline st with
    | Some d =>
      if d <=? clock st
      then mkWatcher (debounce st) (clock st) None (watches st) (paths st) (reloads st ++ [clock st]) (stopped st)
      else st
    | None => st
    end
  | WSwap n => mkWatcher (debounce st) (clock st) (deadline st) (watches st) (swap n (paths st)) (reloads st) (stopped st)
  | WShutdown => mkWatcher (debounce st) (clock st) (deadline st) (watches st) (paths st) (reloads st) true
  end.

(** config_watcher.rs 376-411, turn by turn. *)
Definition wrun (st : watcher) (l : list (nat * outcome)) : watcher := fold_left wstep l st.
