(** Vocabulary for the properties of the configuration watcher. *)
From Coq Require Import List NArith ZArith Bool Arith.
From Verif Require Import Model.Base Model.ConfigWatcher.
Import ListNotations.
Open Scope nat_scope.

(** [a] is [p] or a directory above it: a leading part of its components, and for an
    absolute path not less than "/". *)
Definition above (a p : path) : Prop :=
  (exists rest, p = a ++ rest) /\ (hd_error p = Some (lit "/") -> a <> []).

(** The nearest of the places above [p] that can be watched. *)
Definition nearest (f : fs) (a p : path) : Prop :=
  above a p /\ can_watch f a = true /\ forall b, above b p -> length a < length b -> can_watch f b = false.

Definition target (st : watcher) (p : path) : Prop := In p (map fst (paths st)).

(** The target's entry names a place above it that notify is watching. *)
Definition watched (st : watcher) (p : path) : Prop :=
  exists w child, In (p, (w, child)) (paths st) /\ above w p /\ In w (watches st) /\ child = firstn (S (length w)) p.
Definition all_watched (st : watcher) : Prop := forall p, target st p -> watched st p.

(** Something above [p] can be watched, and no symbolic link is on the way. *)
Definition plain (f : fs) (p : path) : Prop :=
  (exists a, above a p /\ can_watch f a = true) /\
  (forall a, above a p -> canonical f a = Some a \/ canonical f a = None).

Definition wreachable (d : nat) (st : watcher) : Prop := exists l, st = wrun (watcher_new d) l.

(** Kinds of event about a file that call for a reload of it. *)
Definition changes (k : kind) : Prop := k = Create \/ k = Remove \/ k = Rename \/ k = Modify.

(** The event says that something was created, removed or renamed where [p] is
    waited for: at the place watched or at the next step towards the target. *)
Definition concerns (ev : event) (st : watcher) (p : path) : Prop :=
  exists w child, In (p, (w, child)) (paths st) /\ (In w (e_paths ev) \/ In child (e_paths ev)).

(** The targets the watcher sets up anew in a turn of its loop: the ones concerned
    by a creation, removal or renaming, or all of them if notify asks for it or
    reports an error. *)
Definition afresh (st : watcher) (o : outcome) (p : path) : Prop :=
  match o with
  | WEvent _ ev =>
    if e_rescan ev then target st p
    else (e_kind ev = Create \/ e_kind ev = Remove \/ e_kind ev = Rename) /\ concerns ev st p
  | WError _ => target st p
  | _ => False
  end.

(** The file system a turn of the loop meets. *)
Definition meets (o : outcome) (good : fs -> Prop) : Prop :=
  match o with WEvent f _ | WError f | WAdd f _ => good f | _ => True end.

(** What calls for a reload. *)
Definition calls_for_reload (st : watcher) (o : outcome) : Prop :=
  match o with
  | WEvent f ev =>
    e_rescan ev = true \/
    (changes (e_kind ev) /\ exists p, target st p /\ In p (e_paths ev)) \/
    (exists p, afresh st o p /\ can_watch f p = true)
  | WError f => exists p, target st p /\ can_watch f p = true
  | WAdd f p => ~ target st (canonicalize_path f p) /\ can_watch f (canonicalize_path f p) = true
  | _ => False
  end.

(** The file system is plain for all the targets, the one being added included. *)
Definition plainly (st : watcher) (o : outcome) : Prop :=
  (forall p, target st p -> meets o (fun f => plain f p)) /\
  match o with WAdd f p => plain f (canonicalize_path f p) | _ => True end.

(** The reloads, oldest first, come at least [d] apart. *)
Fixpoint spaced (d : nat) (l : list nat) : Prop :=
  match l with
  | [] => True
  | a :: r => match r with [] => True | b :: _ => a + d <= b end /\ spaced d r
  end.

(** A turn in which no more than one target is set up anew, and one that shares its
    place with no other. *)
Definition alone (st : watcher) (o : outcome) : Prop :=
  forall p w c q w' c', afresh st o p -> In (p, (w, c)) (paths st) -> In (q, (w', c')) (paths st) -> q <> p -> ~ afresh st o q /\ w' <> w.
