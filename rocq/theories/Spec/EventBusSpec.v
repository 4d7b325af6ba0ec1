(** Vocabulary for the properties of the events socket. *)
From Coq Require Import List NArith ZArith Bool Arith.
From Verif Require Import Model.Base Model.Server Model.EventBus.
Import ListNotations.
Open Scope nat_scope.

Definition bus_reachable (st : bus) : Prop := exists l, st = bus_run bus_new l.

(** The line an event is sent as, spelt out. *)
Definition line (e : ev_kind) : rstr :=
  lit (match e with
       | ECreated => "{""type"":""session.created""}"
       | EAttached => "{""type"":""session.attached""}"
       | EDetached => "{""type"":""session.detached""}"
       | ERemoved => "{""type"":""session.removed""}"
       end) ++ [10%N].
Definition wire (es : list ev_kind) : rstr := concat (map line es).

Definition is_prefix {A} (p l : list A) : Prop := exists rest, l = p ++ rest.

(** Subscriber [i], connected or dropped. *)
Definition find_sub (i : nat) (l : list sub) : option sub := find (fun b => b_id b =? i) l.
Definition subscriber (st : bus) (i : nat) (b : sub) : Prop :=
  find_sub i (subs st) = Some b \/ find_sub i (gone st) = Some b.

(** The same step, except for what the kernel says about subscribers other than
    [i]. *)
Definition alike (i : nat) (a a' : bus_action) : Prop :=
  match a, a' with
  | BPublish e, BPublish e' => e' = e
  | BWake, BWake | BConnect, BConnect | BAcceptFailed, BAcceptFailed => True
  | BAccept ok, BAccept ok' => ok' = ok
  | BPoll r s, BPoll r' s' => r' i = r i /\ s' = s
  | BRecv os, BRecv os' | BDrive os, BDrive os' => os' i = os i
  | _, _ => False
  end.

(** Sockets that take what they are given, and one round of the sink: poll, accept
    whoever connected, take the events from the channel, write. *)
Definition greedy : nat -> list wres := fun _ => repeat (Wrote 28) 64.
Definition round (st : bus) : list bus_action :=
  BPoll (fun _ => Writable) false :: repeat (BAccept true) (S (length (backlog st))) ++ repeat (BRecv greedy) (S (length (channel st))) ++ [BDrive greedy].

(** What poll reported of subscriber [i], in a turn of the sink. *)
Definition reported (l : list sub) (ready : list (nat * revent)) (i : nat) (r : revent) : Prop :=
  exists p b, In (p, r) ready /\ nth_error l p = Some b /\ b_id b = i.
(** A socket that is broken, and one that is not, though it may be full. *)
Definition broken (ws : list wres) : Prop := exists n r, ws = repeat Interrupted n ++ Broken :: r.
Definition sane (ws : list wres) : Prop := ~ In Broken ws /\ ~ In (Wrote 0) ws.

(** Lines of a text: each ends with a line feed, or with a carriage return and a line
    feed. *)
Definition ended (l : rstr * bool) : rstr := fst l ++ (if snd l then [13%N] else []) ++ [10%N].
Definition a_line (l : rstr * bool) : Prop := ~ In 10%N (fst l) /\ (snd l = false -> last (fst l) 0%N <> 13%N).
