(** Other users of the machine. *)
From Coq Require Import String List NArith ZArith Bool.
From Verif Require Import Model.Base Model.Msgpack Model.Messages Model.Server Model.Handshake Model.EventBus Spec.PathSpec Model.SessionFiles Model.Doors
  Spec.SessionFilesSpec Spec.EventBusSpec.
Import ListNotations.
Open Scope N_scope.

(** Another user, and one who is not the superuser; which bits count for them. *)
Definition another (self : peer) (c : caller) : Prop := p_uid (as_peer c) <> p_uid self.
Definition ordinary (c : caller) : Prop := p_uid (as_peer c) <> 0.
Definition kind_of (c : caller) : stranger := if in_group c then Group else Other.

(** The umask takes writing from them. *)
Definition takes_writing (umask : N) (s : stranger) : Prop := N.testbit umask (w_bit s) = true.

(** [c] is on the events socket and has been sent [text]. *)
Definition hears (d : doors) (c : caller) (text : rstr) : Prop :=
  exists i b, nth_error (listeners d) i = Some c /\ subscriber (the_bus d) i b /\ b_sent b = text.

(** All that is ever said to another user on the control socket. *)
Definition rebuff (version : rstr) (text : list N) : Prop :=
  text = encode_to version_header (VRec [VStr version]) \/
  text = encode_to version_header (VRec [VStr version]) ++
    encode_to attach_reply_header (VRec [VVar (lit "Forbidden") (Some (VStr (lit "shpool prohibits connections across users")))]).

(** What happened on connection [i] in [l]. *)
Definition said (i : nat) (l : list knock) : list Handshake.event :=
  flat_map (fun k => match k with OnControl j e => if Nat.eqb j i then [e] else [] | _ => [] end) l.
(** The calls of the control socket that get through. *)
Definition got_through (through : caller -> bool) (l : list knock) : list caller :=
  flat_map (fun k => match k with DialControl c => if through c then [c] else [] | _ => [] end) l.
