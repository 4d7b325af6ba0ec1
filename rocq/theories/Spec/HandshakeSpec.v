(** What C67 says about the start of a conversation. *)
From Coq Require Import String List NArith ZArith Bool Arith.
From Verif Require Import Model.Base Model.Version Model.Msgpack Model.Messages Model.Dial Model.Server Model.Handshake.
Import ListNotations.
Open Scope N_scope.

Definition begins {A} (a b : list A) : Prop := exists c, b = a ++ c.

(** The deserializer gives up early only on bytes no continuation of which it could read. *)
Definition patient (unreadable : ty -> list byte -> bool) : Prop :=
  forall t bs more, unreadable t bs = true -> decode_from t (bs ++ more) = None.

(** All the peer has sent: everything up to when it hung up. *)
Fixpoint sent (l : list event) : list byte :=
  match l with
  | [] => []
  | HangUp :: _ => []
  | Arrive bs :: r => bs ++ sent r
  | _ :: r => sent r
  end.

(** For how many milliseconds nothing has come. *)
Definition silence (l : list event) : N :=
  fold_left (fun q e => match e with Wait ms => q + ms | Arrive (_ :: _) => 0 | _ => q end) l 0.

(** The request is to attach. *)
Definition attaching (h : value) : bool :=
  match h with VVar n _ => if list_eq_dec N.eq_dec n (lit "Attach") then true else false | _ => false end.

(** All the daemon has to say to a peer that sent [bs]: its version; and then, if they
    begin with a request, the answer to it if the peer may ask, and else that it may not,
    which only somebody who wants to attach is told. *)
Definition due (version : rstr) (self other : peer) (answer : value -> list byte) (bs : list byte) : list byte :=
  encode_to version_header (VRec [VStr version]) ++
  match decode_from connect_header bs with
  | None => []
  | Some (h, _) =>
      match check_peer self other with
      | Ok _ => answer h
      | Err why => if attaching h then encode_to attach_reply_header (VRec [VVar (lit "Forbidden") (Some (VStr why))]) else []
      end
  end.

(** The events of the connection numbered [id], of which there is none before it is
    accepted; [n] connections were accepted before. *)
Fixpoint own (n id : N) (l : list happening) : list event :=
  match l with
  | [] => []
  | Accept true :: r => own (n + 1) id r
  | Accept false :: r => own n id r
  | At i e :: r => if (i =? id) && (id <=? n) then e :: own n id r else own n id r
  end.
Fixpoint arrivals (l : list happening) : N :=
  match l with [] => 0 | Accept true :: r => 1 + arrivals r | _ :: r => arrivals r end.

(** The daemon has waited in vain for [ms] milliseconds. *)
Definition waited (ms : N) (f : front) : Prop := exists q, at_d f = DRequest q /\ ms <= q.

(** A stretch of a schedule in which both programs get a turn, and the user, if asked,
    answers. *)
Definition round (l : list move) : Prop :=
  (exists k, In (Daemon k) l) /\ (exists k, In (Client k) l) /\ In (Key (GotByte 10)) l.
(** The client is not killed and its terminal does not fail. *)
Definition unharmed (m : move) : Prop := m <> Dies /\ m <> Key ReadError.
