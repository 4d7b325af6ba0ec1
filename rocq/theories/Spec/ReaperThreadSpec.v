(** The reaper's deadlines as a table: the latest one of each name, until it is acted on. *)
From Coq Require Import List NArith Bool.
From Verif Require Import Model.Base Model.Reaper.
Import ListNotations.

Definition name_dec : forall a b : rstr, {a = b} + {a <> b} := list_eq_dec N.eq_dec.
Fixpoint pending_from (d : option N) (l : list deed) (n : rstr) : option N :=
  match l with
  | [] => d
  | Scheduled m t :: l => pending_from (if name_dec n m then Some t else d) l n
  | Reaped m _ _ :: l => pending_from (if name_dec n m then None else d) l n
  end.
Definition pending : list deed -> rstr -> option N := pending_from None.

(** What was sent to the thread before the senders were gone. *)
Fixpoint received (l : list event) : list (rstr * N) :=
  match l with
  | [] => []
  | Message n t :: l => (n, t) :: received l
  | Disconnected :: _ => []
  | Timer _ :: l => received l
  end.
Fixpoint noted (l : list deed) : list (rstr * N) :=
  match l with
  | [] => []
  | Scheduled n t :: l => (n, t) :: noted l
  | Reaped _ _ _ :: l => noted l
  end.
