(** When the message of the day is due, and the pager's schedule, independently of the code. *)
From Coq Require Import List NArith ZArith Bool.
From Verif Require Import Model.Base Model.Chunk Model.Protocol Model.Pager.
Import ListNotations.
Open Scope Z_scope.

(** A clock that never goes back: each call reads it twice, after everything before. *)
Fixpoint clock_forward (now : Z) (calls : list (Z * Z)) : Prop :=
  match calls with
  | [] => True
  | (t1, t2) :: calls' => now <= t1 /\ t1 <= t2 /\ clock_forward t2 calls'
  end.

(** Call number [i] happened at [t1]..[t2] and was answered [b]. *)
Definition answered (calls : list (Z * Z)) (outs : list (result bool unit)) (i : nat) (t1 t2 : Z) (b : bool) : Prop :=
  nth_error calls i = Some (t1, t2) /\ nth_error outs i = Some (Ok b).

(** The sizes asked for in a schedule, in order. *)
Definition sizes_of (es : list pager_event) : list tty_size :=
  flat_map (fun e => match e with Resize s => [s] | _ => [] end) es.

Definition ok_bytes (r : result (list N) unit) : list N := match r with Ok bs => bs | Err _ => [] end.

(** What the pager printed / the user typed in a schedule. *)
Definition printed (es : list pager_event) : list N :=
  flat_map (fun e => match e with Turn t => if pty_ready t then ok_bytes (pty_read t) else [] | _ => [] end) es.
Definition keyed (es : list pager_event) : list N :=
  flat_map (fun e => match e with Turn t => if client_ready t then ok_bytes (client_read t) else [] | _ => [] end) es.

(** The user-visible bytes of a list of frames. *)
Definition data_of (cs : list chunk) : list N :=
  flat_map (fun c => match c_kind c with Data => c_buf c | _ => [] end) cs.
