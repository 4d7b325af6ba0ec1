(** What the user does and sees at the client's end of an attach. *)
From Coq Require Import List NArith ZArith Bool.
From Verif Require Import Model.Base Model.Protocol Model.Chunk Model.Pipe Model.EndToEnd Spec.PipeSpec.
Import ListNotations.
Open Scope nat_scope.

(** What the user typed, as far as the client got to read it. *)
Definition typed_by_user (ts : list stdin_turn) : list N :=
  flat_map (fun t => match polled t with Readable (Ok bs) => bs | _ => [] end) ts.

(** A turn without any failure. *)
Definition good_turn (t : stdin_turn) : Prop :=
  told_to_stop t = false /\
  match polled t with
  | NotYet => True
  | Readable (Ok bs) => bs <> [] /\ length bs <= accepted t /\ flush_ok t = true
  | _ => False
  end.

(** [initial part of]. *)
Definition starts {A} (p l : list A) : Prop := exists rest, l = p ++ rest.

(** The variables sent to the client do not make it switch sessions. *)
Definition no_switch (decode : list N -> option var_list) (follow : var_list -> bool) (cs : list chunk) : Prop :=
  forall c, In c cs -> c_kind c = MaybeSwitch -> exists v, decode (c_buf c) = Some v /\ follow v = false.

(** The status the client's process ends with, if it ends by itself. *)
Definition exit_code (p : pipe) : option Z :=
  match main p with
  | Returned (Exit s) => Some s
  | Died s => Some s
  | _ => None
  end.

(** A client that gets the bytes [stream], after which the connection may have [ended],
    ends with status [st], its terminal showing [data]: however its threads are scheduled
    (if standard output works and the first grace period is not cut short), it ends with
    no other status, not before [data] is shown, it switches to no other session, and it
    does get there. *)
Definition leaves_with (decode : list N -> option var_list) (follow : var_list -> bool) (stream : list N) (ended : bool)
    (st : Z) (data : list N) : Prop :=
  forall schedule, let start := pipe_start (frames_read decode stream ended) in
  kind_run follow schedule start ->
  let p := pipe_run follow schedule start in
  (forall c, exit_code p = Some c -> c = st /\ shown p = data) /\ (forall v, main p <> Returned (Switch v)) /\
  exists more, kind_run follow (schedule ++ more) start /\ exit_code (pipe_run follow (schedule ++ more) start) = Some st.
