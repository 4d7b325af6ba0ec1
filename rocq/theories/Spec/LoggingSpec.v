(** What a log is to hold. *)
From Coq Require Import String List NArith ZArith Bool Arith.
From Verif Require Import Model.Base Model.Msgpack Model.Messages Spec.WireSpec Model.Logging.
Import ListNotations.
Open Scope N_scope.

(** What is shown at each level, and the level that -v, -vv and so on ask for. *)
Definition shown (l : WireSpec.level) : list severity :=
  match l with
  | LOff => []
  | LError => [SError]
  | LWarn => [SError; SWarn]
  | LInfo => [SError; SWarn; SInfo]
  | LDebug => [SError; SWarn; SInfo; SDebug]
  | LTrace => [SError; SWarn; SInfo; SDebug; STrace]
  end.
Inductive begins_at : N -> WireSpec.level -> Prop :=
| b_plain : begins_at 0 LInfo
| b_verbose : begins_at 1 LDebug
| b_more n : 1 < n -> begins_at n LTrace.
(** The same in the model's terms. *)
Definition filter_at (l : WireSpec.level) : filter :=
  match l with LOff => FOff | LError => FError | LWarn => FWarn | LInfo => FInfo | LDebug => FDebug | LTrace => FTrace end.

(** A request for a level. *)
Definition wants (v : value) (l : WireSpec.level) : Prop := v = request_message (SetLogLevel l).

(** What program [p] is to log in a stretch of history that finds it at level [now], and the
    level it is at in the end, if it still runs then. *)
Definition sets (p : nat) (daemon : bool) (a : action) : Prop := daemon = true /\ exists v l taken, a = Level p v taken /\ wants v l.
Inductive record (p : nat) (daemon : bool) : option WireSpec.level -> list action -> list byte -> option WireSpec.level -> Prop :=
| r_end now : record p daemon now [] [] now
| r_over a h : record p daemon None h [] None -> record p daemon None (a :: h) [] None
| r_shown now s b h r later : In s (shown now) -> record p daemon (Some now) h r later -> record p daemon (Some now) (Log p s b :: h) (b ++ r) later
| r_hidden now s b h r later : ~ In s (shown now) -> record p daemon (Some now) h r later -> record p daemon (Some now) (Log p s b :: h) r later
| r_level now v l h r later : daemon = true -> wants v l -> record p daemon (Some l) h r later -> record p daemon (Some now) (Level p v true :: h) r later
| r_stuck now v l h r later : daemon = true -> wants v l -> In SError (shown now) -> record p daemon (Some now) h r later ->
    record p daemon (Some now) (Level p v false :: h) (lit "modifying log level: " ++ r) later
| r_stuck_hidden v l h r later : daemon = true -> wants v l -> record p daemon (Some LOff) h r later ->
    record p daemon (Some LOff) (Level p v false :: h) r later
| r_error now b h : In SError (shown now) -> record p daemon None h [] None -> record p daemon (Some now) (Finish p (Some b) :: h) b None
| r_error_hidden b h : record p daemon None h [] None -> record p daemon (Some LOff) (Finish p (Some b) :: h) [] None
| r_done now h : record p daemon None h [] None -> record p daemon (Some now) (Finish p None :: h) [] None
| r_other now a h r later : (forall s b, a <> Log p s b) -> (forall e, a <> Finish p e) -> ~ sets p daemon a ->
    record p daemon (Some now) h r later -> record p daemon (Some now) (a :: h) r later.

(** Where it goes: to the log file if there is one, and else to the daemon's standard error
    stream. *)
Definition alone (path : rstr) (h : list action) : Prop := forall q d v c, ~ In (Start q d (Some path) v c) h.
(** The words for the levels. *)
Definition called (l : WireSpec.level) : list byte :=
  match l with LOff => lit "off" | LError => lit "error" | LWarn => lit "warn" | LInfo => lit "info" | LDebug => lit "debug" | LTrace => lit "trace" end.
(** Bytes written over others from a place on: there they are; before and after it is as it
    was, with zeros where there was nothing before. *)
Definition overwritten (was : list byte) (place : nat) (bytes now : list byte) : Prop :=
  length now = Nat.max (length was) (place + length bytes) /\
  forall i, (place <= i < place + length bytes -> nth_error now i = nth_error bytes (i - place))%nat /\
    ((i < place \/ place + length bytes <= i) -> i < length was -> nth_error now i = nth_error was i)%nat /\
    (length was <= i < place -> nth_error now i = Some 0%N)%nat.
