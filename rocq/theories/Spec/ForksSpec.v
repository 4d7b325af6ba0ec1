(** What becoming a daemon should come to, stated without the steps of it. *)
From Coq Require Import List NArith Bool Arith.
From Verif Require Import Model.Base Model.Forks.
Import ListNotations.
Open Scope nat_scope.

(** [p] is the process that was started as [l] with [s], or a descendant of it. *)
Inductive descends (st : world) : nat -> nat -> start -> Prop :=
| Itself l y s : procs st l = Some y -> born y = Started s -> descends st l l s
| From p x l s : procs st p = Some x -> (forall s', born x <> Started s') -> descends st (parent x) l s -> descends st p l s.

Definition serving (st : world) (p : nat) (x : process) : Prop := procs st p = Some x /\ exists k, at_ x = PServe k.

(** Cut off from where [l] was started with [s]. *)
Record cut_off (st : world) (p : nat) (x : process) (l : nat) (s : start) : Prop := {
  another_process : p <> l;
  no_terminal : tty x = None;
  another_session : session x <> s_session s /\ others st <= session x;
  another_group : group x <> s_group s /\ group x <> l /\ others st <= group x;
  leads_nothing : session x <> p /\ group x <> p;      (* so opening a terminal does not get it one *)
  alone_there : forall q y, procs st q = Some y -> live y = true -> session y = session x \/ group y = group x -> q = p \/ q = parent x;
  root_dir : dir x = lit "/";
  no_mask : mask x = 0%N;
  std_null : forall n, n < 3 -> files x n = Some (Null false);
  other_files : forall n, 3 <= n -> files x n = s_files s n;   (* in particular the pid file is closed *)
  no_pid_file : forall n o, s_files s n <> Some (PidFile o) -> files x n <> Some (PidFile o)
}.

(** As it was started. *)
Record as_started (p : nat) (x : process) (s : start) : Prop := {
  same_tty : tty x = s_tty s;
  same_session : session x = s_session s;
  same_group : group x = if s_leads s then p else s_group s;
  same_dir : dir x = s_dir s;
  same_mask : mask x = s_mask s;
  same_files : forall n, files x n = s_files s n \/ (n < 3 /\ s_files s n = None /\ files x n = Some (Null true))
}.

(** How often the thread that watches the configuration files of [p] got to run, other than
    to write to the log, and how often to write to the log. *)
Fixpoint worked (p : nat) (l : list action) : nat :=
  match l with
  | [] => 0
  | Watch q false :: l => if q =? p then S (worked p l) else worked p l
  | _ :: l => worked p l
  end.
Fixpoint logged (p : nat) (l : list action) : nat :=
  match l with
  | [] => 0
  | Watch q true :: l => if q =? p then S (logged p l) else logged p l
  | _ :: l => logged p l
  end.
