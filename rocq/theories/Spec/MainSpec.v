(** Steps done in order, up to the first that fails. *)
From Coq Require Import String List NArith ZArith Bool.
From Verif Require Import Model.Base Model.Launch Model.Main.
Import ListNotations.

(** The error a step ends with. *)
Definition fails (w : outside) (e : effect) : option rstr :=
  match e with
  | EmptyLog _ => o_log w
  | MakeDir _ => o_dir w
  | ReadConfig _ => match o_config w with inl e => Some e | inr _ => None end
  | FindDaemon _ => o_launch w
  | Command _ _ => o_command w
  end.
Inductive in_order (w : outside) : list effect -> list effect -> option (effect * rstr) -> Prop :=
| io_end : in_order w [] [] None
| io_fail e err rest : fails w e = Some err -> in_order w (e :: rest) [e] (Some (e, err))
| io_step e rest done how : fails w e = None -> in_order w rest done how -> in_order w (e :: rest) (e :: done) how.
(** A program with nothing of its own to print: what its user sees of how it went. *)
Definition is_command (e : effect) : bool := match e with Command _ _ => true | _ => false end.
Definition seen (how : option (effect * rstr)) (e : end_) : Prop :=
  out e = [] /\
  match how with
  | None => status e = 0%Z /\ told e = None /\ logged e = None
  | Some (step, err) => status e = 1%Z /\
      if is_command step then told e = None /\ logged e = Some err
      else told e = Some (lit "Error: " ++ err ++ [10%N]) /\ logged e = None
  end.
(** Launching a daemon is considered unless the configuration says no and -d is not given;
    and it is done for all commands but the daemon itself, unless -D is given. *)
Definition considered (nodaemonize : option bool) (a : arguments) : bool :=
  a_daemonize a || match nodaemonize with Some true => false | _ => true end.
Definition wanted (nodaemonize : option bool) (a : arguments) : Prop :=
  considered nodaemonize a = true /\ a_no_daemonize a = false /\ a_is_daemon a = false.
(** The value of a variable that makes a daemon print a word and nothing else. *)
Definition asks_for_word (w : outside) (a : arguments) : Prop :=
  a_is_daemon a = true /\ (o_vars w (lit "SHPOOL__INTERNAL__PRINT_SENTINEL") = Some (lit "prompt") \/ o_vars w (lit "SHPOOL__INTERNAL__PRINT_SENTINEL") = Some (lit "startup")).
