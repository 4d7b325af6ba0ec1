(** Observing an attach client from outside. *)
From Coq Require Import List NArith ZArith Bool.
From Verif Require Import Model.Base Model.Protocol Model.Pipe Model.AttachClient Spec.TemplateSpec Spec.ShellEnvSpec.
Import ListNotations.

(** The session name a template denotes under a list of variables (the last value of
    a variable counts; unset variables are empty). *)
Definition denoted (ps : list piece) (vars : var_list) : rstr := fill (fun v => last_value v vars) ps.

(** The last variable map among what the client was told. *)
Fixpoint last_map (told : list answer) : option var_list :=
  match told with
  | [] => None
  | a :: rest =>
      match last_map rest with
      | Some v => Some v
      | None => match a with AVars v => Some v | APipe (Switch v) => Some v | _ => None end
      end
  end.

(** Counting what the client did. *)
Fixpoint count (f : act -> bool) (t : list act) : nat :=
  match t with
  | [] => O
  | e :: t' => if f e then S (count f t') else count f t'
  end.
Definition is_attach (e : act) : bool := match e with Request (Attach _) => true | _ => false end.
Definition is_detach (e : act) : bool := match e with Request (Detach _) => true | _ => false end.
Definition is_stream (e : act) : bool := match e with Stream => true | _ => false end.
Definition is_sleep (e : act) : bool := match e with Sleep _ => true | _ => false end.
Definition is_exit (e : act) : bool := match e with Exits _ => true | _ => false end.
Definition attaches := count is_attach.
Definition detaches := count is_detach.
Definition streams := count is_stream.
Definition sleeps := count is_sleep.
Definition exits := count is_exit.
