(** What the frames a client received say about how its attach ends. *)
From Coq Require Import List NArith ZArith.
From Verif Require Import Model.Base Model.Protocol Model.Pipe.
Import ListNotations.

Section PipeSpec.
  Variable follow : var_list -> bool.

  (** A frame that ends the attach, and how. *)
  Inductive decides : frame_in -> pipe_result -> Prop :=
  | dec_exit s : decides (FExit s) (Exit s)
  | dec_switch v : follow v = true -> decides (FSwitch v) (Switch v).

  (** A frame that leaves the client streaming. *)
  Inductive harmless : frame_in -> Prop :=
  | harm_idle : harmless FIdle
  | harm_show b : harmless (FShow b)
  | harm_switch v : follow v = false -> harmless (FSwitch v).

  (** [concludes received r]: the last received frame says so, or no frame says
      anything and the result is the fallback. *)
  Inductive concludes (received : list frame_in) : pipe_result -> Prop :=
  | conc_frame before f r : received = before ++ [f] -> Forall harmless before -> decides f r -> concludes received r
  | conc_default : (forall f r, In f received -> ~ decides f r) -> concludes received (Exit 1).
End PipeSpec.

(** What data frames put on the terminal. *)
Fixpoint displayed (fs : list frame_in) : list N :=
  match fs with
  | [] => []
  | FShow b :: fs' => b ++ displayed fs'
  | _ :: fs' => displayed fs'
  end.

(** Standard output works, and the first grace period is never cut short. *)
Definition kind_event (p : pipe) (e : pipe_event) : Prop :=
  match e with
  | SockGo false => False
  | MainGo true => main p <> Grace1
  | _ => True
  end.

Fixpoint kind_run (follow : var_list -> bool) (es : list pipe_event) (p : pipe) : Prop :=
  match es with
  | [] => True
  | e :: es' => kind_event p e /\ kind_run follow es' (pipe_step follow p e)
  end.
