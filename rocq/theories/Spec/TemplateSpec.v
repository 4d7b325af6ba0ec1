(** The template language, stated as a grammar. *)
From Coq Require Import List NArith.
Import ListNotations.
Open Scope N_scope.

Inductive piece := Letter (c : N) | Hole (name : list N).

Section TemplateGrammar.
  Variable numeric alphanumeric : N -> Prop.

  (** A variable name: not empty, not starting with something numeric, made of
      alphanumerics and underscores. *)
  Definition var_name (v : list N) : Prop :=
    (exists c rest, v = c :: rest /\ ~ numeric c) /\
    Forall (fun c => alphanumeric c \/ c = 95) v.

  (** [template_text src ps]: [src] reads as the pieces [ps]. *)
  Inductive template_text : list N -> list piece -> Prop :=
  | tt_nil : template_text [] []
  | tt_letter c s ps : c <> 123 -> template_text s ps -> template_text (c :: s) (Letter c :: ps)
  | tt_hole v s ps : var_name v -> template_text s ps ->
      template_text (123 :: v ++ 125 :: s) (Hole v :: ps).
End TemplateGrammar.

(** Substitution: [value v] is the variable's value, [None] if unset. *)
Fixpoint fill (value : list N -> option (list N)) (ps : list piece) : list N :=
  match ps with
  | [] => []
  | Letter c :: ps' => c :: fill value ps'
  | Hole v :: ps' => match value v with Some x => x | None => [] end ++ fill value ps'
  end.
