(** What the messages about a bad keybinding say of its text. *)
From Coq Require Import List NArith.
From Verif Require Import Model.Base Model.Keybindings Spec.KeySpec.
Import ListNotations.
Open Scope N_scope.

(** The keys of [c], joined by dashes, stand in the text (blanks apart). *)
Definition piece (src : rstr) (c : mchord) : Prop :=
  exists pre post, no_blanks src = pre ++ join_with 45 c ++ post.

(** The message [e] is true of the text.  The last line: messages never shown. *)
Definition why (src : rstr) (e : kb_error) : Prop :=
  match e with
  | UnexpectedChar x => In x src /\ ~ sym_char x /\ x <> 45
  | UnexpectedDash => In 45 src
  | CtrlAlone c => piece src c /\ c = [lit "Ctrl"]
  | NotCtrl c => piece src c /\ exists k1 k2, c = [k1; k2] /\ k1 <> lit "Ctrl"
  | CtrlRepeated c => piece src c /\ c = [lit "Ctrl"; lit "Ctrl"]
  | InvalidChord c => piece src c /\ (2 < length c)%nat
  | UnknownCode c => piece src c /\ exists x, c = [lit "Ctrl"; [x]] /\ sym_char x /\ shpool_byte (Ctrl (Sym x)) = None
  | InvalidKey _ | TooManyChords | Panic | TrieBug => False
  end.
