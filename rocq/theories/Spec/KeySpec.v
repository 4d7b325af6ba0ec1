(** Keys, chords and key sequences as the documentation of the keybinding
    language describes them, and what a terminal sends for them. *)
From Coq Require Import List NArith Bool.
From Verif Require Import Model.Base Spec.TrieSpec.
Import ListNotations.
Open Scope N_scope.

(** The keys that can be written: the space bar, lowercase letters, digits and a
    few symbols. *)
Inductive key := SpaceBar | Sym (c : N).

Definition sym_char (c : N) : Prop :=
  97 <= c <= 122 \/ 48 <= c <= 57 \/ In c (lit "\[]@^_?").

Definition key_ok (k : key) : Prop := match k with SpaceBar => True | Sym c => sym_char c end.

(** A chord is one key, alone or with Ctrl held. *)
Inductive chord := Plain (k : key) | Ctrl (k : key).

Definition chord_key (c : chord) : key := match c with Plain k => k | Ctrl k => k end.

Definition key_name (k : key) : rstr := match k with SpaceBar => lit "Space" | Sym c => [c] end.

Definition chord_text (c : chord) : rstr :=
  match c with Plain k => key_name k | Ctrl k => lit "Ctrl-" ++ key_name k end.

(** The text of a sequence of chords with the blanks between them left out. *)
Definition squeezed (cs : list chord) : rstr := concat (map chord_text cs).

Definition no_blanks (s : rstr) : rstr := filter (fun c => negb (is_whitespace c)) s.

(** [writes src cs]: the text [src] writes down the sequence [cs]; blanks do not
    matter. *)
Definition writes (src : rstr) (cs : list chord) : Prop :=
  no_blanks src = squeezed cs /\ Forall (fun c => key_ok (chord_key c)) cs.

(** The byte a terminal sends: ASCII for a plain key, the ASCII control code for
    Ctrl and a letter or one of @ [ \ ] ^ _ ?, and the xterm codes for Ctrl and a
    digit (there is none for 1 and 9). *)
Definition terminal_byte (c : chord) : option N :=
  match c with
  | Plain SpaceBar => Some 32
  | Plain (Sym x) => Some x
  | Ctrl SpaceBar => Some 0
  | Ctrl (Sym x) =>
      if (97 <=? x) && (x <=? 122) then Some (x - 96)
      else if x =? 64 then Some 0
      else if (91 <=? x) && (x <=? 95) then Some (x - 64)
      else if x =? 63 then Some 127
      else if x =? 50 then Some 0
      else if (51 <=? x) && (x <=? 55) then Some (x - 24)
      else if (x =? 56) || (x =? 48) then Some 127
      else None
  end.

(** The byte shpool listens for: the same, with Ctrl-x and Ctrl-y exchanged. *)
Definition shpool_byte (c : chord) : option N :=
  match c with
  | Ctrl (Sym 120) => Some 25
  | Ctrl (Sym 121) => Some 24
  | _ => terminal_byte c
  end.

(** What shpool accepts beyond the documented language: after the sequence there
    may be a dangling dash (if there is a chord before it) and a word cut short. *)
Definition cut_word (w : rstr) : Prop :=
  exists rest, rest <> [] /\ (w ++ rest = lit "Ctrl" \/ w ++ rest = lit "Space").

Definition reads (src : rstr) (cs : list chord) : Prop :=
  Forall (fun c => key_ok (chord_key c) /\ shpool_byte c <> None) cs /\
  exists dash w, no_blanks src = squeezed cs ++ dash ++ w /\ cut_word w /\
    (dash = [] \/ dash = lit "-" /\ cs <> []).

(** A configuration: key sequences and what they do, in the order of the file. *)
Definition keymap (A : Type) := list (list chord * A).

(** [chord_of m b c]: typing byte [b] counts as chord [c]: the last chord written
    in the configuration that has this byte. *)
Definition chord_of {A} (m : keymap A) (b : N) (c : chord) : Prop :=
  exists l1 l2, concat (map fst m) = l1 ++ c :: l2 /\ shpool_byte c = Some b /\
    forall c', In c' l2 -> shpool_byte c' <> Some b.

(** Typing one byte when [s] are the chords typed so far towards some binding. *)
Inductive verdict (A : Type) := Nothing | Pending | Fires (a : A).
Arguments Nothing {A}.
Arguments Pending {A}.
Arguments Fires {A} a.

Inductive typed {A} (m : keymap A) (s : list chord) (b : N) : verdict A -> list chord -> Prop :=
| typed_other : (forall c, ~ chord_of m b c) -> typed m s b Nothing []
| typed_fires c a : chord_of m b c -> bound m (s ++ [c]) a -> typed m s b (Fires a) []
| typed_pending c : chord_of m b c -> ~ inserted m (s ++ [c]) ->
    (exists q, inserted m q /\ prefix (s ++ [c]) q) -> typed m s b Pending (s ++ [c])
| typed_fails c : chord_of m b c -> ~ (exists q, inserted m q /\ prefix (s ++ [c]) q) ->
    typed m s b Nothing [].

Inductive typed_all {A} (m : keymap A) : list chord -> list N -> list (verdict A) -> list chord -> Prop :=
| ta_nil s : typed_all m s [] [] s
| ta_cons s b v s1 bs vs s2 : typed m s b v s1 -> typed_all m s1 bs vs s2 ->
    typed_all m s (b :: bs) (v :: vs) s2.

(** The bytes of a sequence of chords. *)
Definition bytes_of (cs : list chord) (bs : list N) : Prop :=
  Forall2 (fun c b => shpool_byte c = Some b) cs bs.

Definition byte_stream (bs : list N) : Prop := Forall (fun x => x < 256) bs.

(** [denotes_keymap cfg m]: the configuration text [cfg] writes the keymap [m]. *)
Definition denotes_keymap {A} (cfg : list (rstr * A)) (m : keymap A) : Prop :=
  Forall2 (fun e e' => reads (fst e) (fst e') /\ snd e = snd e') cfg m.
