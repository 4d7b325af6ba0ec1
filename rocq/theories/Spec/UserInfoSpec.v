(** UTF-8, and what becomes of bytes that are not. *)
From Coq Require Import List NArith.
Import ListNotations.
Open Scope N_scope.

(** The Unicode scalar values: everything up to U+10FFFF but the surrogates. *)
Definition scalar (c : N) : Prop := c < 0xD800 \/ 0xE000 <= c < 0x110000.

(** The encoding: [encodes c bs]. *)
Inductive encodes : N -> list N -> Prop :=
| e_one c : c < 0x80 -> encodes c [c]
| e_two x y : x < 32 -> y < 64 -> 0x80 <= x * 64 + y -> encodes (x * 64 + y) [0xC0 + x; 0x80 + y]
| e_three x y z : x < 16 -> y < 64 -> z < 64 -> 0x800 <= x * 4096 + y * 64 + z -> scalar (x * 4096 + y * 64 + z) ->
    encodes (x * 4096 + y * 64 + z) [0xE0 + x; 0x80 + y; 0x80 + z]
| e_four x y z t : x < 8 -> y < 64 -> z < 64 -> t < 64 ->
    0x10000 <= x * 262144 + y * 4096 + z * 64 + t < 0x110000 ->
    encodes (x * 262144 + y * 4096 + z * 64 + t) [0xF0 + x; 0x80 + y; 0x80 + z; 0x80 + t].

Inductive utf8_of : list N -> list N -> Prop :=
| u_nil : utf8_of [] []
| u_cons c bs cs rest : encodes c bs -> utf8_of cs rest -> utf8_of (c :: cs) (bs ++ rest).

(** Text: bytes that are the encoding of something. *)
Definition is_text (s : list N) : Prop := exists cs, utf8_of cs s.

(** [p] could be the beginning of a character. *)
Definition begins (p : list N) : Prop := exists c q, encodes c (p ++ q).

(** What is replaced by one U+FFFD where no character starts: as much as could be the
    beginning of one, or else a single byte. *)
Definition broken_off (p rest : list N) : Prop :=
  p <> [] /\ (begins p \/ length p = 1%nat) /\
  (forall q r, q <> [] -> rest = q ++ r -> ~ begins (p ++ q)).

(** Reading bytes as text, replacing what is not. *)
Inductive read_as : list N -> list N -> Prop :=
| r_nil : read_as [] []
| r_char c bs s cs : encodes c bs -> read_as s cs -> read_as (bs ++ s) (c :: cs)
| r_bad p s cs : (forall c bs r, encodes c bs -> p ++ s <> bs ++ r) -> broken_off p s -> read_as s cs ->
    read_as (p ++ s) (0xFFFD :: cs).

(** A path as the names between its slashes. *)
Inductive path_of : list (list N) -> list N -> Prop :=
| p_last n : ~ In 47 n -> path_of [n] n
| p_more n ns s : ~ In 47 n -> path_of ns s -> path_of (n :: ns) (n ++ 47 :: s).
