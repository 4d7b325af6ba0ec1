(** A trie is a finite map from strings, searched one symbol at a time. *)
From Coq Require Import List NArith.
Import ListNotations.

(** [bound h s v]: after the insertions [h] (oldest first) the string [s] is
    bound to [v]: [v] was inserted for [s] and nothing was inserted for it since. *)
Definition bound {S V} (h : list (list S * V)) (s : list S) (v : V) : Prop :=
  exists h1 h2, h = h1 ++ (s, v) :: h2 /\ forall v', ~ In (s, v') h2.

Definition inserted {S V} (h : list (list S * V)) (s : list S) : Prop := exists v, In (s, v) h.

Definition prefix {S} (p s : list S) : Prop := exists q, s = p ++ q.
