(** Looking for a word in a stream. *)
From Coq Require Import List NArith Bool.
From Verif Require Import Spec.TrieSpec.
Import ListNotations.
Open Scope N_scope.

(** [finds word cur stream rest]: reading [stream] with [cur] (the start of [word])
    already read, the word is completed and [rest] is what follows.  A byte that
    does not continue the word makes the reader start afresh with the next byte. *)
Inductive finds (word : list N) : list N -> list N -> list N -> Prop :=
| f_done cur x rest : cur ++ [x] = word -> finds word cur (x :: rest) rest
| f_more cur x stream rest : prefix (cur ++ [x]) word -> cur ++ [x] <> word ->
    finds word (cur ++ [x]) stream rest -> finds word cur (x :: stream) rest
| f_again cur x stream rest : ~ prefix (cur ++ [x]) word ->
    finds word [] stream rest -> finds word cur (x :: stream) rest.
