(** C10: removing keybindings from the input buffer. *)
From Coq Require Import List NArith Bool Arith Lia.
From Verif Require Import Model.Base Model.Input Spec.InputSpec Proofs.InputProofs.
Import ListNotations.
Open Scope nat_scope.

(** For every buffer and every list of disjoint increasing ranges inside its first
    [len] bytes, removing them never panics, never goes outside the buffer, and
    leaves exactly the other bytes, in order. *)
Theorem C10_snip_keeps_the_rest : forall buf len ranges,
  len <= length buf -> sorted_ranges ranges 0 len ->
  exists buf' n, snip_buf buf len (map as_section ranges) = Some (buf', n) /\
    length buf' = length buf /\ n <= length buf /\ firstn n buf' = outside ranges buf len.
Proof.
  intros buf len ranges Hl Hs.
  destruct (snip_buf_spec buf len (map as_section ranges)) as (buf' & n & E & H1 & H2 & H3).
  { apply sorted_increasing; assumption. } { assumption. }
  exists buf', n. rewrite <- kept_outside by assumption. repeat split; assumption.
Qed.
Print Assumptions C10_snip_keeps_the_rest.

(** The number of bytes left is what it should be. *)
Theorem C10_snip_length : forall buf len ranges buf' n,
  len <= length buf -> sorted_ranges ranges 0 len ->
  snip_buf buf len (map as_section ranges) = Some (buf', n) ->
  n = length (outside ranges buf len).
Proof.
  intros buf len ranges buf' n Hl Hs E.
  destruct (C10_snip_keeps_the_rest buf len ranges Hl Hs) as (b2 & n2 & E2 & H1 & H2 & H3).
  rewrite E in E2. injection E2 as <- <-. rewrite <- H3, firstn_length. lia.
Qed.
Print Assumptions C10_snip_length.

(** Hypotheses met: two keybindings in the middle, one at the end. *)
Example C10_nonvacuous :
  let ranges := [(1, 3); (4, 5); (6, 8)] in
  sorted_ranges ranges 0 8 /\
  snip_buf [10; 11; 12; 13; 14; 15; 16; 17; 99; 99]%N 8 (map as_section ranges) =
    Some ([10; 13; 15; 13; 14; 15; 16; 17; 99; 99]%N, 3) /\
  outside ranges [10; 11; 12; 13; 14; 15; 16; 17; 99; 99]%N 8 = [10; 13; 15]%N.
Proof. repeat split; cbn; lia. Qed.
