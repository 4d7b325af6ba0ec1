(** What should reach the shell, without any notion of buffers or offsets. *)
From Coq Require Import List NArith Bool Arith.
From Verif Require Import Spec.KeySpec.
Import ListNotations.
Open Scope nat_scope.

(** [passed typed held out held']: of the bytes typed (each with the verdict of the
    key recogniser) exactly [out] goes to the shell: a byte that may turn out to
    be part of a binding is held back, a broken match releases what was held, and
    the keys of a fired binding disappear. *)
Inductive passed {A} : list (N * verdict A) -> list N -> list N -> list N -> Prop :=
| p_end h : passed [] h [] h
| p_hold b l h out h' : passed l (h ++ [b]) out h' -> passed ((b, Pending) :: l) h out h'
| p_release b l h out h' : passed l [] out h' -> passed ((b, Nothing) :: l) h (h ++ [b] ++ out) h'
| p_fire b a l h out h' : passed l [] out h' -> passed ((b, Fires a) :: l) h out h'.

(** The bytes of [buf] (the first [len] of them) outside the given half open
    ranges. *)
Definition outside (ranges : list (nat * nat)) (buf : list N) (len : nat) : list N :=
  map snd (filter (fun ib => negb (existsb (fun r => (fst r <=? fst ib) && (fst ib <? snd r)) ranges))
                  (combine (seq 0 len) buf)).

(** Sorted disjoint half open ranges inside [cur, len). *)
Fixpoint sorted_ranges (rs : list (nat * nat)) (cur len : nat) : Prop :=
  match rs with
  | [] => cur <= len
  | (s, e) :: rs' => cur <= s /\ s < e /\ sorted_ranges rs' e len
  end.

(** A range in the form the code uses: its length and its last offset. *)
Definition as_section (r : nat * nat) : nat * nat := (snd r - fst r, snd r - 1).

(** A read whose first byte is ordinary and whose second byte starts a binding
    that is completed within the read. *)
Definition starts_second {A} (vs : list (verdict A)) : Prop :=
  exists j a tl, vs = Nothing :: repeat Pending j ++ Fires a :: tl.

(** What is written for a history of reads (the bytes of each with their
    verdicts): what [passed] says, except that a read of the kind above loses its
    first byte. *)
Inductive delivered {A} : list (list N * list (verdict A)) -> list N -> list N -> list N -> Prop :=
| d_end h : delivered [] h [] h
| d_read r vs l h o h1 w h2 : passed (combine r vs) h o h1 -> ~ starts_second vs ->
    delivered l h1 w h2 -> delivered ((r, vs) :: l) h (o ++ w) h2
| d_loses r vs l h b0 o h1 w h2 : passed (combine r vs) h (h ++ b0 :: o) h1 -> starts_second vs ->
    delivered l h1 w h2 -> delivered ((r, vs) :: l) h ((h ++ o) ++ w) h2.

(** A read from the client: some bytes, no more than the buffer holds. *)
Definition good_read (size : nat) (r : list N) : Prop := r <> [] /\ length r <= size /\ byte_stream r.
