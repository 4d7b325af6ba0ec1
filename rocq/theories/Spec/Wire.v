(** The documented wire format (shpool-protocol/src/lib.rs 380-424), stated as a
    relation between a chunk and the bytes that represent it. *)
From Coq Require Import List NArith.
From Verif Require Import Model.Base Model.Chunk.
Import ListNotations.
Open Scope N_scope.

(** "1 byte: kind tag; little endian 4 byte word: length prefix; N bytes: data",
    except that an exit status has exactly 4 bytes of data and no prefix. *)
Inductive frame : chunk -> list N -> Prop :=
| frame_exit p :
    length p = 4%nat -> frame (mkChunk ExitStatus p) (2 :: p)
| frame_sized k tag p b0 b1 b2 b3 :
    (k = Data /\ tag = 0) \/ (k = Heartbeat /\ tag = 1) \/ (k = MaybeSwitch /\ tag = 3) ->
    b0 < 256 -> b1 < 256 -> b2 < 256 -> b3 < 256 ->
    N.of_nat (length p) = b0 + 256 * b1 + 65536 * b2 + 16777216 * b3 ->
    frame (mkChunk k p) (tag :: b0 :: b1 :: b2 :: b3 :: p).

(** A byte stream that is the given chunks, one after the other. *)
Inductive frames : list chunk -> list N -> Prop :=
| frames_nil : frames [] []
| frames_cons c bs cs rest :
    frame c bs -> frames cs rest -> frames (c :: cs) (bs ++ rest).

(** A chunk the protocol can represent. *)
Definition representable (c : chunk) : Prop :=
  (c_kind c = ExitStatus -> length (c_buf c) = 4%nat) /\
  N.of_nat (length (c_buf c)) < 2 ^ 32.

Definition size (c : chunk) : N := N.of_nat (length (c_buf c)).

(** How the front of a stream can fail to be a frame that fits [cap] bytes. *)
Definition sized_tag (tag : N) : Prop := tag = 0 \/ tag = 1 \/ tag = 3.

Inductive bad_front (cap : N) : list N -> read_error -> Prop :=
| bad_tag v r : v <> 0 -> v <> 1 -> v <> 2 -> v <> 3 -> bad_front cap (v :: r) (UnknownKind v)
| big_exit r : cap < 4 -> bad_front cap (2 :: r) (TooBig 4)
| big_sized tag b0 b1 b2 b3 r n : sized_tag tag -> n = b0 + 256 * b1 + 65536 * b2 + 16777216 * b3 -> cap < n ->
    bad_front cap (tag :: b0 :: b1 :: b2 :: b3 :: r) (TooBig n)
| cut_tag : bad_front cap [] EofInFrame
| cut_exit r : 4 <= cap -> (length r < 4)%nat -> bad_front cap (2 :: r) EofInFrame
| cut_prefix tag r : sized_tag tag -> (length r < 4)%nat -> bad_front cap (tag :: r) EofInFrame
| cut_data tag b0 b1 b2 b3 r n : sized_tag tag -> n = b0 + 256 * b1 + 65536 * b2 + 16777216 * b3 -> n <= cap ->
    N.of_nat (length r) < n -> bad_front cap (tag :: b0 :: b1 :: b2 :: b3 :: r) EofInFrame.
