(** C01: the frame stream round trips. *)
From Coq Require Import List NArith.
From Verif Require Import Model.Base Model.Chunk Spec.Wire Proofs.ChunkProofs.
Import ListNotations.
Open Scope N_scope.

(** Every representable chunk is written without panicking, as the documented frame. *)
Theorem C01_writer_follows_wire_format : forall c,
  representable c -> exists bs, write_to c = Some bs /\ frame c bs.
Proof. exact write_is_frame. Qed.
Print Assumptions C01_writer_follows_wire_format.

Example C01_writer_example : representable (mkChunk Data (lit "hello")) /\
  write_to (mkChunk Data (lit "hello")) = Some (0 :: 5 :: 0 :: 0 :: 0 :: lit "hello") /\
  write_to (mkChunk ExitStatus [7;0;0;0]) = Some [2;7;0;0;0].
Proof. repeat split; vm_compute; congruence. Qed.

(** A reader with a big enough buffer gets back the chunk and is left exactly
    behind it, whatever follows. *)
Theorem C01_reader_inverts_writer : forall cap c bs rest,
  frame c bs -> size c <= cap -> read_into cap (bs ++ rest) = Ok (c, rest).
Proof. exact read_frame. Qed.
Print Assumptions C01_reader_inverts_writer.

Example C01_reader_example :
  read_into 16384 ([3; 2; 0; 0; 0; 9; 8] ++ [1; 0; 0; 0; 0]) =
    Ok (mkChunk MaybeSwitch [9; 8], [1; 0; 0; 0; 0]).
Proof. reflexivity. Qed.

(** Conversely, whatever bytes arrive, a chunk is only ever produced from a well
    formed frame at the front of the stream, and it fits the buffer. *)
Theorem C01_reader_invents_nothing : forall cap inp c rest,
  bytes_ok inp -> read_into cap inp = Ok (c, rest) ->
  exists bs, inp = bs ++ rest /\ frame c bs /\ size c <= cap.
Proof. exact read_inv. Qed.
Print Assumptions C01_reader_invents_nothing.

Example C01_reader_invents_nothing_example :
  bytes_ok [0; 1; 0; 0; 0; 65; 66] /\
  read_into 16 [0; 1; 0; 0; 0; 65; 66] = Ok (mkChunk Data [65], [66]).
Proof. split; [repeat constructor|reflexivity]. Qed.

(** The bytes of a chunk are determined by the chunk. *)
Theorem C01_frames_are_canonical : forall c bs bs', frame c bs -> frame c bs' -> bs = bs'.
Proof. exact frame_fun. Qed.
Print Assumptions C01_frames_are_canonical.

(** Any sequence of chunks, read back in full. *)
Theorem C01_stream_round_trip : forall cap cs bs,
  frames cs bs -> Forall (fun c => size c <= cap) cs ->
  read_all cap bs = Some (cs, EofInFrame).
Proof. exact read_all_frames. Qed.
Print Assumptions C01_stream_round_trip.

Example C01_stream_example :
  frames [mkChunk Heartbeat []; mkChunk Data (lit "ab"); mkChunk ExitStatus [1;0;0;0]]
         ([1;0;0;0;0] ++ ([0;2;0;0;0] ++ lit "ab") ++ [2;1;0;0;0] ++ []) /\
  read_all 16384 ([1;0;0;0;0] ++ ([0;2;0;0;0] ++ lit "ab") ++ [2;1;0;0;0] ++ []) =
    Some ([mkChunk Heartbeat []; mkChunk Data (lit "ab"); mkChunk ExitStatus [1;0;0;0]], EofInFrame).
Proof.
  split; [|reflexivity].
  apply frames_cons; [apply frame_sized; auto; reflexivity|].
  apply frames_cons; [apply frame_sized; auto; reflexivity|].
  apply frames_cons; [apply frame_exit; reflexivity|constructor].
Qed.

(** A stream that is cut after any number [k] of bytes yields exactly the chunks
    that were complete, then an end-of-stream error. *)
Theorem C01_cut_stream_yields_complete_prefix : forall cap cs bs k,
  frames cs bs -> Forall (fun c => size c <= cap) cs -> (k <= length bs)%nat ->
  exists n pre,
    (n <= length cs)%nat /\ frames (firstn n cs) pre /\ (length pre <= k)%nat /\
    (n = length cs \/
     exists nxt b, nth_error cs n = Some nxt /\ frame nxt b /\ (k < length pre + length b)%nat) /\
    read_all cap (firstn k bs) = Some (firstn n cs, EofInFrame).
Proof. exact read_cut. Qed.
Print Assumptions C01_cut_stream_yields_complete_prefix.

Example C01_cut_example :
  read_all 16384 (firstn 9 ([1;0;0;0;0] ++ [0;2;0;0;0] ++ lit "ab")) =
    Some ([mkChunk Heartbeat []], EofInFrame).
Proof. reflexivity. Qed.

(** A frame larger than the reader's buffer and an unknown tag are errors. *)
Theorem C01_oversize_frame_rejected : forall cap k p inp,
  (k = Data \/ k = Heartbeat \/ k = MaybeSwitch) ->
  frame (mkChunk k p) inp -> cap < N.of_nat (length p) ->
  forall rest, read_into cap (inp ++ rest) = Err (TooBig (N.of_nat (length p))).
Proof. exact read_too_big. Qed.
Print Assumptions C01_oversize_frame_rejected.

Example C01_oversize_example : read_into 3 [0; 4; 0; 0; 0; 1; 2; 3; 4] = Err (TooBig 4).
Proof. reflexivity. Qed.

Theorem C01_unknown_kind_rejected : forall cap v inp,
  4 <= v -> read_into cap (v :: inp) = Err (UnknownKind v).
Proof. exact read_unknown. Qed.
Print Assumptions C01_unknown_kind_rejected.

(** Every error, exactly: the stream does not start with a frame that fits, and the
    error says in which way. *)
Theorem C01_errors_exactly : forall cap inp e, read_into cap inp = Err e <-> bad_front cap inp e.
Proof. exact read_errors. Qed.
Print Assumptions C01_errors_exactly.

Example C01_errors_example :
  read_into 3 [2; 0; 0; 0; 0] = Err (TooBig 4) /\ read_into 4 [2; 0; 0; 0] = Err EofInFrame /\
  read_into 9 [7; 1] = Err (UnknownKind 7) /\ read_into 9 [3; 2; 0; 0; 0; 5] = Err EofInFrame.
Proof. repeat split. Qed.

(** The reading loop always comes to an end. *)
Theorem C01_reader_terminates : forall cap inp, read_all cap inp <> None.
Proof. exact read_all_total. Qed.
Print Assumptions C01_reader_terminates.

(** The hypothesis "below 2^32 bytes" of [representable] is needed: a payload of
    exactly 2^32 bytes is announced as empty. *)
Theorem C01_length_prefix_truncates_refuted : forall k p,
  k <> ExitStatus -> N.of_nat (length p) = 2 ^ 32 ->
  write_to (mkChunk k p) = Some (kind_code k :: 0 :: 0 :: 0 :: 0 :: p).
Proof. exact write_wraps. Qed.
Print Assumptions C01_length_prefix_truncates_refuted.

Example C01_length_prefix_example :
  N.of_nat (length (repeat 0 (N.to_nat (2 ^ 32)))) = 2 ^ 32.
Proof. rewrite repeat_length. apply Nnat.N2Nat.id. Qed.
