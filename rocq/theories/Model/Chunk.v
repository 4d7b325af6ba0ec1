(** Framing of the attach stream: libshpool/src/protocol.rs 71-127 and
    shpool-protocol/src/lib.rs 382-427. *)
From Coq Require Import List NArith Bool.
From Verif Require Import Model.Base.
Import ListNotations.
Open Scope N_scope.

(** shpool-protocol/src/lib.rs 384-400: [enum ChunkKind]. *)
Inductive chunk_kind := Data | Heartbeat | ExitStatus | MaybeSwitch.

(** shpool-protocol/src/lib.rs 384-400: the discriminants ([self.kind as u8]). *)
Definition kind_code (k : chunk_kind) : N :=
  match k with Data => 0 | Heartbeat => 1 | ExitStatus => 2 | MaybeSwitch => 3 end.

(** shpool-protocol/src/lib.rs 402-414: [TryFrom<u8> for ChunkKind]. *)
Definition kind_of_code (v : N) : option chunk_kind :=
  if v =? 0 then Some Data
  else if v =? 1 then Some Heartbeat
  else if v =? 2 then Some ExitStatus
  else if v =? 3 then Some MaybeSwitch
  else None.

(** shpool-protocol/src/lib.rs 425-428: [struct Chunk]. *)
Record chunk := mkChunk { c_kind : chunk_kind; c_buf : list N }.

(** byteorder's [write_u32::<LittleEndian>]. *)
Definition le32 (n : N) : list N :=
  [n mod 256; (n / 256) mod 256; (n / 65536) mod 256; (n / 16777216) mod 256].

(** byteorder's [read_u32::<LittleEndian>] on four bytes. *)
Definition of_le32 (a b c d : N) : N := a + 256 * b + 65536 * c + 16777216 * d.

(** [Vec::len]. *)
Definition len (l : list N) : N := N.of_nat (length l).

(** libshpool/src/protocol.rs 84-99: [Chunk::write_to].  [None] is the panic of
    the [assert!]; the bytes go to the writer in one piece ([write_all] on a
    healthy socket, which either delivers everything or fails). *)
Definition write_to (c : chunk) : option (list N) :=
  match c_kind c with
  | ExitStatus =>
      if len (c_buf c) =? 4 then Some (kind_code ExitStatus :: c_buf c) else None
  | k => Some (kind_code k :: le32 (len (c_buf c) mod u32_mod) ++ c_buf c)
  end.

(** The errors of protocol.rs 101-126. *)
Inductive read_error :=
| EofInFrame          (* read_u8 / read_u32 / read_exact hit end of stream *)
| UnknownKind (v : N)
| TooBig (n : N).

(** [Read::read_exact] of [n] bytes from a stream whose remaining bytes are [inp].
    protocol.rs 101-126. *)
Definition read_exact (n : N) (inp : list N) : option (list N * list N) :=
  if n <=? len inp then Some (firstn (N.to_nat n) inp, skipn (N.to_nat n) inp) else None.

(** libshpool/src/protocol.rs 101-126: [Chunk::read_into], for a caller buffer of
    [cap] bytes.  Returns the chunk and what is left of the stream. *)
Definition read_into (cap : N) (inp : list N) : result (chunk * list N) read_error :=
  match inp with
  | [] => Err EofInFrame
  | v :: inp1 =>
      match kind_of_code v with
      | None => Err (UnknownKind v)
      | Some ExitStatus =>
          if cap <? 4 then Err (TooBig 4)
          else match read_exact 4 inp1 with
               | None => Err EofInFrame
               | Some (p, rest) => Ok (mkChunk ExitStatus p, rest)
               end
      | Some k =>
          match inp1 with
          | a :: b :: c :: d :: inp2 =>
              let n := of_le32 a b c d in
              if cap <? n then Err (TooBig n)
              else match read_exact n inp2 with
                   | None => Err EofInFrame
                   | Some (p, rest) => Ok (mkChunk k p, rest)
                   end
          | _ => Err EofInFrame
          end
      end
  end.

(** The reading loop (libshpool/src/protocol.rs 341-396 in the client): read
    chunk after chunk until the first error.  Structural in [fuel]; [None] means
    out of fuel, which [read_all] never is (a frame is at least five bytes). *)
Fixpoint read_stream (fuel : nat) (cap : N) (inp : list N) : option (list chunk * read_error) :=
  match fuel with
  | O => None
  | S f =>
      match read_into cap inp with
      | Err e => Some ([], e)
      | Ok (c, rest) =>
          match read_stream f cap rest with
          | None => None
          | Some (cs, e) => Some (c :: cs, e)
          end
      end
  end.

(** protocol.rs 101-126, repeatedly. *)
Definition read_all (cap : N) (inp : list N) : option (list chunk * read_error) :=
  read_stream (S (length inp)) cap inp.

(** libshpool/src/consts.rs 19: [BUF_SIZE = 1024 * 16]. *)
Definition BUF_SIZE : N := 16384.
