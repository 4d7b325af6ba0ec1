(** The MessagePack format as rmp 0.8 writes and reads it (Cargo.lock 910, 919), used
    by encode_to and decode_from, libshpool/src/protocol.rs 43-69.

    The library is not part of /repo: this file models the published format, and the
    choice rmp makes of the shortest form.  Not modelled: the depth limit of 1024. *)
From Coq Require Import List NArith ZArith Bool Arith.
From Verif Require Import Model.Base.
Import ListNotations.
Open Scope N_scope.

(** A MessagePack value, as protocol.rs 43-70 writes and reads it by way of rmp_serde. *)
Inductive mval :=
| MNil
| MBool (b : bool)
| MInt (z : Z)                         (* any integer format *)
| MFloat (bits : list byte)            (* 4 or 8 bytes *)
| MStr (s : list byte)
| MBin (s : list byte)
| MArr (l : list mval)
| MMap (l : list (mval * mval))
| MExt (kind : byte) (s : list byte).

(** [k] bytes, most significant first. Rmp, used in protocol.rs 43-57. *)
Fixpoint be (k : nat) (n : N) : list byte :=
  match k with O => [] | S k' => (n / 256 ^ N.of_nat k') mod 256 :: be k' n end.
(** Rmp, as above. *)
Definition un_be (l : list byte) : N := fold_left (fun a b => a * 256 + b) l 0.

(** rmp::encode::write_uint and write_sint. Called through protocol.rs 54-55. *)
Definition enc_int (z : Z) : list byte :=
  if (0 <=? z)%Z then
    let n := Z.to_N z in
    if n <? 128 then [n]
    else if n <? 2 ^ 8 then 0xcc :: be 1 n
    else if n <? 2 ^ 16 then 0xcd :: be 2 n
    else if n <? 2 ^ 32 then 0xce :: be 4 n
    else 0xcf :: be 8 n
  else if (-32 <=? z)%Z then [Z.to_N (256 + z)]
  else if (- 2 ^ 7 <=? z)%Z then 0xd0 :: be 1 (Z.to_N (2 ^ 8 + z))
  else if (- 2 ^ 15 <=? z)%Z then 0xd1 :: be 2 (Z.to_N (2 ^ 16 + z))
  else if (- 2 ^ 31 <=? z)%Z then 0xd2 :: be 4 (Z.to_N (2 ^ 32 + z))
  else 0xd3 :: be 8 (Z.to_N (2 ^ 64 + z)).

(** A length: the short form below [small], then one, two or four bytes.  Arrays and
    maps have no one-byte form. Rmp, used in protocol.rs 43-57. *)
Definition enc_len (small base : N) (one : option byte) (two four : byte) (n : N) : list byte :=
  if n <? small then [base + n]
  else match one with
       | Some c => if n <? 2 ^ 8 then c :: be 1 n else if n <? 2 ^ 16 then two :: be 2 n else four :: be 4 n
       | None => if n <? 2 ^ 16 then two :: be 2 n else four :: be 4 n
       end.

(** rmp::encode::write_ext_meta and the bytes; no message of shpool-protocol/src/lib.rs has
    one. *)
Definition enc_ext (kind : byte) (s : list byte) : list byte :=
  match length s with
  | 1%nat => [0xd4] | 2%nat => [0xd5] | 4%nat => [0xd6] | 8%nat => [0xd7] | 16%nat => [0xd8]
  | _ => enc_len 0 0 (Some 0xc7) 0xc8 0xc9 (N.of_nat (length s))
  end ++ kind :: s.

(** rmp_serde, used in protocol.rs 54-55. *)
Fixpoint enc (v : mval) : list byte :=
  match v with
  | MNil => [0xc0]
  | MBool b => [if b then 0xc3 else 0xc2]
  | MInt z => enc_int z
  | MFloat bits => (if (length bits =? 4)%nat then 0xca else 0xcb) :: bits
  | MStr s => enc_len 32 0xa0 (Some 0xd9) 0xda 0xdb (N.of_nat (length s)) ++ s
  | MBin s => enc_len 0 0 (Some 0xc4) 0xc5 0xc6 (N.of_nat (length s)) ++ s
  | MArr l => enc_len 16 0x90 None 0xdc 0xdd (N.of_nat (length l)) ++ flat_map enc l
  | MMap l => enc_len 16 0x80 None 0xde 0xdf (N.of_nat (length l)) ++ flat_map (fun e => enc (fst e) ++ enc (snd e)) l
  | MExt kind s => enc_ext kind s
  end.

(** The first [k] bytes; None if the stream ends before. Rmp, used in protocol.rs 61-69. *)
Definition take (k : nat) (bs : list byte) : option (list byte * list byte) :=
  if (k <=? length bs)%nat then Some (firstn k bs, skipn k bs) else None.
(** A number of [k] bytes, and its value taken as signed. *)
Definition number (k : nat) (bs : list byte) : option (N * list byte) :=
  match take k bs with Some (l, r) => Some (un_be l, r) | None => None end.
(** Rmp, as above. *)
Definition signed (k : nat) (n : N) : Z :=
  if n <? 2 ^ (8 * N.of_nat k - 1) then Z.of_N n else (Z.of_N n - 2 ^ (8 * Z.of_nat k))%Z.

(** [k] values, or [k] pairs of values, off the stream with [p]. Rmp_serde, used in
    protocol.rs 61-69. *)
Fixpoint seq_of (p : list byte -> option (mval * list byte)) (k : nat) (bs : list byte) : option (list mval * list byte) :=
  match k with
  | O => Some ([], bs)
  | S k' =>
    match p bs with
    | Some (v, r) => match seq_of p k' r with Some (l, r') => Some (v :: l, r') | None => None end
    | None => None
    end
  end.
(** Rmp_serde, as above. *)
Fixpoint pairs_of (p : list byte -> option (mval * list byte)) (k : nat) (bs : list byte) : option (list (mval * mval) * list byte) :=
  match k with
  | O => Some ([], bs)
  | S k' =>
    match p bs with
    | Some (a, r) =>
      match p r with
      | Some (b, r') => match pairs_of p k' r' with Some (l, r'') => Some ((a, b) :: l, r'') | None => None end
      | None => None
      end
    | None => None
    end
  end.

(** The start of a value: the whole of it, or the number of elements or entries that
    follow. Rmp::decode, used in protocol.rs 61-69. *)
Inductive start := Whole (v : mval) | Elements (n : N) | Entries (n : N).
(** The bytes that belong to a marker of [head] below. *)
Definition chunk (k : N) (make : list byte -> mval) (r : list byte) : option (start * list byte) :=
  match take (N.to_nat k) r with Some (s, r') => Some (Whole (make s), r') | None => None end.
(** The same for an extension, after a size, and for a number. *)
Definition ext (k : N) (r : list byte) : option (start * list byte) :=
  match r with kind :: r' => chunk k (MExt kind) r' | [] => None end.
(** Rmp, as above. *)
Definition sized (k : nat) (next : N -> list byte -> option (start * list byte)) (r : list byte) : option (start * list byte) :=
  match number k r with Some (n, r') => next n r' | None => None end.
(** Rmp, as above. *)
Definition int (to : N -> Z) (n : N) (r : list byte) : option (start * list byte) := Some (Whole (MInt (to n)), r).

(** rmp::Marker::from_u8 and the reads that go with each marker. *)
Definition head (bs : list byte) : option (start * list byte) :=
  match bs with
  | [] => None
  | b :: r =>
    if b <? 0x80 then int Z.of_N b r
    else if b <? 0x90 then Some (Entries (b - 0x80), r)
    else if b <? 0xa0 then Some (Elements (b - 0x90), r)
    else if b <? 0xc0 then chunk (b - 0xa0) MStr r
    else if 0xe0 <=? b then int (fun n => Z.of_N n - 256)%Z b r
    else
      match b with
      | 0xc0 => Some (Whole MNil, r)
      | 0xc2 => Some (Whole (MBool false), r)
      | 0xc3 => Some (Whole (MBool true), r)
      | 0xc4 => sized 1 (fun n => chunk n MBin) r
      | 0xc5 => sized 2 (fun n => chunk n MBin) r
      | 0xc6 => sized 4 (fun n => chunk n MBin) r
      | 0xc7 => sized 1 ext r
      | 0xc8 => sized 2 ext r
      | 0xc9 => sized 4 ext r
      | 0xca => chunk 4 MFloat r
      | 0xcb => chunk 8 MFloat r
      | 0xcc => sized 1 (int Z.of_N) r
      | 0xcd => sized 2 (int Z.of_N) r
      | 0xce => sized 4 (int Z.of_N) r
      | 0xcf => sized 8 (int Z.of_N) r
      | 0xd0 => sized 1 (int (signed 1)) r
      | 0xd1 => sized 2 (int (signed 2)) r
      | 0xd2 => sized 4 (int (signed 4)) r
      | 0xd3 => sized 8 (int (signed 8)) r
      | 0xd4 => ext 1 r
      | 0xd5 => ext 2 r
      | 0xd6 => ext 4 r
      | 0xd7 => ext 8 r
      | 0xd8 => ext 16 r
      | 0xd9 => sized 1 (fun n => chunk n MStr) r
      | 0xda => sized 2 (fun n => chunk n MStr) r
      | 0xdb => sized 4 (fun n => chunk n MStr) r
      | 0xdc => sized 2 (fun n r => Some (Elements n, r)) r
      | 0xdd => sized 4 (fun n r => Some (Elements n, r)) r
      | 0xde => sized 2 (fun n r => Some (Entries n, r)) r
      | 0xdf => sized 4 (fun n r => Some (Entries n, r)) r
      | _ => None                                   (* 0xc1 is reserved *)
      end
  end.

(** Reading one value off a stream.  [fuel] bounds the nesting; the length of the
    stream is always enough (MsgpackProofs.parse_enough). protocol.rs 66-67. *)
Fixpoint parse (fuel : nat) (bs : list byte) : option (mval * list byte) :=
  match fuel with
  | O => None
  | S f =>
    match head bs with
    | Some (Whole v, r) => Some (v, r)
    | Some (Elements n, r) => match seq_of (parse f) (N.to_nat n) r with Some (l, r') => Some (MArr l, r') | None => None end
    | Some (Entries n, r) => match pairs_of (parse f) (N.to_nat n) r with Some (l, r') => Some (MMap l, r') | None => None end
    | None => None
    end
  end.

(** protocol.rs 66-67. *)
Definition read_value (bs : list byte) : option (mval * list byte) := parse (S (length bs)) bs.
