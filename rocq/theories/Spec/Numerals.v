(** What a decimal numeral denotes, and the spec-level reading of versions and
    durations. *)
From Coq Require Import List NArith ZArith.
Import ListNotations.
Open Scope N_scope.

(** [numeral s n]: the ASCII digit string [s] denotes [n]. *)
Inductive numeral : list N -> N -> Prop :=
| numeral_digit d : d < 10 -> numeral [48 + d] d
| numeral_snoc s n d : numeral s n -> d < 10 -> numeral (s ++ [48 + d]) (10 * n + d).

(** A 64 bit signed integer, with the optional sign Rust accepts. *)
Inductive int64 : list N -> Z -> Prop :=
| int64_plain s n : numeral s n -> (Z.of_N n < 2 ^ 63)%Z -> int64 s (Z.of_N n)
| int64_plus s n : numeral s n -> (Z.of_N n < 2 ^ 63)%Z -> int64 (43 :: s) (Z.of_N n)
| int64_minus s n : numeral s n -> (Z.of_N n <= 2 ^ 63)%Z -> int64 (45 :: s) (- Z.of_N n)%Z.

(** "major.minor.patch" *)
Definition is_version (v : list N) (major minor : Z) : Prop :=
  exists a b c patch,
    v = a ++ 46 :: b ++ 46 :: c /\ int64 a major /\ int64 b minor /\ int64 c patch.

(** Semantic versioning: releases are compatible when they agree on the major
    version, or before 1.0 on the minor version. *)
Definition newer (major minor major' minor' : Z) : Prop :=
  (major > major')%Z \/ (major = 0 /\ major' = 0 /\ minor > minor')%Z.
Definition compatible (major minor major' minor' : Z) : Prop :=
  (major = major' /\ (major = 0 -> minor = minor'))%Z.

(** Durations.  The documented forms: "20d", "3h", "14m", "10s" and
    "dd:hh:mm:ss or any suffix". *)
Inductive unit_secs : N -> N -> Prop :=
| unit_s : unit_secs 115 1
| unit_m : unit_secs 109 60
| unit_h : unit_secs 104 3600
| unit_d : unit_secs 100 86400.

Inductive denotes : list N -> N -> Prop :=
| den_suffix ds n c k : numeral ds n -> unit_secs c k -> denotes (ds ++ [c]) (n * k)
| den_ms a m b s : numeral a m -> numeral b s -> denotes (a ++ 58 :: b) (60 * m + s)
| den_hms a h b m c s : numeral a h -> numeral b m -> numeral c s ->
    denotes (a ++ 58 :: b ++ 58 :: c) (3600 * h + 60 * m + s)
| den_dhms a d b h c m e s : numeral a d -> numeral b h -> numeral c m -> numeral e s ->
    denotes (a ++ 58 :: b ++ 58 :: c ++ 58 :: e) (86400 * d + 3600 * h + 60 * m + s).

(** What the parser takes, which is more: an optional '+' before each colon
    group, and in the suffix form any text between the number and the final
    unit letter, so long as it does not begin with something numeric.  Every
    number written must fit 64 bits. *)
Definition fits (s : list N) (n : N) : Prop := numeral s n /\ n < 2 ^ 64.
Definition group (s : list N) (n : N) : Prop := fits s n \/ exists s', s = 43 :: s' /\ fits s' n.

Inductive takes (numeric : N -> bool) : list N -> N -> Prop :=
| tk_suffix ds n junk c k :
    fits ds n -> unit_secs c k -> ~ In 58 junk ->
    (forall j junk', junk = j :: junk' -> numeric j = false) ->
    takes numeric (ds ++ junk ++ [c]) (n * k)
| tk_ms a m b s : group a m -> group b s -> takes numeric (a ++ 58 :: b) (60 * m + s)
| tk_hms a h b m c s : group a h -> group b m -> group c s ->
    takes numeric (a ++ 58 :: b ++ 58 :: c) (3600 * h + 60 * m + s)
| tk_dhms a d b h c m e s : group a d -> group b h -> group c m -> group e s ->
    takes numeric (a ++ 58 :: b ++ 58 :: c ++ 58 :: e) (86400 * d + 3600 * h + 60 * m + s).
