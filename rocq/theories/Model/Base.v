(** Shared vocabulary of the model.

    Bytes are numbers below 256, a Rust [char] is its Unicode scalar value and a
    Rust [String]/[&str] is the list of its chars.  [Result] stays data. *)
From Coq Require Import List NArith ZArith Bool String Ascii.
Import ListNotations.
Open Scope N_scope.

(** Bytes, chars and strings are numbers and lists of numbers; nothing of /repo is modelled
    in this file but the parts of Rust's library it uses. *)
Definition byte := N.
(** Rust's char. *)
Definition rchar := N.
(** Rust's str and byte slices. *)
Definition rstr := list N.

(** Rust's [Result]. Rust's library, core::result. *)
Inductive result (A E : Type) : Type :=
| Ok (a : A)
| Err (e : E).
Arguments Ok {A E} a.
Arguments Err {A E} e.

Export Coq.Strings.String.StringSyntax.

(** An ASCII literal as a list of chars (or bytes: the same numbers). Rust's string
    literals, of ASCII chars only (any line of /repo with one). *)
Definition lit (s : string) : rstr := map N_of_ascii (list_ascii_of_string s).
Arguments lit s%string_scope.

(** The range of Rust's [u8]. *)
Definition byte_ok (b : N) : Prop := b < 256.
(** Rust's [u8] slices. *)
Definition bytes_ok (l : list N) : Prop := Forall byte_ok l.

(** Equality of strings. Rust's [==] on str and slices. *)
Fixpoint str_eqb (a b : list N) : bool :=
  match a, b with
  | [], [] => true
  | x :: a', y :: b' => (x =? y) && str_eqb a' b'
  | _, _ => false
  end.

(** [str::split(sep)] for a single char separator: always at least one part. Used in duration.rs 34, protocol.rs 210-222 and show_motd.rs 160. *)
Fixpoint split_on (sep : N) (s : list N) : list (list N) :=
  match s with
  | [] => [[]]
  | c :: s' =>
      if c =? sep then [] :: split_on sep s'
      else match split_on sep s' with
           | [] => [[c]]           (* not reachable: split_on is never empty *)
           | p :: ps => (c :: p) :: ps
           end
  end.

(** [char::is_ascii_digit]. Used in what follows. *)
Definition is_digit (c : N) : bool := (48 <=? c) && (c <=? 57).

(** [char::is_whitespace]: the Unicode White_Space property, in full. Used in server.rs 249, attach.rs 145, keybindings.rs 379 and etc_environment.rs 22. *)
Definition is_whitespace (c : N) : bool :=
  ((9 <=? c) && (c <=? 13)) || (c =? 32) || (c =? 133) || (c =? 160)
  || (c =? 5760) || ((8192 <=? c) && (c <=? 8202)) || (c =? 8232) || (c =? 8233)
  || (c =? 8239) || (c =? 8287) || (c =? 12288).

(** Digits of a decimal numeral, most significant first, as Rust's integer
    [FromStr] accumulates them. Rust [str::parse::<u64>], as in duration.rs 39-54. *)
Fixpoint digits_acc (acc : N) (s : list N) : option N :=
  match s with
  | [] => Some acc
  | c :: s' => if is_digit c then digits_acc (10 * acc + (c - 48)) s' else None
  end.

(** At least one digit, only digits. Rust [str::parse::<u64>], as in duration.rs 39-54. *)
Definition parse_digits (s : list N) : option N :=
  match s with [] => None | _ => digits_acc 0 s end.

(** The limits of Rust's u64 and u32. *)
Definition u64_max : N := 18446744073709551615.
(** Rust's u32. *)
Definition u32_mod : N := 4294967296.
(** Rust's u64. *)
Definition u64_mod : N := 18446744073709551616.

(** [str::parse::<u64>()]: an optional '+', then digits; overflow is an error. *)
Definition parse_u64 (s : list N) : option N :=
  let body := match s with c :: s' => if c =? 43 then s' else s | [] => s end in
  match parse_digits body with
  | Some n => if n <=? u64_max then Some n else None
  | None => None
  end.

(** The limits of Rust's i64. *)
Definition i64_min : Z := (-9223372036854775808)%Z.
(** Rust's i64. *)
Definition i64_max : Z := 9223372036854775807%Z.

(** [str::parse::<i64>()]: an optional sign, then digits; overflow is an error. *)
Definition parse_i64 (s : list N) : option Z :=
  let '(neg, body) :=
    match s with
    | c :: s' => if c =? 43 then (false, s') else if c =? 45 then (true, s') else (false, s)
    | [] => (false, s)
    end in
  match parse_digits body with
  | Some n =>
      let z := if (neg : bool) then (- Z.of_N n)%Z else Z.of_N n in
      if (Z.leb i64_min z && Z.leb z i64_max)%bool then Some z else None
  | None => None
  end.

(** Finite maps with string keys (Rust [HashMap<String, V>]): an association
    list in which the first entry for a key is the live one. HashMap::get, as in server.rs 632. *)
Fixpoint lookup {V} (k : list N) (m : list (list N * V)) : option V :=
  match m with
  | [] => None
  | (k', v) :: m' => if str_eqb k k' then Some v else lookup k m'
  end.

(** HashMap::remove, as in server.rs 758. *)
Fixpoint remove {V} (k : list N) (m : list (list N * V)) : list (list N * V) :=
  match m with
  | [] => []
  | (k', v) :: m' => if str_eqb k k' then remove k m' else (k', v) :: remove k m'
  end.

(** HashMap::insert, as in server.rs 545. *)
Definition insert {V} (k : list N) (v : V) (m : list (list N * V)) : list (list N * V) :=
  (k, v) :: remove k m.

(** Collecting an iterator of Options into an Option (Rust's FromIterator), or of Results
    with [?]. *)
Fixpoint map_opt {A B} (f : A -> option B) (l : list A) : option (list B) :=
  match l with
  | [] => Some []
  | a :: l' => match f a, map_opt f l' with
               | Some b, Some bs => Some (b :: bs)
               | _, _ => None
               end
  end.

(** [<[String]>::join(sep)] for a one char separator. Rust's slice::join. *)
Fixpoint join_with (sep : N) (ps : list (list N)) : list N :=
  match ps with
  | [] => []
  | [p] => p
  | p :: ps' => p ++ sep :: join_with sep ps'
  end.
