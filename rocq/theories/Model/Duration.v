(** The --ttl duration parser: libshpool/src/duration.rs 22-79. *)
From Coq Require Import List NArith Bool.
From Verif Require Import Model.Base.
Import ListNotations.
Open Scope N_scope.

(** The Unicode predicates of Rust's [char] the code relies on; an argument of
    the functions below, so theorems hold for every Unicode table that agrees
    with ASCII on ASCII. Used in duration.rs 22-70 and template.rs 66-67. *)
Record unicode := mkUnicode {
  u_numeric : N -> bool;          (* char::is_numeric *)
  u_alphabetic : N -> bool        (* char::is_alphabetic *)
}.

(** [char::is_alphanumeric] is the disjunction, by definition in core. Used in template.rs
    67. *)
Definition u_alphanumeric (u : unicode) (c : N) : bool := u_alphabetic u c || u_numeric u c.

(** Plain [+] and [*] on u64 panic on overflow in a debug build and wrap in a
    release build (the workspace sets no overflow-checks). *)
Inductive build := Debug | Release.

(** Rust's u64 arithmetic, as in duration.rs 33-79. *)
Definition arith (b : build) (n : N) : option N :=
  if n <=? u64_max then Some n
  else match b with Debug => None | Release => Some (n mod u64_mod) end.

(** What duration.rs 22-31 returns; [Panicked]: an overflow in a debug build. *)
Inductive parsed :=
| Secs (n : N)
| Rejected
| Panicked.

(** A [?] on [str::parse] followed by [secs += v * mult], where [mult] is applied
    factor by factor as in [x * 60 * 60 * 24]. *)
Fixpoint mul_all (b : build) (n : N) (fs : list N) : option N :=
  match fs with
  | [] => Some n
  | f :: fs' => match arith b (n * f) with
                | Some n' => mul_all b n' fs'
                | None => None
                end
  end.

(** One summand of duration.rs 33-60. *)
Definition add_part (b : build) (secs : N) (part : rstr) (fs : list N) : parsed :=
  match parse_u64 part with
  | None => Rejected
  | Some n =>
      match mul_all b n fs with
      | None => Panicked
      | Some m => match arith b (secs + m) with None => Panicked | Some s => Secs s end
      end
  end.

(** Rust's [?] on a Result. *)
Definition and_then (p : parsed) (f : N -> parsed) : parsed :=
  match p with Secs n => f n | Rejected => Rejected | Panicked => Panicked end.

(** duration.rs 33-60: [parse_colon_duration].  [rev] is [parts.reverse()]; the
    [dbg!] lines only print. *)
Definition parse_colon_duration (b : build) (src : rstr) : parsed :=
  match rev (split_on 58 src) with
  | [] => Rejected
  | p0 :: r0 =>
      match parse_u64 p0 with
      | None => Rejected
      | Some secs0 =>
          match r0 with
          | [] => Secs secs0
          | p1 :: r1 =>
              and_then (add_part b secs0 p1 [60]) (fun secs1 =>
              match r1 with
              | [] => Secs secs1
              | p2 :: r2 =>
                  and_then (add_part b secs1 p2 [60; 60]) (fun secs2 =>
                  match r2 with
                  | [] => Secs secs2
                  | p3 :: r3 =>
                      and_then (add_part b secs2 p3 [60; 60; 24]) (fun secs3 =>
                      match r3 with
                      | [] => Secs secs3
                      | _ => Rejected
                      end)
                  end)
              end)
          end
      end
  end.

(** [Iterator::take_while]. Used in duration.rs 65. *)
Fixpoint take_while (f : N -> bool) (s : list N) : list N :=
  match s with
  | [] => []
  | c :: s' => if f c then c :: take_while f s' else []
  end.

(** [Iterator::last]. Used in duration.rs 25 and 66. *)
Fixpoint last_char (s : list N) : option N :=
  match s with
  | [] => None
  | [c] => Some c
  | _ :: s' => last_char s'
  end.

(** duration.rs 70-78: [make_suffix_duration]; 's' 'm' 'h' 'd'. *)
Definition make_suffix_duration (b : build) (n : N) (c : N) : parsed :=
  let scaled fs := match mul_all b n fs with Some m => Secs m | None => Panicked end in
  if c =? 115 then scaled []
  else if c =? 109 then scaled [60]
  else if c =? 104 then scaled [60; 60]
  else if c =? 100 then scaled [60; 60; 24]
  else Rejected.

(** duration.rs 63-68: [parse_suffix_duration]. *)
Definition parse_suffix_duration (u : unicode) (b : build) (src : rstr) : parsed :=
  match last_char src with
  | None => Rejected
  | Some c =>
      match parse_u64 (take_while (u_numeric u) src) with
      | None => Rejected
      | Some n => make_suffix_duration b n c
      end
  end.

(** duration.rs 22-30: [parse]. *)
Definition parse (u : unicode) (b : build) (src : rstr) : parsed :=
  if existsb (N.eqb 58) src then parse_colon_duration b src
  else match last_char src with
       | Some c => if u_alphabetic u c then parse_suffix_duration u b src else Rejected
       | None => Rejected
       end.
