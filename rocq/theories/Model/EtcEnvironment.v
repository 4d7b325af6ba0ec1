(** libshpool/src/daemon/etc_environment.rs: the compatible parser for
    /etc/environment. *)
From Coq Require Import List NArith Bool.
From Verif Require Import Model.Base.
Import ListNotations.
Open Scope N_scope.

(** [str::trim_start], [str::trim_end], [str::trim]. Used in etc_environment.rs 22. *)
Fixpoint trim_start (s : rstr) : rstr :=
  match s with
  | [] => []
  | c :: s' => if is_whitespace c then trim_start s' else s
  end.

(** Rust's library, as above. *)
Definition trim_end (s : rstr) : rstr := rev (trim_start (rev s)).
(** Rust's str::trim. *)
Definition trim (s : rstr) : rstr := trim_end (trim_start s).

(** [str::strip_prefix] and [str::strip_suffix]. Used in etc_environment.rs 31 and 60-64. *)
Fixpoint strip_prefix (p s : rstr) : option rstr :=
  match p, s with
  | [], _ => Some s
  | x :: p', y :: s' => if x =? y then strip_prefix p' s' else None
  | _ :: _, [] => None
  end.

(** Rust's library, as above. *)
Definition strip_suffix (p s : rstr) : option rstr :=
  match strip_prefix (rev p) (rev s) with Some r => Some (rev r) | None => None end.

(** [Option::unwrap_or], etc_environment.rs 31, 60-64. *)
Definition unwrap_or (o : option rstr) (s : rstr) : rstr := match o with Some x => x | None => s end.

(** [str::starts_with], etc_environment.rs 23, 59. *)
Definition starts_with (c : N) (s : rstr) : bool := match s with x :: _ => x =? c | [] => false end.

(** [.chars().take_while(|c| *c != '#').collect()]. etc_environment.rs 37. *)
Fixpoint take_until (c : N) (s : rstr) : rstr :=
  match s with
  | [] => []
  | x :: s' => if x =? c then [] else x :: take_until c s'
  end.

(** [splitn(2, '=')]: the parts before and after the first separator. *)
Fixpoint split_once (c : N) (s : rstr) : option (rstr * rstr) :=
  match s with
  | [] => None
  | x :: s' => if x =? c then Some ([], s')
               else match split_once c s' with Some (a, b) => Some (x :: a, b) | None => None end
  end.

(** etc_environment.rs 50: [c.is_ascii_alphanumeric() || c == '_']. *)
Definition key_char (c : N) : bool :=
  ((48 <=? c) && (c <=? 57)) || ((65 <=? c) && (c <=? 90)) || ((97 <=? c) && (c <=? 122)) || (c =? 95).

(** etc_environment.rs 55-65: stripping quotes. *)
Definition strip_quotes (val : rstr) : rstr :=
  let has_leading_quote := starts_with 39 val || starts_with 34 val in
  let val := unwrap_or (strip_prefix [39] val) val in
  let val := unwrap_or (strip_prefix [34] val) val in
  if has_leading_quote then
    let val := unwrap_or (strip_suffix [39] val) val in
    unwrap_or (strip_suffix [34] val) val
  else val.

(** etc_environment.rs 22-66: one line. *)
Definition parse_line (line : rstr) : option (rstr * rstr) :=
  let line := trim line in
  if (match line with [] => true | _ => false end) || starts_with 35 line then None
  else
    let line := unwrap_or (strip_prefix (lit "export ") line) line in
    let line := take_until 35 line in
    match split_once 61 line with
    | None => None
    | Some (key, val) =>
        if match key with [] => true | _ => false end then None
        else if negb (forallb key_char key) then None
        else Some (key, strip_quotes val)
    end.

(** etc_environment.rs 13-72, the filter_map over the lines. *)
Fixpoint parse_lines (lines : list rstr) : list (rstr * rstr) :=
  match lines with
  | [] => []
  | l :: lines' => match parse_line l with Some p => p :: parse_lines lines' | None => parse_lines lines' end
  end.

(** etc_environment.rs 13-73: [parse_compat].  The file is its text, or [None] if
    it is not UTF-8 ([read_line] fails then).  A line keeps its newline in the
    code; [trim] removes it, and the empty piece after the last newline is the
    end of the file. *)
Definition parse_compat (file : option rstr) : result (list (rstr * rstr)) unit :=
  match file with
  | None => Err tt
  | Some text => Ok (parse_lines (split_on 10 text))
  end.
