(** What the list, var and set-log-level commands ask the daemon and print:
    libshpool/src/list.rs, var.rs, set_log_level.rs and the end of run, lib.rs 483-488.

    Text is a list of chars.  Simplified: only the plain output is modelled here (--json is
    in Json.v); warnings on stderr are left out.  [connected]: Client::new succeeded
    (a version mismatch only warns); an answer is [None] if the request could not be
    sent or the reply not be read. *)
From Coq Require Import List NArith ZArith Bool.
From Verif Require Import Model.Base Model.Protocol.
Import ListNotations.
Open Scope N_scope.

(** The number of bytes of a char in UTF-8, and [String::len]. *)
Definition utf8_len (c : N) : nat :=
  if c <? 128 then 1%nat else if c <? 2048 then 2%nat else if c <? 65536 then 3%nat else 4%nat.
(** Rust's String::len. *)
Definition str_len (s : rstr) : nat := fold_right (fun c n => (utf8_len c + n)%nat) 0%nat s.

(** list.rs 42-43. *)
Definition longest_name (sessions : list (rstr * bool)) : nat :=
  fold_right (fun s n => Nat.max (str_len (fst s)) n) 0%nat sessions.

(** list.rs 47-50: spaces (32) are added while the name is too short. *)
Definition padded (width : nat) (name : rstr) : rstr := name ++ repeat 32 (width - str_len name).

(** shpool-protocol/src/lib.rs 312-320. *)
Definition status_text (attached : bool) : rstr := if attached then lit "attached" else lit "disconnected".

(** list.rs 42-52; the sessions come with whether they are attached.  9 is the tab. *)
Definition list_text (sessions : list (rstr * bool)) : rstr :=
  lit "NAME" ++ 9 :: lit "STATUS" ++ 10 ::
  flat_map (fun s => padded (longest_name sessions) (fst s) ++ 9 :: status_text (snd s) ++ [10]) sessions.

(** What a command does: the request it sends, the text it prints and its exit code. list.rs
    22, var.rs 8, set_log_level.rs 22. *)
Inductive query := AskList | AskVars | AskModify (var : rstr) (val : option rstr) | AskLogLevel (level : rstr).
(** list.rs 22; var.rs 8; set_log_level.rs 22. *)
Record outcome := mkOutcome { asked : option query; printed : rstr; code : Z }.

(** The errors of list.rs 29-35, var.rs 15-21 and set_log_level.rs 29-35 when there is no
    daemon. *)
Definition not_connected : outcome := mkOutcome None [] 1.

(** list.rs 22-56. *)
Definition list_command (connected : bool) (answer : option (list (rstr * bool))) : outcome :=
  if negb connected then not_connected
  else match answer with
       | None => mkOutcome (Some AskList) [] 1
       | Some sessions => mkOutcome (Some AskList) (list_text sessions) 0
       end.

(** The subcommands var.rs 8 tells apart, and the answers it reads. *)
Inductive var_command := VarList | VarGet (var : rstr) | VarSet (var val : rstr) | VarUnset (var : rstr).
(** var.rs 8. *)
Inductive var_answer := GotVars (vars : var_list) | GotModified.

(** var.rs 24-67.  An answer of the wrong kind cannot be decoded. *)
Definition var_run (connected : bool) (answer : option var_answer) (c : var_command) : outcome :=
  if negb connected then not_connected
  else
    let q := match c with
             | VarList | VarGet _ => AskVars
             | VarSet var val => AskModify var (Some val)
             | VarUnset var => AskModify var None
             end in
    match c, answer with
    | VarList, Some (GotVars vars) =>
        mkOutcome (Some q) (flat_map (fun p => fst p ++ 9 :: snd p ++ [10]) vars) 0
    | VarGet var, Some (GotVars vars) =>
        mkOutcome (Some q) (flat_map (fun p => if str_eqb (fst p) var then snd p ++ [10] else []) vars) 0
    | (VarSet _ _ | VarUnset _), Some GotModified => mkOutcome (Some q) [] 0
    | _, _ => mkOutcome (Some q) [] 1
    end.

(** set_log_level.rs 22-44; [answered]: a reply was read. *)
Definition set_log_level (connected answered : bool) (level : rstr) : outcome :=
  if negb connected then not_connected
  else mkOutcome (Some (AskLogLevel level)) [] (if answered then 0 else 1).
