(** What list --json and var list --json print: libshpool/src/list.rs 38-40, var.rs 27-33,
    with serde's derived Serialize for the reply (shpool-protocol/src/lib.rs 266-310) and
    serde_json 1.0.149 (Cargo.lock): to_string_pretty, its escaping of strings and its maps,
    which are sorted (the feature preserve_order is off).

    Text is a list of chars; escaping leaves everything beyond ASCII alone, so chars and
    UTF-8 bytes come to the same. *)
From Coq Require Import List NArith ZArith Bool.
From Verif Require Import Model.Base Model.Protocol Model.Server Model.Commands.
Import ListNotations.
Open Scope N_scope.

(** The parts of serde's data model that occur: None and Some, integers, strings,
    sequences, and structs and maps, which print alike. What list.rs 42 and var.rs 33 print. *)
Inductive json :=
| JNull
| JInt (z : Z)
| JStr (s : rstr)
| JArr (elements : list json)
| JObj (members : list (rstr * json)).

(** serde_json ser.rs, format_escaped_str: the quote, the backslash and the control
    characters below 32 are escaped, five of them with a letter. *)
Definition hex_digit (d : N) : N := if d <? 10 then 48 + d else 87 + d.
(** serde_json, as above. *)
Definition escape (c : N) : rstr :=
  if c =? 34 then [92; 34]
  else if c =? 92 then [92; 92]
  else if c =? 8 then [92; 98]
  else if c =? 9 then [92; 116]
  else if c =? 10 then [92; 110]
  else if c =? 12 then [92; 102]
  else if c =? 13 then [92; 114]
  else if c <? 32 then [92; 117; 48; 48; hex_digit (c / 16); hex_digit (c mod 16)]
  else [c].
(** serde_json, as above. *)
Definition quoted (s : rstr) : rstr := 34 :: flat_map escape s ++ [34].

(** itoa, for an i64 or i32: the digits from the last to the first; there are no more of
    them than binary ones. *)
Fixpoint digits_of (fuel : nat) (n : N) (acc : rstr) : rstr :=
  match fuel with
  | O => acc
  | S f => let acc' := 48 + n mod 10 :: acc in if n <? 10 then acc' else digits_of f (n / 10) acc'
  end.
(** itoa, with the sign. *)
Definition integer (z : Z) : rstr :=
  let n := Z.to_N (Z.abs z) in
  (if (z <? 0)%Z then [45] else []) ++ digits_of (S (N.to_nat (N.log2 n))) n [].

(** serde_json ser.rs, PrettyFormatter: two spaces for each level, every element and member
    on a line of its own; nothing between the brackets if there is none. Used by list.rs 42
    and var.rs 33. *)
Definition margin (level : nat) : rstr := repeat 32 (2 * level).
(** serde_json, as above. *)
Definition fill (open close : N) (level : nat) (items : list rstr) : rstr :=
  match items with
  | [] => [open; close]
  | i :: is => open :: 10 :: margin (S level) ++ i ++ flat_map (fun j => 44 :: 10 :: margin (S level) ++ j) is ++ 10 :: margin level ++ [close]
  end.
(** serde_json, as above. *)
Fixpoint pretty (level : nat) (v : json) : rstr :=
  match v with
  | JNull => lit "null"
  | JInt z => integer z
  | JStr s => quoted s
  | JArr l => fill 91 93 level (map (pretty (S level)) l)
  | JObj l => fill 123 125 level (map (fun m => quoted (fst m) ++ 58 :: 32 :: pretty (S level) (snd m)) l)
  end.

(** shpool-protocol/src/lib.rs 266-310, derived: the fields in order, None as null, a
    variant without data as its name. *)
Definition optional (z : option Z) : json := match z with Some z => JInt z | None => JNull end.
(** shpool-protocol/src/lib.rs 266-310. *)
Definition json_attachment (a : rstr * Z) : json :=
  JObj [(lit "session_name_template", JStr (fst a)); (lit "pid", JInt (snd a))].
(** shpool-protocol/src/lib.rs 266-310. *)
Definition json_session (i : session_info) : json :=
  JObj [(lit "name", JStr (i_name i)); (lit "started_at_unix_ms", JInt (i_started i));
        (lit "last_connected_at_unix_ms", optional (i_connected i));
        (lit "last_disconnected_at_unix_ms", optional (i_disconnected i));
        (lit "status", JStr (if i_attached i then lit "Attached" else lit "Disconnected"));
        (lit "attachments", JArr (map json_attachment (i_attachments i)))].
(** shpool-protocol/src/lib.rs 266-310. *)
Definition json_reply (sessions : list session_info) : json := JObj [(lit "sessions", JArr (map json_session sessions))].

(** BTreeMap<String, _>: ordered like the strings, of which [<] compares the UTF-8 bytes;
    that is the order of the chars.  Inserting a key again replaces its value. *)
Fixpoint str_ltb (a b : rstr) : bool :=
  match a, b with
  | _, [] => false
  | [], _ :: _ => true
  | x :: a', y :: b' => (x <? y) || ((x =? y) && str_ltb a' b')
  end.
(** BTreeMap::insert. *)
Fixpoint btree_insert (k : rstr) (v : json) (m : list (rstr * json)) : list (rstr * json) :=
  match m with
  | [] => [(k, v)]
  | (k', v') :: m' =>
      if str_eqb k k' then (k, v) :: m'
      else if str_ltb k k' then (k, v) :: m
      else (k', v') :: btree_insert k v m'
  end.
(** var.rs 28-32. *)
Definition json_vars (vars : var_list) : json :=
  JObj (fold_left (fun m p => btree_insert (fst p) (JStr (snd p)) m) vars []).

(** list.rs 22-56 with --json. *)
Definition list_json_command (connected : bool) (answer : option (list session_info)) : outcome :=
  if negb connected then not_connected
  else match answer with
       | None => mkOutcome (Some AskList) [] 1
       | Some sessions => mkOutcome (Some AskList) (pretty 0 (json_reply sessions) ++ [10]) 0
       end.
(** var.rs 24-34 with --json. *)
Definition var_list_json_command (connected : bool) (answer : option var_list) : outcome :=
  if negb connected then not_connected
  else match answer with
       | None => mkOutcome (Some AskVars) [] 1
       | Some vars => mkOutcome (Some AskVars) (pretty 0 (json_vars vars) ++ [10]) 0
       end.
