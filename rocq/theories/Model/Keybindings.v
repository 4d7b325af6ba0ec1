(** The keybinding language and engine: libshpool/src/daemon/keybindings.rs.
    Errors stay data; [Panic] stands for an index or unwrap panic. *)
From Coq Require Import List NArith Bool.
From Verif Require Import Model.Base Model.Trie.
Import ListNotations.
Open Scope N_scope.

(** keybindings.rs 201-208: [enum Action]. *)
Inductive action := Detach | NoOp.

(** keybindings.rs 217-219: [struct Chord(Vec<String>)]. *)
Definition mchord := list rstr.

(** keybindings.rs 358-362: [enum Token]. *)
Inductive token := Key (k : rstr) | Dash.

(** The distinct [anyhow!] errors of the module. keybindings.rs 120-480. *)
Inductive kb_error :=
| TrieBug | UnexpectedChar (c : N) | UnexpectedDash
| InvalidKey (c : mchord) | CtrlAlone (c : mchord) | NotCtrl (c : mchord) | CtrlRepeated (c : mchord)
| InvalidChord (c : mchord) | UnknownCode (c : mchord) | TooManyChords | Panic.

(** Rust's [?] on a Result. *)
Definition bind {A B E} (r : result A E) (f : A -> result B E) : result B E :=
  match r with Ok a => f a | Err e => Err e end.

(** ** Lexer *)

(** keybindings.rs 364-372: [Lexer::new]. *)
Definition words_trie : option (trie unit (list (N * nat))) :=
  trie_build hash_tab (trie_new hash_tab) [(lit "Ctrl", tt); (lit "Space", tt)].

(** keybindings.rs 390-402: one char that is not part of a word. *)
Definition char_token (c : N) : result token kb_error :=
  if c =? 45 then Ok Dash                                   (* '-' *)
  else if (c =? 92) || (c =? 91) || (c =? 93) || (c =? 64)  (* \ [ ] @ *)
          || (c =? 94) || (c =? 95) || (c =? 63)            (* ^ _ ? *)
  then Ok (Key [c])
  else if (48 <=? c) && (c <=? 57) then Ok (Key [c])
  else if (97 <=? c) && (c <=? 122) then Ok (Key [c])
  else Err (UnexpectedChar c).

(** keybindings.rs 389-403: the inner loop over [word_chars]. *)
Fixpoint char_tokens (cs : list N) : result (list token) kb_error :=
  match cs with
  | [] => Ok []
  | c :: cs' => bind (char_token c) (fun t => bind (char_tokens cs') (fun ts => Ok (t :: ts)))
  end.

(** keybindings.rs 374-424: the loop of [Lexer::tokenize]. *)
Fixpoint tok_loop (tr : trie unit (list (N * nat))) (src : rstr)
    (tokens : list token) (word : rstr) (cur : cursor) : result (list token) kb_error :=
  match src with
  | [] => Ok tokens
  | c :: src' =>
      if is_whitespace c then tok_loop tr src' tokens word cur
      else
        match trie_advance hash_tab tr cur c with
        | None => Err Panic
        | Some Start => Err TrieBug
        | Some NoMatch =>
            bind (char_tokens (word ++ [c])) (fun ts => tok_loop tr src' (tokens ++ ts) [] Start)
        | Some (Match idx is_partial) =>
            let word' := word ++ [c] in
            if is_partial then tok_loop tr src' tokens word' (Match idx is_partial)
            else tok_loop tr src' (tokens ++ [Key word']) [] Start
        end
  end.

(** keybindings.rs 374-482. *)
Definition tokenize (src : rstr) : result (list token) kb_error :=
  match words_trie with
  | None => Err Panic
  | Some tr => tok_loop tr src [] [] Start
  end.

(** ** Parser *)

(** keybindings.rs 316-348: [fn parse]; the loop and the final flush. *)
Fixpoint parse_loop (tokens : list token) (chords : list mchord) (keys : list rstr) (saw_dash : bool)
    : result (list mchord) kb_error :=
  match tokens with
  | [] => Ok (match keys with [] => chords | _ => chords ++ [keys] end)
  | Key k :: ts =>
      if saw_dash then parse_loop ts chords (keys ++ [k]) false
      else parse_loop ts (chords ++ [keys]) [k] false
  | Dash :: ts =>
      if saw_dash then Err UnexpectedDash else parse_loop ts chords keys true
  end.

(** keybindings.rs 316-350. *)
Definition parse_tokens (tokens : list token) : result (list mchord) kb_error :=
  parse_loop tokens [] [] true.

(** ** Chords *)

(** keybindings.rs 284-286: [Chord::is_ctrl]. *)
Definition is_ctrl (k : rstr) : bool := str_eqb k (lit "Ctrl").

(** keybindings.rs 288-305: [Chord::is_sym].  [key.len()] counts UTF-8 bytes, so a
    one char key passes the length test only when the char is ASCII. *)
Definition is_sym (k : rstr) : bool :=
  if str_eqb k (lit "Space") then true
  else if existsb (str_eqb k) [[92]; [91]; [93]; [64]; [94]; [95]; [63]] then true
  else match k with
       | [c] => (c <? 128) &&
                (((48 <=? c) && (c <=? 57)) || ((97 <=? c) && (c <=? 122)) || ((65 <=? c) && (c <=? 90)))
       | _ => false
       end.

(** keybindings.rs 280-282: [Chord::is_key]. *)
Definition is_key (k : rstr) : bool := is_ctrl k || is_sym k.

(** keybindings.rs 228-250: [Chord::check_valid]. *)
Definition check_valid (c : mchord) : result unit kb_error :=
  if negb (forallb is_key c) then Err (InvalidKey c)
  else match c with
       | [k] => if is_ctrl k then Err (CtrlAlone c) else Ok tt
       | [k1; k2] =>
           if negb (is_ctrl k1) then Err (NotCtrl c)
           else if is_ctrl k2 then Err (CtrlRepeated c) else Ok tt
       | _ => Err (InvalidChord c)
       end.

(** keybindings.rs 436-479: [CONTROL_CODES], in the order of the source. *)
Definition control_codes : list (rstr * N) :=
  [ (lit "Ctrl-Space", 0);
    (lit "Ctrl-a", 1); (lit "Ctrl-b", 2); (lit "Ctrl-c", 3); (lit "Ctrl-d", 4); (lit "Ctrl-e", 5);
    (lit "Ctrl-f", 6); (lit "Ctrl-g", 7); (lit "Ctrl-h", 8); (lit "Ctrl-i", 9); (lit "Ctrl-j", 10);
    (lit "Ctrl-k", 11); (lit "Ctrl-l", 12); (lit "Ctrl-m", 13); (lit "Ctrl-n", 14); (lit "Ctrl-o", 15);
    (lit "Ctrl-p", 16); (lit "Ctrl-q", 17); (lit "Ctrl-r", 18); (lit "Ctrl-s", 19); (lit "Ctrl-t", 20);
    (lit "Ctrl-u", 21); (lit "Ctrl-v", 22); (lit "Ctrl-w", 23); (lit "Ctrl-y", 24); (lit "Ctrl-x", 25);
    (lit "Ctrl-z", 26);
    (lit "Ctrl-@", 0); (lit "Ctrl-2", 0);
    (lit "Ctrl-[", 27); (lit "Ctrl-3", 27);
    (lit "Ctrl-\", 28); (lit "Ctrl-4", 28);
    (lit "Ctrl-]", 29); (lit "Ctrl-5", 29);
    (lit "Ctrl-^", 30); (lit "Ctrl-6", 30);
    (lit "Ctrl-_", 31); (lit "Ctrl-7", 31);
    (lit "Ctrl-?", 127); (lit "Ctrl-8", 127); (lit "Ctrl-0", 127) ].

(** keybindings.rs 257-278: [Chord::key_code]. *)
Definition key_code (c : mchord) : result N kb_error :=
  bind (check_valid c) (fun _ =>
    let table := match c with
                 | [_; _] => lookup (join_with 45 c) control_codes
                 | _ => None
                 end in
    match c with
    | [k] =>
        if is_sym k then
          if str_eqb k (lit "Space") then Ok 32
          else match k with x :: _ => Ok (x mod 256) | [] => Err Panic end
        else Err (UnknownCode c)
    | _ => match table with Some code => Ok code | None => Err (UnknownCode c) end
    end).

(** ** Engine *)

(** The derived [==] of keybindings.rs 220. *)
Fixpoint chord_eqb (a b : mchord) : bool :=
  match a, b with
  | [], [] => true
  | x :: a', y :: b' => str_eqb x y && chord_eqb a' b'
  | _, _ => false
  end.

(** [chord_atom_tab: HashMap<Chord, ChordAtom>]. keybindings.rs 120-160. *)
Fixpoint atom_get (c : mchord) (tab : list (mchord * N)) : option N :=
  match tab with
  | [] => None
  | (c', a) :: tab' => if chord_eqb c c' then Some a else atom_get c tab'
  end.

(** A trie with the 256-entry table of trie.rs 138-150. *)
Definition byte_trie (V : Type) := trie V (list (option nat)).

(** keybindings.rs 67-82: [struct Bindings]. *)
Record bindings := mkBindings {
  b_chords : byte_trie N;
  b_chords_cursor : cursor;
  b_sequences : byte_trie action;
  b_sequences_cursor : cursor
}.

(** The locals of [Bindings::new]. keybindings.rs 120-160. *)
Record compiler := mkCompiler {
  k_chords : byte_trie N;
  k_sequences : byte_trie action;
  k_counter : N;
  k_tab : list (mchord * N)
}.

(** keybindings.rs 133-152: the loop over the chords of one sequence. *)
Fixpoint compile_chords (k : compiler) (cs : list mchord) : result compiler kb_error :=
  match cs with
  | [] => Ok k
  | c :: cs' =>
      bind (key_code c) (fun code =>
        let '(atom, counter, tab) :=
          match atom_get c (k_tab k) with
          | Some a => (a, k_counter k, k_tab k)
          | None => (k_counter k mod 256, k_counter k + 1, (c, k_counter k mod 256) :: k_tab k)
          end in
        if 255 <=? counter then Err TooManyChords
        else match trie_insert vec_tab (k_chords k) [code] atom with
             | None => Err Panic
             | Some t => compile_chords (mkCompiler t (k_sequences k) counter tab) cs'
             end)
  end.

(** keybindings.rs 129-155: the loop body of [Bindings::new]. *)
Definition compile_one (k : compiler) (src : rstr) (a : action) : result compiler kb_error :=
  bind (tokenize src) (fun tokens =>
  bind (parse_tokens tokens) (fun seq =>
  bind (compile_chords k seq) (fun k1 =>
    match map_opt (fun c => atom_get c (k_tab k1)) seq with
    | None => Err Panic
    | Some atoms =>
        match trie_insert vec_tab (k_sequences k1) atoms a with
        | None => Err Panic
        | Some t => Ok (mkCompiler (k_chords k1) t (k_counter k1) (k_tab k1))
        end
    end))).

(** keybindings.rs 120-160, the loop. *)
Fixpoint compile_all (k : compiler) (cfg : list (rstr * action)) : result compiler kb_error :=
  match cfg with
  | [] => Ok k
  | (src, a) :: cfg' => bind (compile_one k src a) (fun k' => compile_all k' cfg')
  end.

(** keybindings.rs 120-160: [Bindings::new]. *)
Definition bindings_new (cfg : list (rstr * action)) : result bindings kb_error :=
  bind (compile_all (mkCompiler (trie_new vec_tab) (trie_new vec_tab) 0 []) cfg) (fun k =>
    Ok (mkBindings (k_chords k) Start (k_sequences k) Start)).

(** keybindings.rs 85-90: [enum BindingResult]. *)
Inductive binding_result := BNoMatch | BPartial | BMatch (a : action).

(** keybindings.rs 165-198: [Bindings::transition]; [None] is an index panic. *)
Definition transition (b : bindings) (byte : N) : option (bindings * binding_result) :=
  match trie_advance vec_tab (b_chords b) (b_chords_cursor b) byte with
  | None => None
  | Some cc =>
      match trie_get (b_chords b) cc with
      | None => None
      | Some (Some atom) =>
          match trie_advance vec_tab (b_sequences b) (b_sequences_cursor b) atom with
          | None => None
          | Some sc =>
              match sc with
              | Match _ true => Some (mkBindings (b_chords b) Start (b_sequences b) sc, BPartial)
              | Match _ false =>
                  match trie_get (b_sequences b) sc with
                  | None => None
                  | Some (Some a) => Some (mkBindings (b_chords b) Start (b_sequences b) Start, BMatch a)
                  | Some None => Some (mkBindings (b_chords b) Start (b_sequences b) Start, BNoMatch)
                  end
              | _ => Some (mkBindings (b_chords b) Start (b_sequences b) Start, BNoMatch)
              end
          end
      | Some None =>
          match cc with
          | Match _ true => Some (mkBindings (b_chords b) cc (b_sequences b) (b_sequences_cursor b), BPartial)
          | _ => Some (mkBindings (b_chords b) Start (b_sequences b) Start, BNoMatch)
          end
      end
  end.

(** The engine fed with a stream of bytes: one result for each byte. keybindings.rs 165-198
    for each byte. *)
Fixpoint transitions (b : bindings) (bytes : list N) : option (bindings * list binding_result) :=
  match bytes with
  | [] => Some (b, [])
  | x :: bytes' =>
      match transition b x with
      | None => None
      | Some (b1, r) =>
          match transitions b1 bytes' with
          | None => None
          | Some (b2, rs) => Some (b2, r :: rs)
          end
      end
  end.
