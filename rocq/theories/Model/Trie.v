(** The trie used by the keybinding engine and the sentinel scanners:
    libshpool/src/daemon/trie.rs.  Symbols are numbers (u8, ChordAtom(u8) and
    char are all numbers here).  [None] is an index out of range panic. *)
From Coq Require Import List NArith Bool.
From Verif Require Import Model.Base.
Import ListNotations.
Open Scope N_scope.

(** trie.rs 113-117: [trait TrieTab]. *)
Record tab_ops (T : Type) := mkTab {
  tab_new : T;
  tab_get : T -> N -> option (option nat);
  tab_set : T -> N -> nat -> option T
}.
Arguments tab_new {T} t.
Arguments tab_get {T} t _ _.
Arguments tab_set {T} t _ _ _.

(** Rust indexing [v[i]] and [v[i] = x] on a [Vec]. Used in trie.rs 40-103. *)
Definition vec_get {A} (v : list A) (i : nat) : option A := nth_error v i.

(** Rust's library, as above. *)
Fixpoint vec_set {A} (v : list A) (i : nat) (x : A) : option (list A) :=
  match v, i with
  | [], _ => None
  | _ :: v', O => Some (x :: v')
  | y :: v', S i' => match vec_set v' i' x with Some v'' => Some (y :: v'') | None => None end
  end.

(** trie.rs 119-134: [HashMap<Sym, usize>] as a table. *)
Fixpoint hash_get (m : list (N * nat)) (s : N) : option nat :=
  match m with
  | [] => None
  | (s', i) :: m' => if s =? s' then Some i else hash_get m' s
  end.

(** trie.rs 122-136. *)
Definition hash_tab : tab_ops (list (N * nat)) :=
  mkTab _ [] (fun m s => Some (hash_get m s)) (fun m s i => Some ((s, i) :: m)).

(** trie.rs 136-149 and keybindings.rs 101-114: a vector with one slot for every
    value of a u8. *)
Definition vec_tab : tab_ops (list (option nat)) :=
  mkTab _ (repeat None 256)
        (fun v s => vec_get v (N.to_nat s))
        (fun v s i => vec_set v (N.to_nat s) (Some i)).

(** trie.rs 20-28: [struct TrieNode]. *)
Record node (V T : Type) := mkNode { n_value : option V; n_tab : T }.
Arguments mkNode {V T} _ _.
Arguments n_value {V T} _.
Arguments n_tab {V T} _.

(** trie.rs 6-8: [struct Trie { nodes }]. *)
Definition trie (V T : Type) := list (node V T).

(** trie.rs 10-18: [enum TrieCursor]. *)
Inductive cursor := Start | Match (idx : nat) (is_partial : bool) | NoMatch.

Section Trie.
  Context {V T : Type} (ops : tab_ops T).

  (** trie.rs 35-37: [Trie::new]. *)
  Definition trie_new : trie V T := [mkNode None (tab_new ops)].

  (** trie.rs 41-51: the loop of [Trie::insert]; returns the trie and the node
      reached. *)
  Fixpoint insert_walk (t : trie V T) (cur : nat) (seq : list N) : option (trie V T * nat) :=
    match seq with
    | [] => Some (t, cur)
    | sym :: seq' =>
        match vec_get t cur with
        | None => None
        | Some nd =>
            match tab_get ops (n_tab nd) sym with
            | None => None
            | Some (Some nxt) => insert_walk t nxt seq'
            | Some None =>
                let idx := length t in
                let t1 := t ++ [mkNode None (tab_new ops)] in
                match tab_set ops (n_tab nd) sym idx with
                | None => None
                | Some tab' =>
                    match vec_set t1 cur (mkNode (n_value nd) tab') with
                    | None => None
                    | Some t2 => insert_walk t2 idx seq'
                    end
                end
            end
        end
    end.

  (** trie.rs 40-53: [Trie::insert]. *)
  Definition trie_insert (t : trie V T) (seq : list N) (v : V) : option (trie V T) :=
    match insert_walk t 0%nat seq with
    | None => None
    | Some (t', cur) =>
        match vec_get t' cur with
        | None => None
        | Some nd => vec_set t' cur (mkNode (Some v) (n_tab nd))
        end
    end.

  (** trie.rs 78-90: [Trie::advance]. *)
  Definition trie_advance (t : trie V T) (c : cursor) (sym : N) : option cursor :=
    let go i :=
      match vec_get t i with
      | None => None
      | Some nd =>
          match tab_get ops (n_tab nd) sym with
          | None => None
          | Some None => Some NoMatch
          | Some (Some idx) =>
              match vec_get t idx with
              | None => None
              | Some nd' => Some (Match idx (match n_value nd' with None => true | Some _ => false end))
              end
          end
      end in
    match c with
    | Start => go 0%nat
    | Match idx _ => go idx
    | NoMatch => Some NoMatch
    end.

  (** trie.rs 93-99: [Trie::get]; the outer option is the panic. *)
  Definition trie_get (t : trie V T) (c : cursor) : option (option V) :=
    match c with
    | Match idx _ => match vec_get t idx with None => None | Some nd => Some (n_value nd) end
    | _ => Some None
    end.

  (** Feeding a whole string to [advance], as every user of the trie does. trie.rs 78-91,
      repeatedly. *)
  Fixpoint trie_walk (t : trie V T) (c : cursor) (seq : list N) : option cursor :=
    match seq with
    | [] => Some c
    | s :: seq' => match trie_advance t c s with None => None | Some c' => trie_walk t c' seq' end
    end.

  (** trie.rs 57-74: [Trie::contains]. *)
  Fixpoint contains_walk (t : trie V T) (c : cursor) (seq : list N) : option bool :=
    match seq with
    | [] =>
        match c with
        | Start => match vec_get t 0%nat with
                   | None => None
                   | Some nd => Some (match n_value nd with Some _ => true | None => false end)
                   end
        | Match _ p => Some (negb p)
        | NoMatch => Some false
        end
    | s :: seq' =>
        match trie_advance t c s with
        | None => None
        | Some NoMatch => Some false
        | Some c' => contains_walk t c' seq'
        end
    end.
  (** trie.rs 57-74. *)
  Definition trie_contains (t : trie V T) (seq : list N) : option bool := contains_walk t Start seq.

  (** A history of insertions, oldest first. trie.rs 40-55, repeatedly. *)
  Fixpoint trie_build (t : trie V T) (h : list (list N * V)) : option (trie V T) :=
    match h with
    | [] => Some t
    | (seq, v) :: h' => match trie_insert t seq v with None => None | Some t' => trie_build t' h' end
    end.
End Trie.
