(** What a Unix path means: its components. *)
From Coq Require Import List NArith Bool.
From Verif Require Import Model.Base.
Import ListNotations.
Open Scope N_scope.

Inductive component := Root | Here | Up | Entry (name : rstr).

(** std::path::Components for Unix: a leading '/' is the root, a leading "." of a
    relative path is kept, empty and other "." pieces are dropped. *)
Definition piece (p : rstr) : list component :=
  if str_eqb p [] || str_eqb p [46] then []
  else if str_eqb p [46; 46] then [Up]
  else [Entry p].

Definition leading (path : rstr) : list component :=
  match split_on 47 path with
  | [] :: _ :: _ => [Root]
  | p :: _ => if str_eqb p [46] then [Here] else []
  | [] => []
  end.

Definition components (path : rstr) : list component :=
  leading path ++ flat_map piece (split_on 47 path).

(** An acceptable session name. *)
Definition good_name (n : rstr) : Prop :=
  ~ In 47 n /\ Forall (fun c => is_whitespace c = false) n /\ n <> [] /\ n <> [46] /\ n <> [46; 46].

(** The characters Unicode calls white space, one by one (PropList.txt, White_Space). *)
Definition white_space : list N :=
  [9; 10; 11; 12; 13; 32; 133; 160; 5760; 8192; 8193; 8194; 8195; 8196; 8197; 8198; 8199; 8200; 8201; 8202;
   8232; 8233; 8239; 8287; 12288].
