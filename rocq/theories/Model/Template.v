(** Session name templates: libshpool/src/template.rs 29-108. *)
From Coq Require Import List NArith Bool.
From Verif Require Import Model.Base Model.Duration.
Import ListNotations.
Open Scope N_scope.

(** template.rs 42-45: [enum Chunk]. *)
Inductive tchunk := Raw (s : rstr) | Var (s : rstr).

(** template.rs 29-37: [struct Template], without the capacity hint
    [instantiated_size_guess] (lines 80-86), which has no observable effect. *)
Record template := mkTemplate { t_src : rstr; t_chunks : list tchunk }.

(** The errors of template.rs 48-90. *)
Inductive template_error := Unclosed | InvalidVar (s : rstr) | OutOfFuel.

(** [str::find(char)] together with the two slices around the hit. Used in template.rs
    48-90. *)
Fixpoint find_char (c : N) (s : rstr) : option (rstr * rstr) :=
  match s with
  | [] => None
  | x :: s' => if x =? c then Some ([], s')
               else match find_char c s' with
                    | Some (pre, post) => Some (x :: pre, post)
                    | None => None
                    end
  end.

(** template.rs 65-66. *)
Definition valid_ident (u : unicode) (var : rstr) : bool :=
  match var with
  | [] => false
  | c :: _ => negb (u_numeric u c) && forallb (fun c => u_alphanumeric u c || (c =? 95)) var
  end.

(** template.rs 54-78: the parsing loop; '{' is 123, '}' is 125. *)
Fixpoint parse_chunks (u : unicode) (fuel : nat) (rest : rstr) : result (list tchunk) template_error :=
  match fuel with
  | O => Err OutOfFuel
  | S f =>
      match find_char 123 rest with
      | None => Ok (match rest with [] => [] | _ => [Raw rest] end)
      | Some (before, after) =>
          match find_char 125 after with
          | None => Err Unclosed
          | Some (var, rest') =>
              if valid_ident u var then
                match parse_chunks u f rest' with
                | Err e => Err e
                | Ok cs => Ok ((match before with [] => [] | _ => [Raw before] end) ++ Var var :: cs)
                end
              else Err (InvalidVar var)
          end
      end
  end.

(** template.rs 48-89: [Template::new]. *)
Definition template_new (u : unicode) (src : rstr) : result template template_error :=
  match parse_chunks u (S (length src)) src with
  | Err e => Err e
  | Ok cs => Ok (mkTemplate src cs)
  end.

(** template.rs 92-94: [Template::source]. *)
Definition template_source (t : template) : rstr := t_src t.

(** template.rs 98-107: [Template::apply]. *)
Definition template_apply (t : template) (vars : list (rstr * rstr)) : rstr :=
  concat (map (fun c => match c with
                        | Raw text => text
                        | Var v => match lookup v vars with Some x => x | None => [] end
                        end) (t_chunks t)).
