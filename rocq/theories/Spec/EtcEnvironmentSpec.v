(** What a line of /etc/environment says. *)
From Coq Require Import List NArith Bool.
From Verif Require Import Model.Base.
Import ListNotations.
Open Scope N_scope.

Definition blank (s : rstr) : Prop := Forall (fun c => is_whitespace c = true) s.
Definition begins (p s : rstr) : Prop := exists t, s = p ++ t.
Definition finishes (p s : rstr) : Prop := exists t, s = t ++ p.

(** No whitespace at either end. *)
Definition tight (s : rstr) : Prop :=
  (forall c t, s = c :: t -> is_whitespace c = false) /\ (forall c t, s = t ++ [c] -> is_whitespace c = false).

(** Letters, digits and underscores. *)
Definition name_char (c : N) : Prop := 48 <= c <= 57 \/ 65 <= c <= 90 \/ 97 <= c <= 122 \/ c = 95.

Definition quote : rstr := lit "'".
Definition dquote : rstr := [34].

(** Removing opening quotes: one of each kind at most, a single quote first. *)
Inductive opened : rstr -> rstr -> Prop :=
| o_both v : opened (quote ++ dquote ++ v) v
| o_quote v : ~ begins dquote v -> opened (quote ++ v) v
| o_dquote v : opened (dquote ++ v) v.

(** Removing closing quotes, if there are any: the last character first. *)
Inductive closed : rstr -> rstr -> Prop :=
| c_both v : closed (v ++ dquote ++ quote) v
| c_quote v : ~ finishes dquote v -> closed (v ++ quote) v
| c_dquote v : closed (v ++ dquote) v
| c_none v : ~ finishes quote v -> ~ finishes dquote v -> closed v v.

(** The value written as [raw]. *)
Inductive unquoted : rstr -> rstr -> Prop :=
| u_plain v : ~ begins quote v -> ~ begins dquote v -> unquoted v v
| u_quoted raw w v : opened raw w -> closed w v -> unquoted raw v.

(** [assigns line k v]: the line is, between blanks, [export ] or nothing, a name,
    an equals sign, the value and maybe a comment. *)
Definition assigns (line k v : rstr) : Prop :=
  exists ws1 export raw comment ws2,
    line = ws1 ++ (export ++ k ++ [61] ++ raw ++ comment) ++ ws2 /\
    blank ws1 /\ blank ws2 /\ tight (export ++ k ++ [61] ++ raw ++ comment) /\
    (export = [] \/ export = lit "export ") /\
    k <> [] /\ Forall name_char k /\
    ~ In 35 raw /\ (comment = [] \/ begins [35] comment) /\ unquoted raw v.

(** What the lines of a file contribute, in order. *)
Inductive contributes : list rstr -> list (rstr * rstr) -> Prop :=
| co_end : contributes [] []
| co_pair l ls k v ps : assigns l k v -> contributes ls ps -> contributes (l :: ls) ((k, v) :: ps)
| co_skip l ls ps : (forall k v, ~ assigns l k v) -> contributes ls ps -> contributes (l :: ls) ps.
