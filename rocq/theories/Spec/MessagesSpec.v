(** What a message of another version says. *)
From Coq Require Import List NArith ZArith Bool Arith.
From Verif Require Import Model.Base Model.Msgpack Model.Messages.
Import ListNotations.
Open Scope N_scope.

(** The values a type has.  Lengths are those the format can express. *)
Inductive has_type : ty -> value -> Prop :=
| h_str s : utf8 s = true -> N.of_nat (length s) < 2 ^ 32 -> has_type TStr (VStr s)
| h_int lo hi z : (lo <= z <= hi)%Z -> has_type (TInt lo hi) (VInt z)
| h_none t : has_type (TOpt t) VNone
| h_some t v : has_type t v -> has_type (TOpt t) (VSome v)
| h_vec t l : Forall (has_type t) l -> N.of_nat (length l) < 2 ^ 32 -> has_type (TVec t) (VVec l)
| h_pair a b v w : has_type a v -> has_type b w -> has_type (TPair a b) (VPair v w)
| h_struct fs l : Forall2 (fun f v => has_type (snd (fst f)) v) fs l -> has_type (TStruct fs) (VRec l)
| h_unit vs n : In (n, None) vs -> has_type (TEnum vs) (VVar n None)
| h_new vs n t v : In (n, Some t) vs -> has_type t v -> has_type (TEnum vs) (VVar n (Some v)).

(** Entry [e] of a map is the field [n], the [i]th of its struct. *)
Definition for_field (i : nat) (n : list byte) (e : mval * mval) : Prop :=
  fst e = MStr n \/ fst e = MBin n \/ fst e = MInt (Z.of_nat i).
(** A key that can stand for a field, known or not. *)
Definition field_key (e : mval * mval) : Prop :=
  (exists s, fst e = MStr s \/ fst e = MBin s) \/ exists z, fst e = MInt z /\ (0 <= z)%Z.

(** The message [m], read as a [t], says [v].  For a struct: entries in any order,
    entries for no known field have no part in it, a field occurs at most once, and
    one that does not occur is its default, or nothing if it is an Option. *)
Inductive says : ty -> mval -> value -> Prop :=
| s_str s : utf8 s = true -> says TStr (MStr s) (VStr s)
| s_int lo hi z : (lo <= z <= hi)%Z -> says (TInt lo hi) (MInt z) (VInt z)
| s_nil t : says (TOpt t) MNil VNone
| s_some t m v : m <> MNil -> says t m v -> says (TOpt t) m (VSome v)
| s_vec t l vs : Forall2 (says t) l vs -> says (TVec t) (MArr l) (VVec vs)
| s_pair a b x y v w : says a x v -> says b y w -> says (TPair a b) (MArr [x; y]) (VPair v w)
| s_struct fs es vs : Forall field_key es -> fields_say es 0 fs vs -> says (TStruct fs) (MMap es) (VRec vs)
| s_unit vs n : In (n, None) vs -> says (TEnum vs) (MStr n) (VVar n None)
| s_new vs n t m v : In (n, Some t) vs -> says t m v -> says (TEnum vs) (MMap [(MStr n, m)]) (VVar n (Some v))
with fields_say : list (mval * mval) -> nat -> list (list byte * ty * option value) -> list value -> Prop :=
| f_end es i : fields_say es i [] []
| f_present es i n t d fs before k m after v vs :
    es = before ++ (k, m) :: after -> for_field i n (k, m) -> Forall (fun e => ~ for_field i n e) (before ++ after) -> says t m v ->
    fields_say es (S i) fs vs -> fields_say es i ((n, t, d) :: fs) (v :: vs)
| f_default es i n t v fs vs :
    Forall (fun e => ~ for_field i n e) es -> fields_say es (S i) fs vs -> fields_say es i ((n, t, Some v) :: fs) (v :: vs)
| f_nothing es i n t fs vs :
    Forall (fun e => ~ for_field i n e) es -> fields_say es (S i) fs vs -> fields_say es i ((n, TOpt t, None) :: fs) (VNone :: vs).

(** A type declaration makes sense: names are distinct, no Option of an Option,
    integers within the format's. *)
Fixpoint distinct (l : list (list byte)) : bool :=
  match l with [] => true | x :: r => negb (existsb (str_eqb x) r) && distinct r end.
Fixpoint sound (t : ty) : bool :=
  match t with
  | TStr => true
  | TInt lo hi => ((- 2 ^ 63 <=? lo) && (hi <? 2 ^ 64))%Z
  | TOpt t => match t with TOpt _ => false | _ => sound t end
  | TVec t => sound t
  | TPair a b => sound a && sound b
  | TStruct fs => distinct (map (fun f => fst (fst f)) fs) && (N.of_nat (length fs) <? 2 ^ 32) &&
                  forallb (fun f => (N.of_nat (length (fst (fst f))) <? 2 ^ 32) && sound (snd (fst f))) fs
  | TEnum vs => distinct (map fst vs) && forallb (fun v => (N.of_nat (length (fst v)) <? 2 ^ 32) && match snd v with Some t => sound t | None => true end) vs
  end.

(** A peer wrote [v], a [t] by its own declarations; the reader's declaration is [t'],
    and [v'] is the same message to the reader.  Where both know a struct they may
    differ in its fields: the reader takes those both know, whatever their order, drops
    those it does not know, and has its own default (nothing, for an Option) for those
    the writer does not know.  An enum may have more variants on either side. *)
Inductive skew : ty -> ty -> value -> value -> Prop :=
| k_same t v : skew t t v v
| k_none t t' : skew (TOpt t) (TOpt t') VNone VNone
| k_some t t' v v' : skew t t' v v' -> skew (TOpt t) (TOpt t') (VSome v) (VSome v')
| k_vec t t' l l' : Forall2 (skew t t') l l' -> skew (TVec t) (TVec t') (VVec l) (VVec l')
| k_pair a b a' b' v w v' w' : skew a a' v v' -> skew b b' w w' -> skew (TPair a b) (TPair a' b') (VPair v w) (VPair v' w')
| k_unit vs vs' n : In (n, None) vs' -> skew (TEnum vs) (TEnum vs') (VVar n None) (VVar n None)
| k_new vs vs' n t t' v v' : In (n, Some t) vs -> In (n, Some t') vs' -> skew t t' v v' -> skew (TEnum vs) (TEnum vs') (VVar n (Some v)) (VVar n (Some v'))
| k_struct fs fs' l l' : Forall2 (skew_field fs l) fs' l' -> skew (TStruct fs) (TStruct fs') (VRec l) (VRec l')
with skew_field : list (list byte * ty * option value) -> list value -> list byte * ty * option value -> value -> Prop :=
| k_known fs l i n t d t' d' v v' :
    nth_error fs i = Some (n, t, d) -> nth_error l i = Some v -> skew t t' v v' -> skew_field fs l (n, t', d') v'
| k_default fs l n t' v' : ~ In n (map (fun f => fst (fst f)) fs) -> skew_field fs l (n, t', Some v') v'
| k_nothing fs l n t' : ~ In n (map (fun f => fst (fst f)) fs) -> skew_field fs l (n, TOpt t', None) VNone.

(** The fields a message cannot do without, wherever they are in it. *)
Fixpoint required (t : ty) : list (list byte) :=
  match t with
  | TStr | TInt _ _ => []
  | TOpt t | TVec t => required t
  | TPair a b => required a ++ required b
  | TStruct fs => flat_map (fun f => match f with (n, TOpt t, _) => required t | (n, t, Some _) => required t | (n, t, None) => n :: required t end) fs
  | TEnum vs => flat_map (fun v => match snd v with Some t => required t | None => [] end) vs
  end.

(** The names of a type's fields and variants, in the order of the declaration. *)
Fixpoint names (t : ty) : list (list byte) :=
  match t with
  | TStr | TInt _ _ => []
  | TOpt t | TVec t => names t
  | TPair a b => names a ++ names b
  | TStruct fs => flat_map (fun f => match f with (n, t, _) => n :: names t end) fs
  | TEnum vs => flat_map (fun v => fst v :: match snd v with Some t => names t | None => [] end) vs
  end.
