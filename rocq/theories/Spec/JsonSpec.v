(** Reading JSON: RFC 8259, as a function from a text to the value it denotes.  Fractions,
    exponents, true and false are not read; nothing else is left out. *)
From Coq Require Import List NArith ZArith Bool.
From Verif Require Import Model.Base Model.Json.
Import ListNotations.
Open Scope N_scope.

(** Section 2: insignificant whitespace. *)
Definition blank (c : N) : bool := (c =? 32) || (c =? 9) || (c =? 10) || (c =? 13).
Fixpoint skip (t : rstr) : rstr := match t with c :: t' => if blank c then skip t' else t | [] => [] end.

(** Section 7: strings, from behind the opening quote. *)
Definition hex_value (c : N) : option N :=
  if (48 <=? c) && (c <=? 57) then Some (c - 48)
  else if (97 <=? c) && (c <=? 102) then Some (c - 87)
  else if (65 <=? c) && (c <=? 70) then Some (c - 55) else None.
Definition hex4 (a b c d : N) : option N :=
  match hex_value a, hex_value b, hex_value c, hex_value d with
  | Some a, Some b, Some c, Some d => Some (4096 * a + 256 * b + 16 * c + d)
  | _, _, _, _ => None
  end.
Definition short_escape (c : N) : option N :=
  if c =? 34 then Some 34 else if c =? 92 then Some 92 else if c =? 47 then Some 47
  else if c =? 98 then Some 8 else if c =? 102 then Some 12 else if c =? 110 then Some 10
  else if c =? 114 then Some 13 else if c =? 116 then Some 9 else None.
Definition high (u : N) : bool := (55296 <=? u) && (u <? 56320).
Definition low (u : N) : bool := (56320 <=? u) && (u <? 57344).
Definition then_char {A} (c : N) (r : option (rstr * A)) : option (rstr * A) :=
  match r with Some (s, rest) => Some (c :: s, rest) | None => None end.
Fixpoint string_body (t : rstr) : option (rstr * rstr) :=
  match t with
  | [] => None
  | c :: t =>
      if c =? 34 then Some ([], t)
      else if c <? 32 then None
      else if negb (c =? 92) then then_char c (string_body t)
      else match t with
           | [] => None
           | e :: t =>
               if negb (e =? 117) then match short_escape e with Some c => then_char c (string_body t) | None => None end
               else match t with
                    | a :: b :: c :: d :: t =>
                        match hex4 a b c d with
                        | None => None
                        | Some u =>
                            if low u then None
                            else if negb (high u) then then_char u (string_body t)
                            else match t with
                                 | x :: y :: a :: b :: c :: d :: t =>
                                     match hex4 a b c d with
                                     | Some w =>
                                         if (x =? 92) && (y =? 117) && low w
                                         then then_char (65536 + 1024 * (u - 55296) + (w - 56320)) (string_body t)
                                         else None
                                     | None => None
                                     end
                                 | _ => None
                                 end
                        end
                    | _ => None
                    end
           end
  end.

(** The text after the char [c], if it starts with it; likewise for a word. *)
Definition next (c : N) (t : rstr) : option rstr :=
  match t with x :: r => if x =? c then Some r else None | [] => None end.
Fixpoint word (w t : rstr) : option rstr :=
  match w with [] => Some t | c :: w => match next c t with Some r => word w r | None => None end end.

(** Section 6: numbers. *)
Definition digit (c : N) : bool := (48 <=? c) && (c <=? 57).
Fixpoint digits (n : Z) (t : rstr) : Z * rstr :=
  match t with
  | c :: t' => if digit c then digits (10 * n + Z.of_N (c - 48)) t' else (n, t)
  | [] => (n, [])
  end.
Definition natural (t : rstr) : option (Z * rstr) :=
  match t with
  | [] => None
  | c :: r =>
      if negb (digit c) then None
      else if (c =? 48) && match r with d :: _ => digit d | [] => false end then None
      else Some (digits 0 t)
  end.
Definition number (t : rstr) : option (Z * rstr) :=
  match next 45 t with
  | Some t => match natural t with Some (n, r) => Some ((- n)%Z, r) | None => None end
  | None => natural t
  end.

(** Sections 3 to 5.  Each function starts at a char that is not blank; [fuel] bounds the
    number of values and of commas that can be read.  91 and 93 are the square brackets, 123
    and 125 the curly ones, 34 is the quote, 44 the comma, 58 the colon. *)
Fixpoint value (fuel : nat) (t : rstr) : option (json * rstr) :=
  match fuel with
  | O => None
  | S fuel =>
      match next 34 t with
      | Some t => match string_body t with Some (s, r) => Some (JStr s, r) | None => None end
      | None =>
      match next 91 t with
      | Some t =>
          match next 93 (skip t) with
          | Some r => Some (JArr [], r)
          | None => match elements fuel (skip t) with Some (l, r) => Some (JArr l, r) | None => None end
          end
      | None =>
      match next 123 t with
      | Some t =>
          match next 125 (skip t) with
          | Some r => Some (JObj [], r)
          | None => match members fuel (skip t) with Some (l, r) => Some (JObj l, r) | None => None end
          end
      | None =>
      match word (lit "null") t with
      | Some r => Some (JNull, r)
      | None => match number t with Some (z, r) => Some (JInt z, r) | None => None end
      end end end end
  end
with elements (fuel : nat) (t : rstr) : option (list json * rstr) :=
  match fuel with
  | O => None
  | S fuel =>
      match value fuel t with
      | None => None
      | Some (v, r) =>
          match next 44 (skip r) with
          | Some r => match elements fuel (skip r) with Some (l, r) => Some (v :: l, r) | None => None end
          | None => match next 93 (skip r) with Some r => Some ([v], r) | None => None end
          end
      end
  end
with members (fuel : nat) (t : rstr) : option (list (rstr * json) * rstr) :=
  match fuel with
  | O => None
  | S fuel =>
      match next 34 t with
      | None => None
      | Some t =>
      match string_body t with
      | None => None
      | Some (k, r) =>
      match next 58 (skip r) with
      | None => None
      | Some r =>
      match value fuel (skip r) with
      | None => None
      | Some (v, r) =>
          match next 44 (skip r) with
          | Some r => match members fuel (skip r) with Some (l, r) => Some ((k, v) :: l, r) | None => None end
          | None => match next 125 (skip r) with Some r => Some ([(k, v)], r) | None => None end
          end
      end end end end
  end.

(** Section 2: a JSON text is one value, with blanks around it. *)
Definition reads (t : rstr) (v : json) : Prop :=
  exists fuel r, value fuel (skip t) = Some (v, r) /\ skip r = [].

(** What a program that knows the names of the fields makes of an object. *)
Definition field (k : rstr) (v : json) : option json :=
  match v with JObj l => lookup k l | _ => None end.
