From Coq Require Import List NArith ZArith Bool Arith Lia ZifyBool ZifyN ZifyNat.
From Verif Require Import Model.Base Model.Protocol Model.Server Model.Commands Model.Json Spec.JsonSpec Proofs.BaseLemmas.
Import ListNotations.
Open Scope N_scope.

Section JsonInd.
Variable P : json -> Prop.
Hypothesis HN : P JNull.
Hypothesis HI : forall z, P (JInt z).
Hypothesis HS : forall s, P (JStr s).
Hypothesis HA : forall l, Forall P l -> P (JArr l).
Hypothesis HO : forall l, Forall (fun m => P (snd m)) l -> P (JObj l).
Fixpoint json_nested_ind (v : json) : P v :=
  match v with
  | JNull => HN
  | JInt z => HI z
  | JStr s => HS s
  | JArr l => HA l ((fix go l : Forall P l := match l with [] => Forall_nil _ | x :: l => Forall_cons x (json_nested_ind x) (go l) end) l)
  | JObj l => HO l ((fix go l : Forall (fun m => P (snd m)) l := match l with [] => Forall_nil _ | x :: l => Forall_cons x (json_nested_ind (snd x)) (go l) end) l)
  end.
End JsonInd.

(** *** More fuel reads no less *)
Lemma more_fuel f :
  (forall t x, value f t = Some x -> value (S f) t = Some x) /\
  (forall t x, elements f t = Some x -> elements (S f) t = Some x) /\
  (forall t x, members f t = Some x -> members (S f) t = Some x).
Proof.
  induction f as [|f (IV & IE & IM)]; [repeat split; intros; discriminate|].
  split; [|split].
  - intros t x H. change (value (S f) t) with
      (match next 34 t with
      | Some t => match string_body t with Some (s, r) => Some (JStr s, r) | None => None end
      | None =>
      match next 91 t with
      | Some t =>
          match next 93 (skip t) with
          | Some r => Some (JArr [], r)
          | None => match elements f (skip t) with Some (l, r) => Some (JArr l, r) | None => None end
          end
      | None =>
      match next 123 t with
      | Some t =>
          match next 125 (skip t) with
          | Some r => Some (JObj [], r)
          | None => match members f (skip t) with Some (l, r) => Some (JObj l, r) | None => None end
          end
      | None =>
      match word (lit "null") t with
      | Some r => Some (JNull, r)
      | None => match number t with Some (z, r) => Some (JInt z, r) | None => None end
      end end end end) in H.
    remember (S f) as g. cbn [value].
    destruct (next 34 t) as [t1|]; [exact H|]. destruct (next 91 t) as [t1|].
    { destruct (next 93 (skip t1)); [exact H|]. destruct (elements f (skip t1)) as [[l r]|] eqn:E; [|discriminate]. rewrite (IE _ _ E). exact H. }
    destruct (next 123 t) as [t1|]; [|exact H].
    destruct (next 125 (skip t1)); [exact H|]. destruct (members f (skip t1)) as [[l r]|] eqn:E; [|discriminate]. rewrite (IM _ _ E). exact H.
  - intros t x H. cbn [elements] in H. remember (S f) as g. cbn [elements].
    destruct (value f t) as [[v r]|] eqn:E; [|discriminate]. rewrite (IV _ _ E).
    destruct (next 44 (skip r)) as [r1|]; [|exact H]. destruct (elements f (skip r1)) as [[l r2]|] eqn:E2; [|discriminate]. rewrite (IE _ _ E2). exact H.
  - intros t x H. cbn [members] in H. remember (S f) as g. cbn [members].
    destruct (next 34 t) as [t1|]; [|exact H]. destruct (string_body t1) as [[k r]|]; [|exact H]. destruct (next 58 (skip r)) as [r1|]; [|exact H].
    destruct (value f (skip r1)) as [[v r2]|] eqn:E; [|discriminate]. rewrite (IV _ _ E).
    destruct (next 44 (skip r2)) as [r3|]; [|exact H]. destruct (members f (skip r3)) as [[l r4]|] eqn:E2; [|discriminate]. rewrite (IM _ _ E2). exact H.
Qed.
Lemma value_le f g t x : (f <= g)%nat -> value f t = Some x -> value g t = Some x.
Proof. intros L. induction L; intros H; [exact H|]. apply (proj1 (more_fuel _)). auto. Qed.
Lemma elements_le f g t x : (f <= g)%nat -> elements f t = Some x -> elements g t = Some x.
Proof. intros L. induction L; intros H; [exact H|]. apply (proj1 (proj2 (more_fuel _))). auto. Qed.
Lemma members_le f g t x : (f <= g)%nat -> members f t = Some x -> members g t = Some x.
Proof. intros L. induction L; intros H; [exact H|]. apply (proj2 (proj2 (more_fuel _))). auto. Qed.

Lemma reads_unique t v v' : reads t v -> reads t v' -> v = v'.
Proof.
  intros (f & r & H & _) (g & r' & H' & _).
  apply (value_le f (Nat.max f g)) in H; [|lia]. apply (value_le g (Nat.max f g)) in H'; [|lia]. congruence.
Qed.

(** *** Strings *)
Lemma hex_digit_value d : d < 16 -> hex_value (hex_digit d) = Some d.
Proof.
  intros H. unfold hex_value, hex_digit. destruct (d <? 10) eqn:E.
  - replace ((48 <=? 48 + d) && (48 + d <=? 57)) with true by lia. f_equal. lia.
  - replace ((48 <=? 87 + d) && (87 + d <=? 57)) with false by lia. replace ((97 <=? 87 + d) && (87 + d <=? 102)) with true by lia. f_equal. lia.
Qed.
Lemma escape_read c t : string_body (escape c ++ t) = then_char c (string_body t).
Proof.
  unfold escape.
  repeat match goal with |- context [if ?c =? ?k then _ else _] => destruct (N.eqb_spec c k); [subst c; reflexivity|] end.
  destruct (c <? 32) eqn:L.
  - cbn [app string_body N.eqb N.ltb Pos.eqb negb].
    replace (92 <? 32) with false by reflexivity. cbn [negb]. unfold hex4.
    change (hex_value 48) with (Some 0). cbv iota beta.
    rewrite (hex_digit_value (c / 16)) by (apply N.div_lt_upper_bound; lia). rewrite (hex_digit_value (c mod 16)) by (apply N.mod_lt; lia).
    cbv iota beta zeta.
    replace (4096 * 0 + 256 * 0 + 16 * (c / 16) + c mod 16) with c by (rewrite (N.div_mod c 16) at 1; lia).
    unfold low, high. replace ((56320 <=? c) && (c <? 57344)) with false by lia. replace ((55296 <=? c) && (c <? 56320)) with false by lia. reflexivity.
  - cbn [app string_body]. destruct (N.eqb_spec c 34); [contradiction|]. rewrite L. destruct (N.eqb_spec c 92); [contradiction|]. reflexivity.
Qed.
Lemma string_read s t : string_body (flat_map escape s ++ 34 :: t) = Some (s, t).
Proof.
  induction s as [|c s IH]; [reflexivity|]. cbn [flat_map]. rewrite <- app_assoc, escape_read, IH. reflexivity.
Qed.

(** *** Numbers *)
Lemma digits_of_app f : forall n acc, digits_of f n acc = digits_of f n [] ++ acc.
Proof.
  induction f as [|f IH]; intros n acc; [reflexivity|]. cbn [digits_of]. destruct (n <? 10); [reflexivity|].
  rewrite (IH _ (_ :: acc)), (IH _ [_]), <- app_assoc. reflexivity.
Qed.
Definition stops (t : rstr) : Prop := match t with c :: _ => digit c = false | [] => True end.
Lemma digits_stop z t : stops t -> digits z t = (z, t).
Proof. destruct t as [|c t]; cbn [digits stops]; [reflexivity|]. intros ->. reflexivity. Qed.
Lemma digits_back f : forall n, n < 2 ^ N.of_nat f -> exists k, forall z t, digits z (digits_of f n [] ++ t) = digits (z * k + Z.of_N n) t.
Proof.
  induction f as [|f IH]; intros n H.
  - exists 1%Z. intros z t. cbn [digits_of app]. f_equal. cbn in H. lia.
  - cbn [digits_of]. destruct (n <? 10) eqn:E.
    + exists 10%Z. intros z t. cbn [app digits]. replace (n mod 10) with n by (symmetry; apply N.mod_small; lia).
      unfold digit. replace ((48 <=? 48 + n) && (48 + n <=? 57)) with true by lia. f_equal. lia.
    + destruct (IH (n / 10)) as (k & K).
      { rewrite Nat2N.inj_succ, N.pow_succ_r' in H. apply N.div_lt_upper_bound; lia. }
      exists (10 * k)%Z. intros z t. rewrite digits_of_app, <- app_assoc, K. cbn [app digits].
      assert (M : n mod 10 < 10) by (apply N.mod_lt; lia). unfold digit. replace ((48 <=? 48 + n mod 10) && (48 + n mod 10 <=? 57)) with true by lia.
      f_equal. assert (D := N.div_mod n 10). lia.
Qed.
Lemma digits_head f : forall n, n < 2 ^ N.of_nat f -> (0 < f)%nat -> exists d r, digits_of f n [] = d :: r /\ digit d = true /\ (d = 48 -> r = []).
Proof.
  induction f as [|f IH]; intros n H Hf; [lia|]. cbn [digits_of]. destruct (n <? 10) eqn:E.
  - exists (48 + n mod 10), []. split; [reflexivity|]. split; [|auto]. assert (M : n mod 10 < 10) by (apply N.mod_lt; lia). unfold digit. lia.
  - assert (Q : n / 10 < 2 ^ N.of_nat f) by (rewrite Nat2N.inj_succ, N.pow_succ_r' in H; apply N.div_lt_upper_bound; lia).
    assert (F : (0 < f)%nat). { destruct f; [|lia]. cbn in H. lia. }
    destruct (IH _ Q F) as (d & r & D & D1 & D2). rewrite digits_of_app, D. exists d, (r ++ [48 + n mod 10]). split; [reflexivity|]. split; [exact D1|].
    intros ->. exfalso. specialize (D2 eq_refl). subst r. destruct (digits_back f (n / 10) Q) as (k & K). specialize (K 0%Z []). rewrite D in K. cbn in K.
    assert (P : 1 <= n / 10) by (apply N.div_le_lower_bound; lia). injection K. lia.
Qed.
Lemma enough n : n < 2 ^ N.of_nat (S (N.to_nat (N.log2 n))).
Proof.
  rewrite Nat2N.inj_succ, N2Nat.id. destruct (N.eq_dec n 0) as [->|H]; [reflexivity|]. apply N.log2_spec. lia.
Qed.
Lemma natural_read n t : stops t -> natural (digits_of (S (N.to_nat (N.log2 n))) n [] ++ t) = Some (Z.of_N n, t).
Proof.
  intros S0. set (f := S (N.to_nat (N.log2 n))). assert (H := enough n). fold f in H. assert (F : (0 < f)%nat) by (unfold f; lia). clearbody f.
  destruct (digits_back f n H) as (k & K). specialize (K 0%Z t). destruct (digits_head f n H F) as (d & r & D & D1 & D2).
  rewrite D in *. unfold natural. cbn [app]. rewrite D1. cbn [negb].
  destruct ((d =? 48) && match r ++ t with d :: _ => digit d | [] => false end) eqn:E.
  - exfalso. apply andb_prop in E. destruct E as (E1 & E2). apply N.eqb_eq in E1. rewrite (D2 E1) in E2. cbn [app] in E2. destruct t as [|c t]; [discriminate|]. cbn in S0. congruence.
  - change (d :: r ++ t) with ((d :: r) ++ t). rewrite K, digits_stop by assumption. reflexivity.
Qed.
Lemma integer_read z t : stops t -> number (integer z ++ t) = Some (z, t).
Proof.
  intros S0. unfold integer, number. set (n := Z.to_N (Z.abs z)). destruct (z <? 0)%Z eqn:E.
  - cbn [app next N.eqb Pos.eqb]. rewrite natural_read by assumption. f_equal. f_equal. unfold n. lia.
  - cbn [app]. destruct (digits_head _ n (enough n)) as (d & r & D & D1 & _); [lia|].
    replace (next 45 _) with (@None rstr). { rewrite natural_read by assumption. f_equal. f_equal. unfold n. lia. }
    rewrite D. cbn [app next]. destruct (N.eqb_spec d 45); [|reflexivity]. subst d. discriminate D1.
Qed.
Lemma integer_head z : exists c r, integer z = c :: r /\ (c = 45 \/ digit c = true).
Proof.
  unfold integer. set (n := Z.to_N (Z.abs z)). destruct (z <? 0)%Z; [eexists; eexists; split; [reflexivity|auto]|].
  destruct (digits_head _ n (enough n)) as (d & r & D & D1 & _); [lia|]. cbn [app]. rewrite D. eauto.
Qed.

(** *** Blanks *)
Lemma skip_margin n t : skip (margin n ++ t) = skip t.
Proof. unfold margin. induction (2 * n)%nat as [|m IH]; [reflexivity|]. exact IH. Qed.
Definition solid (t : rstr) : Prop := match t with c :: _ => blank c = false | [] => False end.
Lemma skip_solid t r : solid t -> skip (t ++ r) = t ++ r.
Proof. destruct t as [|c t]; [intros []|]. cbn. intros ->. reflexivity. Qed.
Lemma next_other c d t : d <> c -> next c (d :: t) = None.
Proof. intros H. cbn. destruct (N.eqb_spec d c); [contradiction|reflexivity]. Qed.

Lemma pretty_head n v : exists c r, pretty n v = c :: r /\ blank c = false /\ c <> 93.
Proof.
  destruct v as [|z|s|l|l]; cbn [pretty].
  - eexists; eexists; split; [reflexivity|]. split; [reflexivity|discriminate].
  - destruct (integer_head z) as (c & r & -> & H). exists c, r. split; [reflexivity|]. unfold blank, digit in *. lia.
  - eexists; eexists; split; [reflexivity|]. split; [reflexivity|discriminate].
  - destruct l; (eexists; eexists; split; [reflexivity|]; split; [reflexivity|discriminate]).
  - destruct l; (eexists; eexists; split; [reflexivity|]; split; [reflexivity|discriminate]).
Qed.

(** *** Reading back *)
Definition readable (v : json) : Prop := forall n t, stops t -> exists f, value f (pretty n v ++ t) = Some (v, t).

Lemma elements_read n l x : Forall readable (x :: l) -> forall t, stops t -> exists f,
  elements f (pretty (S n) x ++ flat_map (fun j => 44 :: 10 :: margin (S n) ++ j) (map (pretty (S n)) l) ++ 10 :: margin n ++ 93 :: t) = Some (x :: l, t).
Proof.
  revert x. induction l as [|y l IH]; intros x F t St.
  - cbn [map flat_map app]. destruct (Forall_inv F (S n) (10 :: margin n ++ 93 :: t)) as (f & V); [reflexivity|].
    exists (S f). cbn [elements]. rewrite V. cbn [skip blank N.eqb Pos.eqb orb]. rewrite skip_margin. reflexivity.
  - destruct (IH y (Forall_inv_tail F) t St) as (g & E). cbn [map flat_map]. rewrite <- !app_assoc. cbn [app]. rewrite <- !app_assoc.
    destruct (Forall_inv F (S n) (44 :: 10 :: margin (S n) ++ pretty (S n) y ++ flat_map (fun j => 44 :: 10 :: margin (S n) ++ j) (map (pretty (S n)) l) ++ 10 :: margin n ++ 93 :: t)) as (f & V); [reflexivity|].
    exists (S (Nat.max f g)). cbn [elements]. rewrite (value_le f _ _ _ (Nat.le_max_l f g) V). cbn [skip blank N.eqb Pos.eqb orb next].
    cbn [skip blank N.eqb Pos.eqb orb]. rewrite skip_margin, skip_solid, (elements_le g _ _ _ (Nat.le_max_r f g) E); [reflexivity|].
    destruct (pretty_head (S n) y) as (c & r & -> & B & _). exact B.
Qed.

Definition member (n : nat) (m : rstr * json) : rstr := quoted (fst m) ++ 58 :: 32 :: pretty (S n) (snd m).
Lemma members_read n l x : Forall (fun m => readable (snd m)) (x :: l) -> forall t, stops t -> exists f,
  members f (member n x ++ flat_map (fun j => 44 :: 10 :: margin (S n) ++ j) (map (member n) l) ++ 10 :: margin n ++ 125 :: t) = Some (x :: l, t).
Proof.
  revert x. induction l as [|y l IH]; intros x F t St; destruct x as [k v].
  - cbn [map flat_map app]. destruct (Forall_inv F (S n) (10 :: margin n ++ 125 :: t)) as (f & V); [reflexivity|]. cbn [snd] in V.
    exists (S f). unfold member, quoted. cbn [fst snd]. rewrite <- app_assoc. cbn [app]. rewrite <- app_assoc. cbn [app members next N.eqb Pos.eqb].
    rewrite string_read. cbn [skip blank N.eqb Pos.eqb orb next]. cbn [skip blank N.eqb Pos.eqb orb].
    rewrite skip_solid by (destruct (pretty_head (S n) v) as (c & r & -> & B & _); exact B). rewrite V.
    cbn [skip blank N.eqb Pos.eqb orb]. rewrite skip_margin. reflexivity.
  - destruct (IH y (Forall_inv_tail F) t St) as (g & E). cbn [map flat_map]. rewrite <- !app_assoc. cbn [app]. rewrite <- !app_assoc.
    set (tail := flat_map (fun j => 44 :: 10 :: margin (S n) ++ j) (map (member n) l) ++ 10 :: margin n ++ 125 :: t) in *. clearbody tail.
    destruct (Forall_inv F (S n) (44 :: 10 :: margin (S n) ++ member n y ++ tail)) as (f & V); [reflexivity|]. cbn [snd] in V.
    exists (S (Nat.max f g)). unfold member at 1, quoted. cbn [fst snd]. rewrite <- app_assoc. cbn [app]. rewrite <- app_assoc. cbn [app members next N.eqb Pos.eqb].
    rewrite string_read. cbn [skip blank N.eqb Pos.eqb orb next]. cbn [skip blank N.eqb Pos.eqb orb].
    rewrite skip_solid by (destruct (pretty_head (S n) v) as (c & r & -> & B & _); exact B).
    rewrite (value_le f _ _ _ (Nat.le_max_l f g) V). cbn [skip blank N.eqb Pos.eqb orb next].
    cbn [skip blank N.eqb Pos.eqb orb]. rewrite skip_margin, skip_solid by reflexivity. rewrite (members_le g _ _ _ (Nat.le_max_r f g) E). reflexivity.
Qed.

Lemma pretty_read v : readable v.
Proof.
  induction v as [|z|s|l IH|l IH] using json_nested_ind; intros n t St.
  - exists 1%nat. reflexivity.
  - exists 1%nat. cbn [pretty value]. destruct (integer_head z) as (c & r & E & H). assert (I := integer_read z t St). rewrite E in *. cbn [app] in *.
    assert (A : c <> 34 /\ c <> 91 /\ c <> 123 /\ c <> 110) by (unfold digit in H; lia). destruct A as (A1 & A2 & A3 & A4).
    rewrite !next_other by assumption. change (lit "null") with [110; 117; 108; 108]. cbn [word]. rewrite next_other by assumption. rewrite I. reflexivity.
  - exists 1%nat. cbn [pretty value]. unfold quoted. cbn [app next N.eqb Pos.eqb]. rewrite <- app_assoc. cbn [app]. rewrite string_read. reflexivity.
  - destruct l as [|x l]; [exists 1%nat; reflexivity|]. destruct (elements_read n l x IH t St) as (f & E). exists (S f).
    cbn [pretty map fill]. set (body := pretty (S n) x) in *.
    replace ((91 :: 10 :: margin (S n) ++ body ++ flat_map (fun j => 44 :: 10 :: margin (S n) ++ j) (map (pretty (S n)) l) ++ 10 :: margin n ++ [93]) ++ t)
      with (91 :: 10 :: margin (S n) ++ body ++ flat_map (fun j => 44 :: 10 :: margin (S n) ++ j) (map (pretty (S n)) l) ++ 10 :: margin n ++ 93 :: t)
      by (repeat (cbn [app]; rewrite <- ?app_assoc); reflexivity).
    cbn [value next N.eqb Pos.eqb]. cbn [skip blank N.eqb Pos.eqb orb]. rewrite !skip_margin.
    destruct (pretty_head (S n) x) as (c & r & Hx & B & C). fold body in Hx.
    rewrite skip_solid by (rewrite Hx; exact B). replace (next 93 _) with (@None rstr) by (rewrite Hx; symmetry; apply next_other; exact C).
    rewrite E. reflexivity.
  - destruct l as [|x l]; [exists 1%nat; reflexivity|]. destruct (members_read n l x IH t St) as (f & E). exists (S f).
    cbn [pretty]. change (map (fun m => quoted (fst m) ++ 58 :: 32 :: pretty (S n) (snd m)) (x :: l)) with (map (member n) (x :: l)). cbn [map fill].
    set (body := member n x) in *.
    replace ((123 :: 10 :: margin (S n) ++ body ++ flat_map (fun j => 44 :: 10 :: margin (S n) ++ j) (map (member n) l) ++ 10 :: margin n ++ [125]) ++ t)
      with (123 :: 10 :: margin (S n) ++ body ++ flat_map (fun j => 44 :: 10 :: margin (S n) ++ j) (map (member n) l) ++ 10 :: margin n ++ 125 :: t)
      by (repeat (cbn [app]; rewrite <- ?app_assoc); reflexivity).
    cbn [value next N.eqb Pos.eqb]. cbn [skip blank N.eqb Pos.eqb orb]. rewrite !skip_margin.
    rewrite skip_solid by reflexivity. replace (next 125 _) with (@None rstr) by reflexivity.
    rewrite E. reflexivity.
Qed.

Lemma printed_reads v : reads (pretty 0%nat v ++ [10]) v.
Proof.
  destruct (pretty_read v 0%nat [10]) as (f & E); [reflexivity|]. exists f, [10].
  rewrite skip_solid; [auto|]. destruct (pretty_head 0%nat v) as (c & r & -> & B & _). exact B.
Qed.

(** *** Sorted maps *)
Lemma str_ltb_trans a : forall b c, str_ltb a b = true -> str_ltb b c = true -> str_ltb a c = true.
Proof.
  induction a as [|x a IH]; intros [|y b] [|z c]; cbn; try discriminate; auto. intros H1 H2.
  apply orb_prop in H1. apply orb_prop in H2. apply orb_true_intro.
  destruct H1 as [H1|H1], H2 as [H2|H2]; try (left; lia).
  right. apply andb_prop in H1. apply andb_prop in H2. destruct H1 as (H1 & L1), H2 as (H2 & L2). rewrite (IH _ _ L1 L2). lia.
Qed.
Lemma str_ltb_irrefl a : str_ltb a a = false.
Proof. induction a as [|x a IH]; [reflexivity|]. cbn. rewrite IH. lia. Qed.
Lemma str_ltb_total a : forall b, str_eqb a b = false -> str_ltb a b = false -> str_ltb b a = true.
Proof.
  induction a as [|x a IH]; intros [|y b]; cbn; try discriminate; auto. intros E L.
  apply orb_false_elim in L. destruct L as (L1 & L2). destruct (N.eqb_spec x y) as [->|N0].
  - cbn in E, L2. rewrite (IH b E L2). lia.
  - replace (y <? x) with true by lia. reflexivity.
Qed.
Inductive ascending {A} : list (rstr * A) -> Prop :=
| asc_nil : ascending []
| asc_cons k v m : ascending m -> Forall (fun p => str_ltb k (fst p) = true) m -> ascending ((k, v) :: m).
Lemma insert_keys k v m p : In p (btree_insert k v m) -> p = (k, v) \/ In p m.
Proof.
  induction m as [|(k', v') m IH]; cbn [btree_insert In]; [intros [<-|[]]; auto|].
  destruct (str_eqb k k'); [intros [<-|H]; auto|]. destruct (str_ltb k k'); [intros [<-|H]; auto|]. intros [<-|H]; [auto|]. destruct (IH H); auto.
Qed.
Lemma insert_ascending k v m : ascending m -> ascending (btree_insert k v m).
Proof.
  induction 1 as [|k' v' m A IH F]; cbn [btree_insert]; [constructor; constructor|].
  destruct (str_eqb k k') eqn:E; [apply str_eqb_eq in E; subst; constructor; assumption|].
  destruct (str_ltb k k') eqn:L.
  - constructor; [constructor; assumption|]. constructor; [exact L|]. eapply Forall_impl; [|exact F]. intros p P. eapply str_ltb_trans; [exact L|exact P].
  - constructor; [exact IH|]. apply Forall_forall. intros p I. destruct (insert_keys _ _ _ _ I) as [->|J]; [apply str_ltb_total; assumption|].
    rewrite Forall_forall in F. apply F. exact J.
Qed.
Lemma insert_lookup k v m q : lookup q (btree_insert k v m) = if str_eqb q k then Some v else lookup q m.
Proof.
  induction m as [|(k', v') m IH]; cbn [btree_insert lookup]; [destruct (str_eqb q k); reflexivity|].
  destruct (str_eqb k k') eqn:E.
  - apply str_eqb_eq in E. subst k'. cbn [lookup]. destruct (str_eqb q k); reflexivity.
  - destruct (str_ltb k k'); cbn [lookup]; [reflexivity|]. rewrite IH.
    destruct (str_eqb q k') eqn:E'; [|reflexivity]. apply str_eqb_eq in E'. subst q.
    destruct (str_eqb k' k) eqn:E2; [|reflexivity]. apply str_eqb_eq in E2. subst. rewrite str_eqb_refl in E. discriminate.
Qed.

Lemma ascending_nodup {A} (m : list (rstr * A)) : ascending m -> NoDup (map fst m).
Proof.
  induction 1 as [|k v m A0 IH F]; cbn [map fst]; constructor; [|exact IH].
  intros I. apply in_map_iff in I. destruct I as (p & E & I). rewrite Forall_forall in F. specialize (F p I). rewrite E, str_ltb_irrefl in F. discriminate.
Qed.
Lemma vars_ascending vars : forall m, ascending m -> ascending (fold_left (fun m p => btree_insert (fst p) (JStr (snd p)) m) vars m).
Proof. induction vars as [|p vars IH]; intros m H; [exact H|]. apply IH, insert_ascending, H. Qed.
(** The last of several values counts. *)
Lemma vars_lookup vars q : forall m, lookup q (fold_left (fun m p => btree_insert (fst p) (JStr (snd p)) m) vars m) =
  match lookup q (rev vars) with Some v => Some (JStr v) | None => lookup q m end.
Proof.
  assert (L : forall (l1 l2 : var_list), lookup q (l1 ++ l2) = match lookup q l1 with Some v => Some v | None => lookup q l2 end).
  { induction l1 as [|(k, v) l1 IH]; intros l2; [reflexivity|]. cbn [app lookup]. destruct (str_eqb q k); [reflexivity|apply IH]. }
  induction vars as [|p vars IH]; intros m; [reflexivity|]. cbn [fold_left rev]. rewrite IH, L, insert_lookup.
  destruct (lookup q (rev vars)); [reflexivity|]. destruct p as [k v]. cbn [fst snd lookup]. destruct (str_eqb q k); reflexivity.
Qed.
Lemma lookup_in {A} (m : list (rstr * A)) k v : lookup k m = Some v -> In (k, v) m.
Proof. induction m as [|(k', v') m IH]; cbn; [discriminate|]. destruct (str_eqb k k') eqn:E; [apply str_eqb_eq in E; intros [= ->]; subst; auto|auto]. Qed.
Lemma in_lookup {A} (m : list (rstr * A)) k v : NoDup (map fst m) -> In (k, v) m -> lookup k m = Some v.
Proof.
  induction m as [|(k', v') m IH]; cbn; [intros _ []|]. intros D [[= -> ->]|I]; [rewrite str_eqb_refl; reflexivity|].
  inversion D; subst. destruct (str_eqb k k') eqn:E; [|auto]. apply str_eqb_eq in E. subst. exfalso. match goal with H : ~ In _ _ |- _ => apply H end. apply (in_map fst) in I. exact I.
Qed.
