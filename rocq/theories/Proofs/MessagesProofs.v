(** Facts about encoding and decoding messages. *)
From Coq Require Import List NArith ZArith Bool Arith Lia ZifyBool ZifyN ZifyNat.
From Verif Require Import Model.Base Model.Msgpack Model.Messages Spec.MessagesSpec Proofs.BaseLemmas Proofs.MsgpackProofs.
Import ListNotations.
Open Scope N_scope.

Definition under (P : ty -> Prop) (o : option ty) : Prop := match o with Some t => P t | None => True end.
Section ty_ind'.
  Variable P : ty -> Prop.
  Hypotheses (Hstr : P TStr) (Hint : forall lo hi, P (TInt lo hi)) (Hopt : forall t, P t -> P (TOpt t)) (Hvec : forall t, P t -> P (TVec t))
    (Hpair : forall a b, P a -> P b -> P (TPair a b))
    (Hstruct : forall fs, Forall (fun f => P (snd (fst f))) fs -> P (TStruct fs))
    (Henum : forall vs : list (list byte * option ty), Forall (fun v => under P (snd v)) vs -> P (TEnum vs)).
  Fixpoint ty_ind' (t : ty) : P t :=
    match t with
    | TStr => Hstr | TInt lo hi => Hint lo hi | TOpt t => Hopt t (ty_ind' t) | TVec t => Hvec t (ty_ind' t) | TPair a b => Hpair a b (ty_ind' a) (ty_ind' b)
    | TStruct fs => Hstruct fs ((fix go l : Forall (fun f => P (snd (fst f))) l := match l with [] => Forall_nil _ | x :: r => Forall_cons x (ty_ind' (snd (fst x))) (go r) end) fs)
    | TEnum vs => Henum vs ((fix go (l : list (list byte * option ty)) : Forall (fun v => under P (snd v)) l :=
        match l with
        | [] => Forall_nil _
        | x :: r => Forall_cons x (match snd x as o return under P o with Some t => ty_ind' t | None => I end) (go r)
        end) vs)
    end.
End ty_ind'.

Lemma distinct_cons x l : distinct (x :: l) = true -> ~ In x l /\ distinct l = true.
Proof.
  cbn. rewrite andb_true_iff, negb_true_iff. intros [A B]. split; [|exact B]. intros I. apply Bool.not_true_iff_false in A. apply A.
  apply existsb_exists. exists x. split; [exact I|]. apply str_eqb_eq. reflexivity.
Qed.
Lemma is_field_iff i n e : is_field i n (fst e) = true <-> for_field i n e.
Proof.
  unfold is_field, for_field. destruct (fst e); try (split; [discriminate|intros [H|[H|H]]; discriminate H]).
  - rewrite Z.eqb_eq. split; [intros ->; auto|]. intros [H|[H|H]]; congruence.
  - rewrite str_eqb_eq. split; [intros ->; auto|]. intros [H|[H|H]]; congruence.
  - rewrite str_eqb_eq. split; [intros ->; auto|]. intros [H|[H|H]]; congruence.
Qed.
Lemma key_ok_iff e : key_ok (fst e) = true <-> field_key e.
Proof.
  unfold key_ok, field_key. destruct (fst e); try (split; [discriminate|intros [(s0 & [H|H])|(z0 & H & _)]; discriminate H]).
  - rewrite Z.leb_le. split; [intros H; right; eauto|]. intros [(s0 & [H|H])|(z0 & H & L)]; congruence.
  - split; [intros _; left; eauto|reflexivity].
  - split; [intros _; left; eauto|reflexivity].
Qed.
Lemma keys_ok_iff es : forallb (fun e => key_ok (fst e)) es = true <-> Forall field_key es.
Proof. rewrite forallb_forall, Forall_forall. split; intros H e I; apply key_ok_iff; apply H; exact I. Qed.

(** Filtering. *)
Lemma filter_none {A} (f : A -> bool) l : filter f l = [] <-> Forall (fun x => f x = false) l.
Proof.
  induction l as [|x l IH]; cbn; [split; auto|]. destruct (f x) eqn:E.
  - split; [discriminate|]. intros H. inversion H; congruence.
  - rewrite IH. split; intros H; [constructor; assumption|inversion H; assumption].
Qed.
Lemma filter_one {A} (f : A -> bool) l x : filter f l = [x] <-> exists a b, l = a ++ x :: b /\ f x = true /\ Forall (fun y => f y = false) (a ++ b).
Proof.
  split.
  - induction l as [|y l IH]; cbn; [discriminate|]. destruct (f y) eqn:E; intros H.
    + injection H as -> H. apply filter_none in H. exists [], l. auto.
    + destruct (IH H) as (a & b & -> & Fx & Fa). exists (y :: a), b. split; [reflexivity|]. split; [exact Fx|]. constructor; assumption.
  - intros (a & b & -> & Fx & Fa). apply Forall_app in Fa as [Fa Fb]. rewrite filter_app. cbn. rewrite Fx. apply filter_none in Fa, Fb. rewrite Fa, Fb. reflexivity.
Qed.
Lemma not_field i n l : Forall (fun e => is_field i n (fst e) = false) l <-> Forall (fun e => ~ for_field i n e) l.
Proof. rewrite !Forall_forall. split; intros H e I; specialize (H e I); rewrite <- is_field_iff in *; [congruence|apply Bool.not_true_iff_false; exact H]. Qed.

(** The sound types. *)
Lemma sound_struct fs : sound (TStruct fs) = true ->
  distinct (map (fun f => fst (fst f)) fs) = true /\ N.of_nat (length fs) < 2 ^ 32 /\ Forall (fun f => N.of_nat (length (fst (fst f))) < 2 ^ 32 /\ sound (snd (fst f)) = true) fs.
Proof.
  cbn [sound]. rewrite !andb_true_iff, forallb_forall. intros [[A B] C]. split; [exact A|]. split; [apply N.ltb_lt; exact B|]. apply Forall_forall.
  intros f Hf. specialize (C f Hf). apply andb_true_iff in C as [C1 C2]. split; [apply N.ltb_lt; exact C1|exact C2].
Qed.
Lemma sound_enum vs : sound (TEnum vs) = true ->
  distinct (map fst vs) = true /\ Forall (fun v => N.of_nat (length (fst v)) < 2 ^ 32 /\ forall t, snd v = Some t -> sound t = true) vs.
Proof.
  cbn [sound]. rewrite andb_true_iff, forallb_forall. intros [A C]. split; [exact A|]. apply Forall_forall. intros [n o] Hv. specialize (C _ Hv). cbn in C.
  apply andb_true_iff in C as [C1 C2]. split; [apply N.ltb_lt; exact C1|]. intros t E. cbn in E. subst o. exact C2.
Qed.
Lemma sound_opt t : sound (TOpt t) = true -> sound t = true /\ forall t', t <> TOpt t'.
Proof. destruct t; intros H; try discriminate H; (split; [exact H|discriminate]). Qed.

Lemma variant_in {A} (rec : ty -> A) n t vs : distinct (map fst vs) = true -> In (n, Some t) vs -> variant_of rec n vs = Some (rec t).
Proof.
  induction vs as [|[m o] vs IH]; intros D I; [destruct I|]. cbn [map fst] in D. apply distinct_cons in D as [N D]. destruct I as [E|I].
  - injection E as -> ->. cbn. replace (str_eqb n n) with true by (symmetry; apply str_eqb_eq; reflexivity). reflexivity.
  - cbn. destruct o as [t'|]; [|apply IH; assumption]. destruct (str_eqb m n) eqn:E; [|apply IH; assumption]. exfalso. apply str_eqb_eq in E. subst m.
    apply N. apply (in_map fst) in I. exact I.
Qed.
Lemma variant_some {A} (rec : ty -> A) n vs x : variant_of rec n vs = Some x -> exists t, In (n, Some t) vs /\ x = rec t.
Proof.
  induction vs as [|[m o] vs IH]; cbn; [discriminate|]. destruct o as [t|].
  - destruct (str_eqb m n) eqn:E; intros H; [apply str_eqb_eq in E; subst m; injection H as <-; eauto|]. destruct (IH H) as (t' & I & ->). eauto.
  - intros H. destruct (IH H) as (t' & I & ->). eauto.
Qed.
Lemma unit_iff n (vs : list (list N * option ty)) : existsb (fun v : list N * option ty => match v with (k, None) => str_eqb k n | _ => false end) vs = true <-> In (n, None) vs.
Proof.
  rewrite existsb_exists. split.
  - intros ([k [t|]] & I & E); [discriminate E|]. apply str_eqb_eq in E. subst k. exact I.
  - intros I. exists (n, None). split; [exact I|]. apply str_eqb_eq. reflexivity.
Qed.

Lemma encode_not_nil t v : has_type t v -> (forall t', t <> TOpt t') -> encode t v <> MNil.
Proof. intros H N. destruct H; cbn; try discriminate; exfalso; eapply N; reflexivity. Qed.

Lemma entries_length fs l : length fs = length l -> length (entries_of encode fs l) = length fs.
Proof. revert l. induction fs as [|[[n t] d] fs IH]; intros [|v l] H; try discriminate H; [reflexivity|]. cbn. f_equal. apply IH. injection H as H. exact H. Qed.
Lemma forall2_length {A B} (R : A -> B -> Prop) l m : Forall2 R l m -> length l = length m.
Proof. induction 1; cbn; congruence. Qed.

Lemma fits_encode t : sound t = true -> forall v, has_type t v -> fits (encode t v).
Proof.
  induction t using ty_ind'; intros S v H0; inversion H0; subst.
  - match goal with H : utf8 _ = true |- _ => clear H end. cbn. assumption.
  - cbn in S. cbn [encode fits]. lia.
  - exact I.
  - apply sound_opt in S as [S _]. cbn [encode]. auto.
  - cbn [encode]. apply fits_arr. split; [unfold len_ok; rewrite map_length; assumption|]. apply Forall_map. eapply Forall_impl; [|eassumption]. intros a Ha. apply IHt; [exact S|exact Ha].
  - cbn in S. apply andb_true_iff in S as [S1 S2]. cbn [encode]. apply fits_arr. split; [unfold len_ok; cbn; lia|]. constructor; [auto|]. constructor; [auto|constructor].
  - apply sound_struct in S as (_ & L & Sf). cbn [encode]. apply fits_map. match goal with H : Forall2 _ fs ?l0 |- _ => rename H into F2; rename l0 into l end.
    split; [unfold len_ok; rewrite entries_length by (eapply forall2_length; eassumption); exact L|]. clear L H0.
    induction F2 as [|[[n t] d] v fs l Hv F2 IH]; [constructor|]. inversion H; subst. inversion Sf as [|? ? [L1 S1] Sf']; subst. cbn [entries_of]. constructor; [|apply IH; assumption].
    cbn [fst snd] in *. split; [exact L1|auto].
  - apply sound_enum in S as (_ & Sv). cbn [encode fits]. rewrite Forall_forall in Sv. match goal with H : In (?n, None) vs |- _ => exact (proj1 (Sv _ H)) end.
  - apply sound_enum in S as (D & Sv). cbn [encode]. match goal with H : In (?n, Some ?t) vs |- _ => rename H into I0; rewrite (variant_in _ n t vs D I0) end.
    rewrite Forall_forall in Sv, H. destruct (Sv _ I0) as [L1 S1]. specialize (H _ I0). cbn [snd fst under] in *. apply fits_map. split; [unfold len_ok; cbn; lia|]. constructor; [|constructor].
    cbn [fst snd]. split; [exact L1|]. apply H; auto.
Qed.

Lemma entries_none fs l n i : ~ In n (map (fun f => fst (fst f)) fs) -> Forall (fun e => is_field i n (fst e) = false) (entries_of encode fs l).
Proof.
  revert l. induction fs as [|[[m t] d] fs IH]; intros [|v l] N; cbn [entries_of]; try constructor.
  - cbn. apply Bool.not_true_iff_false. rewrite str_eqb_eq. intros ->. apply N. left. reflexivity.
  - apply IH. intros I. apply N. right. exact I.
Qed.
Lemma fields_of_cons es i n t d fs : fields_of decode es i ((n, t, d) :: fs) =
  match match filter (fun e => is_field i n (fst e)) es with [] => missing t d | [e] => decode t (snd e) | _ => None end, fields_of decode es (S i) fs with
  | Some v, Some vs => Some (v :: vs) | _, _ => None end.
Proof. reflexivity. Qed.
Lemma decode_encode t : sound t = true -> forall v, has_type t v -> decode t (encode t v) = Some v.
Proof.
  induction t using ty_ind'; intros S v H0; inversion H0; subst.
  - cbn. match goal with H : utf8 _ = true |- _ => rewrite H end. reflexivity.
  - cbn. replace ((lo <=? z)%Z && (z <=? hi)%Z) with true by lia. reflexivity.
  - reflexivity.
  - apply sound_opt in S as [S N]. match goal with H : has_type t ?v |- _ => rename H into Hv; rename v into w end. cbn [encode]. pose proof (encode_not_nil t w Hv N) as Z. cbn [decode].
    rewrite (IHt S w Hv). destruct (encode t w); [congruence|reflexivity..].
  - cbn [encode decode]. replace (collect (decode t) (map (encode t) l)) with (Some l); [reflexivity|].
    match goal with H : Forall (has_type t) l |- _ => clear - H IHt S; induction H as [|x l Hx _ IH]; [reflexivity|] end. cbn [map]. cbn [collect] in *.
    rewrite (IHt S x Hx). fold (collect (decode t)). rewrite <- IH. reflexivity.
  - cbn in S. apply andb_true_iff in S as [S1 S2]. cbn [encode decode]. rewrite IHt1, IHt2 by assumption. reflexivity.
  - apply sound_struct in S as (D & _ & Sf). cbn [encode decode]. match goal with H : Forall2 _ fs ?l0 |- _ => rename H into F2; rename l0 into l end.
    replace (forallb (fun e => key_ok (fst e)) (entries_of encode fs l)) with true.
    2:{ clear. revert l. induction fs as [|[[n t] d] fs IH]; intros [|v l]; cbn; auto. }
    assert (G : forall pre i, (forall n, In n (map (fun f => fst (fst f)) fs) -> forall i, Forall (fun e => is_field i n (fst e) = false) pre) ->
       fields_of decode (pre ++ entries_of encode fs l) i fs = Some l).
    { clear H0. induction F2 as [|[[n t] d] v fs l Hv F2 IH]; intros pre i Hpre; [reflexivity|].
      cbn [map fst snd] in D. apply distinct_cons in D as [Nn D]. inversion H as [|? ? H1 H2]; subst. inversion Sf as [|? ? [L1 S1] Sf']; subst. cbn [fst snd] in *.
      rewrite fields_of_cons. cbn [entries_of]. fold (entries_of encode).
      replace (filter (fun e => is_field i n (fst e)) (pre ++ (MStr n, encode t v) :: entries_of encode fs l)) with [(MStr n, encode t v)].
      2:{ symmetry. apply filter_one. exists pre, (entries_of encode fs l). split; [reflexivity|]. split; [cbn; apply str_eqb_eq; reflexivity|].
          apply Forall_app. split; [apply Hpre; left; reflexivity|apply entries_none; exact Nn]. }
      cbn [snd]. rewrite H1 by assumption. replace (pre ++ (MStr n, encode t v) :: entries_of encode fs l) with ((pre ++ [(MStr n, encode t v)]) ++ entries_of encode fs l) by (rewrite <- app_assoc; reflexivity).
      rewrite IH; [reflexivity|assumption|assumption|assumption|]. intros m Hm j. apply Forall_app. split; [apply Hpre; right; exact Hm|]. constructor; [|constructor].
      cbn. apply Bool.not_true_iff_false. rewrite str_eqb_eq. intros ->. exact (Nn Hm). }
    specialize (G [] 0%nat). cbn [app] in G. rewrite G by (intros; constructor). reflexivity.
  - cbn [encode decode]. match goal with H : In (?n, None) vs |- _ => apply unit_iff in H; rename H into U end. rewrite U. reflexivity.
  - apply sound_enum in S as (D & Sv). cbn [encode decode]. match goal with H : In (?n, Some ?t) vs |- _ => rename H into I0; rewrite !(variant_in _ n t vs D I0) end.
    rewrite Forall_forall in Sv, H. destruct (Sv _ I0) as [L1 S1]. specialize (H _ I0). cbn [snd under] in *. rewrite H by auto. reflexivity.
Qed.

Lemma collect_iff (R : mval -> value -> Prop) f l : (forall m v, f m = Some v <-> R m v) -> forall vs, collect f l = Some vs <-> Forall2 R l vs.
Proof.
  intros H. induction l as [|m l IH]; intros vs; cbn.
  - split; [intros E; injection E as <-; constructor|intros E; inversion E; reflexivity].
  - fold (collect f). split.
    + destruct (f m) as [v|] eqn:E; [|discriminate]. destruct (collect f l) as [ws|] eqn:C; [|discriminate]. intros X. injection X as <-. constructor; [apply H; exact E|apply IH; reflexivity].
    + intros X. inversion X as [|? v ? ws Hv Hws]; subst. apply H in Hv. apply IH in Hws. rewrite Hv, Hws. reflexivity.
Qed.
Lemma decode_says t : sound t = true -> forall m v, decode t m = Some v <-> says t m v.
Proof.
  induction t using ty_ind'; intros S m v.
  - cbn. split.
    + destruct m; try discriminate. destruct (utf8 s) eqn:U; [|discriminate]. intros E. injection E as <-. constructor. exact U.
    + intros X. inversion X; subst. match goal with U : utf8 _ = true |- _ => rewrite U end. reflexivity.
  - cbn. split.
    + destruct m; try discriminate. destruct ((lo <=? z)%Z && (z <=? hi)%Z) eqn:U; [|discriminate]. intros E. injection E as <-. constructor. lia.
    + intros X. inversion X; subst. replace ((lo <=? z)%Z && (z <=? hi)%Z) with true by lia. reflexivity.
  - apply sound_opt in S as [S _]. specialize (IHt S). cbn [decode]. split.
    + intros E. destruct (decode t m) as [w|] eqn:D.
      * assert (Y : m = MNil \/ m <> MNil) by (destruct m; (left; reflexivity) || (right; discriminate)). destruct Y as [->|N]; [injection E as <-; constructor|].
        assert (X : v = VSome w) by (destruct m; [congruence|injection E as <-; reflexivity..]). subst v. constructor; [exact N|]. apply IHt. exact D.
      * destruct m; try discriminate E. injection E as <-. constructor.
    + intros X. inversion X; subst; [reflexivity|]. match goal with H : says t m ?w |- _ => apply IHt in H; rewrite H end. destruct m; congruence || reflexivity.
  - cbn [decode]. specialize (IHt S). split.
    + destruct m; try discriminate. destruct (collect (decode t) l) as [vs|] eqn:C; [|discriminate]. intros E. injection E as <-. constructor. apply (collect_iff (says t) _ _ IHt). exact C.
    + intros X. inversion X; subst. match goal with H : Forall2 _ _ _ |- _ => apply (collect_iff (says t) _ _ IHt) in H; rewrite H end. reflexivity.
  - cbn in S. apply andb_true_iff in S as [S1 S2]. specialize (IHt1 S1). specialize (IHt2 S2). cbn [decode]. split.
    + destruct m; try discriminate. destruct l as [|x [|y [|]]]; try discriminate. destruct (decode t1 x) eqn:D1; [|discriminate]. destruct (decode t2 y) eqn:D2; [|discriminate].
      intros E. injection E as <-. constructor; [apply IHt1|apply IHt2]; assumption.
    + intros X. inversion X; subst. repeat match goal with H : says t1 _ _ |- _ => apply IHt1 in H; rewrite H | H : says t2 _ _ |- _ => apply IHt2 in H; rewrite H end. reflexivity.
  - apply sound_struct in S as (_ & _ & Sf). cbn [decode].
    assert (G : forall es i vs, fields_of decode es i fs = Some vs <-> fields_say es i fs vs).
    { clear m v. induction fs as [|[[n t] d] fs IH]; intros es i vs.
      - cbn. split; [intros E; injection E as <-; constructor|intros X; inversion X; reflexivity].
      - inversion H as [|? ? H1 H2]; subst. inversion Sf as [|? ? [_ S1] Sf']; subst. cbn [fst snd] in *. specialize (H1 S1). specialize (IH H2 Sf').
        rewrite fields_of_cons.
        split.
        + destruct (filter (fun e => is_field i n (fst e)) es) as [|e [|]] eqn:Fl; [| |discriminate].
          * apply filter_none, not_field in Fl. destruct (missing t d) as [w|] eqn:M; [|discriminate]. destruct (fields_of decode es (Datatypes.S i) fs) as [ws|] eqn:R; [|discriminate].
            intros E. injection E as <-. apply IH in R. destruct d as [dv|]; cbn in M; [injection M as <-; apply f_default; assumption|]. destruct t; try discriminate M. injection M as <-. apply f_nothing; assumption.
          * apply filter_one in Fl as (a & b & -> & Fe & Fo). apply not_field in Fo. destruct (decode t (snd e)) as [w|] eqn:De; [|discriminate].
            destruct (fields_of decode (a ++ e :: b) (Datatypes.S i) fs) as [ws|] eqn:R; [|discriminate]. intros E. injection E as <-. apply IH in R. apply H1 in De. destruct e as [k x].
            eapply f_present; [reflexivity|apply is_field_iff; exact Fe|exact Fo|exact De|exact R].
        + intros X. inversion X as [|? ? ? ? ? ? a k x b w ws E1 Fe Fo Sw Rw|? ? ? ? w ? ws Fo Rw|? ? ? t' ? ws Fo Rw]; subst.
          * replace (filter (fun e => is_field i n (fst e)) (a ++ (k, x) :: b)) with [(k, x)].
            2:{ symmetry. apply filter_one. exists a, b. split; [reflexivity|]. split; [apply is_field_iff; exact Fe|apply not_field; exact Fo]. }
            cbn [snd]. apply H1 in Sw. rewrite Sw. apply IH in Rw. rewrite Rw. reflexivity.
          * apply not_field, filter_none in Fo. rewrite Fo. apply IH in Rw. rewrite Rw. reflexivity.
          * apply not_field, filter_none in Fo. rewrite Fo. apply IH in Rw. rewrite Rw. reflexivity. }
    split.
    + destruct m; try discriminate. destruct (forallb (fun e => key_ok (fst e)) l) eqn:K; [|discriminate]. destruct (fields_of decode l 0 fs) as [vs|] eqn:R; [|discriminate].
      intros E. injection E as <-. constructor; [apply keys_ok_iff; exact K|apply G; exact R].
    + intros X. inversion X; subst. match goal with H : Forall field_key _ |- _ => apply keys_ok_iff in H; rewrite H end. match goal with H : fields_say _ _ _ _ |- _ => apply G in H; rewrite H end. reflexivity.
  - apply sound_enum in S as (D & Sv). rewrite Forall_forall in Sv, H. cbn [decode]. split.
    + destruct m; try discriminate.
      * match goal with |- context [existsb ?f vs] => destruct (existsb f vs) eqn:E end; [|discriminate]. apply unit_iff in E. intros X. injection X as <-. constructor. exact E.
      * destruct l as [|[[] x] [|]]; try discriminate. destruct (variant_of (fun t' => decode t' x) s vs) as [[w|]|] eqn:E; try discriminate. intros X. injection X as <-.
        apply variant_some in E as (t & I0 & E). symmetry in E. destruct (Sv _ I0) as [_ S1]. specialize (H _ I0). cbn [snd under] in *. apply H in E; [|auto]. econstructor; eassumption.
    + intros X. inversion X as [| | | | | | |? n I0|? n t x w I0 Sw]; subst.
      * apply unit_iff in I0. rewrite I0. reflexivity.
      * rewrite (variant_in _ n t vs D I0). destruct (Sv _ I0) as [_ S1]. specialize (H _ I0). cbn [snd under] in *. apply H in Sw; [|auto]. rewrite Sw. reflexivity.
Qed.

(** Reading what another version wrote. *)
Lemma entries_nth fs l i n t d v : nth_error fs i = Some (n, t, d) -> nth_error l i = Some v -> distinct (map (fun f => fst (fst f)) fs) = true ->
  forall j, filter (fun e => is_field j n (fst e)) (entries_of encode fs l) = [(MStr n, encode t v)].
Proof.
  revert l i. induction fs as [|[[m s] d0] fs IH]; intros l i Hf Hl D j; [destruct i; discriminate|]. cbn [map fst] in D. apply distinct_cons in D as [Nm D].
  destruct i as [|i], l as [|w l]; cbn in Hf, Hl; try discriminate.
  - injection Hf as -> -> ->. injection Hl as ->. cbn [entries_of filter fst is_field]. rewrite str_eqb_refl. f_equal. apply filter_none. apply entries_none. exact Nm.
  - cbn [entries_of filter fst is_field]. destruct (str_eqb m n) eqn:E; [|eapply IH; eassumption]. exfalso. apply str_eqb_eq in E. subst m. apply Nm.
    apply nth_error_In in Hf. apply (in_map (fun f => fst (fst f))) in Hf. exact Hf.
Qed.
Lemma entries_keys fs l : forallb (fun e => key_ok (fst e)) (entries_of encode fs l) = true.
Proof. revert l. induction fs as [|[[n t] d] fs IH]; intros [|v l]; cbn; auto. Qed.
Lemma forall2_nth {A B} (R : A -> B -> Prop) l m i x y : Forall2 R l m -> nth_error l i = Some x -> nth_error m i = Some y -> R x y.
Proof. intros H. revert i. induction H; intros [|i] Hx Hy; cbn in *; try discriminate; [congruence|eauto]. Qed.
Lemma skew_decode t : sound t = true -> forall t' v v', sound t' = true -> has_type t v -> skew t t' v v' -> decode t' (encode t v) = Some v'.
Proof.
  induction t using ty_ind'; intros S t' v v' S' H0 K; inversion K; subst; try (apply decode_encode; assumption).
  - reflexivity.
  - apply sound_opt in S as [S N], S' as [S' N']. inversion H0; subst. match goal with H : has_type t ?z0 |- _ => rename H into Hv; rename z0 into w end.
    pose proof (encode_not_nil t w Hv N) as Z. cbn [encode decode].
    match goal with H : skew t ?u w ?x |- _ => rewrite (IHt S u w x S' Hv H) end. destruct (encode t w); [congruence|reflexivity..].
  - inversion H0 as [| | | |? ? Hl| | | |]; subst. cbn [encode decode]. match goal with H : Forall2 (skew t ?u) l ?x |- _ => rename H into F2; rename x into l'; rename u into t0' end.
    cbn [sound] in S, S'. replace (collect (decode t0') (map (encode t) l)) with (Some l'); [reflexivity|].
    clear - F2 Hl IHt S S'. induction F2 as [|x y l l' Hxy _ IH]; [reflexivity|]. inversion Hl; subst. cbn [map]. cbn [collect] in *.
    rewrite (IHt S t0' x y S') by assumption. fold (collect (decode t0')). rewrite <- IH by assumption. reflexivity.
  - cbn in S, S'. apply andb_true_iff in S as [S1 S2], S' as [S1' S2']. inversion H0; subst. cbn [encode decode].
    match goal with A : skew t1 ?a ?x ?y, B : skew t2 ?b ?z ?w |- _ => rewrite (IHt1 S1 a x y), (IHt2 S2 b z w) by assumption end. reflexivity.
  - apply sound_struct in S as (D & _ & Sf). apply sound_struct in S' as (D' & _ & Sf'). inversion H0; subst.
    match goal with A : Forall2 (skew_field fs l) ?f' ?x |- _ => rename A into F2; rename f' into fs'; rename x into l' end.
    match goal with A : Forall2 _ fs l |- _ => rename A into T2 end.
    cbn [encode decode]. rewrite entries_keys.
    enough (G : forall i, fields_of decode (entries_of encode fs l) i fs' = Some l') by (rewrite G; reflexivity).
    clear K H0 D'. induction F2 as [|[[n u] d'] w fs' l' Kw F2 IH]; intros j; [reflexivity|]. inversion Sf' as [|? ? [_ S1'] Sf'']; subst. cbn [fst snd] in S1'.
    rewrite fields_of_cons, (IH Sf''). clear IH F2 Sf''. inversion Kw; subst.
    + match goal with A : nth_error fs _ = Some _, B : nth_error l _ = Some _ |- _ => rewrite (entries_nth _ _ _ _ _ _ _ A B D); pose proof (forall2_nth _ _ _ _ _ _ T2 A B) as Tv; apply nth_error_In in A end.
      match goal with A : In _ fs |- _ => rename A into If end. rewrite Forall_forall in H, Sf. specialize (H _ If). destruct (Sf _ If) as [_ S1]. cbn [fst snd] in *.
      rewrite (H S1 u v w) by assumption. reflexivity.
    + rewrite (proj2 (filter_none _ _)) by (apply entries_none; assumption). reflexivity.
    + rewrite (proj2 (filter_none _ _)) by (apply entries_none; assumption). reflexivity.
  - cbn [encode decode]. match goal with A : In (_, None) ?us |- _ => apply unit_iff in A; rewrite A end. reflexivity.
  - apply sound_enum in S as (D & Sv), S' as (D' & Sv'). rewrite Forall_forall in H, Sv, Sv'.
    match goal with A : In (?n, Some ?a) vs, B : In (?n, Some ?b) ?us, C : skew ?a ?b ?x ?y |- _ =>
      cbn [encode decode]; rewrite (variant_in _ n a vs D A), (variant_in _ n b us D' B);
      pose proof (proj2 (Sv _ A) a eq_refl) as S1; pose proof (proj2 (Sv' _ B) b eq_refl) as S1'; specialize (H _ A); cbn [snd under] in H;
      rewrite (H S1 b x y S1'); [reflexivity| |exact C]; inversion H0 as [| | | | | | | |? ? u ? I0 Hu]; subst;
      pose proof (variant_in (fun t : ty => t) n a vs D A) as Q1; pose proof (variant_in (fun t : ty => t) n u vs D I0) as Q2 end.
    rewrite Q1 in Q2. injection Q2 as ->. assumption.
Qed.

Lemma unknown_entry fs a e b : field_key e -> (forall i f, nth_error fs i = Some f -> ~ for_field i (fst (fst f)) e) ->
  decode (TStruct fs) (MMap (a ++ e :: b)) = decode (TStruct fs) (MMap (a ++ b)).
Proof.
  intros K N. cbn [decode]. rewrite !forallb_app. cbn [forallb]. apply key_ok_iff in K. rewrite K. cbn [andb].
  destruct (forallb _ a && forallb _ b); [|reflexivity]. f_equal.
  enough (G : forall gs i, (forall j f, nth_error gs j = Some f -> ~ for_field (i + j) (fst (fst f)) e) -> fields_of decode (a ++ e :: b) i gs = fields_of decode (a ++ b) i gs).
  { apply G. exact N. }
  induction gs as [|[[n t] d] gs IH]; intros i Hn; [reflexivity|]. rewrite !fields_of_cons. rewrite IH.
  - assert (X : is_field i n (fst e) = false).
    { apply Bool.not_true_iff_false. rewrite is_field_iff. specialize (Hn 0%nat _ eq_refl). rewrite Nat.add_0_r in Hn. exact Hn. }
    rewrite !filter_app. cbn [filter]. rewrite X. reflexivity.
  - intros j f Hf. rewrite Nat.add_succ_comm. apply (Hn (S j)). exact Hf.
Qed.
Lemma decode_from_app t m rest : fits m -> decode_from t (enc m ++ rest) = match decode t m with Some v => Some (v, rest) | None => None end.
Proof. intros F. unfold decode_from. rewrite (read_value_enc m rest F). reflexivity. Qed.
