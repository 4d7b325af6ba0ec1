(** Facts about the MessagePack format. *)
From Coq Require Import List NArith ZArith Bool Arith Lia ZifyBool ZifyN ZifyNat.
From Verif Require Import Model.Base Model.Msgpack.
Import ListNotations.
Open Scope N_scope.

Section mval_ind'.
  Variable P : mval -> Prop.
  Hypotheses (Hnil : P MNil) (Hbool : forall b, P (MBool b)) (Hint : forall z, P (MInt z)) (Hfloat : forall s, P (MFloat s))
    (Hstr : forall s, P (MStr s)) (Hbin : forall s, P (MBin s)) (Hext : forall k s, P (MExt k s))
    (Harr : forall l, Forall P l -> P (MArr l)) (Hmap : forall l, Forall (fun e => P (fst e) /\ P (snd e)) l -> P (MMap l)).
  Fixpoint mval_ind' (v : mval) : P v :=
    match v with
    | MNil => Hnil | MBool b => Hbool b | MInt z => Hint z | MFloat s => Hfloat s | MStr s => Hstr s | MBin s => Hbin s | MExt k s => Hext k s
    | MArr l => Harr l ((fix go l : Forall P l := match l with [] => Forall_nil _ | x :: r => Forall_cons x (mval_ind' x) (go r) end) l)
    | MMap l => Hmap l ((fix go l : Forall (fun e => P (fst e) /\ P (snd e)) l := match l with [] => Forall_nil _ | x :: r => Forall_cons x (conj (mval_ind' (fst x)) (mval_ind' (snd x))) (go r) end) l)
    end.
End mval_ind'.

Lemma be_length k n : length (be k n) = k.
Proof. induction k as [|k IH]; [reflexivity|]. cbn [be length]. f_equal. exact IH. Qed.
Lemma un_be_acc l : forall a, fold_left (fun a b => a * 256 + b) l a = a * 256 ^ N.of_nat (length l) + un_be l.
Proof.
  unfold un_be. induction l as [|x l IH]; intros a; cbn [fold_left length].
  - rewrite N.mul_1_r, N.add_0_r. reflexivity.
  - rewrite IH, (IH (0 * 256 + x)). rewrite Nat2N.inj_succ, N.pow_succ_r'. lia.
Qed.
Lemma un_be_be k n : un_be (be k n) = n mod 256 ^ N.of_nat k.
Proof.
  induction k as [|k IH].
  - cbn. rewrite N.mod_1_r. reflexivity.
  - cbn [be]. change (un_be (?x :: ?l)) with (fold_left (fun a b => a * 256 + b) l (0 * 256 + x)). rewrite un_be_acc, be_length, IH.
    rewrite Nat2N.inj_succ, N.pow_succ_r'. set (b := 256 ^ N.of_nat k). assert (Hb : b <> 0) by (apply N.pow_nonzero; lia).
    rewrite (N.mul_comm 256 b), N.mod_mul_r by lia. lia.
Qed.
Lemma number_be k n rest : n < 256 ^ N.of_nat k -> number k (be k n ++ rest) = Some (n, rest).
Proof.
  intros L. unfold number, take. rewrite app_length, be_length. replace (k <=? k + length rest)%nat with true by (symmetry; apply Nat.leb_le; lia).
  rewrite firstn_app, skipn_app, be_length, Nat.sub_diag, firstn_O, app_nil_r. rewrite <- (be_length k n) at 1. rewrite firstn_all.
  rewrite <- (be_length k n) at 2. rewrite skipn_all. cbn [skipn app]. rewrite un_be_be, N.mod_small by exact L. reflexivity.
Qed.
Lemma take_app s rest : take (length s) (s ++ rest) = Some (s, rest).
Proof.
  unfold take. rewrite app_length. replace (length s <=? length s + length rest)%nat with true by (symmetry; apply Nat.leb_le; lia).
  rewrite firstn_app, skipn_app, Nat.sub_diag, firstn_all, skipn_all, firstn_O, app_nil_r. reflexivity.
Qed.
Lemma take_app_N s rest : take (N.to_nat (N.of_nat (length s))) (s ++ rest) = Some (s, rest).
Proof. rewrite Nat2N.id. apply take_app. Qed.

(** What fits the format. *)
Definition len_ok {A} (l : list A) : Prop := N.of_nat (length l) < 2 ^ 32.
Fixpoint fits (v : mval) : Prop :=
  match v with
  | MNil | MBool _ => True
  | MInt z => (- 2 ^ 63 <= z < 2 ^ 64)%Z
  | MFloat s => length s = 4%nat \/ length s = 8%nat
  | MStr s | MBin s | MExt _ s => len_ok s
  | MArr l => len_ok l /\ (fix all l := match l with [] => True | x :: r => fits x /\ all r end) l
  | MMap l => len_ok l /\ (fix all l := match l with [] => True | (a, b) :: r => fits a /\ fits b /\ all r end) l
  end.
Lemma fits_arr l : fits (MArr l) <-> len_ok l /\ Forall fits l.
Proof.
  cbn. split; intros [A B]; split; try exact A; clear A.
  - induction l as [|x l IH]; constructor; [apply B|apply IH; apply B].
  - induction l as [|x l IH]; [exact I|]. inversion B; subst. split; [assumption|]. apply IH. assumption.
Qed.
Lemma fits_map l : fits (MMap l) <-> len_ok l /\ Forall (fun e => fits (fst e) /\ fits (snd e)) l.
Proof.
  cbn. split; intros [A B]; split; try exact A; clear A.
  - induction l as [|[x y] l IH]; constructor; [split; apply B|apply IH; apply B].
  - induction l as [|[x y] l IH]; [exact I|]. inversion B as [|? ? [? ?] ?]; subst. split; [assumption|]. split; [assumption|]. apply IH. assumption.
Qed.

(** Headers. *)
Inductive len_form (small base : N) (one : option byte) (two four : byte) (n : N) : list byte -> Prop :=
| lf_small : n < small -> len_form small base one two four n [base + n]
| lf_one c : small <= n -> one = Some c -> n < 2 ^ 8 -> len_form small base one two four n (c :: be 1 n)
| lf_two : small <= n -> n < 2 ^ 16 -> len_form small base one two four n (two :: be 2 n)
| lf_four : small <= n -> n < 2 ^ 32 -> len_form small base one two four n (four :: be 4 n).
Lemma enc_len_form small base one two four n : n < 2 ^ 32 -> len_form small base one two four n (enc_len small base one two four n).
Proof.
  intros L. unfold enc_len. destruct (N.ltb_spec n small); [constructor; assumption|]. destruct one as [c|].
  - destruct (N.ltb_spec n (2 ^ 8)); [apply lf_one; auto|]. destruct (N.ltb_spec n (2 ^ 16)); [apply lf_two|apply lf_four]; assumption.
  - destruct (N.ltb_spec n (2 ^ 16)); [apply lf_two|apply lf_four]; assumption.
Qed.

Lemma len_form_len small base one two four n h : len_form small base one two four n h -> (1 <= length h)%nat.
Proof. intros [|c| |]; cbn; lia. Qed.
Lemma head_small b r :
  (b < 0x80 -> head (b :: r) = Some (Whole (MInt (Z.of_N b)), r)) /\
  (0x80 <= b < 0x90 -> head (b :: r) = Some (Entries (b - 0x80), r)) /\
  (0x90 <= b < 0xa0 -> head (b :: r) = Some (Elements (b - 0x90), r)) /\
  (0xa0 <= b < 0xc0 -> head (b :: r) = chunk (b - 0xa0) MStr r) /\
  (0xe0 <= b -> head (b :: r) = Some (Whole (MInt (Z.of_N b - 256)), r)).
Proof.
  unfold head. destruct (N.ltb_spec b 0x80); [repeat split; intros; try lia; reflexivity|].
  destruct (N.ltb_spec b 0x90); [repeat split; intros; try lia; reflexivity|].
  destruct (N.ltb_spec b 0xa0); [repeat split; intros; try lia; reflexivity|].
  destruct (N.ltb_spec b 0xc0); [repeat split; intros; try lia; reflexivity|].
  destruct (N.leb_spec 0xe0 b); [repeat split; intros; try lia; reflexivity|]. repeat split; intros; lia.
Qed.
Lemma chunk_app s make rest : chunk (N.of_nat (length s)) make (s ++ rest) = Some (Whole (make s), rest).
Proof. unfold chunk. rewrite take_app_N. reflexivity. Qed.
Lemma sized_be k n next rest : n < 256 ^ N.of_nat k -> sized k next (be k n ++ rest) = next n rest.
Proof. intros H. unfold sized. rewrite number_be by exact H. reflexivity. Qed.

Lemma head_str h s rest : len_form 32 0xa0 (Some 0xd9) 0xda 0xdb (N.of_nat (length s)) h -> head (h ++ s ++ rest) = Some (Whole (MStr s), rest).
Proof.
  intros [L|c L E H|L H|L H]; try (injection E as <-); cbn [app].
  - rewrite (proj1 (proj2 (proj2 (proj2 (head_small _ _))))) by lia. replace (0xa0 + N.of_nat (length s) - 0xa0) with (N.of_nat (length s)) by lia. apply chunk_app.
  - cbn [head N.ltb N.leb N.compare Pos.compare Pos.compare_cont]. rewrite sized_be by exact H. apply chunk_app.
  - cbn [head N.ltb N.leb N.compare Pos.compare Pos.compare_cont]. rewrite sized_be by exact H. apply chunk_app.
  - cbn [head N.ltb N.leb N.compare Pos.compare Pos.compare_cont]. rewrite sized_be by exact H. apply chunk_app.
Qed.
Lemma head_bin h s rest : len_form 0 0 (Some 0xc4) 0xc5 0xc6 (N.of_nat (length s)) h -> head (h ++ s ++ rest) = Some (Whole (MBin s), rest).
Proof.
  intros [L|c L E H|L H|L H]; [lia| | |]; try (injection E as <-); cbn [app head N.ltb N.leb N.compare Pos.compare Pos.compare_cont]; rewrite sized_be by exact H; apply chunk_app.
Qed.
Lemma head_arr h n rest : len_form 16 0x90 None 0xdc 0xdd n h -> head (h ++ rest) = Some (Elements n, rest).
Proof.
  intros [L|c L E' H|L H|L H]; [|discriminate E'| |]; cbn [app].
  - rewrite (proj1 (proj2 (proj2 (head_small _ _)))) by lia. replace (0x90 + n - 0x90) with n by lia. reflexivity.
  - cbn [head N.ltb N.leb N.compare Pos.compare Pos.compare_cont]. rewrite sized_be by exact H. reflexivity.
  - cbn [head N.ltb N.leb N.compare Pos.compare Pos.compare_cont]. rewrite sized_be by exact H. reflexivity.
Qed.
Lemma head_map h n rest : len_form 16 0x80 None 0xde 0xdf n h -> head (h ++ rest) = Some (Entries n, rest).
Proof.
  intros [L|c L E' H|L H|L H]; [|discriminate E'| |]; cbn [app].
  - rewrite (proj1 (proj2 (head_small _ _))) by lia. replace (0x80 + n - 0x80) with n by lia. reflexivity.
  - cbn [head N.ltb N.leb N.compare Pos.compare Pos.compare_cont]. rewrite sized_be by exact H. reflexivity.
  - cbn [head N.ltb N.leb N.compare Pos.compare Pos.compare_cont]. rewrite sized_be by exact H. reflexivity.
Qed.
Lemma head_int z rest : (- 2 ^ 63 <= z < 2 ^ 64)%Z -> head (enc_int z ++ rest) = Some (Whole (MInt z), rest).
Proof.
  intros L. unfold enc_int.
  assert (G : forall k m next, (256 ^ N.of_nat k)%N = m -> forall z', (0 <= z' < Z.of_N m)%Z -> sized k next (be k (Z.to_N z') ++ rest) = next (Z.to_N z') rest).
  { intros k m next <- z' Hz. apply sized_be. lia. }
  destruct (Z.leb_spec 0 z).
  - destruct (N.ltb_spec (Z.to_N z) 128); [cbn [app]; rewrite (proj1 (head_small _ _)) by lia; rewrite Z2N.id by lia; reflexivity|].
    destruct (N.ltb_spec (Z.to_N z) (2 ^ 8)); [|destruct (N.ltb_spec (Z.to_N z) (2 ^ 16)); [|destruct (N.ltb_spec (Z.to_N z) (2 ^ 32))]];
      cbn [app head N.ltb N.leb N.compare Pos.compare Pos.compare_cont].
    + rewrite (G 1%nat 256%N _ eq_refl) by lia. unfold int. rewrite Z2N.id by lia. reflexivity.
    + rewrite (G 2%nat 65536%N _ eq_refl) by lia. unfold int. rewrite Z2N.id by lia. reflexivity.
    + rewrite (G 4%nat 4294967296%N _ eq_refl) by lia. unfold int. rewrite Z2N.id by lia. reflexivity.
    + rewrite (G 8%nat 18446744073709551616%N _ eq_refl) by lia. unfold int. rewrite Z2N.id by lia. reflexivity.
  - destruct (Z.leb_spec (-32) z); [cbn [app]; rewrite (proj2 (proj2 (proj2 (proj2 (head_small _ _))))) by lia; rewrite Z2N.id by lia; do 4 f_equal; lia|].
    assert (T : forall k h w, h = (2 ^ (8 * N.of_nat k - 1))%N -> w = (2 ^ (8 * Z.of_nat k))%Z -> (0 <= w + z)%Z -> (Z.of_N h <= w + z)%Z -> signed k (Z.to_N (w + z)) = z).
    { intros k h w -> -> Hz Hs. unfold signed. destruct (N.ltb_spec (Z.to_N (2 ^ (8 * Z.of_nat k) + z)) (2 ^ (8 * N.of_nat k - 1))); lia. }
    destruct (Z.leb_spec (- 2 ^ 7) z); [|destruct (Z.leb_spec (- 2 ^ 15) z); [|destruct (Z.leb_spec (- 2 ^ 31) z)]];
      cbn [app head N.ltb N.leb N.compare Pos.compare Pos.compare_cont].
    + rewrite (G 1%nat 256%N _ eq_refl) by lia. unfold int. rewrite (T 1%nat 128%N (2 ^ 8)%Z eq_refl eq_refl) by lia. reflexivity.
    + rewrite (G 2%nat 65536%N _ eq_refl) by lia. unfold int. rewrite (T 2%nat 32768%N (2 ^ 16)%Z eq_refl eq_refl) by lia. reflexivity.
    + rewrite (G 4%nat 4294967296%N _ eq_refl) by lia. unfold int. rewrite (T 4%nat 2147483648%N (2 ^ 32)%Z eq_refl eq_refl) by lia. reflexivity.
    + rewrite (G 8%nat 18446744073709551616%N _ eq_refl) by lia. unfold int. rewrite (T 8%nat 9223372036854775808%N (2 ^ 64)%Z eq_refl eq_refl) by lia. reflexivity.
Qed.
Lemma head_ext k s rest : len_ok s -> head (enc_ext k s ++ rest) = Some (Whole (MExt k s), rest).
Proof.
  intros L.
  assert (B : head ((enc_len 0 0 (Some 0xc7) 0xc8 0xc9 (N.of_nat (length s)) ++ k :: s) ++ rest) = Some (Whole (MExt k s), rest)).
  { rewrite <- app_assoc. destruct (enc_len_form 0 0 (Some 0xc7) 0xc8 0xc9 _ L) as [H|c _ E H|_ H|_ H]; [lia| | |]; try (injection E as <-);
      cbn [app head N.ltb N.leb N.compare Pos.compare Pos.compare_cont]; rewrite sized_be by exact H; unfold ext; apply chunk_app. }
  assert (G : forall n, n = N.of_nat (length s) -> chunk n (MExt k) (s ++ rest) = Some (Whole (MExt k s), rest)) by (intros n ->; apply chunk_app).
  unfold enc_ext. destruct (length s) as [|[|[|[|[|[|[|[|[|[|[|[|[|[|[|[|[|n]]]]]]]]]]]]]]]]] eqn:E; try exact B;
    cbn [app head N.ltb N.leb N.compare Pos.compare Pos.compare_cont]; unfold ext; apply G; reflexivity.
Qed.

Lemma enc_nonempty v : (1 <= length (enc v))%nat.
Proof.
  assert (K : forall a b c d e n, (1 <= length (enc_len a b c d e n))%nat).
  { intros. unfold enc_len. destruct (n <? a); [cbn; lia|]. destruct c; repeat match goal with |- context [if ?x then _ else _] => destruct x end; cbn; lia. }
  destruct v; cbn [enc]; rewrite ?app_length; try (cbn; lia); try (match goal with |- context [length (enc_len ?a ?b ?c ?d ?e ?n)] => pose proof (K a b c d e n) end; lia).
  - unfold enc_int. repeat match goal with |- context [if ?x then _ else _] => destruct x end; cbn; lia.
  - unfold enc_ext. rewrite app_length. cbn [length]. lia.
Qed.

Lemma seq_of_enc f l rest : (forall v, In v l -> forall rest, parse f (enc v ++ rest) = Some (v, rest)) ->
  seq_of (parse f) (length l) (flat_map enc l ++ rest) = Some (l, rest).
Proof.
  induction l as [|v l IH]; intros H; [reflexivity|]. cbn [length seq_of flat_map]. rewrite <- app_assoc, H by (left; reflexivity).
  rewrite IH by (intros; apply H; right; assumption). reflexivity.
Qed.
Lemma pairs_of_enc f l rest : (forall e, In e l -> forall rest, parse f (enc (fst e) ++ rest) = Some (fst e, rest) /\ parse f (enc (snd e) ++ rest) = Some (snd e, rest)) ->
  pairs_of (parse f) (length l) (flat_map (fun e => enc (fst e) ++ enc (snd e)) l ++ rest) = Some (l, rest).
Proof.
  induction l as [|[a b] l IH]; intros H; [reflexivity|]. cbn [length pairs_of flat_map fst snd]. rewrite <- !app_assoc.
  rewrite (proj1 (H (a, b) (or_introl eq_refl) _)). cbn [fst]. rewrite (proj2 (H (a, b) (or_introl eq_refl) _)).
  rewrite IH by (intros; apply H; right; assumption). reflexivity.
Qed.
Lemma flat_map_le {A} (g : A -> list N) x l : In x l -> (length (g x) <= length (flat_map g l))%nat.
Proof. induction l as [|y l IH]; intros []; cbn; rewrite app_length; [subst; lia|]. specialize (IH H). lia. Qed.

Lemma parse_enc v : fits v -> forall f rest, (length (enc v) <= f)%nat -> parse f (enc v ++ rest) = Some (v, rest).
Proof.
  induction v using mval_ind'; intros W fu rest L; (destruct fu as [|f]; [match type of L with (length (enc ?w) <= 0)%nat => pose proof (enc_nonempty w); lia end|]); cbn [parse].
  - reflexivity.
  - destruct b; reflexivity.
  - cbn [enc]. rewrite head_int by exact W. reflexivity.
  - cbn [enc app]. destruct W as [W|W]; rewrite W; cbn [Nat.eqb head N.ltb N.leb N.compare Pos.compare Pos.compare_cont];
      [change 4 with (N.of_nat 4)|change 8 with (N.of_nat 8)]; rewrite <- W, chunk_app; reflexivity.
  - cbn [enc]. rewrite <- app_assoc, head_str by (apply enc_len_form; exact W). reflexivity.
  - cbn [enc]. rewrite <- app_assoc, head_bin by (apply enc_len_form; exact W). reflexivity.
  - cbn [enc]. rewrite head_ext by exact W. reflexivity.
  - apply fits_arr in W as [W1 W2]. cbn [enc] in *. pose proof (enc_len_form 16 0x90 None 0xdc 0xdd _ W1) as F. rewrite <- app_assoc, (head_arr _ _ _ F), Nat2N.id. apply len_form_len in F.
    rewrite seq_of_enc; [reflexivity|].
    intros v Hv rest'. rewrite Forall_forall in H, W2. apply H; auto. rewrite app_length in L. pose proof (flat_map_le enc v l Hv). unfold byte in *. lia.
  - apply fits_map in W as [W1 W2]. cbn [enc] in *. pose proof (enc_len_form 16 0x80 None 0xde 0xdf _ W1) as F. rewrite <- app_assoc, (head_map _ _ _ F), Nat2N.id. apply len_form_len in F.
    rewrite pairs_of_enc; [reflexivity|].
    intros e He rest'. rewrite Forall_forall in H, W2. destruct (H e He) as [H1 H2]. destruct (W2 e He) as [W3 W4]. rewrite app_length in L.
    pose proof (flat_map_le (fun e => enc (fst e) ++ enc (snd e)) e l He) as Le. cbn beta in Le. rewrite app_length in Le. unfold byte in *.
    split; [apply H1|apply H2]; auto; lia.
Qed.
Lemma read_value_enc v rest : fits v -> read_value (enc v ++ rest) = Some (v, rest).
Proof. intros W. unfold read_value. apply parse_enc; [exact W|]. rewrite app_length. lia. Qed.

(** The fuel does not matter. *)
Lemma take_consumes k bs s r : take k bs = Some (s, r) -> (length r <= length bs)%nat.
Proof. unfold take. destruct (Nat.leb_spec k (length bs)); intros E; [|discriminate E]. injection E as <- <-. rewrite skipn_length. lia. Qed.
Definition shrinks (next : list byte -> option (start * list byte)) : Prop := forall r h r', next r = Some (h, r') -> (length r' <= length r)%nat.
Lemma chunk_shrinks k make : shrinks (chunk k make).
Proof. intros r h r'. unfold chunk. destruct (take _ _) as [[s x]|] eqn:E; intros H; [|discriminate H]. injection H as <- <-. apply take_consumes in E. exact E. Qed.
Lemma ext_shrinks k : shrinks (ext k).
Proof. intros [|x r] h r'; unfold ext; [discriminate|]. intros H. apply chunk_shrinks in H. cbn. lia. Qed.
Lemma sized_shrinks k next : (forall n, shrinks (next n)) -> shrinks (sized k next).
Proof.
  intros S r h r'. unfold sized, number. destruct (take k r) as [[l x]|] eqn:E; intros H; [|discriminate H]. apply S in H. apply take_consumes in E. lia.
Qed.
Lemma done_shrinks (mk : N -> start) : forall n, shrinks (fun r => Some (mk n, r)).
Proof. intros n r h r' H. injection H as <- <-. lia. Qed.
Lemma head_consumes bs h r : head bs = Some (h, r) -> (length r < length bs)%nat.
Proof.
  unfold head. destruct bs as [|b bs]; [discriminate|]. cbn [length]. intros H.
  assert (D : forall m : start, Some (m, bs) = Some (h, r) -> (length r < S (length bs))%nat) by (intros m E; injection E as _ <-; lia).
  assert (C : forall next, shrinks next -> next bs = Some (h, r) -> (length r < S (length bs))%nat) by (intros next S E; apply S in E; lia).
  assert (I : forall to n, shrinks (int to n)) by (intros to n; apply (done_shrinks (fun n => Whole (MInt (to n))))).
  destruct (b <? 0x80); [exact (D _ H)|]. destruct (b <? 0x90); [exact (D _ H)|]. destruct (b <? 0xa0); [exact (D _ H)|].
  destruct (b <? 0xc0); [exact (C _ (chunk_shrinks _ _) H)|]. destruct (0xe0 <=? b); [exact (D _ H)|].
  destruct b as [|p]; [discriminate H|].
  do 8 (destruct p as [p|p|]; try discriminate H);
    first [exact (D _ H)|exact (C _ (chunk_shrinks _ _) H)|exact (C _ (ext_shrinks _) H)
          |refine (C _ (sized_shrinks _ _ _) H); intros n; first [apply chunk_shrinks|apply ext_shrinks|apply I|apply (done_shrinks Elements)|apply (done_shrinks Entries)]].
Qed.
Definition good (f : nat) : Prop := forall bs v r, parse f bs = Some (v, r) ->
  (length r < length bs)%nat /\ forall f', (length bs <= f' + length r)%nat -> parse f' bs = Some (v, r).
Lemma seq_good f : good f -> forall k bs l r, seq_of (parse f) k bs = Some (l, r) ->
  (length r <= length bs)%nat /\ forall f', (length bs <= f' + length r)%nat -> seq_of (parse f') k bs = Some (l, r).
Proof.
  intros G. induction k as [|k IH]; intros bs l r H; cbn [seq_of] in *.
  - injection H as <- <-. split; [lia|]. reflexivity.
  - destruct (parse f bs) as [[v x]|] eqn:P; [|discriminate H]. destruct (seq_of (parse f) k x) as [[l' y]|] eqn:Q; [|discriminate H]. injection H as <- <-.
    destruct (G _ _ _ P) as [L1 M1]. destruct (IH _ _ _ Q) as [L2 M2]. split; [lia|]. intros f' Hf. rewrite M1 by lia. rewrite M2 by lia. reflexivity.
Qed.
Lemma pairs_good f : good f -> forall k bs l r, pairs_of (parse f) k bs = Some (l, r) ->
  (length r <= length bs)%nat /\ forall f', (length bs <= f' + length r)%nat -> pairs_of (parse f') k bs = Some (l, r).
Proof.
  intros G. induction k as [|k IH]; intros bs l r H; cbn [pairs_of] in *.
  - injection H as <- <-. split; [lia|]. reflexivity.
  - destruct (parse f bs) as [[v x]|] eqn:P; [|discriminate H]. destruct (parse f x) as [[w y]|] eqn:P2; [|discriminate H].
    destruct (pairs_of (parse f) k y) as [[l' z]|] eqn:Q; [|discriminate H]. injection H as <- <-.
    destruct (G _ _ _ P) as [L1 M1]. destruct (G _ _ _ P2) as [L3 M3]. destruct (IH _ _ _ Q) as [L2 M2]. split; [lia|].
    intros f' Hf. rewrite M1 by lia. rewrite M3 by lia. rewrite M2 by lia. reflexivity.
Qed.
Lemma parse_good f : good f.
Proof.
  induction f as [|f IH]; intros bs v r H; [discriminate H|]. cbn [parse] in H. destruct (head bs) as [[h x]|] eqn:E; [|discriminate H]. pose proof (head_consumes _ _ _ E) as L.
  destruct h as [w|n|n].
  - injection H as <- <-. split; [exact L|]. intros [|f'] Hf; [lia|]. cbn [parse]. rewrite E. reflexivity.
  - destruct (seq_of (parse f) (N.to_nat n) x) as [[l y]|] eqn:Q; [|discriminate H]. injection H as <- <-. destruct (seq_good f IH _ _ _ _ Q) as [L2 M2].
    split; [lia|]. intros [|f'] Hf; [lia|]. cbn [parse]. rewrite E, M2 by lia. reflexivity.
  - destruct (pairs_of (parse f) (N.to_nat n) x) as [[l y]|] eqn:Q; [|discriminate H]. injection H as <- <-. destruct (pairs_good f IH _ _ _ _ Q) as [L2 M2].
    split; [lia|]. intros [|f'] Hf; [lia|]. cbn [parse]. rewrite E, M2 by lia. reflexivity.
Qed.
Lemma parse_enough f bs v r : parse f bs = Some (v, r) -> read_value bs = Some (v, r) /\ (length r < length bs)%nat.
Proof. intros H. destruct (parse_good f _ _ _ H) as [L M]. split; [|exact L]. apply M. lia. Qed.

(** The rest of the stream plays no part. *)
Lemma take_rest k bs s r tail : take k bs = Some (s, r) -> take k (bs ++ tail) = Some (s, r ++ tail).
Proof.
  unfold take. rewrite app_length. destruct (Nat.leb_spec k (length bs)) as [L|]; [|discriminate]. intros E. injection E as <- <-.
  replace (k <=? length bs + length tail)%nat with true by (symmetry; apply Nat.leb_le; lia). rewrite firstn_app, skipn_app.
  replace (k - length bs)%nat with 0%nat by lia. cbn [firstn skipn]. rewrite app_nil_r. reflexivity.
Qed.
Definition local_ (next : list byte -> option (start * list byte)) : Prop := forall r h r' tail, next r = Some (h, r') -> next (r ++ tail) = Some (h, r' ++ tail).
Lemma chunk_local k make : local_ (chunk k make).
Proof. intros r h r' tail. unfold chunk. destruct (take _ r) as [[s x]|] eqn:E; [|discriminate]. rewrite (take_rest _ _ _ _ tail E). intros H. injection H as <- <-. reflexivity. Qed.
Lemma ext_local k : local_ (ext k).
Proof. intros [|x r] h r' tail; unfold ext; [discriminate|]. cbn [app]. apply chunk_local. Qed.
Lemma sized_local k next : (forall n, local_ (next n)) -> local_ (sized k next).
Proof.
  intros S r h r' tail. unfold sized, number. destruct (take k r) as [[l x]|] eqn:E; [|discriminate]. rewrite (take_rest _ _ _ _ tail E). apply S.
Qed.
Lemma done_local (mk : N -> start) : forall n, local_ (fun r => Some (mk n, r)).
Proof. intros n r h r' tail H. injection H as <- <-. reflexivity. Qed.
Lemma head_rest bs h r tail : head bs = Some (h, r) -> head (bs ++ tail) = Some (h, r ++ tail).
Proof.
  unfold head. destruct bs as [|b bs]; [discriminate|]. cbn [app]. intros H.
  assert (D : forall m : start, Some (m, bs) = Some (h, r) -> Some (m, bs ++ tail) = Some (h, r ++ tail)) by (intros m E; injection E as -> ->; reflexivity).
  assert (C : forall next, local_ next -> next bs = Some (h, r) -> next (bs ++ tail) = Some (h, r ++ tail)) by (intros next S E; apply S; exact E).
  assert (I : forall to n, local_ (int to n)) by (intros to n; apply (done_local (fun n => Whole (MInt (to n))))).
  destruct (b <? 0x80); [exact (D _ H)|]. destruct (b <? 0x90); [exact (D _ H)|]. destruct (b <? 0xa0); [exact (D _ H)|].
  destruct (b <? 0xc0); [exact (C _ (chunk_local _ _) H)|]. destruct (0xe0 <=? b); [exact (D _ H)|].
  destruct b as [|p]; [discriminate H|].
  do 8 (destruct p as [p|p|]; try discriminate H);
    first [exact (D _ H)|exact (C _ (chunk_local _ _) H)|exact (C _ (ext_local _) H)
          |refine (C _ (sized_local _ _ _) H); intros n; first [apply chunk_local|apply ext_local|apply I|apply (done_local Elements)|apply (done_local Entries)]].
Qed.
Lemma parse_rest f : forall bs v r tail, parse f bs = Some (v, r) -> parse f (bs ++ tail) = Some (v, r ++ tail).
Proof.
  induction f as [|f IH]; intros bs v r tail H; [discriminate H|]. cbn [parse] in *. destruct (head bs) as [[h x]|] eqn:E; [|discriminate H]. rewrite (head_rest _ _ _ tail E).
  destruct h as [w|n|n].
  - injection H as <- <-. reflexivity.
  - assert (S : forall k bs l r, seq_of (parse f) k bs = Some (l, r) -> seq_of (parse f) k (bs ++ tail) = Some (l, r ++ tail)).
    { induction k as [|k IHk]; intros b l r0 Hs; cbn [seq_of] in *; [injection Hs as <- <-; reflexivity|].
      destruct (parse f b) as [[a y]|] eqn:P; [|discriminate Hs]. rewrite (IH _ _ _ tail P). destruct (seq_of (parse f) k y) as [[l' z]|] eqn:Q; [|discriminate Hs].
      rewrite (IHk _ _ _ Q). injection Hs as <- <-. reflexivity. }
    destruct (seq_of (parse f) (N.to_nat n) x) as [[l y]|] eqn:Q; [|discriminate H]. rewrite (S _ _ _ _ Q). injection H as <- <-. reflexivity.
  - assert (S : forall k bs l r, pairs_of (parse f) k bs = Some (l, r) -> pairs_of (parse f) k (bs ++ tail) = Some (l, r ++ tail)).
    { induction k as [|k IHk]; intros b l r0 Hs; cbn [pairs_of] in *; [injection Hs as <- <-; reflexivity|].
      destruct (parse f b) as [[a y]|] eqn:P; [|discriminate Hs]. rewrite (IH _ _ _ tail P). destruct (parse f y) as [[c z]|] eqn:P2; [|discriminate Hs]. rewrite (IH _ _ _ tail P2).
      destruct (pairs_of (parse f) k z) as [[l' w]|] eqn:Q; [|discriminate Hs]. rewrite (IHk _ _ _ Q). injection Hs as <- <-. reflexivity. }
    destruct (pairs_of (parse f) (N.to_nat n) x) as [[l y]|] eqn:Q; [|discriminate H]. rewrite (S _ _ _ _ Q). injection H as <- <-. reflexivity.
Qed.
