From Coq Require Import List NArith ZArith Bool Lia ZifyBool ZifyN ZifyNat.
From Verif Require Import Model.Base Model.UserInfo Spec.UserInfoSpec.
Import ListNotations.
Open Scope N_scope.

Lemma continues_iff b : continues b = true <-> 128 <= b <= 191.
Proof. unfold continues. lia. Qed.

Lemma second_iff a b : second a b = true <->
  128 <= b <= 191 /\ (a = 224 -> 160 <= b) /\ (a = 237 -> b <= 159) /\ (a = 240 -> 144 <= b) /\ (a = 244 -> b <= 143).
Proof.
  unfold second, continues.
  destruct (a =? 224) eqn:E1; [lia|]. destruct (a =? 237) eqn:E2; [lia|].
  destruct (a =? 240) eqn:E3; [lia|]. destruct (a =? 244) eqn:E4; lia.
Qed.

Ltac shape := repeat match goal with
  | H : continues _ = true |- _ => apply continues_iff in H
  | H : second _ _ = true |- _ => apply second_iff in H end.

Lemma cons_inv (x y : N) l m : x :: l = y :: m -> x = y /\ l = m.
Proof. intros H. injection H as -> ->. auto. Qed.
Ltac conses := repeat match goal with H : _ :: _ = _ :: _ |- _ => apply cons_inv in H; destruct H end.

(** One character at the front. *)
Lemma lossy_char c bs s : encodes c bs -> lossy (bs ++ s) = c :: lossy s.
Proof.
  intros H. destruct H as [c H|x y Hx Hy H|x y z Hx Hy Hz H Hs|x y z t Hx Hy Hz Ht H]; cbn [app lossy].
  - replace (c <=? 127) with true by lia. reflexivity.
  - replace (192 + x <=? 127) with false by lia.
    replace ((194 <=? 192 + x) && (192 + x <=? 223)) with true by lia.
    replace (continues (128 + y)) with true by (symmetry; apply continues_iff; lia). f_equal. lia.
  - replace (224 + x <=? 127) with false by lia.
    replace ((194 <=? 224 + x) && (224 + x <=? 223)) with false by lia.
    replace ((224 <=? 224 + x) && (224 + x <=? 239)) with true by lia.
    replace (second (224 + x) (128 + y)) with true by (symmetry; apply second_iff; unfold scalar in Hs; lia).
    replace (continues (128 + z)) with true by (symmetry; apply continues_iff; lia). f_equal. lia.
  - replace (240 + x <=? 127) with false by lia.
    replace ((194 <=? 240 + x) && (240 + x <=? 223)) with false by lia.
    replace ((224 <=? 240 + x) && (240 + x <=? 239)) with false by lia.
    replace ((240 <=? 240 + x) && (240 + x <=? 244)) with true by lia.
    replace (second (240 + x) (128 + y)) with true by (symmetry; apply second_iff; lia).
    replace (continues (128 + z)) with true by (symmetry; apply continues_iff; lia).
    replace (continues (128 + t)) with true by (symmetry; apply continues_iff; lia). f_equal. lia.
Qed.

Lemma encodes_char a : a <= 127 -> encodes a [a].
Proof. intros. constructor. lia. Qed.
Lemma encodes_two a b : 194 <= a <= 223 -> 128 <= b <= 191 -> encodes ((a - 192) * 64 + (b - 128)) [a; b].
Proof.
  intros A B. replace [a; b] with [192 + (a - 192); 128 + (b - 128)] by (repeat f_equal; lia). constructor; lia.
Qed.
Lemma encodes_three a b c : 224 <= a <= 239 -> second a b = true -> 128 <= c <= 191 ->
  encodes ((a - 224) * 4096 + (b - 128) * 64 + (c - 128)) [a; b; c].
Proof.
  intros A B C. shape. replace [a; b; c] with [224 + (a - 224); 128 + (b - 128); 128 + (c - 128)] by (repeat f_equal; lia).
  constructor; try lia. unfold scalar. lia.
Qed.
Lemma encodes_four a b c d : 240 <= a <= 244 -> second a b = true -> 128 <= c <= 191 -> 128 <= d <= 191 ->
  encodes ((a - 240) * 262144 + (b - 128) * 4096 + (c - 128) * 64 + (d - 128)) [a; b; c; d].
Proof.
  intros A B C D. shape.
  replace [a; b; c; d] with [240 + (a - 240); 128 + (b - 128); 128 + (c - 128); 128 + (d - 128)] by (repeat f_equal; lia).
  constructor; lia.
Qed.

(** The beginnings of characters. *)
Lemma begins_one a q : begins (a :: q) -> a <= 127 /\ q = [] \/ 194 <= a <= 244.
Proof.
  intros (c & r & H). remember ((a :: q) ++ r) as w eqn:E.
  destruct H as [c H|x y Hx Hy H|x y z Hx Hy Hz H Hs|x y z t Hx Hy Hz Ht H]; cbn [app] in E; conses.
  - left. split; [lia|]. destruct q; [reflexivity|discriminate].
  - right. lia.
  - right. lia.
  - right. lia.
Qed.
Lemma begins_two a b q : begins (a :: b :: q) ->
  194 <= a <= 223 /\ 128 <= b <= 191 /\ q = [] \/ 224 <= a <= 244 /\ second a b = true.
Proof.
  intros (c & r & H). remember ((a :: b :: q) ++ r) as w eqn:E.
  destruct H as [c H|x y Hx Hy H|x y z Hx Hy Hz H Hs|x y z t Hx Hy Hz Ht H]; cbn [app] in E.
  - discriminate.
  - conses. left. split; [lia|split; [lia|]]. destruct q; [reflexivity|discriminate].
  - conses. right. split; [lia|]. apply second_iff. unfold scalar in Hs. lia.
  - conses. right. split; [lia|]. apply second_iff. lia.
Qed.
Lemma begins_three a b c q : begins (a :: b :: c :: q) ->
  224 <= a <= 239 /\ 128 <= c <= 191 /\ q = [] \/ 240 <= a <= 244 /\ 128 <= c <= 191.
Proof.
  intros (u & r & H). remember ((a :: b :: c :: q) ++ r) as w eqn:E.
  destruct H as [u H|x y Hx Hy H|x y z Hx Hy Hz H Hs|x y z t Hx Hy Hz Ht H]; cbn [app] in E; try discriminate.
  - conses. left. split; [lia|split; [lia|]]. destruct q; [reflexivity|discriminate].
  - conses. right. lia.
Qed.
Lemma begins_four a b c d q : begins (a :: b :: c :: d :: q) -> 128 <= d <= 191.
Proof.
  intros (u & r & H). remember ((a :: b :: c :: d :: q) ++ r) as w eqn:E.
  destruct H as [u H|x y Hx Hy H|x y z Hx Hy Hz H Hs|x y z t Hx Hy Hz Ht H]; cbn [app] in E; try discriminate.
  conses. lia.
Qed.

Definition outcome (s : list N) : Prop :=
  (exists c bs r, encodes c bs /\ s = bs ++ r /\ lossy s = c :: lossy r) \/
  (exists p r, s = p ++ r /\ lossy s = 65533 :: lossy r /\
     (forall c bs t, encodes c bs -> s <> bs ++ t) /\ broken_off p r).

Lemma char_outcome c bs r : encodes c bs -> outcome (bs ++ r).
Proof. intros H. left. exists c, bs, r. split; [exact H|split; [reflexivity|apply lossy_char; exact H]]. Qed.

Lemma prefix_split (p r bs t : list N) : p ++ r = bs ++ t -> (length bs <= length p)%nat -> exists u, p = bs ++ u /\ t = u ++ r.
Proof.
  revert p. induction bs as [|b bs IH]; intros p E L.
  - exists p. auto.
  - destruct p as [|x p]; [cbn in L; lia|]. cbn [app] in E. conses. subst x.
    destruct (IH p) as (u & -> & ->); [assumption|cbn in L; lia|]. exists u. auto.
Qed.

(** A broken beginning [p] followed by [r]: no longer part of [p ++ r] begins a character. *)
Lemma bad_outcome p r : p <> [] -> (begins p \/ length p = 1%nat) -> lossy (p ++ r) = 65533 :: lossy r ->
  (forall c bs, encodes c bs -> (length bs <= length p)%nat -> forall t, p <> bs ++ t) ->
  (forall b r', r = b :: r' -> ~ begins (p ++ [b])) -> outcome (p ++ r).
Proof.
  intros Np Hp Hl Hs Hb. right. exists p, r. split; [reflexivity|split; [exact Hl|split]].
  - intros c bs t He E.
    destruct (Nat.le_gt_cases (length bs) (length p)) as [L|L].
    + destruct (prefix_split _ _ _ _ E L) as (u & Eu & _). exact (Hs c bs He L u Eu).
    + symmetry in E. destruct (prefix_split _ _ _ _ E) as (q & Eq & _); [lia|]. symmetry in E.
      assert (Nq : q <> []). { intros ->. rewrite app_nil_r in Eq. subst bs. lia. }
      subst bs.
      destruct q as [|b q]; [congruence|].
      rewrite <- app_assoc in E. apply app_inv_head in E. cbn in E.
      apply (Hb b (q ++ t) E). exists c, q. rewrite <- app_assoc. exact He.
  - split; [exact Np|split; [exact Hp|]]. intros q t Nq E (c & u & He). destruct q as [|b q]; [congruence|].
    apply (Hb b (q ++ t) E). exists c, (q ++ u). rewrite <- app_assoc. cbn [app] in He |- *. rewrite <- app_assoc in He. exact He.
Qed.

Lemma app_cons_eq (a : N) r : a :: r = [a] ++ r. Proof. reflexivity. Qed.

Lemma not_short c bs p : encodes c bs -> forall t, p = bs ++ t ->
  match p with
  | [] => False
  | a :: q => a <= 127 \/ 194 <= a <= 223 /\ (2 <= length p)%nat \/ 224 <= a <= 239 /\ (3 <= length p)%nat \/ 240 <= a <= 244 /\ (4 <= length p)%nat
  end.
Proof.
  intros H t E. subst p. destruct H as [u H|x y Hx Hy H|x y z Hx Hy Hz H Hs|x y z v Hx Hy Hz Ht H]; cbn [app length]; lia.
Qed.

Lemma outcomes a r : outcome (a :: r).
Proof.
  destruct (a <=? 127) eqn:E1.
  { apply (char_outcome a [a] r). apply encodes_char. lia. }
  destruct ((194 <=? a) && (a <=? 223)) eqn:E2.
  { destruct r as [|b r1].
    - apply (bad_outcome [a] []); [discriminate|right; reflexivity| | |discriminate].
      + cbn [app lossy]. rewrite E1, E2. reflexivity.
      + intros c bs He L t E. apply (not_short c bs _ He) in E. cbn [length] in E. lia.
    - destruct (continues b) eqn:E3.
      + apply (char_outcome ((a - 192) * 64 + (b - 128)) [a; b] r1). shape. apply encodes_two; lia.
      + apply (bad_outcome [a] (b :: r1)); [discriminate|right; reflexivity| | |].
        * cbn [app lossy]. rewrite E1, E2, E3. reflexivity.
        * intros c bs He L t E. apply (not_short c bs _ He) in E. cbn [length] in E. lia.
        * intros b' r' [= <- <-] B. cbn [app] in B. apply begins_two in B. unfold continues in E3. lia. }
  destruct ((224 <=? a) && (a <=? 239)) eqn:E3.
  { destruct r as [|b r1].
    - apply (bad_outcome [a] []); [discriminate|right; reflexivity| | |discriminate].
      + cbn [app lossy]. rewrite E1, E2, E3. reflexivity.
      + intros c bs He L t E. apply (not_short c bs _ He) in E. cbn [length] in E. lia.
    - destruct (second a b) eqn:E4.
      + assert (B2 : begins [a; b]).
        { exists ((a - 224) * 4096 + (b - 128) * 64 + (128 - 128)), [128]. apply encodes_three; [lia|exact E4|lia]. }
        destruct r1 as [|c r2].
        * apply (bad_outcome [a; b] []); [discriminate|left; exact B2| | |discriminate].
          -- cbn [app lossy]. rewrite E1, E2, E3, E4. reflexivity.
          -- intros c bs He L t E. apply (not_short c bs _ He) in E. cbn [length] in E. lia.
        * destruct (continues c) eqn:E5.
          -- apply (char_outcome ((a - 224) * 4096 + (b - 128) * 64 + (c - 128)) [a; b; c] r2).
             apply continues_iff in E5. apply encodes_three; [lia|exact E4|lia].
          -- apply (bad_outcome [a; b] (c :: r2)); [discriminate|left; exact B2| | |].
             ++ cbn [app]. change (lossy (a :: b :: c :: r2) = 65533 :: lossy (c :: r2)).
                cbn [lossy]. rewrite E1, E2, E3, E4, E5. reflexivity.
             ++ intros c' bs He L t E. apply (not_short c' bs _ He) in E. cbn [length] in E. lia.
             ++ intros b' r' [= <- <-] B. cbn [app] in B. apply begins_three in B. unfold continues in E5. lia.
      + apply (bad_outcome [a] (b :: r1)); [discriminate|right; reflexivity| | |].
        * cbn [app]. change (lossy (a :: b :: r1) = 65533 :: lossy (b :: r1)). cbn [lossy]. rewrite E1, E2, E3, E4. reflexivity.
        * intros c bs He L t E. apply (not_short c bs _ He) in E. cbn [length] in E. lia.
        * intros b' r' [= <- <-] B. cbn [app] in B. apply begins_two in B. rewrite E4 in B. lia. }
  destruct ((240 <=? a) && (a <=? 244)) eqn:E4.
  { destruct r as [|b r1].
    - apply (bad_outcome [a] []); [discriminate|right; reflexivity| | |discriminate].
      + cbn [app lossy]. rewrite E1, E2, E3, E4. reflexivity.
      + intros c bs He L t E. apply (not_short c bs _ He) in E. cbn [length] in E. lia.
    - destruct (second a b) eqn:E5.
      + assert (B2 : begins [a; b]).
        { exists ((a - 240) * 262144 + (b - 128) * 4096 + (128 - 128) * 64 + (128 - 128)), [128; 128]. apply encodes_four; first [lia | exact E5]. }
        destruct r1 as [|c r2].
        * apply (bad_outcome [a; b] []); [discriminate|left; exact B2| | |discriminate].
          -- cbn [app lossy]. rewrite E1, E2, E3, E4, E5. reflexivity.
          -- intros c bs He L t E. apply (not_short c bs _ He) in E. cbn [length] in E. lia.
        * destruct (continues c) eqn:E6.
          -- assert (B3 : begins [a; b; c]).
             { exists ((a - 240) * 262144 + (b - 128) * 4096 + (c - 128) * 64 + (128 - 128)), [128].
               apply continues_iff in E6. apply encodes_four; first [lia | exact E5]. }
             destruct r2 as [|d r3].
             ++ apply (bad_outcome [a; b; c] []); [discriminate|left; exact B3| | |discriminate].
                ** cbn [app lossy]. rewrite E1, E2, E3, E4, E5, E6. reflexivity.
                ** intros c' bs He L t E. apply (not_short c' bs _ He) in E. cbn [length] in E. lia.
             ++ destruct (continues d) eqn:E7.
                ** apply (char_outcome ((a - 240) * 262144 + (b - 128) * 4096 + (c - 128) * 64 + (d - 128)) [a; b; c; d] r3).
                   apply continues_iff in E6, E7. apply encodes_four; first [lia | exact E5].
                ** apply (bad_outcome [a; b; c] (d :: r3)); [discriminate|left; exact B3| | |].
                   --- cbn [app]. change (lossy (a :: b :: c :: d :: r3) = 65533 :: lossy (d :: r3)).
                       cbn [lossy]. rewrite E1, E2, E3, E4, E5, E6, E7. reflexivity.
                   --- intros c' bs He L t E. apply (not_short c' bs _ He) in E. cbn [length] in E. lia.
                   --- intros b' r' [= <- <-] B. cbn [app] in B. apply begins_four in B. unfold continues in E7. lia.
          -- apply (bad_outcome [a; b] (c :: r2)); [discriminate|left; exact B2| | |].
             ++ cbn [app]. change (lossy (a :: b :: c :: r2) = 65533 :: lossy (c :: r2)).
                cbn [lossy]. rewrite E1, E2, E3, E4, E5, E6. reflexivity.
             ++ intros c' bs He L t E. apply (not_short c' bs _ He) in E. cbn [length] in E. lia.
             ++ intros b' r' [= <- <-] B. cbn [app] in B. apply begins_three in B. unfold continues in E6. lia.
      + apply (bad_outcome [a] (b :: r1)); [discriminate|right; reflexivity| | |].
        * cbn [app]. change (lossy (a :: b :: r1) = 65533 :: lossy (b :: r1)). cbn [lossy]. rewrite E1, E2, E3, E4, E5. reflexivity.
        * intros c bs He L t E. apply (not_short c bs _ He) in E. cbn [length] in E. lia.
        * intros b' r' [= <- <-] B. cbn [app] in B. apply begins_two in B. rewrite E5 in B. lia. }
  apply (bad_outcome [a] r); [discriminate|right; reflexivity| | |].
  - cbn [app lossy]. rewrite E1, E2, E3, E4. reflexivity.
  - intros c bs He L t E. apply (not_short c bs _ He) in E. cbn [length] in E. lia.
  - intros b' r' -> B. cbn [app] in B. apply begins_one in B. destruct B as [(B & _)|B]; lia.
Qed.

Lemma lossy_reads s : read_as s (lossy s).
Proof.
  remember (length s) as n eqn:E. assert (L : (length s <= n)%nat) by lia. clear E. revert s L.
  induction n as [|n IH]; intros s L.
  - destruct s; [constructor|cbn in L; lia].
  - destruct s as [|a r]; [constructor|].
    destruct (outcomes a r) as [(c & bs & t & He & E & El)|(p & t & E & El & No & Hb)]; rewrite El, E in *.
    + apply r_char; [exact He|]. apply IH. rewrite app_length in L.
      assert (1 <= length bs)%nat by (destruct He; cbn; lia). lia.
    + apply r_bad; [exact No|exact Hb|]. apply IH. rewrite app_length in L.
      destruct Hb as (Np & _). destruct p; [congruence|]. cbn in L. lia.
Qed.

Lemma maximal_unique p r p' r' : p ++ r = p' ++ r' -> broken_off p r -> broken_off p' r' -> p = p' /\ r = r'.
Proof.
  assert (W : forall p r p' r', p ++ r = p' ++ r' -> broken_off p r -> broken_off p' r' -> (length p' <= length p)%nat -> p = p' /\ r = r').
  { clear. intros p r p' r' E (Np & Hp & _) (Np' & _ & Hm') L.
    destruct (prefix_split _ _ _ _ E L) as (q0 & X & _). destruct q0 as [|b q].
    - rewrite app_nil_r in X. subst p'. split; [reflexivity|]. apply app_inv_head in E. exact E.
    - exfalso. destruct Hp as [Hp|Hp].
      + rewrite X in E. rewrite <- app_assoc in E. apply app_inv_head in E. symmetry in E.
        apply (Hm' (b :: q) r); [discriminate|exact E|]. rewrite <- X. exact Hp.
      + apply (f_equal (@length _)) in X. rewrite app_length in X. cbn in X. destruct p'; [congruence|]. cbn in X. lia. }
  intros E B B'. destruct (Nat.le_gt_cases (length p') (length p)) as [L|L].
  - apply W; assumption.
  - destruct (W p' r' p r) as [-> ->]; auto. lia.
Qed.

Lemma reads_lossy s cs : read_as s cs -> cs = lossy s.
Proof.
  induction 1 as [|c bs s cs He _ IH|p s cs No Hb _ IH]; [reflexivity| |].
  - rewrite (lossy_char _ _ _ He). now f_equal.
  - destruct p as [|a p]; [destruct Hb as (N & _); congruence|].
    pose proof (outcomes a (p ++ s)) as O. change (a :: p ++ s) with ((a :: p) ++ s) in O.
    destruct O as [(c & bs & t & He & E & _)|(q & t & E & El & _ & Hb')].
    + exfalso. exact (No c bs t He E).
    + destruct (maximal_unique _ _ _ _ E Hb Hb') as [_ ->]. rewrite El. now f_equal.
Qed.

(** Encoding. *)
Ltac Zify.zify_post_hook ::= Z.div_mod_to_equations.
Lemma char_bytes_encodes c : scalar c -> encodes c (char_bytes c).
Proof.
  unfold scalar, char_bytes. intros H. destruct (c <? 128) eqn:E1; [constructor; lia|].
  destruct (c <? 2048) eqn:E2.
  { replace c with (c / 64 * 64 + c mod 64) at 1 by lia. constructor; lia. }
  destruct (c <? 65536) eqn:E3.
  { replace c with (c / 4096 * 4096 + c / 64 mod 64 * 64 + c mod 64) at 1 by lia. constructor; try lia. unfold scalar. lia. }
  replace c with (c / 262144 * 262144 + c / 4096 mod 64 * 4096 + c / 64 mod 64 * 64 + c mod 64) at 1 by lia. constructor; lia.
Qed.
Ltac Zify.zify_post_hook ::= idtac.

Lemma encodes_scalar c bs : encodes c bs -> scalar c.
Proof. destruct 1; try assumption; unfold scalar; lia. Qed.

Lemma encodes_fun c bs c' bs' r r' : encodes c bs -> encodes c' bs' -> bs ++ r = bs' ++ r' -> c = c' /\ bs = bs'.
Proof.
  intros H H' E.
  destruct H as [u H|x y Hx Hy H|x y z Hx Hy Hz H Hs|x y z t Hx Hy Hz Ht H];
  destruct H' as [u' H'|x' y' Hx' Hy' H'|x' y' z' Hx' Hy' Hz' H' Hs'|x' y' z' t' Hx' Hy' Hz' Ht' H'];
  cbn [app] in E; conses; try lia.
  - subst. auto.
  - assert (x = x') by lia. assert (y = y') by lia. subst. auto.
  - assert (x = x') by lia. assert (y = y') by lia. assert (z = z') by lia. subst. auto.
  - assert (x = x') by lia. assert (y = y') by lia. assert (z = z') by lia. assert (t = t') by lia. subst. auto.
Qed.

Lemma encodes_det c bs bs' : encodes c bs -> encodes c bs' -> bs = bs'.
Proof.
  intros H H'. destruct H as [u H|x y Hx Hy H|x y z Hx Hy Hz H Hs|x y z t Hx Hy Hz Ht H].
  - inversion H'; subst; try lia. reflexivity.
  - remember (x * 64 + y) as u. destruct H'; try lia.
    f_equal; [lia|]. f_equal. lia.
  - remember (x * 4096 + y * 64 + z) as u. destruct H'; try lia.
    f_equal; [lia|]. f_equal; [lia|]. f_equal. lia.
  - remember (x * 262144 + y * 4096 + z * 64 + t) as u. destruct H'; try lia.
    f_equal; [lia|]. f_equal; [lia|]. f_equal; [lia|]. f_equal. lia.
Qed.

Lemma char_bytes_is c bs : encodes c bs -> char_bytes c = bs.
Proof.
  intros H. apply (encodes_det c); [|exact H]. apply char_bytes_encodes. apply (encodes_scalar _ _ H).
Qed.

Lemma str_bytes_is cs s : utf8_of cs s -> str_bytes cs = s.
Proof.
  induction 1 as [|c bs cs rest He _ IH]; [reflexivity|]. unfold str_bytes in *. cbn [flat_map].
  rewrite IH, (char_bytes_is _ _ He). reflexivity.
Qed.

Lemma str_bytes_utf8 cs : Forall scalar cs -> utf8_of cs (str_bytes cs).
Proof.
  induction 1 as [|c cs Hc _ IH]; [constructor|]. unfold str_bytes in *. cbn [flat_map].
  constructor; [apply char_bytes_encodes; exact Hc|exact IH].
Qed.

Lemma lossy_scalar s : Forall scalar (lossy s).
Proof.
  pose proof (lossy_reads s) as H. induction H as [|c bs s cs He _ IH|p s cs _ _ _ IH]; constructor; auto.
  - apply (encodes_scalar _ _ He).
  - unfold scalar. lia.
Qed.

Lemma lossy_app cs t s : utf8_of cs t -> lossy (t ++ s) = cs ++ lossy s.
Proof.
  induction 1 as [|c bs cs rest He _ IH]; [reflexivity|]. rewrite <- app_assoc, (lossy_char _ _ _ He), IH. reflexivity.
Qed.

Lemma lossy_text cs s : utf8_of cs s -> lossy s = cs.
Proof. intros H. rewrite <- (app_nil_r s), (lossy_app _ _ _ H). apply app_nil_r. Qed.

Lemma lossy_exact s : str_bytes (lossy s) = s <-> is_text s.
Proof.
  split.
  - intros E. exists (lossy s). rewrite <- E at 2. apply str_bytes_utf8. apply lossy_scalar.
  - intros (cs & H). rewrite (lossy_text _ _ H). apply str_bytes_is. exact H.
Qed.

(** An ASCII byte ends whatever precedes it. *)
Lemma begins_ascii p a q : a <= 127 -> begins (p ++ a :: q) -> p = [].
Proof.
  intros A H. destruct p as [|x p]; [reflexivity|]. exfalso. destruct p as [|y p].
  - cbn [app] in H. apply begins_two in H. destruct H as [H|(_ & H)]; [lia|]. apply second_iff in H. lia.
  - destruct p as [|z p].
    + cbn [app] in H. apply begins_three in H. lia.
    + destruct p as [|t p].
      * cbn [app] in H. apply begins_four in H. lia.
      * cbn [app] in H. destruct H as (c & r & H). inversion H. destruct p; discriminate.
Qed.

Lemma app_at_ascii (bs t s : list N) a r : bs ++ t = s ++ a :: r ->
  (exists u, s = bs ++ u /\ t = u ++ a :: r) \/ (exists q, bs = s ++ a :: q).
Proof.
  revert s t. induction bs as [|b bs IH]; intros s t E.
  - left. exists s. auto.
  - destruct s as [|x s].
    + right. cbn in E. injection E as -> E. exists bs. reflexivity.
    + cbn in E. injection E as -> E. destruct (IH _ _ E) as [(u & -> & ->)|(q & ->)].
      * left. exists u. auto.
      * right. exists q. reflexivity.
Qed.

Lemma lossy_ascii s a r : a <= 127 -> lossy (s ++ a :: r) = lossy s ++ a :: lossy r.
Proof.
  intros A. remember (length s) as n eqn:E. assert (L : (length s <= n)%nat) by lia. clear E. revert s L.
  induction n as [|n IH]; intros s L.
  - destruct s; [|cbn in L; lia]. cbn [app lossy]. replace (a <=? 127) with true by lia. reflexivity.
  - destruct s as [|x s].
    { cbn [app lossy]. replace (a <=? 127) with true by lia. reflexivity. }
    pose proof (outcomes x (s ++ a :: r)) as O. change (x :: s ++ a :: r) with ((x :: s) ++ a :: r) in O.
    destruct O as [(c & bs & t & He & E & El)|(p & t & E & El & No & Hb)].
    + symmetry in E. destruct (app_at_ascii _ _ _ _ _ E) as [(u & Eu & Et)|(q & Eq)].
      * rewrite El, Et, Eu, (lossy_char _ _ _ He). cbn [app]. f_equal. apply IH.
        apply (f_equal (@length _)) in Eu. rewrite app_length in Eu.
        assert (1 <= length bs)%nat by (destruct He; cbn; lia). cbn in L, Eu. lia.
      * exfalso. assert (B : begins ((x :: s) ++ a :: q)). { exists c, []. rewrite app_nil_r, <- Eq. exact He. }
        apply begins_ascii in B; [discriminate|exact A].
    + destruct Hb as (Np & Hp & Hm). pose proof (conj Np (conj Hp Hm)) as Hb.
      symmetry in E. destruct (app_at_ascii _ _ _ _ _ E) as [(u & Eu & Et)|(q & Eq)].
      * assert (Lu : lossy (x :: s) = 65533 :: lossy u).
        { symmetry. apply reads_lossy. rewrite Eu. apply r_bad.
          - intros c bs z He F. apply (No c bs (z ++ a :: r) He). rewrite Eu, F, <- app_assoc. reflexivity.
          - split; [exact Np|split; [exact Hp|]]. intros q z Nq F. apply (Hm q (z ++ a :: r) Nq). rewrite Et, F, <- app_assoc. reflexivity.
          - apply lossy_reads. }
        rewrite El, Et, Lu. cbn [app]. f_equal. apply IH.
        apply (f_equal (@length _)) in Eu. rewrite app_length in Eu. destruct p; [congruence|]. cbn in L, Eu. lia.
      * exfalso. destruct Hp as [Hp|Hp].
        -- rewrite Eq in Hp. apply begins_ascii in Hp; [discriminate|exact A].
        -- rewrite Eq in Hp. rewrite app_length in Hp. cbn in Hp. lia.
Qed.

Lemma lossy_slash s : In 47 (lossy s) -> In 47 s.
Proof.
  pose proof (lossy_reads s) as H. induction H as [|c bs s cs He _ IH|p s cs _ _ _ IH]; intros I.
  - contradiction.
  - apply in_or_app. destruct I as [->|I]; [left|right; apply IH; exact I].
    rewrite <- (char_bytes_is _ _ He). left. reflexivity.
  - apply in_or_app. destruct I as [I|I]; [discriminate|right; apply IH; exact I].
Qed.

Lemma lossy_path ns s : path_of ns s -> path_of (map lossy ns) (lossy s).
Proof.
  induction 1 as [n Hn|n ns s Hn _ IH].
  - constructor. intros I. apply Hn, lossy_slash, I.
  - rewrite lossy_ascii by lia. cbn [map]. constructor; [|exact IH]. intros I. apply Hn, lossy_slash, I.
Qed.
