From Coq Require Import List NArith ZArith Bool Lia.
From Coq Require Import ZifyBool ZifyN ZifyNat.
From Verif Require Import Model.Base Model.UserInfo Model.Messages Spec.UserInfoSpec Proofs.UserInfoProofs.
Import ListNotations.
Open Scope N_scope.

Lemma cont_iff b : cont b = true <-> 128 <= b <= 191.
Proof. unfold cont. lia. Qed.

Lemma utf8_char c bs s : encodes c bs -> utf8 (bs ++ s) = utf8 s.
Proof.
  intros H. destruct H as [c H|x y Hx Hy H|x y z Hx Hy Hz H Hs|x y z t Hx Hy Hz Ht H]; cbn [app utf8].
  - replace (c <=? 0x7f) with true by lia. reflexivity.
  - replace (192 + x <=? 0x7f) with false by lia. replace ((0xc2 <=? 192 + x) && (192 + x <=? 0xdf)) with true by lia.
    replace (cont (128 + y)) with true by (symmetry; apply cont_iff; lia). reflexivity.
  - replace (224 + x <=? 0x7f) with false by lia. replace ((0xc2 <=? 224 + x) && (224 + x <=? 0xdf)) with false by lia.
    replace ((0xe0 <=? 224 + x) && (224 + x <=? 0xef)) with true by lia.
    replace (cont (128 + y)) with true by (symmetry; apply cont_iff; lia). replace (cont (128 + z)) with true by (symmetry; apply cont_iff; lia).
    unfold scalar in Hs.
    replace (if 224 + x =? 0xe0 then 0xa0 <=? 128 + y else true) with true by (destruct (N.eqb_spec (224 + x) 0xe0); lia).
    replace (if 224 + x =? 0xed then 128 + y <=? 0x9f else true) with true by (destruct (N.eqb_spec (224 + x) 0xed); lia).
    reflexivity.
  - replace (240 + x <=? 0x7f) with false by lia. replace ((0xc2 <=? 240 + x) && (240 + x <=? 0xdf)) with false by lia.
    replace ((0xe0 <=? 240 + x) && (240 + x <=? 0xef)) with false by lia. replace ((0xf0 <=? 240 + x) && (240 + x <=? 0xf4)) with true by lia.
    replace (cont (128 + y)) with true by (symmetry; apply cont_iff; lia). replace (cont (128 + z)) with true by (symmetry; apply cont_iff; lia).
    replace (cont (128 + t)) with true by (symmetry; apply cont_iff; lia).
    replace (if 240 + x =? 0xf0 then 0x90 <=? 128 + y else true) with true by (destruct (N.eqb_spec (240 + x) 0xf0); lia).
    replace (if 240 + x =? 0xf4 then 128 + y <=? 0x8f else true) with true by (destruct (N.eqb_spec (240 + x) 0xf4); lia).
    reflexivity.
Qed.

Lemma text_cons c bs s : encodes c bs -> is_text s -> is_text (bs ++ s).
Proof. intros H (cs & U). exists (c :: cs). constructor; assumption. Qed.

Lemma second_of a b : cont b = true -> (a = 224 -> 160 <= b) -> (a = 237 -> b <= 159) -> (a = 240 -> 144 <= b) -> (a = 244 -> b <= 143) -> second a b = true.
Proof. intros C H1 H2 H3 H4. apply second_iff. apply cont_iff in C. auto. Qed.

Lemma utf8_is_text s : utf8 s = true <-> is_text s.
Proof.
  split.
  - remember (length s) as n eqn:E. assert (L : (length s <= n)%nat) by lia. clear E. revert s L.
    induction n as [|n IH]; intros [|a r] L H; try (exists []; constructor); [cbn in L; lia|]. cbn [length] in L.
    cbn [utf8] in H. destruct (a <=? 0x7f) eqn:E1.
    { apply (text_cons a [a]); [apply encodes_char; lia|apply IH; [lia|exact H]]. }
    destruct ((0xc2 <=? a) && (a <=? 0xdf)) eqn:E2.
    { destruct r as [|b r]; [discriminate|]. apply andb_prop in H as [C H]. apply cont_iff in C. cbn [length] in L.
      apply (text_cons _ [a; b] r (encodes_two a b ltac:(lia) C)). apply IH; [lia|exact H]. }
    destruct ((0xe0 <=? a) && (a <=? 0xef)) eqn:E3.
    { destruct r as [|b [|c r]]; [discriminate|discriminate|]. cbn [length] in L.
      apply andb_prop in H as [H T]. apply andb_prop in H as [H C]. apply andb_prop in H as [H B]. apply andb_prop in H as [H1 H2].
      apply cont_iff in C.
      assert (S : second a b = true).
      { apply second_of; [exact B|..]; intros ->; cbn in H1, H2; lia. }
      apply (text_cons _ [a; b; c] r (encodes_three a b c ltac:(lia) S C)). apply IH; [lia|exact T]. }
    destruct ((0xf0 <=? a) && (a <=? 0xf4)) eqn:E4; [|discriminate].
    destruct r as [|b [|c [|d r]]]; [discriminate|discriminate|discriminate|]. cbn [length] in L.
    apply andb_prop in H as [H T]. apply andb_prop in H as [H D]. apply andb_prop in H as [H C]. apply andb_prop in H as [H B]. apply andb_prop in H as [H1 H2].
    apply cont_iff in C. apply cont_iff in D.
    assert (S : second a b = true).
    { apply second_of; [exact B|..]; intros ->; cbn in H1, H2; lia. }
    apply (text_cons _ [a; b; c; d] r (encodes_four a b c d ltac:(lia) S C D)). apply IH; [lia|exact T].
  - intros (cs & U). induction U as [|c bs cs rest H _ IH]; [reflexivity|]. rewrite (utf8_char _ _ _ H). exact IH.
Qed.
