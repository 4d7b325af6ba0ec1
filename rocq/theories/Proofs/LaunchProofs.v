From Coq Require Import List NArith Bool Lia.
From Verif Require Import Model.Base Model.Names Model.Launch Spec.PathSpec Spec.LaunchSpec Proofs.BaseLemmas Proofs.NamesProofs.
Import ListNotations.
Open Scope N_scope.

(** Hexadecimal numerals can be read back. *)
Definition unhex_char (c : N) : N := if c <? 58 then c - 48 else c - 87.
Definition unhex (s : rstr) (a : N) : N := fold_left (fun v c => 16 * v + unhex_char c) s a.

Lemma unhex_hex_char d : d < 16 -> unhex_char (hex_char d) = d.
Proof.
  intros H. unfold unhex_char, hex_char. destruct (N.ltb_spec d 10).
  - destruct (N.ltb_spec (48 + d) 58); lia.
  - destruct (N.ltb_spec (87 + d) 58); lia.
Qed.

Lemma unhex_go f : forall n acc, n < 16 ^ N.of_nat f -> unhex (hex_go f n acc) 0 = unhex acc n.
Proof.
  induction f as [|f IH]; intros n acc H.
  - cbn in H. assert (n = 0) by lia. subst. reflexivity.
  - cbn [hex_go].
    assert (M : n mod 16 < 16) by (apply N.mod_lt; lia).
    assert (D := N.div_mod n 16 ltac:(lia)).
    destruct (N.ltb_spec n 16) as [L|L].
    + cbn [unhex fold_left]. unfold unhex. cbn [fold_left]. rewrite unhex_hex_char by assumption.
      rewrite N.mod_small by assumption. reflexivity.
    + rewrite IH.
      * unfold unhex. cbn [fold_left]. rewrite unhex_hex_char by assumption. f_equal. lia.
      * apply N.div_lt_upper_bound; [lia|]. rewrite Nat2N.inj_succ, N.pow_succ_r in H by lia. assumption.
Qed.

Lemma hex_inj n m : n < 18446744073709551616 -> m < 18446744073709551616 -> hex n = hex m -> n = m.
Proof.
  intros Hn Hm E. assert (A := unhex_go 16 n [] Hn). assert (B := unhex_go 16 m [] Hm).
  unfold hex in E. rewrite E in A. rewrite A in B. exact B.
Qed.

Lemma hex_char_range d : d < 16 -> 48 <= hex_char d <= 57 \/ 97 <= hex_char d <= 102.
Proof. intros H. unfold hex_char. destruct (N.ltb_spec d 10); lia. Qed.

Lemma hex_go_chars f : forall n acc, Forall (fun c => 48 <= c <= 57 \/ 97 <= c <= 102) acc ->
  Forall (fun c => 48 <= c <= 57 \/ 97 <= c <= 102) (hex_go f n acc).
Proof.
  induction f as [|f IH]; intros n acc H; [assumption|]. cbn [hex_go].
  assert (G : Forall (fun c => 48 <= c <= 57 \/ 97 <= c <= 102) (hex_char (n mod 16) :: acc)).
  { constructor; [apply hex_char_range, N.mod_lt; lia|assumption]. }
  destruct (n <? 16); [assumption|]. apply IH. assumption.
Qed.

Lemma hex_go_nonempty f n c acc : hex_go f n (c :: acc) <> [].
Proof.
  revert n c acc. induction f as [|f IH]; intros n c acc; cbn [hex_go]; [discriminate|].
  destruct (n <? 16); [discriminate|apply IH].
Qed.

Lemma hex_entry n : ~ In 47 (hex n) /\ hex n <> [] /\ hex n <> [46] /\ hex n <> [46; 46] /\ hex n <> lit "sessions".
Proof.
  assert (C := hex_go_chars 16 n [] (Forall_nil _)). fold (hex n) in C.
  assert (NE : hex n <> []).
  { unfold hex. change (hex_go 16 n []) with (let a := [hex_char (n mod 16)] in if n <? 16 then a else hex_go 15 (n / 16) a).
    cbv zeta. destruct (n <? 16); [discriminate|apply hex_go_nonempty]. }
  split; [|split; [assumption|]].
  - intros I. rewrite Forall_forall in C. specialize (C 47 I). lia.
  - repeat split; intros E; rewrite E in C; cbn in C; repeat match goal with H : Forall _ (_ :: _) |- _ => inversion H; clear H; subst end; lia.
Qed.

Lemma dir_part_spec s : exists f, s = dir_part s ++ f /\ ~ In 47 f /\ (dir_part s = [] \/ exists d, dir_part s = d ++ [47]).
Proof.
  induction s as [|c s (f & E & Hf & Hd)]; [exists []; cbn; auto|].
  cbn [dir_part]. destruct (existsb (N.eqb 47) (c :: s)) eqn:X.
  - exists f. split; [cbn; rewrite <- E; reflexivity|]. split; [assumption|]. right.
    destruct Hd as [Hd|(d & Hd)].
    + rewrite Hd in *. cbn [app] in E. cbn [existsb] in X. apply orb_true_iff in X. destruct X as [X|X].
      * apply N.eqb_eq in X. subst c. exists []. reflexivity.
      * exfalso. assert (Y := proj2 (existsb_slash s)). rewrite Y in X; [discriminate|]. rewrite E. assumption.
    + rewrite Hd. exists (c :: d). reflexivity.
  - exists (c :: s). split; [reflexivity|]. split; [apply existsb_slash; assumption|]. left. reflexivity.
Qed.

Lemma dir_part_unique dir name : (dir = [] \/ exists d, dir = d ++ [47]) -> ~ In 47 name -> dir_part (dir ++ name) = dir.
Proof.
  intros Hd Hn. induction dir as [|c dir IH].
  - cbn [app]. destruct name as [|c n]; [reflexivity|]. cbn [dir_part].
    rewrite (proj2 (existsb_slash (c :: n)) Hn). reflexivity.
  - cbn [app dir_part]. assert (X : existsb (N.eqb 47) (c :: dir ++ name) = true).
    { apply existsb_exists. exists 47. split; [|reflexivity].
      destruct Hd as [Hd|(d & Hd)]; [discriminate|]. change (c :: dir ++ name) with ((c :: dir) ++ name). rewrite Hd.
      rewrite <- app_assoc. apply in_or_app. right. left. reflexivity. }
    rewrite X. f_equal. destruct dir as [|c' dir']; [|].
    + cbn [app]. destruct name as [|c' n]; [reflexivity|]. cbn [dir_part]. rewrite (proj2 (existsb_slash _) Hn). reflexivity.
    + apply IH. right. destruct Hd as [Hd|(d & Hd)]; [discriminate|]. destruct d as [|d0 d]; [discriminate|].
      injection Hd as -> Hd. exists d. exact Hd.
Qed.

(** A sibling of a file lies in the same directory. *)
Lemma components_with_file_name s n : ~ In 47 n -> n <> [] -> n <> [46] -> n <> [46; 46] ->
  components (with_file_name s n) = components (dir_part s) ++ [Entry n].
Proof.
  intros A B C D. rewrite <- components_join by assumption. f_equal. unfold with_file_name, path_join.
  destruct n as [|c n]; [congruence|]. assert (Hc : (c =? 47) = false) by (apply N.eqb_neq; intros ->; apply A; left; reflexivity).
  rewrite Hc. destruct (dir_part_spec s) as (f & _ & _ & [->|(d & ->)]); [reflexivity|].
  assert (L : last_is_slash (d ++ [47]) = true) by (apply last_is_slash_iff; exists d; reflexivity).
  destruct (d ++ [47]) eqn:E; [destruct d; discriminate|]. rewrite L. reflexivity.
Qed.

Lemma open_absolute p s : absolute s -> open_at p s = s.
Proof. intros (r & ->). reflexivity. Qed.

Lemma absolute_dir s : absolute s -> absolute (dir_part s).
Proof. intros (r & ->). exists (dir_part r). reflexivity. Qed.

Lemma absolute_with_file_name s n : absolute s -> absolute (with_file_name s n).
Proof. intros H. destruct (absolute_dir s H) as (r & E). unfold with_file_name. rewrite E. exists (r ++ n). reflexivity. Qed.

Lemma absolute_join d n : absolute d -> absolute (path_join d n).
Proof.
  intros (r & ->). unfold path_join. destruct n as [|c n].
  - destruct (last_is_slash (47 :: r)); [exists r; reflexivity|exists (r ++ [47]); reflexivity].
  - destruct (N.eqb_spec c 47) as [->|]; [exists n; reflexivity|].
    destruct (last_is_slash (47 :: r)); [exists (r ++ c :: n); reflexivity|exists (r ++ 47 :: c :: n); reflexivity].
Qed.
