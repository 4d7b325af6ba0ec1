From Coq Require Import List NArith ZArith Bool Lia.
From Coq Require Import ZifyBool ZifyNat ZifyN.
From Verif Require Import Model.Base Model.Chunk Spec.Wire.
Import ListNotations.
Open Scope N_scope.

Ltac Zify.zify_post_hook ::= Z.to_euclidean_division_equations.

Lemma le32_bytes n : n < u32_mod ->
  exists a b c d, le32 n = [a; b; c; d] /\ a < 256 /\ b < 256 /\ c < 256 /\ d < 256 /\
                  n = a + 256 * b + 65536 * c + 16777216 * d.
Proof.
  intros H. unfold u32_mod in H. exists (n mod 256), ((n/256) mod 256), ((n/65536) mod 256), ((n/16777216) mod 256).
  unfold le32. repeat split; lia.
Qed.

Lemma of_le32_inj a b c d a' b' c' d' :
  a < 256 -> b < 256 -> c < 256 -> d < 256 ->
  a' < 256 -> b' < 256 -> c' < 256 -> d' < 256 ->
  of_le32 a b c d = of_le32 a' b' c' d' -> a = a' /\ b = b' /\ c = c' /\ d = d'.
Proof. unfold of_le32; intros. repeat split; lia. Qed.

Lemma le32_of_le32 a b c d :
  a < 256 -> b < 256 -> c < 256 -> d < 256 -> le32 (of_le32 a b c d) = [a; b; c; d].
Proof.
  intros. unfold le32, of_le32. repeat f_equal; lia.
Qed.

Lemma write_is_frame c : representable c -> exists bs, write_to c = Some bs /\ frame c bs.
Proof.
  destruct c as [k p]; unfold representable, write_to, len; cbn [c_kind c_buf].
  intros [Hex Hlen]. change (2^32) with u32_mod in Hlen.
  assert (Hmod : N.of_nat (length p) mod u32_mod = N.of_nat (length p)) by (apply N.mod_small; assumption).
  destruct (le32_bytes _ Hlen) as (a & b & c & d & Hle & Ha & Hb & Hc & Hd & Hn).
  destruct k.
  1,2,4: rewrite Hmod, Hle; eexists; split; [reflexivity|]; cbn [app];
         apply frame_sized; auto.
  rewrite (Hex eq_refl). eexists; split; [reflexivity|]. apply frame_exit. auto.
Qed.

Lemma read_exact_app p rest :
  read_exact (N.of_nat (length p)) (p ++ rest) = Some (p, rest).
Proof.
  unfold read_exact, len. rewrite app_length.
  destruct (N.leb_spec (N.of_nat (length p)) (N.of_nat (length p + length rest))) as [_|H]; [|lia].
  rewrite Nnat.Nat2N.id. rewrite firstn_app, skipn_app, Nat.sub_diag.
  rewrite firstn_all, skipn_all. cbn [firstn skipn app]. rewrite app_nil_r. reflexivity.
Qed.

Lemma read_frame cap c bs rest :
  frame c bs -> size c <= cap -> read_into cap (bs ++ rest) = Ok (c, rest).
Proof.
  intros Hf. destruct Hf as [p Hp|k tag p b0 b1 b2 b3 Hk H0 H1 H2 H3 Hl];
    unfold size; cbn [c_buf]; intros Hcap.
  - cbn [app read_into]. change (kind_of_code 2) with (Some ExitStatus). cbv iota.
    destruct (N.ltb_spec cap 4) as [H|_]; [lia|].
    replace 4 with (N.of_nat (length p)) by lia.
    rewrite read_exact_app. reflexivity.
  - cbn [app read_into].
    assert (Hread : (let n := of_le32 b0 b1 b2 b3 in
              if cap <? n then Err (TooBig n)
              else match read_exact n (p ++ rest) with
                   | None => Err EofInFrame
                   | Some (p, rest) => Ok (mkChunk k p, rest)
                   end) = Ok (mkChunk k p, rest)).
    { cbv zeta. unfold of_le32. rewrite <- Hl.
      destruct (N.ltb_spec cap (N.of_nat (length p))) as [H|_]; [lia|].
      rewrite read_exact_app. reflexivity. }
    destruct Hk as [[-> ->]|[[-> ->]|[-> ->]]];
      cbn [kind_of_code N.eqb Pos.eqb]; exact Hread.
Qed.

Lemma read_exact_inv n inp p rest :
  read_exact n inp = Some (p, rest) -> inp = p ++ rest /\ N.of_nat (length p) = n.
Proof.
  unfold read_exact, len.
  destruct (N.leb_spec n (N.of_nat (length inp))) as [H|_]; [|discriminate].
  intros E; injection E as <- <-. rewrite firstn_skipn, firstn_length. split; [reflexivity|lia].
Qed.

Lemma kind_of_code_inv v k :
  kind_of_code v = Some k -> v = kind_code k.
Proof.
  unfold kind_of_code.
  destruct (N.eqb_spec v 0); [intros [= <-]; assumption|].
  destruct (N.eqb_spec v 1); [intros [= <-]; assumption|].
  destruct (N.eqb_spec v 2); [intros [= <-]; assumption|].
  destruct (N.eqb_spec v 3); [intros [= <-]; assumption|discriminate].
Qed.

Lemma read_inv cap inp c rest :
  bytes_ok inp -> read_into cap inp = Ok (c, rest) ->
  exists bs, inp = bs ++ rest /\ frame c bs /\ size c <= cap.
Proof.
  intros Hb. destruct inp as [|v inp1]; [discriminate|]. cbn [read_into].
  destruct (kind_of_code v) as [k|] eqn:Ek; [|discriminate].
  apply kind_of_code_inv in Ek.
  inversion Hb as [|? ? Hv Hb1]; subst.
  assert (Hsized : forall k', k = k' -> k' <> ExitStatus ->
     match inp1 with
     | a :: b :: c :: d :: inp2 =>
        let n := of_le32 a b c d in
        if cap <? n then Err (TooBig n)
        else match read_exact n inp2 with
             | None => Err EofInFrame
             | Some (p, rest) => Ok (mkChunk k p, rest)
             end
     | _ => Err EofInFrame
     end = Ok (c, rest) ->
     exists bs, kind_code k :: inp1 = bs ++ rest /\ frame c bs /\ size c <= cap).
  { intros k' <- Hk. destruct inp1 as [|a [|b [|c' [|d inp2]]]]; try discriminate.
    cbv zeta. destruct (N.ltb_spec cap (of_le32 a b c' d)) as [_|Hc]; [discriminate|].
    destruct (read_exact (of_le32 a b c' d) inp2) as [[p r]|] eqn:Er; [|discriminate].
    intros E; injection E as <- <-.
    apply read_exact_inv in Er as [-> Hp].
    inversion Hb1 as [|? ? Ba Hb2]; subst. inversion Hb2 as [|? ? Bb Hb3]; subst.
    inversion Hb3 as [|? ? Bc Hb4]; subst. inversion Hb4 as [|? ? Bd Hb5]; subst.
    exists (kind_code k :: a :: b :: c' :: d :: p). split; [reflexivity|].
    split; [|unfold size; cbn [c_buf]; lia].
    apply frame_sized; auto.
    destruct k; cbn [kind_code]; try contradiction; auto. }
  destruct k; try (apply (Hsized _ eq_refl); discriminate).
  clear Hsized.
  destruct (N.ltb_spec cap 4) as [_|Hc]; [discriminate|].
  destruct (read_exact 4 inp1) as [[p r]|] eqn:Er; [|discriminate].
  intros E; injection E as <- <-. apply read_exact_inv in Er as [-> Hp].
  exists (2 :: p). split; [reflexivity|]. split; [apply frame_exit; lia|].
  unfold size; cbn [c_buf]; lia.
Qed.

Lemma frame_nonempty c bs : frame c bs -> (5 <= length bs)%nat.
Proof. intros []; cbn [length]; lia. Qed.

Lemma frame_fun c bs bs' : frame c bs -> frame c bs' -> bs = bs'.
Proof.
  intros H H'.
  destruct H as [p Hp|k tag p b0 b1 b2 b3 Hk H0 H1 H2 H3 Hl].
  - inversion H' as [p' Hp' Heq|k' tag' p' c0 c1 c2 c3 Hk' G0 G1 G2 G3 Gl Heq]; subst; [reflexivity|].
    destruct Hk' as [[? ?]|[[? ?]|[? ?]]]; discriminate.
  - inversion H' as [p' Hp' Heq|k' tag' p' c0 c1 c2 c3 Hk' G0 G1 G2 G3 Gl Heq]; subst.
    + destruct Hk as [[? ?]|[[? ?]|[? ?]]]; discriminate.
    + destruct (of_le32_inj b0 b1 b2 b3 c0 c1 c2 c3) as (-> & -> & -> & ->);
        unfold of_le32; try assumption; [congruence|].
      destruct Hk as [[-> ->]|[[-> ->]|[-> ->]]]; destruct Hk' as [[? ->]|[[? ->]|[? ->]]];
        try discriminate; reflexivity.
Qed.

Lemma frames_app cs1 bs1 cs2 bs2 :
  frames cs1 bs1 -> frames cs2 bs2 -> frames (cs1 ++ cs2) (bs1 ++ bs2).
Proof.
  induction 1; intros H2; cbn [app]; [assumption|].
  rewrite <- app_assoc. constructor; auto.
Qed.

Lemma read_into_consumes cap inp c rest :
  read_into cap inp = Ok (c, rest) -> (length rest < length inp)%nat.
Proof.
  intros E. destruct inp as [|v inp1]; [discriminate|]. cbn [read_into] in E.
  destruct (kind_of_code v) as [k|]; [|discriminate].
  assert (Hre : forall n l p r, read_exact n l = Some (p, r) -> (length r <= length l)%nat).
  { intros n l p r He. apply read_exact_inv in He as [-> _]. rewrite app_length. lia. }
  destruct k.
  3: { destruct (cap <? 4); [discriminate|].
       destruct (read_exact 4 inp1) as [[p r]|] eqn:Er; [|discriminate].
       injection E as <- <-. apply Hre in Er. cbn [length]. lia. }
  all: destruct inp1 as [|a [|b [|c' [|d inp2]]]]; try discriminate;
       cbv zeta in E; destruct (cap <? of_le32 a b c' d); [discriminate|];
       destruct (read_exact (of_le32 a b c' d) inp2) as [[p r]|] eqn:Er; [|discriminate];
       injection E as <- <-; apply Hre in Er; cbn [length]; lia.
Qed.

Lemma read_stream_fuel cap f g inp :
  (length inp < f)%nat -> (length inp < g)%nat -> read_stream f cap inp = read_stream g cap inp.
Proof.
  revert g inp; induction f as [|f IHf]; intros [|g] inp Hf Hg; try lia.
  cbn [read_stream]. destruct (read_into cap inp) as [[c rest]|e] eqn:E; [|reflexivity].
  apply read_into_consumes in E. rewrite (IHf g rest) by lia. reflexivity.
Qed.

Lemma read_all_step cap inp :
  read_all cap inp =
    match read_into cap inp with
    | Err e => Some ([], e)
    | Ok (c, rest) => match read_all cap rest with
                      | None => None
                      | Some (cs, e) => Some (c :: cs, e)
                      end
    end.
Proof.
  unfold read_all at 1. cbn [read_stream].
  destruct (read_into cap inp) as [[c rest]|e] eqn:E; [|reflexivity].
  apply read_into_consumes in E. unfold read_all.
  rewrite (read_stream_fuel cap (length inp) (S (length rest)) rest) by lia. reflexivity.
Qed.

Lemma read_all_total cap inp : read_all cap inp <> None.
Proof.
  remember (length inp) as n eqn:Hn. revert inp Hn.
  induction n as [n IH] using (well_founded_induction Wf_nat.lt_wf); intros inp Hn.
  rewrite read_all_step. destruct (read_into cap inp) as [[c rest]|e] eqn:E; [|discriminate].
  apply read_into_consumes in E.
  specialize (IH (length rest) ltac:(lia) rest eq_refl).
  destruct (read_all cap rest) as [[]|]; [discriminate|contradiction].
Qed.

Lemma read_all_app cap cs bs tail :
  frames cs bs -> Forall (fun c => size c <= cap) cs ->
  read_all cap (bs ++ tail) =
    match read_all cap tail with
    | None => None
    | Some (cs', e) => Some (cs ++ cs', e)
    end.
Proof.
  intros Hf; induction Hf as [|c b cs rest Hfr Hfs IH]; intros Hs.
  - cbn [app]. destruct (read_all cap tail) as [[]|]; reflexivity.
  - inversion Hs; subst. rewrite <- app_assoc, read_all_step.
    rewrite (read_frame cap c b (rest ++ tail)) by assumption.
    rewrite IH by assumption. destruct (read_all cap tail) as [[]|]; reflexivity.
Qed.

Lemma read_all_frames cap cs bs :
  frames cs bs -> Forall (fun c => size c <= cap) cs -> read_all cap bs = Some (cs, EofInFrame).
Proof.
  intros Hf Hs. rewrite <- (app_nil_r bs), (read_all_app cap cs bs []) by assumption.
  rewrite (read_all_step cap []). cbn. rewrite app_nil_r. reflexivity.
Qed.

(** A strict prefix of one frame is an end-of-stream error. *)
Lemma read_cut_frame cap c bs k :
  frame c bs -> size c <= cap -> (k < length bs)%nat ->
  read_into cap (firstn k bs) = Err EofInFrame.
Proof.
  intros Hf Hcap Hk. destruct k as [|k]; [reflexivity|].
  destruct Hf as [p Hp|kd tag p b0 b1 b2 b3 Hkd H0 H1 H2 H3 Hl];
    unfold size in Hcap; cbn [c_buf] in Hcap; cbn [length] in Hk; cbn [firstn read_into].
  - change (kind_of_code 2) with (Some ExitStatus). cbv iota.
    destruct (N.ltb_spec cap 4) as [H|_]; [lia|].
    unfold read_exact, len. rewrite firstn_length.
    destruct (N.leb_spec 4 (N.of_nat (Nat.min k (length p)))) as [H|_]; [lia|reflexivity].
  - assert (Hread : match firstn k (b0 :: b1 :: b2 :: b3 :: p) with
          | a :: b :: c :: d :: inp2 =>
              let n := of_le32 a b c d in
              if cap <? n then Err (TooBig n)
              else match read_exact n inp2 with
                   | None => Err EofInFrame
                   | Some (p, rest) => Ok (mkChunk kd p, rest)
                   end
          | _ => Err EofInFrame
          end = Err EofInFrame).
    { destruct k as [|[|[|[|k]]]]; try reflexivity. cbn [firstn]. cbv zeta.
      unfold of_le32. rewrite <- Hl.
      destruct (N.ltb_spec cap (N.of_nat (length p))) as [H|_]; [lia|].
      unfold read_exact, len. rewrite firstn_length.
      destruct (N.leb_spec (N.of_nat (length p)) (N.of_nat (Nat.min k (length p)))) as [H|_]; [lia|reflexivity]. }
    destruct Hkd as [[-> ->]|[[-> ->]|[-> ->]]];
      cbn [kind_of_code N.eqb Pos.eqb]; exact Hread.
Qed.

(** Cutting a stream of frames after [k] bytes: a prefix of the chunks, then end
    of stream. *)
Lemma read_cut cap cs bs k :
  frames cs bs -> Forall (fun c => size c <= cap) cs -> (k <= length bs)%nat ->
  exists n pre, (n <= length cs)%nat /\ frames (firstn n cs) pre /\ (length pre <= k)%nat /\
    (n = length cs \/ exists nxt b, nth_error cs n = Some nxt /\ frame nxt b /\ (k < length pre + length b)%nat) /\
    read_all cap (firstn k bs) = Some (firstn n cs, EofInFrame).
Proof.
  intros Hf; revert k; induction Hf as [|c b cs rest Hfr Hfs IH]; intros k Hs Hk.
  - exists O, []. cbn in Hk. replace k with O by lia. cbn. repeat split; auto; constructor.
  - inversion Hs; subst. destruct (Nat.lt_ge_cases k (length b)) as [Hlt|Hge].
    + exists O, []. cbn [firstn length]. repeat split; try lia; [constructor| |].
      * right. exists c, b. cbn [nth_error]. repeat split; auto.
      * rewrite read_all_step, firstn_app. replace (k - length b)%nat with O by lia.
        cbn [firstn]. rewrite app_nil_r. erewrite read_cut_frame by eassumption. reflexivity.
    + rewrite app_length in Hk.
      destruct (IH (k - length b)%nat) as (n & pre & Hn & Hpre & Hlen & Hnext & Hread); [assumption|lia|].
      exists (S n), (b ++ pre). cbn [firstn length nth_error]. rewrite app_length.
      split; [lia|]. split; [constructor; assumption|]. split; [lia|]. split.
      * destruct Hnext as [->|(nx & bb & E & F & G)]; [left; reflexivity|].
        right; exists nx, bb. repeat split; try assumption. lia.
      * rewrite firstn_app. rewrite (firstn_all2 b) by lia.
        rewrite read_all_step, (read_frame cap c b) by assumption.
        rewrite Hread. reflexivity.
Qed.

Lemma read_too_big cap k p inp :
  (k = Data \/ k = Heartbeat \/ k = MaybeSwitch) ->
  frame (mkChunk k p) inp -> cap < N.of_nat (length p) ->
  forall rest, read_into cap (inp ++ rest) = Err (TooBig (N.of_nat (length p))).
Proof.
  intros Hk Hf Hc rest. inversion Hf as [p' Hp|kd tag p' b0 b1 b2 b3 Hkd H0 H1 H2 H3 Hl]; subst.
  - destruct Hk as [?|[?|?]]; discriminate.
  - cbn [app read_into].
    destruct Hkd as [[-> ->]|[[-> ->]|[-> ->]]]; cbn [kind_of_code N.eqb Pos.eqb]; cbv zeta;
      unfold of_le32; rewrite <- Hl;
      (destruct (N.ltb_spec cap (N.of_nat (length p))) as [_|H]; [reflexivity|lia]).
Qed.

Lemma read_unknown cap v inp : 4 <= v -> read_into cap (v :: inp) = Err (UnknownKind v).
Proof.
  intros H. cbn [read_into]. unfold kind_of_code.
  destruct (N.eqb_spec v 0); [lia|]. destruct (N.eqb_spec v 1); [lia|].
  destruct (N.eqb_spec v 2); [lia|]. destruct (N.eqb_spec v 3); [lia|]. reflexivity.
Qed.

(** What happens beyond the 32 bit length: the prefix is truncated. *)
Lemma write_wraps k p :
  k <> ExitStatus -> N.of_nat (length p) = u32_mod ->
  write_to (mkChunk k p) = Some (kind_code k :: 0 :: 0 :: 0 :: 0 :: p).
Proof.
  intros Hk Hl. unfold write_to, len; cbn [c_kind c_buf]. rewrite Hl.
  destruct k; try contradiction; reflexivity.
Qed.

Lemma read_exact_none n inp : read_exact n inp = None <-> N.of_nat (length inp) < n.
Proof. unfold read_exact, len. destruct (N.leb_spec n (N.of_nat (length inp))); split; try discriminate; try lia; reflexivity. Qed.

Lemma read_errors cap inp e : read_into cap inp = Err e <-> bad_front cap inp e.
Proof.
  assert (S : forall tag k, sized_tag tag -> kind_of_code tag = Some k -> k <> ExitStatus -> forall inp1,
    read_into cap (tag :: inp1) = Err e <-> bad_front cap (tag :: inp1) e).
  { intros tag k Ht Hk Hx inp1. unfold read_into. rewrite Hk.
    replace (match k with ExitStatus => _ | _ => _ end) with
      (match inp1 with
       | a :: b :: c :: d :: inp2 =>
           let n := of_le32 a b c d in
           if cap <? n then Err (TooBig n)
           else match read_exact n inp2 with None => Err EofInFrame | Some (p, rest) => Ok (mkChunk k p, rest) end
       | _ => Err EofInFrame
       end) by (destruct k; try reflexivity; contradiction).
    assert (T : tag <> 2) by (destruct Ht as [->|[->| ->]]; discriminate).
    destruct inp1 as [|a [|b [|c [|d inp2]]]];
      try (split; [intros [= <-]; apply cut_prefix; [assumption|cbn; lia]
                  |intros H; inversion H; subst; try congruence; destruct Ht as [->|[->| ->]]; contradiction]).
    cbv zeta. destruct (N.ltb_spec cap (of_le32 a b c d)) as [C|C].
    - split; [intros [= <-]; apply big_sized; auto|].
      intros H; inversion H; subst; try congruence; try (destruct Ht as [->|[->| ->]]; contradiction); unfold of_le32 in *; try reflexivity; cbn [length] in *; try lia.
    - destruct (read_exact (of_le32 a b c d) inp2) as [[p r]|] eqn:E.
      + split; [discriminate|]. intros H. assert (L : ~ (N.of_nat (length inp2) < of_le32 a b c d)) by (intros L; apply read_exact_none in L; congruence).
        inversion H; subst; try congruence; try (destruct Ht as [->|[->| ->]]; contradiction); unfold of_le32 in *; cbn [length] in *; try lia.
      + apply read_exact_none in E. split.
        * intros [= <-]. eapply cut_data; eauto.
        * intros H; inversion H; subst; try congruence; try (destruct Ht as [->|[->| ->]]; contradiction); unfold of_le32 in *; cbn [length] in *; try lia. }
  destruct inp as [|v inp1].
  { split; [intros [= <-]; constructor|]. intros H. inversion H. reflexivity. }
  destruct (N.eq_dec v 0) as [->|H0]; [apply (S 0 Data); [left; reflexivity|reflexivity|discriminate]|].
  destruct (N.eq_dec v 1) as [->|H1]; [apply (S 1 Heartbeat); [right; left; reflexivity|reflexivity|discriminate]|].
  destruct (N.eq_dec v 3) as [->|H3]; [apply (S 3 MaybeSwitch); [right; right; reflexivity|reflexivity|discriminate]|].
  clear S. assert (T : ~ sized_tag v) by (intros [A|[A|A]]; contradiction).
  destruct (N.eq_dec v 2) as [->|H2].
  - cbn [read_into]. change (kind_of_code 2) with (Some ExitStatus). cbv iota. destruct (N.ltb_spec cap 4) as [C|C].
    + split; [intros [= <-]; apply big_exit; assumption|]. intros H; inversion H; subst; try reflexivity; try contradiction; lia.
    + destruct (read_exact 4 inp1) as [[p r]|] eqn:E.
      * split; [discriminate|]. intros H. assert (L : ~ (N.of_nat (length inp1) < 4)) by (intros L; apply read_exact_none in L; congruence).
        inversion H; subst; try contradiction; lia.
      * apply read_exact_none in E. split; [intros [= <-]; apply cut_exit; [assumption|lia]|]. intros H; inversion H; subst; try reflexivity; try contradiction; lia.
  - cbn [read_into]. unfold kind_of_code.
    destruct (N.eqb_spec v 0); [contradiction|]. destruct (N.eqb_spec v 1); [contradiction|].
    destruct (N.eqb_spec v 2); [contradiction|]. destruct (N.eqb_spec v 3); [contradiction|].
    split; [intros [= <-]; apply bad_tag; assumption|]. intros H; inversion H; subst; try contradiction. reflexivity.
Qed.
