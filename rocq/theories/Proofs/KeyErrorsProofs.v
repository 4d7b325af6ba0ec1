From Coq Require Import String List NArith Bool Lia.
From Verif Require Import Model.Base Model.Trie Model.Keybindings Spec.KeySpec Spec.KeyErrorsSpec Proofs.BaseLemmas Proofs.KeybindingProofs.
Import ListNotations.
Open Scope N_scope.

Lemma loop_errors tr : forall src toks w cur e, tok_loop tr src toks w cur = Err e ->
  e = Panic \/ e = TrieBug \/ exists c, e = UnexpectedChar c /\ In c (w ++ src) /\ char_token c = Err e.
Proof.
  assert (Hct : forall cs e, char_tokens cs = Err e -> exists c, e = UnexpectedChar c /\ In c cs /\ char_token c = Err e).
  { induction cs as [|c cs IH]; intros e; cbn [char_tokens]; [discriminate|].
    destruct (char_token c) as [t|e1] eqn:E1; cbn [bind].
    - destruct (char_tokens cs) as [ts|e2] eqn:E2; cbn [bind]; [discriminate|]. intros [= <-].
      destruct (IH e2 eq_refl) as (d & -> & I & T). exists d. split; [reflexivity|]. split; [right; exact I|exact T].
    - intros [= <-]. exists c. split; [|split; [left; reflexivity|exact E1]].
      revert E1. unfold char_token. repeat match goal with |- context [if ?b then _ else _] => destruct b end; try discriminate. congruence. }
  induction src as [|c src IH]; intros toks w cur e; cbn [tok_loop]; [discriminate|].
  assert (W : forall w' toks' cur', tok_loop tr src toks' w' cur' = Err e -> (forall x, In x w' -> In x (w ++ [c])) ->
     e = Panic \/ e = TrieBug \/ exists c0, e = UnexpectedChar c0 /\ In c0 (w ++ c :: src) /\ char_token c0 = Err e).
  { intros w' toks' cur' H S. destruct (IH _ _ _ _ H) as [->|[->|(d & -> & I & T)]]; [auto|auto|]. right; right. exists d. split; [reflexivity|]. split; [|exact T].
    replace (w ++ c :: src) with ((w ++ [c]) ++ src) by (rewrite <- app_assoc; reflexivity).
    apply in_app_or in I. apply in_or_app. destruct I as [I|I]; [left; apply S; exact I|right; exact I]. }
  destruct (is_whitespace c); [intros H; apply (W w toks cur H); intros x X; apply in_or_app; auto|].
  destruct (trie_advance hash_tab tr cur c) as [[|i p|]|]; [intros [= <-]; auto| | |intros [= <-]; auto].
  - destruct p; intros H; [apply (W _ _ _ H); auto|apply (W _ _ _ H); intros x []].
  - destruct (char_tokens (w ++ [c])) as [ts|e2] eqn:E; cbn [bind].
    + intros H. apply (W _ _ _ H). intros x [].
    + intros [= <-]. destruct (Hct _ _ E) as (d & -> & I & T). right; right. exists d. split; [reflexivity|]. split; [|exact T].
      apply in_app_or in I. apply in_or_app. destruct I as [I|[<-|[]]]; [left; exact I|right; left; reflexivity].
Qed.

Lemma parse_errors : forall ts chords keys saw e, parse_loop ts chords keys saw = Err e -> e = UnexpectedDash /\ In Dash ts.
Proof.
  induction ts as [|[k|] ts IH]; intros chords keys saw e; cbn [parse_loop]; [discriminate| |].
  - destruct saw; intros H; apply IH in H as [-> I]; (split; [reflexivity|right; exact I]).
  - destruct saw; [intros [= <-]; split; [reflexivity|left; reflexivity]|]. intros H; apply IH in H as [-> I]; (split; [reflexivity|right; exact I]).
Qed.

Lemma keys_ok src ts mcs : tokenize src = Ok ts -> parse_tokens ts = Ok mcs -> Forall (fun c => Forall (fun k => token_ok (Key k)) c) mcs.
Proof.
  intros Et Ep. apply tokenize_iff in Et as (Hok & _). apply parse_iff in Ep as (Hne & d & -> & _).
  apply Forall_forall. intros c Hc. apply Forall_forall. intros kk Hkk.
  rewrite Forall_forall in Hok. apply Hok. apply in_or_app; left.
  apply in_concat. exists (keys_tokens c). split; [apply in_map; assumption|]. apply keys_in_tokens; assumption.
Qed.

Lemma is_ctrl_iff k : is_ctrl k = true <-> k = lit "Ctrl".
Proof. apply str_eqb_eq. Qed.

Lemma chords_error : forall cs k e, compile_chords k cs = Err e -> e = TooManyChords \/ e = Panic \/ exists c, In c cs /\ key_code c = Err e.
Proof.
  induction cs as [|c cs IH]; intros k e; cbn [compile_chords]; [discriminate|].
  destruct (key_code c) as [b|e1] eqn:E; cbn [bind].
  - destruct (match atom_get c (k_tab k) with Some a => (a, k_counter k, k_tab k) | None => (k_counter k mod 256, k_counter k + 1, (c, k_counter k mod 256) :: k_tab k) end) as [[atom counter] tab].
    destruct (255 <=? counter); [intros [= <-]; auto|]. destruct (trie_insert vec_tab (k_chords k) [b] atom); [|intros [= <-]; auto].
    intros H. apply IH in H as [H|[H|(d & I & D)]]; [auto|auto|]. right; right. exists d. split; [right; exact I|exact D].
  - intros [= <-]. right; right. exists c. split; [left; reflexivity|exact E].
Qed.

Lemma keys_text c : toks_text (keys_tokens c) = join_with 45 c.
Proof.
  destruct c as [|k c]; [reflexivity|]. unfold toks_text. cbn [keys_tokens map token_text concat].
  revert k. induction c as [|k2 c IH]; intros k; [cbn; apply app_nil_r|].
  cbn [map concat app token_text]. rewrite IH. reflexivity.
Qed.

Lemma char_token_err c e : char_token c = Err e -> ~ sym_char c /\ c <> 45.
Proof.
  intros H. split.
  - intros Hs. apply sym_char_cases in Hs. revert H. unfold char_token.
    destruct (N.eqb_spec c 45); [discriminate|].
    destruct (N.eqb_spec c 92); [discriminate|]. destruct (N.eqb_spec c 91); [discriminate|].
    destruct (N.eqb_spec c 93); [discriminate|]. destruct (N.eqb_spec c 64); [discriminate|].
    destruct (N.eqb_spec c 94); [discriminate|]. destruct (N.eqb_spec c 95); [discriminate|].
    destruct (N.eqb_spec c 63); [discriminate|]. cbn [orb].
    destruct (N.leb_spec 48 c), (N.leb_spec c 57); cbn [andb]; try discriminate;
    destruct (N.leb_spec 97 c), (N.leb_spec c 122); cbn [andb]; try discriminate; lia.
  - intros ->. discriminate H.
Qed.

Lemma why_chord src c e : piece src c -> c <> [] -> Forall (fun k => token_ok (Key k)) c -> key_code c = Err e -> why src e.
Proof.
  intros Hp Hc Hk He. destruct (key_code_iff c 0 Hk) as [_ _].
  assert (Hkey : forallb is_key c = true).
  { apply forallb_forall. intros k I. rewrite Forall_forall in Hk. destruct (Hk k I) as [->|[->|(x & -> & Hx)]]; [reflexivity|reflexivity|].
    unfold is_key. replace (is_sym [x]) with true; [apply orb_true_r|]. symmetry. unfold is_sym.
    apply sym_char_cases in Hx. destruct (str_eqb [x] (lit "Space")); [reflexivity|].
    destruct (existsb (str_eqb [x]) _) eqn:E; [reflexivity|]. cbn [existsb str_eqb] in E.
    rewrite !andb_true_r, !orb_false_iff, !N.eqb_neq in E.
    rewrite andb_true_iff, !orb_true_iff, !andb_true_iff, N.ltb_lt, !N.leb_le. lia. }
  destruct (key_code c) as [b|e0] eqn:Ek; [discriminate|]. injection He as ->.
  assert (No : forall sc, c = chord_keys sc -> key_ok (chord_key sc) -> shpool_byte sc = None).
  { intros sc E Ho. destruct (shpool_byte sc) as [b|] eqn:B; [|reflexivity]. exfalso.
    assert (Q : key_code c = Ok b) by (apply key_code_iff; [exact Hk|]; exists sc; split; [exact E|split; [exact Ho|exact B]]).
    congruence. }
  unfold key_code, check_valid in Ek. rewrite Hkey in Ek. cbn [negb] in Ek.
  destruct c as [|k1 [|k2 [|k3 c]]]; cbn [bind] in Ek.
  - congruence.
  - destruct (is_ctrl k1) eqn:C1; cbn [bind] in Ek.
    + injection Ek as <-. apply is_ctrl_iff in C1 as ->. cbn [why]. split; [exact Hp|reflexivity].
    + exfalso. inversion Hk as [|? ? [->|[->|(x & -> & Hx)]] _]; subst; [discriminate| |].
      * discriminate (No (Plain SpaceBar) eq_refl I).
      * discriminate (No (Plain (Sym x)) eq_refl Hx).
  - destruct (is_ctrl k1) eqn:C1; cbn [negb bind] in Ek.
    2: { injection Ek as <-. cbn [why]. split; [exact Hp|]. exists k1, k2. split; [reflexivity|]. intros Q. apply is_ctrl_iff in Q. congruence. }
    apply is_ctrl_iff in C1 as ->.
    destruct (is_ctrl k2) eqn:C2; cbn [bind] in Ek.
    + injection Ek as <-. apply is_ctrl_iff in C2 as ->. cbn [why]. split; [exact Hp|reflexivity].
    + destruct (lookup _ control_codes); [discriminate|]. injection Ek as <-. cbn [why]. split; [exact Hp|].
      inversion Hk as [|? ? _ Hk2]; subst. inversion Hk2 as [|? ? [->|[->|(x & -> & Hx)]] _]; subst; [discriminate| |].
      * discriminate (No (Ctrl SpaceBar) eq_refl I).
      * exists x. split; [reflexivity|]. split; [exact Hx|]. apply (No (Ctrl (Sym x)) eq_refl Hx).
  - injection Ek as <-. cbn [why]. split; [exact Hp|]. cbn [length]. lia.
Qed.

Lemma chord_piece src ts mcs c : tokenize src = Ok ts -> parse_tokens ts = Ok mcs -> In c mcs -> piece src c /\ c <> [].
Proof.
  intros Et Ep Hc. apply tokenize_iff in Et as (_ & w & E & _). apply parse_iff in Ep as (Hne & d & -> & _).
  rewrite Forall_forall in Hne. split; [|apply Hne; exact Hc].
  apply in_split in Hc as (l1 & l2 & ->). unfold piece. rewrite E. unfold chords_tokens. rewrite map_app, concat_app, !toks_text_app.
  cbn [map concat]. rewrite toks_text_app, keys_text. rewrite <- !app_assoc. eexists _, _. reflexivity.
Qed.

Lemma dash_in src ts : tokenize src = Ok ts -> In Dash ts -> In 45 src.
Proof.
  intros Et Hd. apply tokenize_iff in Et as (_ & w & E & _).
  assert (Q : In 45 (no_blanks src)).
  { rewrite E. apply in_or_app. left. unfold toks_text. apply in_concat. exists (lit "-"). split; [|left; reflexivity].
    change (lit "-") with (token_text Dash). apply in_map. exact Hd. }
  apply filter_In in Q. apply Q.
Qed.

Theorem errors_say_why cfg e : bindings_new cfg = Err e -> exists src a, In (src, a) cfg /\ why src e.
Proof.
  intros H. destruct (new_errors cfg e H) as (N1 & N2 & N3).
  unfold bindings_new in H. destruct (compile_all _ cfg) as [k|e1] eqn:E; cbn [bind] in H; [discriminate|]. injection H as ->.
  revert E. generalize (mkCompiler (trie_new vec_tab) (trie_new vec_tab) 0 []).
  induction cfg as [|[src a] cfg IH]; intros k; cbn [compile_all]; [discriminate|].
  destruct (compile_one k src a) as [k1|e1] eqn:E1; cbn [bind].
  - intros H. destruct (IH _ H) as (s & b & I & W). exists s, b. split; [right; exact I|exact W].
  - intros [= ->]. exists src, a. split; [left; reflexivity|]. unfold compile_one in E1.
    destruct (tokenize src) as [ts|e2] eqn:Et; cbn [bind] in E1.
    2: { injection E1 as ->. unfold tokenize in Et. destruct words_trie; [|congruence].
         apply loop_errors in Et as [->|[->|(c & -> & I & T)]]; [congruence|congruence|].
         cbn [why]. split; [exact I|]. eapply char_token_err. exact T. }
    destruct (parse_tokens ts) as [mcs|e2] eqn:Ep; cbn [bind] in E1.
    2: { injection E1 as ->. apply parse_errors in Ep as [-> I]. cbn [why]. eapply dash_in; eassumption. }
    destruct (compile_chords k mcs) as [k1|e2] eqn:Ec; cbn [bind] in E1.
    2: { injection E1 as ->. apply chords_error in Ec as [->|[->|(c & I & D)]]; [congruence|congruence|].
         destruct (chord_piece _ _ _ _ Et Ep I) as [P Q]. assert (K := keys_ok _ _ _ Et Ep). rewrite Forall_forall in K.
         eapply why_chord; [exact P|exact Q|apply K; exact I|exact D]. }
    destruct (map_opt _ mcs); [|congruence]. destruct (trie_insert _ _ _ _); [discriminate|congruence].
Qed.
