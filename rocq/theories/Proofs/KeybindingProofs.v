From Coq Require Import List NArith Bool Lia Arith ZifyBool ZifyN ZifyNat.
From Verif Require Import Model.Base Model.Trie Model.Keybindings Spec.TrieSpec Spec.KeySpec
  Proofs.BaseLemmas Proofs.TrieProofs.
Import ListNotations.
Open Scope N_scope.

(** * Lexer *)

Definition tr0 : trie unit (list (N * nat)) :=
  match words_trie with Some t => t | None => [] end.

Lemma words_trie_tr0 : words_trie = Some tr0.
Proof. reflexivity. Qed.

Lemma tok_no_blanks src : forall toks w cur,
  tok_loop tr0 src toks w cur = tok_loop tr0 (no_blanks src) toks w cur.
Proof.
  unfold no_blanks. induction src as [|c src IH]; intros toks w cur; [reflexivity|].
  cbn [tok_loop filter]. destruct (is_whitespace c) eqn:E; cbn [negb].
  - apply IH.
  - cbn [tok_loop]. rewrite E. destruct (trie_advance hash_tab tr0 cur c) as [[|i p|]|]; try reflexivity.
    + destruct p; apply IH.
    + destruct (char_tokens (w ++ [c])); cbn [bind]; [apply IH|reflexivity].
Qed.

Definition visible (s : rstr) : Prop := Forall (fun c => is_whitespace c = false) s.

Lemma no_blanks_visible s : visible (no_blanks s).
Proof.
  apply Forall_forall. intros c H. apply filter_In in H as [_ H]. apply negb_true_iff; assumption.
Qed.

Definition adv (cur : cursor) (c : N) : option cursor := trie_advance hash_tab tr0 cur c.

Lemma adv_start c : adv Start c =
  if c =? 83 then Some (Match 5 true) else if c =? 67 then Some (Match 1 true) else Some NoMatch.
Proof. unfold adv. vm_compute. destruct c; [reflexivity|]. do 7 (try (destruct p as [p|p|]; try reflexivity)). Qed.

Ltac adv_tac := intros; unfold adv, tr0; cbn;
  repeat match goal with |- context [N.eqb ?a ?b] => destruct (N.eqb a b); cbn; try reflexivity end;
  try reflexivity.

Lemma adv_1 c p : adv (Match 1 p) c = if c =? 116 then Some (Match 2 true) else Some NoMatch.
Proof. adv_tac. Qed.
Lemma adv_2 c p : adv (Match 2 p) c = if c =? 114 then Some (Match 3 true) else Some NoMatch.
Proof. adv_tac. Qed.
Lemma adv_3 c p : adv (Match 3 p) c = if c =? 108 then Some (Match 4 false) else Some NoMatch.
Proof. adv_tac. Qed.
Lemma adv_5 c p : adv (Match 5 p) c = if c =? 112 then Some (Match 6 true) else Some NoMatch.
Proof. adv_tac. Qed.
Lemma adv_6 c p : adv (Match 6 p) c = if c =? 97 then Some (Match 7 true) else Some NoMatch.
Proof. adv_tac. Qed.
Lemma adv_7 c p : adv (Match 7 p) c = if c =? 99 then Some (Match 8 true) else Some NoMatch.
Proof. adv_tac. Qed.
Lemma adv_8 c p : adv (Match 8 p) c = if c =? 101 then Some (Match 9 false) else Some NoMatch.
Proof. adv_tac. Qed.

Lemma tok_step c s toks w cur : is_whitespace c = false ->
  tok_loop tr0 (c :: s) toks w cur =
    match adv cur c with
    | None => Err Panic
    | Some Start => Err TrieBug
    | Some NoMatch => bind (char_tokens (w ++ [c])) (fun ts => tok_loop tr0 s (toks ++ ts) [] Start)
    | Some (Match idx p) =>
        if p then tok_loop tr0 s toks (w ++ [c]) (Match idx p)
        else tok_loop tr0 s (toks ++ [Key (w ++ [c])]) [] Start
    end.
Proof. intros H. cbn [tok_loop]. rewrite H. reflexivity. Qed.

(** The tokens of the language and how they are written. *)
Definition token_text (t : token) : rstr := match t with Key k => k | Dash => lit "-" end.
Definition token_ok (t : token) : Prop :=
  match t with
  | Dash => True
  | Key k => k = lit "Ctrl" \/ k = lit "Space" \/ exists c, k = [c] /\ sym_char c
  end.
Definition toks_text (ts : list token) : rstr := concat (map token_text ts).

Lemma sym_char_cases c : sym_char c <->
  (97 <= c <= 122 \/ 48 <= c <= 57 \/ c = 92 \/ c = 91 \/ c = 93 \/ c = 64 \/ c = 94 \/ c = 95 \/ c = 63).
Proof.
  unfold sym_char. change (lit "\[]@^_?") with [92; 91; 93; 64; 94; 95; 63]. cbn [In].
  split; intros H; repeat destruct H as [H|H]; subst; tauto || lia.
Qed.

Lemma char_token_sym c : sym_char c -> char_token c = Ok (Key [c]).
Proof.
  intros H. apply sym_char_cases in H. unfold char_token.
  destruct (N.eqb_spec c 45); [lia|].
  destruct ((c =? 92) || (c =? 91) || (c =? 93) || (c =? 64) || (c =? 94) || (c =? 95) || (c =? 63)) eqn:E;
    [reflexivity|].
  destruct ((48 <=? c) && (c <=? 57)) eqn:E2; [reflexivity|].
  destruct ((97 <=? c) && (c <=? 122)) eqn:E3; [reflexivity|].
  lia.
Qed.

Lemma char_token_ok c t : char_token c = Ok t -> token_ok t /\ token_text t = [c] /\ t <> Key (lit "Ctrl").
Proof.
  unfold char_token.
  destruct (N.eqb_spec c 45) as [->|].
  { intros [= <-]. repeat split. discriminate. }
  assert (Hs : sym_char c -> Ok (Key [c]) = Ok (E := kb_error) t -> token_ok t /\ token_text t = [c] /\ t <> Key (lit "Ctrl")).
  { intros Hs [= <-]. repeat split; [right; right; exists c; split; [reflexivity|assumption]|discriminate]. }
  destruct ((c =? 92) || (c =? 91) || (c =? 93) || (c =? 64) || (c =? 94) || (c =? 95) || (c =? 63)) eqn:E.
  { apply Hs. apply sym_char_cases. lia. }
  destruct ((48 <=? c) && (c <=? 57)) eqn:E2.
  { apply Hs. apply sym_char_cases. lia. }
  destruct ((97 <=? c) && (c <=? 122)) eqn:E3.
  { apply Hs. apply sym_char_cases. lia. }
  discriminate.
Qed.

Lemma sym_visible c : sym_char c -> is_whitespace c = false.
Proof. intros H. apply sym_char_cases in H. unfold is_whitespace. lia. Qed.

(** Reading one token from the start state. *)
Lemma tok_token t s toks : token_ok t ->
  tok_loop tr0 (token_text t ++ s) toks [] Start = tok_loop tr0 s (toks ++ [t]) [] Start.
Proof.
  destruct t as [k|]; cbn [token_ok token_text].
  - intros [->|[->|(c & -> & Hc)]].
    + change (lit "Ctrl" ++ s) with (67 :: 116 :: 114 :: 108 :: s).
      rewrite tok_step, adv_start by reflexivity. cbn [N.eqb Pos.eqb].
      rewrite tok_step, adv_1 by reflexivity. cbn [N.eqb Pos.eqb].
      rewrite tok_step, adv_2 by reflexivity. cbn [N.eqb Pos.eqb].
      rewrite tok_step, adv_3 by reflexivity. reflexivity.
    + change (lit "Space" ++ s) with (83 :: 112 :: 97 :: 99 :: 101 :: s).
      rewrite tok_step, adv_start by reflexivity. cbn [N.eqb Pos.eqb].
      rewrite tok_step, adv_5 by reflexivity. cbn [N.eqb Pos.eqb].
      rewrite tok_step, adv_6 by reflexivity. cbn [N.eqb Pos.eqb].
      rewrite tok_step, adv_7 by reflexivity. cbn [N.eqb Pos.eqb].
      rewrite tok_step, adv_8 by reflexivity. reflexivity.
    + cbn [app]. rewrite tok_step, adv_start by (apply sym_visible; assumption).
      assert (Hc' := proj1 (sym_char_cases c) Hc).
      destruct (N.eqb_spec c 83); [lia|]. destruct (N.eqb_spec c 67); [lia|].
      cbn [app char_tokens]. rewrite char_token_sym by assumption. reflexivity.
  - intros _. change (lit "-" ++ s) with (45 :: s). rewrite tok_step, adv_start by reflexivity.
    reflexivity.
Qed.

Lemma cut_word_cases w : cut_word w <->
  In w [[]; lit "C"; lit "Ct"; lit "Ctr"; lit "S"; lit "Sp"; lit "Spa"; lit "Spac"].
Proof.
  split.
  - intros (rest & Hr & [H|H]).
    + change (lit "Ctrl") with [67;116;114;108] in H.
      do 4 (destruct w as [|? w]; [cbn [In]; tauto|injection H as -> H; try rewrite H];
            try (cbn in H)).
      all: try (destruct w; [|discriminate]).
      all: cbn [app] in *; subst; contradiction || (cbn; tauto).
    + change (lit "Space") with [83;112;97;99;101] in H.
      do 5 (destruct w as [|? w]; [cbn [In]; tauto|injection H as -> H]).
      destruct w; [cbn [app] in *; subst; contradiction|discriminate].
  - intros H. unfold cut_word.
    destruct H as [<-|[<-|[<-|[<-|[<-|[<-|[<-|[<-|[]]]]]]]]].
    + exists (lit "Ctrl"). split; [discriminate|left; reflexivity].
    + exists (lit "trl"). split; [discriminate|left; reflexivity].
    + exists (lit "rl"). split; [discriminate|left; reflexivity].
    + exists (lit "l"). split; [discriminate|left; reflexivity].
    + exists (lit "pace"). split; [discriminate|right; reflexivity].
    + exists (lit "ace"). split; [discriminate|right; reflexivity].
    + exists (lit "ce"). split; [discriminate|right; reflexivity].
    + exists (lit "e"). split; [discriminate|right; reflexivity].
Qed.

Lemma tok_cut w toks : cut_word w -> tok_loop tr0 w toks [] Start = Ok toks.
Proof.
  intros H. apply cut_word_cases in H.
  destruct H as [<-|[<-|[<-|[<-|[<-|[<-|[<-|[<-|[]]]]]]]]]; reflexivity.
Qed.

Lemma tok_complete ts w : Forall token_ok ts -> cut_word w ->
  forall toks, tok_loop tr0 (toks_text ts ++ w) toks [] Start = Ok (toks ++ ts).
Proof.
  intros Hts Hw. induction Hts as [|t ts Ht Hts IH]; intros toks.
  - cbn [toks_text map concat app]. rewrite app_nil_r. apply tok_cut; assumption.
  - unfold toks_text. cbn [map concat]. rewrite <- app_assoc, tok_token by assumption.
    unfold toks_text in IH. rewrite IH, <- app_assoc. reflexivity.
Qed.

(** Anything else fails. *)
Lemma bad_word c w d : c = 67 \/ c = 83 -> char_tokens (c :: w ++ [d]) = Err (UnexpectedChar c).
Proof. intros [-> | ->]; reflexivity. Qed.

Lemma tok_sound n : forall s toks ts, (length s <= n)%nat -> visible s ->
  tok_loop tr0 s toks [] Start = Ok ts ->
  exists ts' w, ts = toks ++ ts' /\ s = toks_text ts' ++ w /\ Forall token_ok ts' /\ cut_word w.
Proof.
  induction n as [|n IH]; intros s toks ts Hn Hv H.
  { destruct s; [|cbn in Hn; lia]. injection H as <-. exists [], []. rewrite app_nil_r.
    repeat split; [constructor|apply cut_word_cases; left; reflexivity]. }
  assert (Hcut : forall w, s = w -> In w [[]; lit "C"; lit "Ct"; lit "Ctr"; lit "S"; lit "Sp"; lit "Spa"; lit "Spac"] ->
      Ok toks = Ok (E := kb_error) ts ->
      exists ts' w, ts = toks ++ ts' /\ s = toks_text ts' ++ w /\ Forall token_ok ts' /\ cut_word w).
  { intros w Hw Hin [= <-]. exists [], w. rewrite app_nil_r.
    repeat split; [assumption|constructor|apply cut_word_cases; assumption]. }
  assert (Hgo : forall t s1, token_ok t -> s = token_text t ++ s1 -> (length s1 <= n)%nat ->
      exists ts' w, ts = toks ++ ts' /\ s = toks_text ts' ++ w /\ Forall token_ok ts' /\ cut_word w).
  { intros t s1 Ht -> Hl. rewrite tok_token in H by assumption.
    apply Forall_app in Hv as [_ Hv1].
    destruct (IH s1 (toks ++ [t]) ts Hl Hv1 H) as (ts' & w & -> & -> & Hok & Hc).
    exists (t :: ts'), w. rewrite <- app_assoc. split; [reflexivity|]. split.
    - unfold toks_text. cbn [map concat]. rewrite <- app_assoc. reflexivity.
    - split; [constructor; assumption|assumption]. }
  destruct s as [|c s]; [apply (Hcut []); [reflexivity|cbn; tauto|exact H]|].
  inversion Hv as [|? ? Hc Hv']; subst. cbn [length] in Hn.
  rewrite tok_step, adv_start in H by assumption. cbn [app] in H.
  destruct (N.eqb_spec c 83) as [->|HnS]; [|destruct (N.eqb_spec c 67) as [->|HnC]].
  - destruct s as [|c1 s]; [apply (Hcut (lit "S")); [reflexivity|cbn; tauto|exact H]|].
    inversion Hv' as [|? ? Hc1 Hv1]; subst. cbn [length] in Hn.
    rewrite tok_step, adv_5 in H by assumption. cbn [app] in H.
    destruct (N.eqb_spec c1 112) as [->|]; [|cbn [char_tokens char_token] in H; discriminate].
    destruct s as [|c2 s]; [apply (Hcut (lit "Sp")); [reflexivity|cbn; tauto|exact H]|].
    inversion Hv1 as [|? ? Hc2 Hv2]; subst. cbn [length] in Hn.
    rewrite tok_step, adv_6 in H by assumption. cbn [app] in H.
    destruct (N.eqb_spec c2 97) as [->|]; [|cbn [char_tokens char_token] in H; discriminate].
    destruct s as [|c3 s]; [apply (Hcut (lit "Spa")); [reflexivity|cbn; tauto|exact H]|].
    inversion Hv2 as [|? ? Hc3 Hv3]; subst. cbn [length] in Hn.
    rewrite tok_step, adv_7 in H by assumption. cbn [app] in H.
    destruct (N.eqb_spec c3 99) as [->|]; [|cbn [char_tokens char_token] in H; discriminate].
    destruct s as [|c4 s]; [apply (Hcut (lit "Spac")); [reflexivity|cbn; tauto|exact H]|].
    inversion Hv3 as [|? ? Hc4 Hv4]; subst. cbn [length] in Hn.
    rewrite tok_step, adv_8 in H by assumption. cbn [app] in H.
    destruct (N.eqb_spec c4 101) as [->|]; [|cbn [char_tokens char_token] in H; discriminate].
    apply (Hgo (Key (lit "Space")) s); [right; left; reflexivity|reflexivity|lia].
  - destruct s as [|c1 s]; [apply (Hcut (lit "C")); [reflexivity|cbn; tauto|exact H]|].
    inversion Hv' as [|? ? Hc1 Hv1]; subst. cbn [length] in Hn.
    rewrite tok_step, adv_1 in H by assumption. cbn [app] in H.
    destruct (N.eqb_spec c1 116) as [->|]; [|cbn [char_tokens char_token] in H; discriminate].
    destruct s as [|c2 s]; [apply (Hcut (lit "Ct")); [reflexivity|cbn; tauto|exact H]|].
    inversion Hv1 as [|? ? Hc2 Hv2]; subst. cbn [length] in Hn.
    rewrite tok_step, adv_2 in H by assumption. cbn [app] in H.
    destruct (N.eqb_spec c2 114) as [->|]; [|cbn [char_tokens char_token] in H; discriminate].
    destruct s as [|c3 s]; [apply (Hcut (lit "Ctr")); [reflexivity|cbn; tauto|exact H]|].
    inversion Hv2 as [|? ? Hc3 Hv3]; subst. cbn [length] in Hn.
    rewrite tok_step, adv_3 in H by assumption. cbn [app] in H.
    destruct (N.eqb_spec c3 108) as [->|]; [|cbn [char_tokens char_token] in H; discriminate].
    apply (Hgo (Key (lit "Ctrl")) s); [left; reflexivity|reflexivity|lia].
  - cbn [char_tokens] in H. destruct (char_token c) as [t|e] eqn:Et; cbn [bind] in H; [|discriminate].
    destruct (char_token_ok c t Et) as (Ht & Htx & _).
    apply (Hgo t s); [assumption|rewrite Htx; reflexivity|lia].
Qed.

(** The lexer, completely. *)
Lemma tokenize_iff src ts : tokenize src = Ok ts <->
  Forall token_ok ts /\ exists w, no_blanks src = toks_text ts ++ w /\ cut_word w.
Proof.
  unfold tokenize. rewrite words_trie_tr0, tok_no_blanks. split.
  - intros H. destruct (tok_sound _ _ [] ts (le_n _) (no_blanks_visible src) H) as (ts' & w & -> & E & Ho & Hw).
    split; [assumption|]. exists w. split; assumption.
  - intros (Ho & w & -> & Hw). apply (tok_complete ts w Ho Hw []).
Qed.

(** * Parser *)
Definition keys_tokens (ks : mchord) : list token :=
  match ks with
  | [] => []
  | k :: ks' => Key k :: concat (map (fun k => [Dash; Key k]) ks')
  end.

Lemma keys_tokens_snoc ks k : ks <> [] -> keys_tokens (ks ++ [k]) = keys_tokens ks ++ [Dash; Key k].
Proof.
  destruct ks as [|k0 ks]; [contradiction|]. intros _. cbn [app keys_tokens].
  rewrite map_app, concat_app. reflexivity.
Qed.

Definition chords_tokens (cs : list mchord) : list token := concat (map keys_tokens cs).

Lemma chords_tokens_snoc cs c : chords_tokens (cs ++ [c]) = chords_tokens cs ++ keys_tokens c.
Proof. unfold chords_tokens. rewrite map_app, concat_app. cbn [map concat]. rewrite app_nil_r. reflexivity. Qed.

Definition dash_if (b : bool) : list token := if b then [Dash] else [].

Lemma parse_sound ts : forall chords keys saw res,
  keys <> [] -> Forall (fun c => c <> []) chords -> parse_loop ts chords keys saw = Ok res ->
  Forall (fun c => c <> []) res /\ res <> [] /\
  exists d, chords_tokens chords ++ keys_tokens keys ++ dash_if saw ++ ts = chords_tokens res ++ dash_if d.
Proof.
  induction ts as [|[k|] ts IH]; intros chords keys saw res Hk Hc H; cbn [parse_loop] in H.
  - destruct keys as [|k0 ks]; [contradiction|]. injection H as <-. split; [|split].
    + apply Forall_app. split; [assumption|]. constructor; [assumption|constructor].
    + destruct chords; discriminate.
    + exists saw. rewrite chords_tokens_snoc, app_nil_r, app_assoc. reflexivity.
  - destruct saw.
    + destruct (IH chords (keys ++ [k]) false res) as (H1 & H2 & d & H3); try assumption.
      { destruct keys; discriminate. }
      split; [assumption|]. split; [assumption|]. exists d. rewrite <- H3, keys_tokens_snoc by assumption.
      cbn [dash_if app]. rewrite <- !app_assoc. reflexivity.
    + destruct (IH (chords ++ [keys]) [k] false res) as (H1 & H2 & d & H3); try assumption.
      { discriminate. }
      { apply Forall_app. split; [assumption|]. constructor; [assumption|constructor]. }
      split; [assumption|]. split; [assumption|]. exists d. rewrite <- H3, chords_tokens_snoc.
      cbn [dash_if app]. rewrite <- !app_assoc. reflexivity.
  - destruct saw; [discriminate|].
    destruct (IH chords keys true res) as (H1 & H2 & d & H3); try assumption.
    split; [assumption|]. split; [assumption|]. exists d. rewrite <- H3. reflexivity.
Qed.

Lemma parse_more_keys ks : forall chords keys rest,
  parse_loop (concat (map (fun k => [Dash; Key k]) ks) ++ rest) chords keys false =
  parse_loop rest chords (keys ++ ks) false.
Proof.
  induction ks as [|k ks IH]; intros chords keys rest; cbn [map concat app].
  - rewrite app_nil_r. reflexivity.
  - cbn [parse_loop]. rewrite IH, <- app_assoc. reflexivity.
Qed.

Lemma parse_complete cs : forall chords keys d, keys <> [] -> Forall (fun c => c <> []) cs ->
  parse_loop (chords_tokens cs ++ dash_if d) chords keys false = Ok (chords ++ keys :: cs).
Proof.
  induction cs as [|c cs IH]; intros chords keys d Hk Hc.
  - cbn [chords_tokens map concat app]. destruct d, keys; try contradiction; reflexivity.
  - inversion Hc as [|? ? Hc1 Hc2]; subst. destruct c as [|k ks]; [contradiction|].
    unfold chords_tokens. cbn [map concat keys_tokens]. rewrite <- app_assoc. cbn [app parse_loop].
    rewrite parse_more_keys. fold (chords_tokens cs). cbn [app].
    rewrite IH; [|discriminate|assumption]. rewrite <- app_assoc. reflexivity.
Qed.

Lemma parse_iff ts cs : parse_tokens ts = Ok cs <->
  Forall (fun c => c <> []) cs /\ exists d, ts = chords_tokens cs ++ dash_if d /\ (d = true -> cs <> []).
Proof.
  unfold parse_tokens. split.
  - intros H. destruct ts as [|[k|] ts].
    + injection H as <-. split; [constructor|]. exists false. split; [reflexivity|discriminate].
    + cbn [parse_loop app] in H.
      destruct (parse_sound ts [] [k] false cs) as (H1 & H2 & d & H3); try assumption;
        [discriminate|constructor|].
      split; [assumption|]. exists d. split; [exact H3|auto].
    + discriminate.
  - intros (Hne & d & -> & Hd). destruct cs as [|c cs].
    + destruct d; [exfalso; apply Hd; reflexivity|]. reflexivity.
    + inversion Hne as [|? ? Hc1 Hc2]; subst. destruct c as [|k ks]; [contradiction|].
      unfold chords_tokens. cbn [map concat keys_tokens]. rewrite <- app_assoc. cbn [app parse_loop].
      rewrite parse_more_keys. fold (chords_tokens cs). cbn [app].
      rewrite parse_complete; [reflexivity|discriminate|assumption].
Qed.

(** * Chords *)
Definition chord_keys (c : chord) : mchord :=
  match c with Plain k => [key_name k] | Ctrl k => [lit "Ctrl"; key_name k] end.

Definition good (c : chord) : Prop := key_ok (chord_key c) /\ shpool_byte c <> None.

Definition all_syms : list N := Eval vm_compute in
  filter (fun c => match char_token c with Ok (Key _) => true | _ => false end) (map N.of_nat (seq 0 128)).

Lemma all_syms_eq : all_syms =
  filter (fun c => match char_token c with Ok (Key _) => true | _ => false end) (map N.of_nat (seq 0 128)).
Proof. vm_compute. reflexivity. Qed.

Lemma in_all_syms x : sym_char x -> In x all_syms.
Proof.
  intros H. rewrite all_syms_eq. apply filter_In. split.
  - apply in_map_iff. exists (N.to_nat x). rewrite N2Nat.id. split; [reflexivity|].
    apply in_seq. apply sym_char_cases in H. lia.
  - rewrite char_token_sym by assumption. reflexivity.
Qed.

Definition opt_of {A E} (r : result A E) : option A := match r with Ok a => Some a | Err _ => None end.

Definition opt_eqb (a b : option N) : bool :=
  match a, b with Some x, Some y => x =? y | None, None => true | _, _ => false end.

Lemma opt_eqb_eq a b : opt_eqb a b = true -> a = b.
Proof. destruct a, b; cbn; intros H; try discriminate; [apply N.eqb_eq in H; congruence|reflexivity]. Qed.

Lemma sym_table x : sym_char x ->
  opt_of (key_code [[x]]) = Some x /\
  opt_of (key_code [lit "Ctrl"; [x]]) = shpool_byte (Ctrl (Sym x)).
Proof.
  intros H. apply in_all_syms in H.
  assert (H1 : forallb (fun x => opt_eqb (opt_of (key_code [[x]])) (Some x)) all_syms = true)
    by (vm_compute; reflexivity).
  assert (H2 : forallb (fun x => opt_eqb (opt_of (key_code [lit "Ctrl"; [x]])) (shpool_byte (Ctrl (Sym x)))) all_syms = true)
    by (vm_compute; reflexivity).
  rewrite forallb_forall in H1, H2. split; apply opt_eqb_eq; [apply H1|apply H2]; assumption.
Qed.

Lemma opt_of_ok {A E} (r : result A E) a : opt_of r = Some a <-> r = Ok a.
Proof. destruct r; cbn; split; congruence. Qed.

Lemma key_code_good c : key_ok (chord_key c) -> opt_of (key_code (chord_keys c)) = shpool_byte c.
Proof.
  destruct c as [[|x]|[|x]]; cbn [chord_key key_ok chord_keys key_name]; intros H; try reflexivity.
  - apply (sym_table x H).
  - apply (sym_table x H).
Qed.

Lemma forallb_false {A} (f : A -> bool) l : forallb f l = false \/ forallb f l = true.
Proof. destruct (forallb f l); auto. Qed.

Lemma is_key_ok k : token_ok (Key k) -> is_key k = true.
Proof.
  intros [->|[->|(c & -> & Hc)]]; try reflexivity.
  assert (H : forallb (fun x => is_key [x]) all_syms = true) by (vm_compute; reflexivity).
  rewrite forallb_forall in H. apply H, in_all_syms, Hc.
Qed.

Lemma key_code_iff c b : Forall (fun k => token_ok (Key k)) c ->
  (key_code c = Ok b <-> exists sc, c = chord_keys sc /\ key_ok (chord_key sc) /\ shpool_byte sc = Some b).
Proof.
  intros Hk. split.
  2: { intros (sc & -> & Ho & Hb). apply opt_of_ok. rewrite key_code_good; assumption. }
  intros H. assert (Hv : check_valid c = Ok tt).
  { unfold key_code in H. destruct (check_valid c) as [[]|]; [reflexivity|discriminate]. }
  unfold check_valid in Hv.
  destruct (negb (forallb is_key c)); [discriminate|].
  assert (Hname : forall k, token_ok (Key k) -> is_ctrl k = false -> exists sk, k = key_name sk /\ key_ok sk).
  { intros k [->|[->|(x & -> & Hx)]] Hc; [discriminate| |].
    - exists SpaceBar. split; [reflexivity|exact I].
    - exists (Sym x). split; [reflexivity|assumption]. }
  destruct c as [|k1 [|k2 [|k3 c]]]; try discriminate.
  - inversion Hk as [|? ? Hk1 _]; subst. destruct (is_ctrl k1) eqn:Ec; [discriminate|].
    destruct (Hname k1 Hk1 Ec) as (sk & -> & Hs). exists (Plain sk). split; [reflexivity|].
    split; [assumption|]. rewrite <- key_code_good by assumption. apply opt_of_ok. assumption.
  - inversion Hk as [|? ? Hk1 Hk']; subst. inversion Hk' as [|? ? Hk2 _]; subst.
    destruct (is_ctrl k1) eqn:Ec; [|discriminate]. cbn [negb] in Hv.
    destruct (is_ctrl k2) eqn:Ec2; [discriminate|].
    apply str_eqb_eq in Ec. subst k1.
    destruct (Hname k2 Hk2 Ec2) as (sk & -> & Hs). exists (Ctrl sk). split; [reflexivity|].
    split; [assumption|]. rewrite <- key_code_good by assumption. apply opt_of_ok. assumption.
Qed.

Lemma chord_keys_inj a b : chord_keys a = chord_keys b -> a = b.
Proof.
  destruct a as [[|x]|[|x]], b as [[|y]|[|y]]; cbn; intros H; try discriminate; try reflexivity;
    injection H as ->; reflexivity.
Qed.

(** * From source text to chords *)
Lemma toks_text_app a b : toks_text (a ++ b) = toks_text a ++ toks_text b.
Proof. unfold toks_text. rewrite map_app, concat_app. reflexivity. Qed.

Lemma chords_text cs : toks_text (chords_tokens (map chord_keys cs)) = squeezed cs.
Proof.
  induction cs as [|c cs IH]; [reflexivity|].
  unfold chords_tokens, squeezed in *. cbn [map concat]. rewrite toks_text_app, IH. f_equal.
  destruct c as [k|k]; unfold toks_text; cbn [chord_keys keys_tokens map concat app token_text chord_text];
    rewrite ?app_nil_r; [reflexivity|]. reflexivity.
Qed.

Lemma keys_in_tokens ks k : In k ks -> In (Key k) (keys_tokens ks).
Proof.
  destruct ks as [|k0 ks]; [intros []|]. intros [->|H]; [left; reflexivity|]. right.
  apply in_concat. exists [Dash; Key k]. split; [|right; left; reflexivity].
  apply in_map_iff. exists k. split; [reflexivity|assumption].
Qed.

Lemma keys_tokens_in ks t : In t (keys_tokens ks) -> t = Dash \/ exists k, In k ks /\ t = Key k.
Proof.
  destruct ks as [|k0 ks]; [intros []|]. intros [<-|H]; [right; exists k0; split; [left|]; reflexivity|].
  apply in_concat in H as (x & Hx & Ht). apply in_map_iff in Hx as (k & <- & Hk).
  destruct Ht as [<-|[<-|[]]]; [left; reflexivity|right; exists k; split; [right; assumption|reflexivity]].
Qed.

Lemma chord_keys_tokens_ok c : key_ok (chord_key c) -> Forall (fun k => token_ok (Key k)) (chord_keys c).
Proof.
  intros H.
  assert (Hn : token_ok (Key (key_name (chord_key c)))).
  { destruct (chord_key c) as [|x]; [right; left; reflexivity|right; right; exists x; split; [reflexivity|assumption]]. }
  destruct c; cbn [chord_keys chord_key] in *.
  - constructor; [exact Hn|constructor].
  - constructor; [left; reflexivity|constructor; [exact Hn|constructor]].
Qed.

Lemma front_iff src mcs :
  ((exists ts, tokenize src = Ok ts /\ parse_tokens ts = Ok mcs) /\ Forall (fun c => exists b, key_code c = Ok b) mcs)
  <-> exists cs, mcs = map chord_keys cs /\ reads src cs.
Proof.
  split.
  - intros ((ts & Ht & Hp) & Hcodes).
    apply tokenize_iff in Ht as (Hok & w & Hs & Hw).
    apply parse_iff in Hp as (Hne & d & -> & Hd).
    assert (Hkeys : Forall (fun c => Forall (fun k => token_ok (Key k)) c) mcs).
    { apply Forall_forall. intros c Hc. apply Forall_forall. intros k Hk.
      rewrite Forall_forall in Hok. apply Hok. apply in_or_app; left.
      apply in_concat. exists (keys_tokens c). split; [apply in_map; assumption|].
      apply keys_in_tokens; assumption. }
    assert (Hcs : exists cs, mcs = map chord_keys cs /\
              Forall (fun c => key_ok (chord_key c) /\ shpool_byte c <> None) cs).
    { clear - Hcodes Hkeys. induction mcs as [|c mcs IH].
      - exists []. split; [reflexivity|constructor].
      - inversion Hcodes as [|? ? [b Hb] Hc2]; subst. inversion Hkeys as [|? ? Hk1 Hk2]; subst.
        destruct (IH Hc2 Hk2) as (cs & -> & Hg).
        apply key_code_iff in Hb as (sc & -> & Ho & Hb); [|assumption].
        exists (sc :: cs). split; [reflexivity|]. constructor; [|assumption].
        split; [assumption|congruence]. }
    destruct Hcs as (cs & -> & Hg). exists cs. split; [reflexivity|]. split; [assumption|].
    exists (toks_text (dash_if d)), w. rewrite Hs, toks_text_app, chords_text, <- app_assoc.
    split; [reflexivity|]. split; [assumption|].
    destruct d; [right|left; reflexivity]. split; [reflexivity|].
    intros ->. apply Hd; reflexivity.
  - intros (cs & -> & Hg & dash & w & Hs & Hw & Hdash).
    set (d := match dash with [] => false | _ => true end).
    assert (Hd : toks_text (dash_if d) = dash).
    { destruct Hdash as [->|[-> _]]; reflexivity. }
    split; [exists (chords_tokens (map chord_keys cs) ++ dash_if d); split|].
    + apply tokenize_iff. split.
      * apply Forall_app. split; [|destruct d; repeat constructor].
        apply Forall_forall. intros t Ht. apply in_concat in Ht as (x & Hx & Ht).
        apply in_map_iff in Hx as (mc & <- & Hmc). apply in_map_iff in Hmc as (c & <- & Hc).
        apply keys_tokens_in in Ht as [->|(k & Hk & ->)]; [exact I|].
        rewrite Forall_forall in Hg. destruct (Hg c Hc) as [Ho _].
        apply chord_keys_tokens_ok in Ho. rewrite Forall_forall in Ho. apply Ho; assumption.
      * exists w. rewrite toks_text_app, chords_text, Hd, <- app_assoc. split; assumption.
    + apply parse_iff. split.
      * apply Forall_forall. intros mc Hmc. apply in_map_iff in Hmc as (c & <- & _). destruct c; discriminate.
      * exists d. split; [reflexivity|]. intros Hdt.
        destruct Hdash as [->|[-> Hcs]]; [discriminate|]. destruct cs; [contradiction|discriminate].
    + apply Forall_forall. intros mc Hmc. apply in_map_iff in Hmc as (c & <- & Hc).
      rewrite Forall_forall in Hg. destruct (Hg c Hc) as [Ho Hb].
      destruct (shpool_byte c) as [b|] eqn:Eb; [|contradiction]. exists b.
      apply opt_of_ok. rewrite key_code_good; assumption.
Qed.

(** * Compilation *)
Lemma chord_eqb_eq a b : chord_eqb a b = true <-> a = b.
Proof.
  revert b; induction a as [|x a IH]; intros [|y b]; cbn [chord_eqb]; split; intros H;
    try discriminate; try reflexivity.
  - apply andb_true_iff in H as [H1 H2]. apply str_eqb_eq in H1. apply IH in H2. congruence.
  - injection H as -> ->. rewrite str_eqb_refl. apply IH. reflexivity.
Qed.

Lemma key_eq_dec (a b : key) : {a = b} + {a <> b}.
Proof. decide equality. apply N.eq_dec. Defined.
Lemma chord_eq_dec (a b : chord) : {a = b} + {a <> b}.
Proof. decide equality; apply key_eq_dec. Defined.

Fixpoint index (l : list chord) (c : chord) : N :=
  match l with
  | [] => 0
  | x :: l' => if chord_eq_dec c x then 0 else 1 + index l' c
  end.

Lemma index_lt l c : In c l -> index l c < N.of_nat (length l).
Proof.
  induction l as [|x l IH]; intros H; [destruct H|]. cbn [index length].
  destruct (chord_eq_dec c x); [lia|]. destruct H as [H|H]; [congruence|]. specialize (IH H). lia.
Qed.

Lemma index_inj l a b : In a l -> In b l -> index l a = index l b -> a = b.
Proof.
  induction l as [|x l IH]; intros Ha Hb; [destruct Ha|]. cbn [index].
  destruct (chord_eq_dec a x), (chord_eq_dec b x); try congruence; try lia.
  destruct Ha as [Ha|Ha]; [congruence|]. destruct Hb as [Hb|Hb]; [congruence|].
  intros H. apply IH; try assumption. lia.
Qed.

Lemma index_snoc_old l x c : In c l -> index (l ++ [x]) c = index l c.
Proof.
  induction l as [|y l IH]; intros H; [destruct H|]. cbn [app index].
  destruct (chord_eq_dec c y); [reflexivity|]. destruct H as [H|H]; [congruence|]. rewrite IH by assumption. reflexivity.
Qed.

Lemma index_snoc_new l x : ~ In x l -> index (l ++ [x]) x = N.of_nat (length l).
Proof.
  induction l as [|y l IH]; intros H; cbn [app index length].
  - destruct (chord_eq_dec x x); [reflexivity|contradiction].
  - destruct (chord_eq_dec x y); [exfalso; apply H; left; congruence|].
    rewrite IH; [lia|]. intros Hx; apply H; right; assumption.
Qed.

Definition all_chords : list chord :=
  map Plain (SpaceBar :: map Sym all_syms) ++ map Ctrl (SpaceBar :: map Sym all_syms).

Lemma in_all_chords c : key_ok (chord_key c) -> In c all_chords.
Proof.
  intros H.
  assert (Hk : In (chord_key c) (SpaceBar :: map Sym all_syms)).
  { destruct (chord_key c) as [|x]; [left; reflexivity|right; apply in_map, in_all_syms; exact H]. }
  unfold all_chords. apply in_or_app. revert Hk. generalize (SpaceBar :: map Sym all_syms). intros ks Hk.
  destruct c; cbn [chord_key] in Hk; [left|right]; apply in_map; exact Hk.
Qed.

Lemma few_chords l : NoDup l -> Forall good l -> (length l <= 88)%nat.
Proof.
  intros Hd Hg. change 88%nat with (length all_chords).
  apply NoDup_incl_length; [assumption|]. intros c Hc. apply in_all_chords.
  rewrite Forall_forall in Hg. apply Hg; assumption.
Qed.

Definition byte_of (c : chord) : N := match shpool_byte c with Some b => b | None => 0 end.

Lemma byte_of_u8 c : key_ok (chord_key c) -> byte_of c < 256.
Proof.
  intros H. apply in_all_chords in H.
  assert (Hf : forallb (fun c => byte_of c <? 256) all_chords = true) by (vm_compute; reflexivity).
  rewrite forallb_forall in Hf. apply Hf in H. lia.
Qed.

Notation brep := (represents vec_tab (fun s => (s < 256)%N) (fun v => length v = 256%nat)).

Definition chord_hist (l : list chord) (ch : list chord) : list (list N * N) :=
  map (fun c => ([byte_of c], index l c)) ch.
Definition seq_hist (l : list chord) (sq : keymap action) : list (list N * action) :=
  map (fun e => (map (index l) (fst e), snd e)) sq.

Record kinv (k : compiler) (l ch : list chord) (sq : keymap action) : Prop := {
  ki_nodup : NoDup l;
  ki_good : Forall good l;
  ki_in : forall c, In c ch -> In c l;
  ki_sq : forall e c, In e sq -> In c (fst e) -> In c l;
  ki_counter : k_counter k = N.of_nat (length l);
  ki_tab : forall c, atom_get (chord_keys c) (k_tab k) = if in_dec chord_eq_dec c l then Some (index l c) else None;
  ki_chords : brep (k_chords k) (chord_hist l ch);
  ki_seqs : brep (k_sequences k) (seq_hist l sq)
}.

Lemma kinv_new : kinv (mkCompiler (trie_new vec_tab) (trie_new vec_tab) 0 []) [] [] [].
Proof.
  split; cbn; try constructor; try tauto.
  - exact (new_represents vec_tab _ _ vec_laws).
  - exact (new_represents vec_tab _ _ vec_laws).
Qed.

Lemma hist_snoc_old l x ch : (forall c, In c ch -> In c l) -> chord_hist (l ++ [x]) ch = chord_hist l ch.
Proof. intros H. apply map_ext_in. intros c Hc. rewrite index_snoc_old by auto. reflexivity. Qed.

Lemma seq_hist_snoc_old l x sq : (forall e c, In e sq -> In c (fst e) -> In c l) ->
  seq_hist (l ++ [x]) sq = seq_hist l sq.
Proof.
  intros H. apply map_ext_in. intros e He. f_equal. apply map_ext_in. intros c Hc.
  apply index_snoc_old. eauto.
Qed.

Lemma compile_chords_ok cs : forall k l ch sq, kinv k l ch sq -> Forall good cs ->
  exists k' l', compile_chords k (map chord_keys cs) = Ok k' /\ kinv k' l' (ch ++ cs) sq.
Proof.
  induction cs as [|c cs IH]; intros k l ch sq Hk Hg.
  - exists k, l. rewrite app_nil_r. split; [reflexivity|assumption].
  - inversion Hg as [|? ? Hc Hg']; subst. destruct Hc as [Ho Hb].
    destruct (shpool_byte c) as [b|] eqn:Eb; [clear Hb|contradiction].
    assert (Hcode : key_code (chord_keys c) = Ok b).
    { apply opt_of_ok. rewrite key_code_good; assumption. }
    assert (Hbo : byte_of c = b) by (unfold byte_of; rewrite Eb; reflexivity).
    assert (Hb256 : b < 256) by (rewrite <- Hbo; apply byte_of_u8; assumption).
    cbn [map compile_chords]. rewrite Hcode. cbn [bind].
    rewrite (ki_tab _ _ _ _ Hk c).
    assert (Hgc : good c) by (split; [assumption|congruence]).
    destruct (in_dec chord_eq_dec c l) as [Hin|Hnin].
    + rewrite (ki_counter _ _ _ _ Hk).
      assert (Hl := few_chords l (ki_nodup _ _ _ _ Hk) (ki_good _ _ _ _ Hk)).
      destruct (N.leb_spec 255 (N.of_nat (length l))); [lia|].
      destruct (insert_represents vec_tab _ _ vec_laws (k_chords k) (chord_hist l ch) [b] (index l c)
                  (ki_chords _ _ _ _ Hk)) as (t & Et & Ht).
      { repeat constructor; assumption. }
      rewrite Et.
      destruct (IH (mkCompiler t (k_sequences k) (N.of_nat (length l)) (k_tab k)) l (ch ++ [c]) sq)
        as (k' & l' & E & Hk'); [|assumption|].
      { destruct Hk. split; try assumption; cbn [k_counter k_tab k_chords k_sequences]; try assumption.
        - intros x Hx. apply in_app_or in Hx as [Hx|[<-|[]]]; auto.
        - reflexivity.
        - unfold chord_hist. rewrite map_app. cbn [map]. rewrite Hbo. exact Ht. }
      exists k', l'. split; [assumption|]. rewrite <- app_assoc in Hk'. exact Hk'.
    + assert (Hl := few_chords (l ++ [c])).
      assert (Hnd : NoDup (l ++ [c])).
      { rewrite <- (rev_involutive (l ++ [c])). apply NoDup_rev. rewrite rev_app_distr. cbn [rev app].
        constructor; [rewrite <- in_rev; assumption|]. apply NoDup_rev, (ki_nodup _ _ _ _ Hk). }
      assert (Hgl : Forall good (l ++ [c])).
      { apply Forall_app. split; [apply (ki_good _ _ _ _ Hk)|repeat constructor; apply Hgc]. }
      specialize (Hl Hnd Hgl). rewrite app_length in Hl. cbn [length] in Hl.
      rewrite (ki_counter _ _ _ _ Hk).
      destruct (N.leb_spec 255 (N.of_nat (length l) + 1)); [lia|].
      rewrite N.mod_small by lia.
      destruct (insert_represents vec_tab _ _ vec_laws (k_chords k) (chord_hist l ch) [b] (N.of_nat (length l))
                  (ki_chords _ _ _ _ Hk)) as (t & Et & Ht).
      { repeat constructor; assumption. }
      rewrite Et.
      destruct (IH (mkCompiler t (k_sequences k) (N.of_nat (length l) + 1)
                      ((chord_keys c, N.of_nat (length l)) :: k_tab k)) (l ++ [c]) (ch ++ [c]) sq)
        as (k' & l' & E & Hk'); [|assumption|].
      { destruct Hk. split; try assumption; cbn [k_counter k_tab k_chords k_sequences].
        - intros x Hx. apply in_or_app. apply in_app_or in Hx as [Hx|[<-|[]]]; [left; auto|right; left; reflexivity].
        - intros e x He Hx. apply in_or_app; left; eauto.
        - rewrite app_length. cbn [length]. lia.
        - intros x. cbn [atom_get]. destruct (chord_eqb (chord_keys x) (chord_keys c)) eqn:Ex.
          + apply chord_eqb_eq, chord_keys_inj in Ex. subst x.
            destruct (in_dec chord_eq_dec c (l ++ [c])) as [_|Hn].
            * rewrite index_snoc_new by assumption. reflexivity.
            * exfalso; apply Hn. apply in_or_app; right; left; reflexivity.
          + assert (Hxc : x <> c).
            { intros ->. rewrite (proj2 (chord_eqb_eq _ _) eq_refl) in Ex. discriminate. }
            rewrite ki_tab0. destruct (in_dec chord_eq_dec x l) as [Hi|Hi], (in_dec chord_eq_dec x (l ++ [c])) as [Hi2|Hi2].
            * rewrite index_snoc_old by assumption. reflexivity.
            * exfalso; apply Hi2. apply in_or_app; left; assumption.
            * exfalso. apply in_app_or in Hi2 as [Hi2|[Hi2|[]]]; [contradiction|congruence].
            * reflexivity.
        - unfold chord_hist. rewrite map_app. cbn [map]. rewrite Hbo, index_snoc_new by assumption.
          fold (chord_hist (l ++ [c]) ch). rewrite hist_snoc_old by assumption. exact Ht.
        - rewrite seq_hist_snoc_old by assumption. assumption. }
      exists k', l'. split; [assumption|]. rewrite <- app_assoc in Hk'. exact Hk'.
Qed.

Lemma compile_chords_codes cs : forall k k', compile_chords k cs = Ok k' ->
  Forall (fun c => exists b, key_code c = Ok b) cs.
Proof.
  induction cs as [|c cs IH]; intros k k' H; [constructor|].
  cbn [compile_chords] in H. destruct (key_code c) as [b|] eqn:E; cbn [bind] in H; [|discriminate].
  destruct (match atom_get c (k_tab k) with
            | Some a => (a, k_counter k, k_tab k)
            | None => (k_counter k mod 256, k_counter k + 1, (c, k_counter k mod 256) :: k_tab k)
            end) as [[atom counter] tab].
  destruct (255 <=? counter); [discriminate|].
  destruct (trie_insert vec_tab (k_chords k) [b] atom) as [t|]; [|discriminate].
  constructor; [eauto|]. eapply IH; eassumption.
Qed.

Lemma compile_one_ok k l ch sq src cs a : kinv k l ch sq -> reads src cs ->
  exists k' l', compile_one k src a = Ok k' /\ kinv k' l' (ch ++ cs) (sq ++ [(cs, a)]).
Proof.
  intros Hk Hr. assert (Hg : Forall good cs) by apply Hr.
  destruct (proj2 (front_iff src (map chord_keys cs))) as [(ts & Ht & Hp) _]; [exists cs; auto|].
  unfold compile_one. rewrite Ht. cbn [bind]. rewrite Hp. cbn [bind].
  destruct (compile_chords_ok cs k l ch sq Hk Hg) as (k1 & l1 & E1 & Hk1). rewrite E1. cbn [bind].
  assert (Hin : forall c, In c cs -> In c l1).
  { intros c Hc. apply (ki_in _ _ _ _ Hk1). apply in_or_app; right; assumption. }
  assert (Hatoms : map_opt (fun c => atom_get c (k_tab k1)) (map chord_keys cs) = Some (map (index l1) cs)).
  { apply map_opt_some. assert (Htab := ki_tab _ _ _ _ Hk1). clear - Hin Htab. induction cs as [|c cs IH]; cbn [map]; constructor.
    - rewrite Htab. destruct (in_dec chord_eq_dec c l1) as [_|Hn]; [reflexivity|].
      exfalso; apply Hn, Hin; left; reflexivity.
    - apply IH. intros x Hx. apply Hin; right; assumption. }
  rewrite Hatoms.
  destruct (insert_represents vec_tab _ _ vec_laws (k_sequences k1) (seq_hist l1 sq) (map (index l1) cs) a
              (ki_seqs _ _ _ _ Hk1)) as (t & Et & Ht2).
  { apply Forall_forall. intros x Hx. apply in_map_iff in Hx as (c & <- & Hc).
    assert (Hi := index_lt l1 c (Hin c Hc)).
    assert (Hl := few_chords l1 (ki_nodup _ _ _ _ Hk1) (ki_good _ _ _ _ Hk1)). lia. }
  rewrite Et. eexists. exists l1. split; [reflexivity|].
  destruct Hk1. split; try assumption; cbn [k_counter k_tab k_chords k_sequences].
  - intros e c He Hc. apply in_app_or in He as [He|[<-|[]]]; [eauto|]. apply Hin; assumption.
  - unfold seq_hist. rewrite map_app. exact Ht2.
Qed.

(** What each source text is read as. *)
Definition same_binding (e : rstr * action) (e' : list chord * action) : Prop :=
  reads (fst e) (fst e') /\ snd e = snd e'.

Lemma compile_all_ok cfg sq2 : Forall2 same_binding cfg sq2 ->
  forall k l ch sq, kinv k l ch sq ->
  exists k' l', compile_all k cfg = Ok k' /\ kinv k' l' (ch ++ concat (map fst sq2)) (sq ++ sq2).
Proof.
  induction 1 as [|[src a] [cs a'] cfg sq2 [Hr Ha] H IH]; intros k l ch sq Hk; cbn [fst snd] in *.
  - exists k, l. cbn [map concat]. rewrite !app_nil_r. split; [reflexivity|assumption].
  - subst a'. destruct (compile_one_ok k l ch sq src cs a Hk Hr) as (k1 & l1 & E1 & Hk1).
    cbn [compile_all]. rewrite E1. cbn [bind].
    destruct (IH k1 l1 _ _ Hk1) as (k2 & l2 & E2 & Hk2). exists k2, l2. split; [assumption|].
    cbn [map concat fst]. rewrite <- !app_assoc in Hk2. exact Hk2.
Qed.

Lemma compile_one_reads k src a k' : compile_one k src a = Ok k' -> exists cs, reads src cs.
Proof.
  unfold compile_one. destruct (tokenize src) as [ts|] eqn:Et; cbn [bind]; [|discriminate].
  destruct (parse_tokens ts) as [mcs|] eqn:Ep; cbn [bind]; [|discriminate].
  destruct (compile_chords k mcs) as [k1|] eqn:Ec; cbn [bind]; [|discriminate]. intros _.
  apply compile_chords_codes in Ec.
  destruct (proj1 (front_iff src mcs)) as (cs & _ & Hr); [split; [eauto|assumption]|]. eauto.
Qed.

Lemma compile_all_reads cfg : forall k k', compile_all k cfg = Ok k' -> exists sq, Forall2 same_binding cfg sq.
Proof.
  induction cfg as [|[src a] cfg IH]; intros k k' H; [exists []; constructor|].
  cbn [compile_all] in H. destruct (compile_one k src a) as [k1|] eqn:E; cbn [bind] in H; [|discriminate].
  destruct (IH _ _ H) as (sq & Hs). destruct (compile_one_reads _ _ _ _ E) as (cs & Hc).
  exists ((cs, a) :: sq). constructor; [split; [assumption|reflexivity]|assumption].
Qed.

(** * The running engine *)
Definition state_of (l : list chord) (sq : keymap action) (b : bindings) (s : list chord) : Prop :=
  NoDup l /\ Forall good l /\
  (forall c, In c (concat (map fst sq)) -> In c l) /\
  brep (b_chords b) (chord_hist l (concat (map fst sq))) /\
  b_chords_cursor b = Start /\
  (forall c, In c s -> In c l) /\
  exists ls, shape vec_tab (fun s => (s < 256)%N) (fun v => length v = 256%nat) (b_sequences b) ls /\
    values (b_sequences b) ls (lookup_last (seq_hist l sq)) /\
    (forall x, In x ls <-> x = [] \/ exists q, inserted (seq_hist l sq) q /\ prefix x q) /\
    at_string (b_sequences b) ls (b_sequences_cursor b) (map (index l) s).

Lemma new_state cfg sq b : Forall2 same_binding cfg sq -> bindings_new cfg = Ok b ->
  exists l, state_of l sq b [].
Proof.
  intros Hs H. unfold bindings_new in H.
  destruct (compile_all_ok cfg sq Hs _ _ _ _ kinv_new) as (k & l & E & Hk). rewrite E in H.
  cbn [bind] in H. injection H as <-. cbn [app] in Hk. exists l. destruct Hk.
  split; [assumption|]. split; [assumption|]. split; [assumption|]. split; [assumption|].
  split; [reflexivity|]. split; [intros c []|].
  destruct ki_seqs0 as (ls & H1 & H2 & H3). exists ls. split; [assumption|]. split; [assumption|].
  split; [assumption|]. reflexivity.
Qed.

Lemma map_index_inj l a b : (forall c, In c a -> In c l) -> (forall c, In c b -> In c l) ->
  map (index l) a = map (index l) b -> a = b.
Proof.
  revert b; induction a as [|x a IH]; intros [|y b] Ha Hb H; try discriminate; [reflexivity|].
  cbn [map] in H. injection H as H1 H2. f_equal.
  - apply (index_inj l); auto; [apply Ha|apply Hb]; left; reflexivity.
  - apply IH; auto; intros c Hc; [apply Ha|apply Hb]; right; assumption.
Qed.

Lemma seq_in l sq s a : (forall c, In c (concat (map fst sq)) -> In c l) -> (forall c, In c s -> In c l) ->
  In (map (index l) s, a) (seq_hist l sq) <-> In (s, a) sq.
Proof.
  intros Hl Hs. unfold seq_hist. rewrite in_map_iff. split.
  - intros ([s' a'] & E & Hin). cbn [fst snd] in E. injection E as E ->.
    apply map_index_inj in E; [subst; assumption| |assumption].
    intros c Hc. apply Hl. apply in_concat. exists s'. split; [|assumption].
    apply in_map_iff. exists (s', a). split; [reflexivity|assumption].
  - intros Hin. exists (s, a). split; [reflexivity|assumption].
Qed.

Lemma seq_inserted l sq s : (forall c, In c (concat (map fst sq)) -> In c l) -> (forall c, In c s -> In c l) ->
  inserted (seq_hist l sq) (map (index l) s) <-> inserted sq s.
Proof. intros Hl Hs. unfold inserted. split; intros [v Hv]; exists v; apply (seq_in l); assumption. Qed.

Lemma seq_bound l sq s a : (forall c, In c (concat (map fst sq)) -> In c l) -> (forall c, In c s -> In c l) ->
  bound (seq_hist l sq) (map (index l) s) a <-> bound sq s a.
Proof.
  intros Hl Hs. unfold bound. split.
  - intros (h1 & h2 & E & Hn). unfold seq_hist in E. apply map_eq_app in E as (s1 & s2 & -> & E1 & E2).
    apply map_eq_cons in E2 as ([s' a'] & s3 & -> & E3 & E4). cbn [fst snd] in E3. injection E3 as E3 ->.
    assert (s' = s).
    { apply (map_index_inj l) in E3; [congruence| |assumption]. intros c Hc. apply Hl. apply in_concat.
      exists s'. split; [|assumption]. apply in_map_iff. exists (s', a). split; [reflexivity|].
      apply in_or_app; right; left; reflexivity. }
    subst s'. exists s1, s3. split; [reflexivity|]. intros v Hv. apply (Hn v). rewrite <- E4.
    apply in_map_iff. exists (s, v). split; [reflexivity|assumption].
  - intros (h1 & h2 & -> & Hn). exists (seq_hist l h1), (seq_hist l h2).
    split; [unfold seq_hist; rewrite map_app; reflexivity|].
    intros v Hv. apply (Hn v). apply (seq_in l) in Hv; try assumption.
    intros c Hc. apply Hl. rewrite map_app, concat_app. apply in_or_app; right. cbn [map concat].
    apply in_or_app; right; assumption.
Qed.

Lemma seq_prefix l sq s : (forall c, In c (concat (map fst sq)) -> In c l) -> (forall c, In c s -> In c l) ->
  (exists q, inserted (seq_hist l sq) q /\ prefix (map (index l) s) q) <->
  (exists q, inserted sq q /\ prefix s q).
Proof.
  intros Hl Hs. unfold inserted, prefix. split.
  - intros (q & [v Hv] & (r & ->)). unfold seq_hist in Hv. apply in_map_iff in Hv as ([q' v'] & E & Hin).
    cbn [fst snd] in E. injection E as E ->. exists q'. split; [eauto|].
    apply map_eq_app in E as (q1 & q2 & -> & E1 & E2). exists q2. f_equal.
    apply (map_index_inj l) in E1; [assumption| |assumption].
    intros c Hc. apply Hl. apply in_concat. exists (q1 ++ q2). split; [|apply in_or_app; left; assumption].
    apply in_map_iff. exists (q1 ++ q2, v). split; [reflexivity|assumption].
  - intros (q & [v Hv] & (r & ->)). exists (map (index l) (s ++ r)). split.
    + exists v. unfold seq_hist. apply in_map_iff. exists (s ++ r, v). split; [reflexivity|assumption].
    + exists (map (index l) r). apply map_app.
Qed.

Definition to_verdict (r : binding_result) : verdict action :=
  match r with BNoMatch => Nothing | BPartial => Pending | BMatch a => Fires a end.

Lemma chord_lookup l (sq : keymap action) x : Forall good l -> (forall c, In c (concat (map fst sq)) -> In c l) ->
  match lookup_last (chord_hist l (concat (map fst sq))) [x] with
  | Some a => exists c, chord_of sq x c /\ In c l /\ a = index l c
  | None => forall c, ~ chord_of sq x c
  end.
Proof.
  intros Hg Hl. rewrite Forall_forall in Hg.
  assert (Hb : forall c, In c (concat (map fst sq)) -> forall b, shpool_byte c = Some b <-> byte_of c = b).
  { intros c Hc b. destruct (Hg c (Hl c Hc)) as [_ Hn]. unfold byte_of.
    destruct (shpool_byte c); [|contradiction]. split; congruence. }
  destruct (lookup_last (chord_hist l (concat (map fst sq))) [x]) as [a|] eqn:E.
  - apply lookup_last_bound in E as (h1 & h2 & E & Hn).
    unfold chord_hist in E. apply map_eq_app in E as (c1 & c2 & Ec & E1 & E2).
    apply map_eq_cons in E2 as (c & c3 & -> & E3 & E4). injection E3 as Ex Ea.
    assert (Hc : In c (concat (map fst sq))) by (rewrite Ec; apply in_or_app; right; left; reflexivity).
    exists c. split; [|split; [auto|congruence]]. exists c1, c3. split; [assumption|].
    split; [apply Hb; assumption|]. intros c' Hc' Hbb. apply Hb in Hbb.
    + apply (Hn (index l c')). rewrite <- E4. apply in_map_iff. exists c'. split; [congruence|assumption].
    + rewrite Ec. apply in_or_app; right; right; assumption.
  - apply lookup_last_none in E. intros c (c1 & c2 & Ec & Hx & _). apply E.
    assert (Hc : In c (concat (map fst sq))) by (rewrite Ec; apply in_or_app; right; left; reflexivity).
    apply Hb in Hx; [|assumption].
    exists (index l c). unfold chord_hist. apply in_map_iff. exists c. split; [congruence|assumption].
Qed.

Lemma transition_spec l sq b s x : state_of l sq b s -> x < 256 ->
  exists b' r s', transition b x = Some (b', r) /\ state_of l sq b' s' /\ typed sq s x (to_verdict r) s'.
Proof.
  intros (Hnd & Hg & Hl & Hch & Hcur & Hs & ls & Hsh & Hval & Hls & Hat) Hx.
  unfold transition. rewrite Hcur.
  destruct (walk_spec vec_tab _ _ (b_chords b) _ [x] Hch) as (cc & Ew & Hcs & Hcn & Hcp & Hcg);
    [repeat constructor; assumption|discriminate|].
  assert (Ea : trie_advance vec_tab (b_chords b) Start x = Some cc).
  { cbn [trie_walk] in Ew. destruct (trie_advance vec_tab (b_chords b) Start x); congruence. }
  rewrite Ea, Hcg.
  assert (Hlk := chord_lookup l sq x Hg Hl).
  assert (Hreset : forall seqs, seqs = b_sequences b ->
            state_of l sq (mkBindings (b_chords b) Start seqs Start) []).
  { intros seqs ->. unfold state_of. cbn [b_chords b_chords_cursor b_sequences b_sequences_cursor].
    do 3 (split; [assumption|]). split; [assumption|]. split; [reflexivity|]. split; [intros c []|].
    exists ls. do 3 (split; [assumption|]). reflexivity. }
  destruct (lookup_last (chord_hist l (concat (map fst sq))) [x]) as [atom|] eqn:El.
  - destruct Hlk as (c & Hco & Hcl & ->).
    assert (Hatom : index l c < 256).
    { assert (H1 := index_lt l c Hcl). assert (H2 := few_chords l Hnd Hg). lia. }
    destruct (advance_spec vec_tab _ _ (b_sequences b) ls (seq_hist l sq) (b_sequences_cursor b)
                (map (index l) s) (index l c) Hsh Hval Hat Hatom) as (sc & Es & Hats & Hm).
    rewrite Es.
    assert (Hs' : forall y, In y (s ++ [c]) -> In y l).
    { intros y Hy. apply in_app_or in Hy as [Hy|[<-|[]]]; auto. }
    assert (Emap : map (index l) s ++ [index l c] = map (index l) (s ++ [c])) by (rewrite map_app; reflexivity).
    rewrite Emap in *.
    destruct sc as [|i p|]; [contradiction| |].
    + destruct Hm as (Hin & Hp & Hget).
      destruct (lookup_last (seq_hist l sq) (map (index l) (s ++ [c]))) as [a|] eqn:Ea2.
      * subst p. rewrite Hget. eexists _, _, []. split; [reflexivity|]. split; [apply Hreset; reflexivity|].
        cbn [to_verdict]. apply typed_fires with c; [assumption|].
        apply lookup_last_bound in Ea2. apply (seq_bound l) in Ea2; assumption.
      * subst p. eexists _, _, (s ++ [c]). split; [reflexivity|]. split.
        -- unfold state_of. cbn [b_chords b_chords_cursor b_sequences b_sequences_cursor].
           do 4 (split; [assumption|]). split; [reflexivity|]. split; [assumption|].
           exists ls. do 3 (split; [assumption|]). assumption.
        -- apply typed_pending; [assumption| |].
           ++ rewrite <- (seq_inserted l) by assumption. apply lookup_last_none. assumption.
           ++ rewrite <- (seq_prefix l) by assumption. apply Hls in Hin as [Hin|Hin]; [|assumption].
              destruct s; discriminate.
    + eexists _, _, []. split; [reflexivity|]. split; [apply Hreset; reflexivity|].
      apply typed_fails with c; [assumption|]. rewrite <- (seq_prefix l) by assumption.
      intros Hq. apply Hats, Hls. right; assumption.
  - assert (Ecc : cc = NoMatch).
    { apply Hcn. intros (q & [v Hv] & (r & ->)). apply lookup_last_none in El. apply El.
      unfold chord_hist in Hv. apply in_map_iff in Hv as (c & E & Hc). injection E as E1 E2 E3.
      exists v. unfold chord_hist. apply in_map_iff. exists c. split; [congruence|assumption]. }
    rewrite Ecc. eexists _, _, []. split; [reflexivity|]. split; [apply Hreset; reflexivity|].
    apply typed_other. assumption.
Qed.

Lemma transitions_spec l sq bytes : Forall (fun x => x < 256) bytes -> forall b s, state_of l sq b s ->
  exists b' rs s', transitions b bytes = Some (b', rs) /\ state_of l sq b' s' /\
    typed_all sq s bytes (map to_verdict rs) s'.
Proof.
  induction 1 as [|x bytes Hx H IH]; intros b s Hst.
  - exists b, [], s. split; [reflexivity|]. split; [assumption|constructor].
  - destruct (transition_spec l sq b s x Hst Hx) as (b1 & r & s1 & E1 & Hst1 & Ht).
    destruct (IH b1 s1 Hst1) as (b2 & rs & s2 & E2 & Hst2 & Ht2).
    exists b2, (r :: rs), s2. cbn [transitions]. rewrite E1, E2. split; [reflexivity|].
    split; [assumption|]. cbn [map]. econstructor; eassumption.
Qed.

(** * Consequences of the reference semantics *)
Lemma fires_sound {A} (m : keymap A) s bs vs s' : typed_all m s bs vs s' ->
  forall i a, nth_error vs i = Some (Fires a) -> forall sb, bytes_of s sb ->
  (forall p, prefix p s -> p <> [] -> ~ inserted m p) ->
  exists cs csb pre, bound m cs a /\ bytes_of cs csb /\ cs <> [] /\ sb ++ firstn (S i) bs = pre ++ csb /\
    (forall p, prefix p cs -> p <> [] -> p <> cs -> ~ inserted m p).
Proof.
  induction 1 as [s|s b v s1 bs vs s2 Ht Hta IH]; intros i a Hi sb Hsb Hnp; [destruct i; discriminate|].
  assert (Hbc : forall c, chord_of m b c -> bytes_of (s ++ [c]) (sb ++ [b])).
  { intros c (l1 & l2 & _ & Hb & _). apply Forall2_app; [assumption|]. repeat constructor; assumption. }
  assert (Hpre : forall c p, prefix p (s ++ [c]) -> p <> [] -> p <> s ++ [c] -> ~ inserted m p).
  { intros c p [q Hq] Hne Hps. destruct q as [|y q _] using rev_ind; [rewrite app_nil_r in Hq; congruence|].
    rewrite app_assoc in Hq. apply app_inj_tail in Hq as [-> _]. apply Hnp; [exists q; reflexivity|assumption]. }
  destruct i as [|i].
  - cbn [nth_error] in Hi. injection Hi as ->. inversion Ht as [|c a' Hc Hb| |]; subst.
    exists (s ++ [c]), (sb ++ [b]), []. split; [assumption|]. split; [auto|].
    split; [destruct s; discriminate|]. split; [reflexivity|]. apply Hpre.
  - cbn [nth_error] in Hi.
    assert (Hnil : s1 = [] -> exists cs csb pre, bound m cs a /\ bytes_of cs csb /\ cs <> [] /\
              sb ++ firstn (S (S i)) (b :: bs) = pre ++ csb /\
              (forall p, prefix p cs -> p <> [] -> p <> cs -> ~ inserted m p)).
    { intros ->. destruct (IH i a Hi []) as (cs & csb & pre & H1 & H2 & H3 & H4 & H5).
      - constructor.
      - intros p [q Hq] Hne. destruct p; [contradiction|discriminate].
      - exists cs, csb, (sb ++ b :: pre). do 3 (split; [assumption|]). split; [|assumption].
        cbn [app] in H4. cbn [firstn]. rewrite <- app_assoc. cbn [app]. rewrite <- H4. reflexivity. }
    inversion Ht as [? Ev Es|c a' Hc Hb Ev Es|c Hc Hni Hq Ev Es|c Hc Hq Ev Es]; subst; try (apply Hnil; reflexivity).
    destruct (IH i a Hi (sb ++ [b])) as (cs & csb & pre & H1 & H2 & H3 & H4 & H5).
    + auto.
    + intros p Hp Hne. destruct (list_eq_dec chord_eq_dec p (s ++ [c])) as [->|Hd]; [assumption|].
      apply (Hpre c); assumption.
    + exists cs, csb, pre. do 3 (split; [assumption|]). split; [|assumption].
      rewrite <- H4, <- app_assoc. reflexivity.
Qed.

Lemma bound_fun {S V} (h : list (list S * V)) s a a' : bound h s a -> bound h s a' -> a = a'.
Proof.
  intros (h1 & h2 & -> & Hn1) (h3 & h4 & E & Hn2). revert h3 E.
  induction h1 as [|x h1 IH]; intros [|y h3] E; cbn [app] in E.
  - congruence.
  - injection E as E1 E2. exfalso. apply (Hn1 a'). rewrite E2. apply in_or_app; right; left; reflexivity.
  - injection E as E1 E2. exfalso. apply (Hn2 a). rewrite <- E2. apply in_or_app; right; left; reflexivity.
  - injection E as _ E. eapply IH; eassumption.
Qed.

Definition unambiguous {A} (m : keymap A) : Prop :=
  forall c c', In c (concat (map fst m)) -> In c' (concat (map fst m)) ->
    shpool_byte c = shpool_byte c' -> c = c'.

Lemma fires_complete {A} (m : keymap A) cs a : unambiguous m -> bound m cs a ->
  (forall p, prefix p cs -> p <> [] -> p <> cs -> ~ inserted m p) ->
  forall cs2 csb s vs s', cs = s ++ cs2 -> cs2 <> [] -> bytes_of cs2 csb -> typed_all m s csb vs s' ->
  vs = repeat Pending (length cs2 - 1) ++ [Fires a] /\ s' = [].
Proof.
  intros Hu Hb Hnp. induction cs2 as [|c cs2 IH]; intros csb s vs s' Hcs Hne Hby Ht; [contradiction|].
  inversion Hby as [|? b ? csb' Hcb Hby']; subst. inversion Ht as [|? ? v s1 ? vs' ? Ht1 Hta]; subst.
  assert (Hin : inserted m (s ++ c :: cs2)).
  { destruct Hb as (h1 & h2 & -> & _). exists a. apply in_or_app; right; left; reflexivity. }
  assert (Hcm : In c (concat (map fst m))).
  { destruct Hin as [v' Hv]. apply in_concat. exists (s ++ c :: cs2). split.
    - apply in_map_iff. eexists; split; [|exact Hv]. reflexivity.
    - apply in_or_app; right; left; reflexivity. }
  assert (Hco : forall c', chord_of m b c' -> c' = c).
  { intros c' (l1 & l2 & E & Hb' & _). apply Hu; [|assumption|congruence].
    rewrite E. apply in_or_app; right; left; reflexivity. }
  assert (Hex : exists c', chord_of m b c').
  { clear - Hcm Hcb. unfold chord_of. induction (concat (map fst m)) as [|x l IH] using rev_ind; [destruct Hcm|].
    destruct (shpool_byte x) as [bx|] eqn:Ex; [destruct (N.eq_dec bx b) as [->|Hne]|].
    - exists x, l, []. split; [reflexivity|]. split; [assumption|intros c' []].
    - apply in_app_or in Hcm as [Hcm|[->|[]]]; [|congruence].
      destruct (IH Hcm) as (c' & l1 & l2 & -> & H1 & H2). exists c', l1, (l2 ++ [x]).
      rewrite <- app_assoc. split; [reflexivity|]. split; [assumption|].
      intros y Hy. apply in_app_or in Hy as [Hy|[<-|[]]]; [auto|congruence].
    - apply in_app_or in Hcm as [Hcm|[->|[]]]; [|congruence].
      destruct (IH Hcm) as (c' & l1 & l2 & -> & H1 & H2). exists c', l1, (l2 ++ [x]).
      rewrite <- app_assoc. split; [reflexivity|]. split; [assumption|].
      intros y Hy. apply in_app_or in Hy as [Hy|[<-|[]]]; [auto|congruence]. }
  destruct cs2 as [|c2 cs2].
  - inversion Hby'; subst. inversion Hta; subst.
    inversion Ht1 as [Hno|c' a' Hc Hb'|c' Hc Hni Hq|c' Hc Hq]; subst.
    + destruct Hex as [c' Hc']. exfalso; eapply Hno; eassumption.
    + apply Hco in Hc. subst c'. split; [|reflexivity]. cbn. repeat f_equal.
      eapply bound_fun; eassumption.
    + apply Hco in Hc. subst c'. contradiction.
    + apply Hco in Hc. subst c'. exfalso; apply Hq. exists (s ++ [c]). split; [assumption|].
      exists []. rewrite app_nil_r. reflexivity.
  - assert (Hns : ~ inserted m (s ++ [c])).
    { apply Hnp.
      - exists (c2 :: cs2). rewrite <- app_assoc. reflexivity.
      - destruct s; discriminate.
      - intros E. apply app_inv_head in E. discriminate. }
    assert (Hpq : exists q, inserted m q /\ prefix (s ++ [c]) q).
    { exists (s ++ c :: c2 :: cs2). split; [assumption|]. exists (c2 :: cs2). rewrite <- app_assoc. reflexivity. }
    inversion Ht1 as [Hno|c' a' Hc Hb'|c' Hc Hni Hq|c' Hc Hq]; subst.
    + destruct Hex as [c' Hc']. exfalso; eapply Hno; eassumption.
    + apply Hco in Hc. subst c'. exfalso; apply Hns. destruct Hb' as (h1 & h2 & -> & _).
      exists a'. apply in_or_app; right; left; reflexivity.
    + apply Hco in Hc. subst c'.
      destruct (IH csb' (s ++ [c]) vs' s') as [-> ->]; try assumption.
      * rewrite <- app_assoc. reflexivity.
      * discriminate.
      * split; [|reflexivity]. cbn [length Nat.sub repeat app]. rewrite Nat.sub_0_r. reflexivity.
    + apply Hco in Hc. subst c'. contradiction.
Qed.

Lemma settled {A} (m : keymap A) s bs vs s' : typed_all m s bs vs s' ->
  (vs = [] -> s = []) -> (forall vs0, vs <> vs0 ++ [Pending]) -> s' = [].
Proof.
  induction 1 as [s|s b v s1 bs vs s2 Ht Hta IH]; intros Hs Hl; [apply Hs; reflexivity|].
  apply IH.
  - intros ->. inversion Ht; subst; try reflexivity. exfalso. apply (Hl []). reflexivity.
  - intros vs0 ->. apply (Hl (v :: vs0)). reflexivity.
Qed.

Lemma typed_all_app {A} (m : keymap A) bs1 : forall s bs2 vs s', typed_all m s (bs1 ++ bs2) vs s' ->
  exists vs1 vs2 s1, vs = vs1 ++ vs2 /\ length vs1 = length bs1 /\ typed_all m s bs1 vs1 s1 /\ typed_all m s1 bs2 vs2 s'.
Proof.
  induction bs1 as [|b bs1 IH]; intros s bs2 vs s' H.
  - exists [], vs, s. repeat split; [constructor|assumption].
  - inversion H as [|? ? v s1 ? vs' ? Ht Hta]; subst.
    destruct (IH _ _ _ _ Hta) as (vs1 & vs2 & s2 & -> & Hl & H1 & H2).
    exists (v :: vs1), vs2, s2. repeat split; [cbn; congruence|econstructor; eassumption|assumption].
Qed.

Lemma transitions_app b bs1 : forall bs2, transitions b (bs1 ++ bs2) =
  match transitions b bs1 with
  | None => None
  | Some (b1, rs1) => match transitions b1 bs2 with None => None | Some (b2, rs2) => Some (b2, rs1 ++ rs2) end
  end.
Proof.
  revert b; induction bs1 as [|x bs1 IH]; intros b bs2; cbn [app transitions].
  - destruct (transitions b bs2) as [[]|]; reflexivity.
  - destruct (transition b x) as [[b1 r]|]; [|reflexivity]. rewrite IH.
    destruct (transitions b1 bs1) as [[b2 rs]|]; [|reflexivity].
    destruct (transitions b2 bs2) as [[b3 rs2]|]; reflexivity.
Qed.

Lemma transitions_length bs : forall b b' rs, transitions b bs = Some (b', rs) -> length rs = length bs.
Proof.
  induction bs as [|x bs IH]; intros b b' rs; cbn [transitions]; [intros [= _ <-]; reflexivity|].
  destruct (transition b x) as [[b1 r]|]; [|discriminate].
  destruct (transitions b1 bs) as [[b2 rs']|] eqn:E; [|discriminate]. intros [= _ <-].
  cbn [length]. f_equal. eapply IH; eassumption.
Qed.

Lemma bindings_new_iff cfg : (exists b, bindings_new cfg = Ok b) <-> exists sq, Forall2 same_binding cfg sq.
Proof.
  split.
  - intros [b H]. unfold bindings_new in H.
    destruct (compile_all _ cfg) as [k|] eqn:E; [|discriminate]. eapply compile_all_reads; eassumption.
  - intros [sq H]. destruct (compile_all_ok cfg sq H _ _ _ _ kinv_new) as (k & l & E & _).
    unfold bindings_new. rewrite E. eexists; reflexivity.
Qed.

Lemma key_code_err c e : (forall k, In k c -> k <> []) -> key_code c = Err e ->
  e <> TooManyChords /\ e <> Panic /\ e <> TrieBug.
Proof.
  intros Hne. unfold key_code, check_valid.
  destruct (negb (forallb is_key c)); cbn [bind].
  { intros [= <-]. repeat split; discriminate. }
  destruct c as [|k1 [|k2 [|k3 c]]]; cbn [bind].
  - intros [= <-]. repeat split; discriminate.
  - destruct (is_ctrl k1); cbn [bind]; [intros [= <-]; repeat split; discriminate|].
    destruct (is_sym k1); [|intros [= <-]; repeat split; discriminate].
    destruct (str_eqb k1 (lit "Space")); [discriminate|].
    destruct k1 as [|x k1]; [|discriminate]. exfalso. apply (Hne []); [left|]; reflexivity.
  - destruct (is_ctrl k1); cbn [negb bind]; [|intros [= <-]; repeat split; discriminate].
    destruct (is_ctrl k2); cbn [bind]; [intros [= <-]; repeat split; discriminate|].
    destruct (lookup (join_with 45 [k1; k2]) control_codes); [discriminate|].
    intros [= <-]; repeat split; discriminate.
  - intros [= <-]. repeat split; discriminate.
Qed.

(** Which errors can come out. *)
Lemma new_errors cfg e : bindings_new cfg = Err e -> e <> TooManyChords /\ e <> Panic /\ e <> TrieBug.
Proof.
  assert (Htok : forall src e', tokenize src = Err e' -> exists c, e' = UnexpectedChar c).
  { intros src e'. unfold tokenize. rewrite words_trie_tr0.
    assert (Hct : forall cs e2, char_tokens cs = Err e2 -> exists c, e2 = UnexpectedChar c).
    { induction cs as [|c cs IH]; intros e2; cbn [char_tokens]; [discriminate|].
      unfold char_token. repeat match goal with |- context [if ?b then _ else _] => destruct b end; cbn [bind];
        try (intros [= <-]; eauto; fail);
        destruct (char_tokens cs) eqn:E; cbn [bind]; try discriminate; intros [= <-]; eapply IH; reflexivity. }
    assert (Hl : forall src toks w cur, (exists x, In x [Start; Match 1 true; Match 2 true; Match 3 true; Match 5 true;
                   Match 6 true; Match 7 true; Match 8 true] /\ x = cur) ->
              tok_loop tr0 src toks w cur = Err e' -> exists c, e' = UnexpectedChar c).
    { induction src0 as [|c src0 IH]; intros toks w cur Hcur; cbn [tok_loop]; [discriminate|].
      destruct (is_whitespace c); [apply IH; assumption|]. fold (adv cur c).
      assert (Hadv : exists nc, adv cur c = Some nc /\ (nc = NoMatch \/ (exists i, nc = Match i false) \/
                In nc [Match 1 true; Match 2 true; Match 3 true; Match 5 true; Match 6 true; Match 7 true; Match 8 true])).
      { destruct Hcur as (x & Hx & <-).
        destruct Hx as [<-|[<-|[<-|[<-|[<-|[<-|[<-|[<-|[]]]]]]]]];
          rewrite ?adv_start, ?adv_1, ?adv_2, ?adv_3, ?adv_5, ?adv_6, ?adv_7, ?adv_8;
          repeat match goal with |- context [if ?b then _ else _] => destruct b end;
          eexists; (split; [reflexivity|]); cbn [In]; eauto 12. }
      destruct Hadv as (nc & -> & [->|[[i ->]|Hnc]]).
      - destruct (char_tokens (w ++ [c])) as [ts|e2] eqn:Ec; cbn [bind].
        + apply IH. exists Start. split; [left; reflexivity|reflexivity].
        + intros [= <-]. eapply Hct; eassumption.
      - apply IH. exists Start. split; [left; reflexivity|reflexivity].
      - destruct nc as [|i p|]; try (cbn [In] in Hnc; intuition discriminate).
        assert (p = true) as -> by (cbn [In] in Hnc; intuition congruence).
        apply IH. exists (Match i true). split; [right; exact Hnc|reflexivity]. }
    intros H. eapply Hl; [|exact H]. exists Start. split; [left; reflexivity|reflexivity]. }
  assert (Hpar : forall ts chords keys saw e', parse_loop ts chords keys saw = Err e' -> e' = UnexpectedDash).
  { induction ts as [|[k|] ts IH]; intros chords keys saw e'; cbn [parse_loop]; [discriminate| |].
    - destruct saw; apply IH.
    - destruct saw; [congruence|apply IH]. }
  intros H.
  assert (Hgen : forall cfg2 k l ch sq, kinv k l ch sq -> compile_all k cfg2 = Err e ->
            e <> TooManyChords /\ e <> Panic /\ e <> TrieBug).
  { clear H. induction cfg2 as [|[src a] cfg2 IH]; intros k l ch sq Hk; cbn [compile_all]; [discriminate|].
    destruct (compile_one k src a) as [k1|e1] eqn:E1; cbn [bind].
    - destruct (compile_one_reads _ _ _ _ E1) as (cs & Hr).
      destruct (compile_one_ok k l ch sq src cs a Hk Hr) as (k1' & l1 & E1' & Hk1).
      assert (k1' = k1) by congruence. subst k1'. intros H. eapply IH; eassumption.
    - intros [= <-]. unfold compile_one in E1.
      destruct (tokenize src) as [ts|e2] eqn:Et; cbn [bind] in E1.
      2: { injection E1 as <-. apply Htok in Et as [c ->]. repeat split; discriminate. }
      destruct (parse_tokens ts) as [mcs|e2] eqn:Ep; cbn [bind] in E1.
      2: { injection E1 as <-. apply Hpar in Ep as ->. repeat split; discriminate. }
      assert (Hgo : forall mcs0 k0 l0 ch0, kinv k0 l0 ch0 sq ->
                Forall (fun c => Forall (fun k => token_ok (Key k)) c) mcs0 ->
                forall e2, compile_chords k0 mcs0 = Err e2 -> e2 <> TooManyChords /\ e2 <> Panic /\ e2 <> TrieBug).
      { induction mcs0 as [|c mcs0 IHc]; intros k0 l0 ch0 Hk0 Hf e2 He; [discriminate|].
        inversion Hf as [|? ? Hc Hf']; subst.
        destruct (key_code c) as [b|e3] eqn:Ekc.
        - apply key_code_iff in Ekc as (sc & -> & Ho & Hb); [|assumption].
          destruct (compile_chords_ok [sc] k0 l0 ch0 sq Hk0) as (k2 & l2 & E2 & Hk2).
          { constructor; [|constructor]. split; [assumption|congruence]. }
          cbn [map] in E2.
          assert (Hsplit : forall kk c cs kk', compile_chords kk [c] = Ok kk' ->
                    compile_chords kk (c :: cs) = compile_chords kk' cs).
          { clear. intros kk c cs kk'. cbn [compile_chords]. destruct (key_code c); cbn [bind]; [|discriminate].
            destruct (match atom_get c (k_tab kk) with
            | Some a => (a, k_counter kk, k_tab kk)
            | None => (k_counter kk mod 256, k_counter kk + 1, (c, k_counter kk mod 256) :: k_tab kk)
            end) as [[atom counter] tab].
            destruct (255 <=? counter); [discriminate|].
            destruct (trie_insert vec_tab (k_chords kk) [a] atom); [|discriminate]. congruence. }
          rewrite (Hsplit _ _ _ _ E2) in He. eapply IHc; eassumption.
        - cbn [compile_chords] in He. rewrite Ekc in He. cbn [bind] in He. injection He as <-.
          assert (Hne : forall k, In k c -> k <> []).
          { intros kk Hkk ->. rewrite Forall_forall in Hc. destruct (Hc [] Hkk) as [H|[H|(x & H & _)]]; discriminate. }
          eapply key_code_err; eassumption. }
      assert (Hkeys : Forall (fun c => Forall (fun k => token_ok (Key k)) c) mcs).
      { apply tokenize_iff in Et as (Hok & _). apply parse_iff in Ep as (Hne & d & -> & _).
        apply Forall_forall. intros c Hc. apply Forall_forall. intros kk Hkk.
        rewrite Forall_forall in Hok. apply Hok. apply in_or_app; left.
        apply in_concat. exists (keys_tokens c). split; [apply in_map; assumption|].
        apply keys_in_tokens; assumption. }
      destruct (compile_chords k mcs) as [k1|e2] eqn:Ec; cbn [bind] in E1.
      2: { injection E1 as <-. eapply Hgo; eassumption. }
      exfalso. assert (Hcodes := compile_chords_codes _ _ _ Ec).
      destruct (proj1 (front_iff src mcs)) as (cs & -> & Hr); [split; [eauto|assumption]|].
      destruct (compile_one_ok k l ch sq src cs a Hk Hr) as (k2 & l2 & E2 & _).
      unfold compile_one in E2. rewrite Et in E2. cbn [bind] in E2. rewrite Ep in E2. cbn [bind] in E2.
      rewrite Ec in E2. cbn [bind] in E2. congruence. }
  unfold bindings_new in H.
  destruct (compile_all _ cfg) as [k|e1] eqn:E; [discriminate|]. injection H as ->.
  eapply Hgen; [exact kinv_new|exact E].
Qed.
