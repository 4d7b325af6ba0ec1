(** C07: the keybinding configuration language. *)
From Coq Require Import List NArith Bool Lia.
From Verif Require Import Model.Base Model.Trie Model.Keybindings Spec.TrieSpec Spec.KeySpec Spec.KeyErrorsSpec
  Proofs.BaseLemmas Proofs.TrieProofs Proofs.KeybindingProofs Proofs.KeyErrorsProofs.
Import ListNotations.
Open Scope N_scope.

(** A configuration is accepted exactly when every binding in it can be read. *)
Theorem C07_accepted_iff_readable : forall cfg,
  (exists b, bindings_new cfg = Ok b) <->
  Forall (fun e => exists cs, reads (fst e) cs) cfg.
Proof.
  intros cfg. rewrite bindings_new_iff. split.
  - intros [sq H]. induction H as [|e e' cfg sq [H _] _ IH]; constructor; [eauto|assumption].
  - induction 1 as [|[src a] cfg [cs H] _ [sq IH]]; [exists []; constructor|].
    exists ((cs, a) :: sq). constructor; [split; [exact H|reflexivity]|assumption].
Qed.
Print Assumptions C07_accepted_iff_readable.

(** Every text of the documented language whose chords a terminal can send is
    readable, as the chords it writes. *)
Theorem C07_documented_language_is_readable : forall src cs,
  writes src cs -> Forall (fun c => terminal_byte c <> None) cs -> reads src cs.
Proof.
  intros src cs [Hs Hk] Hb. split.
  - rewrite Forall_forall in *. intros c Hc. split; [auto|]. specialize (Hb c Hc). unfold shpool_byte.
    destruct c as [k|[|x]]; try assumption.
    destruct x as [|p]; try assumption. do 7 (destruct p as [p|p|]; try assumption; try discriminate).
  - exists [], []. rewrite Hs. cbn [app]. rewrite app_nil_r. split; [reflexivity|]. split; [|left; reflexivity].
    exists (lit "Ctrl"). split; [discriminate|left; reflexivity].
Qed.
Print Assumptions C07_documented_language_is_readable.

(** In particular chords separated by single spaces, as the manual writes them. *)
Theorem C07_chords_separated_by_spaces : forall cs,
  Forall (fun c => key_ok (chord_key c)) cs -> writes (join_with 32 (map chord_text cs)) cs.
Proof.
  intros cs H. split; [|assumption]. unfold no_blanks, squeezed.
  assert (Ht : forall c, key_ok (chord_key c) -> filter (fun x => negb (is_whitespace x)) (chord_text c) = chord_text c).
  { intros c Hc.
    assert (Hk : filter (fun x => negb (is_whitespace x)) (key_name (chord_key c)) = key_name (chord_key c)).
    { destruct (chord_key c) as [|x]; [reflexivity|]. cbn [key_name filter key_ok] in *.
      rewrite sym_visible by assumption. reflexivity. }
    destruct c as [k|k]; cbn [chord_text chord_key] in *; [assumption|].
    rewrite filter_app, Hk. reflexivity. }
  induction H as [|c cs Hc Hcs IH]; [reflexivity|].
  destruct cs as [|c2 cs].
  - cbn [map join_with concat]. rewrite Ht, app_nil_r by assumption. reflexivity.
  - change (join_with 32 (map chord_text (c :: c2 :: cs)))
      with (chord_text c ++ 32 :: join_with 32 (map chord_text (c2 :: cs))).
    rewrite filter_app, Ht by assumption. cbn [filter]. change (negb (is_whitespace 32)) with false.
    cbn [filter]. rewrite IH. reflexivity.
Qed.
Print Assumptions C07_chords_separated_by_spaces.

Example C07_default_binding :
  writes (lit "Ctrl-Space Ctrl-q") [Ctrl SpaceBar; Ctrl (Sym 113)] /\
  Forall (fun c => terminal_byte c <> None) [Ctrl SpaceBar; Ctrl (Sym 113)] /\
  exists b, bindings_new [(lit "Ctrl-Space Ctrl-q", Detach)] = Ok b.
Proof.
  split; [split; [reflexivity|repeat constructor; cbn; lia]|].
  split; [repeat constructor; discriminate|]. vm_compute. eexists; reflexivity.
Qed.

(** Each text has at most one reading. *)
Theorem C07_reading_is_unique : forall src cs cs', reads src cs -> reads src cs' -> cs = cs'.
Proof.
  intros src cs cs' H H'.
  destruct (proj2 (front_iff src (map chord_keys cs))) as [(ts & Ht & Hp) _]; [exists cs; auto|].
  destruct (proj2 (front_iff src (map chord_keys cs'))) as [(ts' & Ht' & Hp') _]; [exists cs'; auto|].
  assert (ts = ts') by congruence. subst ts'. rewrite Hp in Hp'. injection Hp' as E.
  clear -E. revert cs' E. induction cs as [|c cs IH]; intros [|c' cs'] E; try discriminate; [reflexivity|].
  cbn [map] in E. injection E as E1 E2. f_equal; [apply chord_keys_inj; assumption|auto].
Qed.
Print Assumptions C07_reading_is_unique.

(** The byte listened for is the byte the terminal sends, for every chord but
    Ctrl-x and Ctrl-y. *)
Theorem C07_bytes_partial : forall c, c <> Ctrl (Sym 120) -> c <> Ctrl (Sym 121) ->
  shpool_byte c = terminal_byte c.
Proof.
  intros c Hx Hy. unfold shpool_byte.
  destruct c as [k|[|x]]; try reflexivity.
  destruct x as [|p]; try reflexivity. do 7 (destruct p as [p|p|]; try reflexivity); congruence.
Qed.
Print Assumptions C07_bytes_partial.

(** Ctrl-x and Ctrl-y are listened for under each other's byte. *)
Theorem C07_ctrl_x_and_y_swapped_refuted :
  ~ (forall c, key_ok (chord_key c) -> terminal_byte c <> None ->
       exists b, key_code (chord_keys c) = Ok b /\ terminal_byte c = Some b).
Proof.
  intros H. destruct (H (Ctrl (Sym 120))) as (b & Hb & Ht); try discriminate; [cbn; unfold sym_char; lia|].
  vm_compute in Hb. injection Hb as <-. discriminate.
Qed.
Print Assumptions C07_ctrl_x_and_y_swapped_refuted.

(** Text that is not a list of chords is accepted: a word cut short is ignored,
    a dangling dash is ignored, and the empty text is a binding of no keys. *)
Theorem C07_malformed_text_accepted_refuted :
  (exists b, bindings_new [(lit "a Ctr", Detach)] = Ok b) /\ (forall cs, ~ writes (lit "a Ctr") cs) /\
  (exists b, bindings_new [(lit "a-", Detach)] = Ok b) /\ (forall cs, ~ writes (lit "a-") cs) /\
  (exists b, bindings_new [(lit "", Detach)] = Ok b).
Proof.
  assert (Hno : forall cs w, Forall (fun c => key_ok (chord_key c)) cs -> squeezed cs = w -> w <> [] ->
            exists k pre, key_ok k /\ w = pre ++ key_name k).
  { intros cs w Hk Hs Hw. destruct cs as [|c cs _] using rev_ind; [exfalso; apply Hw; symmetry; exact Hs|].
    apply Forall_app in Hk as [_ Hk]. inversion Hk as [|? ? Hc _]; subst.
    unfold squeezed. rewrite map_app, concat_app. cbn [map concat]. rewrite app_nil_r.
    exists (chord_key c). destruct c as [k|k]; cbn [chord_text chord_key] in *.
    - exists (concat (map chord_text cs)). split; [assumption|reflexivity].
    - exists (concat (map chord_text cs) ++ lit "Ctrl-"). rewrite <- app_assoc. split; [assumption|reflexivity]. }
  assert (Hlast : forall pre k x w, pre ++ key_name k = w ++ [x] -> key_ok k -> sym_char x \/ x = 101).
  { intros pre k x w E Hk. destruct k as [|y]; cbn [key_name] in E.
    - change (lit "Space") with (lit "Spac" ++ [101]) in E. rewrite app_assoc in E.
      apply app_inj_tail in E as [_ <-]. right; reflexivity.
    - apply app_inj_tail in E as [_ <-]. left; exact Hk. }
  split; [vm_compute; eexists; reflexivity|]. split.
  { intros cs [Hs Hk]. change (no_blanks (lit "a Ctr")) with (97 :: 67 :: 116 :: [114]) in Hs.
    (* read back from the text *)
    assert (Hr : reads (lit "aCtr") cs -> False).
    { intros Hr. assert (Hr' : reads (lit "aCtr") [Plain (Sym 97)]).
      { split; [constructor; [split; [cbn; unfold sym_char; lia|discriminate]|constructor]|].
        exists [], (lit "Ctr"). split; [reflexivity|]. split; [|left; reflexivity].
        exists (lit "l"). split; [discriminate|left; reflexivity]. }
      assert (E := C07_reading_is_unique _ _ _ Hr Hr'). subst cs. discriminate. }
    apply Hr. split.
    - assert (Hno7 : ~ In 45 (squeezed cs)) by (rewrite <- Hs; cbn; intuition discriminate).
      rewrite Forall_forall in Hk |- *. intros c Hc. split; [auto|].
      destruct c as [[|y]|k]; [discriminate|discriminate|]. exfalso. apply Hno7.
      unfold squeezed. apply in_concat. exists (chord_text (Ctrl k)). split; [apply in_map; assumption|].
      cbn. tauto.
    - exists [], []. rewrite app_nil_r. split; [exact Hs|]. split; [|left; reflexivity].
      exists (lit "Ctrl"). split; [discriminate|left; reflexivity]. }
  split; [vm_compute; eexists; reflexivity|]. split.
  { intros cs [Hs Hk]. change (no_blanks (lit "a-")) with ([97] ++ [45]) in Hs. symmetry in Hs.
    destruct (Hno cs _ Hk Hs) as (k & pre & Hok & E); [discriminate|].
    symmetry in E. destruct (Hlast _ _ _ _ E Hok) as [H|H]; [|discriminate].
    apply sym_char_cases in H. lia. }
  vm_compute. eexists; reflexivity.
Qed.
Print Assumptions C07_malformed_text_accepted_refuted.

(** What can be accepted beyond the language is only that: remove the dangling
    dash and the cut word and the text is in the language. *)
Theorem C07_accepted_text_partial : forall src a b, bindings_new [(src, a)] = Ok b ->
  exists cs junk, reads src cs /\ no_blanks src = squeezed cs ++ junk /\
    In junk (lit "" :: lit "-" ::
      concat (map (fun w => [w; lit "-" ++ w])
        [lit "C"; lit "Ct"; lit "Ctr"; lit "S"; lit "Sp"; lit "Spa"; lit "Spac"])).
Proof.
  intros src a b H.
  assert (Hx : exists b, bindings_new [(src, a)] = Ok b) by eauto.
  apply C07_accepted_iff_readable in Hx. inversion Hx as [|? ? [cs Hr] _]; subst. cbn [fst] in Hr.
  assert (Hr0 := Hr). destruct Hr as (Hg & dash & w & Hs & Hw & Hd).
  exists cs, (dash ++ w). split; [assumption|]. split; [assumption|].
  apply cut_word_cases in Hw. cbn [In] in Hw.
  assert (Hw' : In w [[]; lit "C"; lit "Ct"; lit "Ctr"; lit "S"; lit "Sp"; lit "Spa"; lit "Spac"]) by exact Hw.
  clear Hw. destruct Hd as [->|[-> _]].
  - destruct Hw' as [<-|[<-|[<-|[<-|[<-|[<-|[<-|[<-|[]]]]]]]]]; cbn; tauto.
  - destruct Hw' as [<-|[<-|[<-|[<-|[<-|[<-|[<-|[<-|[]]]]]]]]]; cbn; tauto.
Qed.
Print Assumptions C07_accepted_text_partial.

(** The limit on the number of distinct chords is never reached, compiling never
    panics, and no internal error is ever reported. *)
Theorem C07_errors_are_about_the_text : forall cfg e, bindings_new cfg = Err e ->
  e <> TooManyChords /\ e <> Panic /\ e <> TrieBug.
Proof. exact new_errors. Qed.
Print Assumptions C07_errors_are_about_the_text.

(** A refusal gives the true reason: what the message says holds of the text of
    one of the bindings. *)
Theorem C07_errors_say_why : forall cfg e, bindings_new cfg = Err e ->
  exists src a, In (src, a) cfg /\ why src e.
Proof. exact errors_say_why. Qed.
Print Assumptions C07_errors_say_why.

Example C07_errors_example :
  bindings_new [(lit "Ctrl-1", NoOp)] = Err (UnknownCode [lit "Ctrl"; lit "1"]) /\
  bindings_new [(lit "A", NoOp)] = Err (UnexpectedChar 65) /\
  bindings_new [(lit "a-b", NoOp)] = Err (NotCtrl [lit "a"; lit "b"]) /\
  bindings_new [(lit "-a", NoOp)] = Err UnexpectedDash /\
  bindings_new [(lit "Ctrl Ctrl-a", NoOp)] = Err (CtrlAlone [lit "Ctrl"]) /\
  bindings_new [(lit "b", Detach); (lit "Ctrl-Ctrl", NoOp)] = Err (CtrlRepeated [lit "Ctrl"; lit "Ctrl"]) /\
  bindings_new [(lit "Ctrl-a-b", NoOp)] = Err (InvalidChord [lit "Ctrl"; lit "a"; lit "b"]).
Proof. vm_compute. repeat split. Qed.
