(** C06: the trie is a finite map searched one symbol at a time, for both of the
    tables the code instantiates it with. *)
From Coq Require Import List NArith Bool Lia.
From Verif Require Import Model.Base Model.Trie Spec.TrieSpec Proofs.TrieProofs.
Import ListNotations.
Open Scope N_scope.

(** The symbols a table can be asked about. *)
Definition any_symbol : N -> Prop := fun _ => True.
Definition u8_symbol : N -> Prop := fun s => s < 256.

(** What searching a trie built by the insertions [h] must report. *)
Definition search_is_exact {V T} (ops : tab_ops T) (symbol : N -> Prop) : Prop :=
  forall h : list (list N * V), Forall (fun e => Forall symbol (fst e)) h ->
  exists t, trie_build ops (trie_new ops) h = Some t /\
    forall s, Forall symbol s ->
      (exists b, trie_contains ops t s = Some b /\ (b = true <-> exists v, bound h s v)) /\
      (s <> [] -> exists c, trie_walk ops t Start s = Some c /\
         (* no inserted string starts this way *)
         (c = NoMatch <-> ~ exists q, inserted h q /\ prefix s q) /\
         (* some inserted string starts this way, but this is not one itself *)
         ((exists i, c = Match i true) <-> (exists q, inserted h q /\ prefix s q) /\ ~ inserted h s) /\
         (* this is an inserted string, and its latest value is returned *)
         ((exists i, c = Match i false) <-> inserted h s) /\
         exists r, trie_get t c = Some r /\ forall v, r = Some v <-> bound h s v).

Lemma exact_from_laws {V T} (ops : tab_ops T) symbol wf :
  tab_laws ops symbol wf -> @search_is_exact V T ops symbol.
Proof.
  intros laws h Hh.
  destruct (build_represents ops symbol wf laws h _ [] (new_represents ops symbol wf laws) Hh) as (t & E & Hr).
  cbn [app] in Hr. exists t. split; [assumption|]. intros s Hs. split.
  - eexists. split; [eapply contains_spec; eassumption|].
    destruct (lookup_last h s) as [v|] eqn:El.
    + split; [|reflexivity]. intros _. exists v. apply lookup_last_bound. assumption.
    + split; [discriminate|]. intros [v Hv]. apply lookup_last_bound in Hv. congruence.
  - intros Hne. destruct (walk_spec ops symbol wf t h s Hr Hs Hne) as (c & Ew & Hc & Hn & Hm & Hg).
    exists c. split; [assumption|]. split; [assumption|].
    assert (Hself : forall v, lookup_last h s = Some v -> inserted h s).
    { intros v Hv. apply lookup_last_bound in Hv as (h1 & h2 & -> & _).
      exists v. apply in_or_app; right; left; reflexivity. }
    assert (Hpre : inserted h s -> exists q, inserted h q /\ prefix s q).
    { intros Hi. exists s. split; [assumption|]. exists []. symmetry; apply app_nil_r. }
    assert (Hin : inserted h s <-> exists v, lookup_last h s = Some v).
    { split; [|intros [v Hv]; eapply Hself; eassumption].
      intros Hi. destruct (lookup_last h s) eqn:El; [eauto|]. apply lookup_last_none in El. contradiction. }
    split; [|split].
    + split.
      * intros [i ->]. specialize (Hm i true eq_refl).
        destruct (lookup_last h s) eqn:El; [discriminate|]. split.
        -- destruct (prefix_dec h s) as [Hy|Hy]; [assumption|]. apply Hn in Hy. discriminate.
        -- apply lookup_last_none. assumption.
      * intros [Hq Hns]. destruct c as [|i p|].
        -- contradiction.
        -- exists i. rewrite (Hm i p eq_refl). destruct (lookup_last h s) eqn:El; [|reflexivity].
           exfalso; apply Hns. eapply Hself; reflexivity.
        -- exfalso. apply Hn in Hq; [assumption|reflexivity].
    + split.
      * intros [i ->]. specialize (Hm i false eq_refl).
        destruct (lookup_last h s) eqn:El; [|discriminate]. eapply Hself; reflexivity.
      * intros Hi. destruct c as [|i p|].
        -- contradiction.
        -- exists i. rewrite (Hm i p eq_refl). apply Hin in Hi as [v ->]. reflexivity.
        -- exfalso. apply Hn; [reflexivity|]. apply Hpre; assumption.
    + exists (lookup_last h s). split; [assumption|]. intros v. apply lookup_last_bound.
Qed.

(** Trie keyed through a hash map (keybinding lexer). *)
Theorem C06_search_is_exact_for_hash_tables : forall V, @search_is_exact V _ hash_tab any_symbol.
Proof. intros V. eapply exact_from_laws. apply hash_laws. Qed.
Print Assumptions C06_search_is_exact_for_hash_tables.

(** Trie keyed through a 256 slot vector (keybinding matcher, sentinel scanner). *)
Theorem C06_search_is_exact_for_byte_tables : forall V, @search_is_exact V _ vec_tab u8_symbol.
Proof. intros V. eapply exact_from_laws. apply vec_laws. Qed.
Print Assumptions C06_search_is_exact_for_byte_tables.

Example C06_example : exists t,
  trie_build vec_tab (trie_new vec_tab) [(lit "ab", 1); (lit "abc", 2); (lit "ab", 3)] = Some t /\
  trie_contains vec_tab t (lit "a") = Some false /\
  trie_contains vec_tab t (lit "ab") = Some true /\
  (exists c, trie_walk vec_tab t Start (lit "ab") = Some c /\ trie_get t c = Some (Some 3)) /\
  trie_walk vec_tab t Start (lit "ac") = Some NoMatch.
Proof. eexists. split; [vm_compute; reflexivity|]. vm_compute. repeat split. eexists; split; reflexivity. Qed.

(** Once the search has failed it stays failed: a fresh search needs a fresh cursor. *)
Theorem C06_no_match_is_final : forall V T (ops : tab_ops T) (t : trie V T) s,
  trie_walk ops t NoMatch s = Some NoMatch.
Proof. intros V T ops t s. induction s as [|x s IH]; [reflexivity|]. exact IH. Qed.
Print Assumptions C06_no_match_is_final.
