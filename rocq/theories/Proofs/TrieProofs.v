From Coq Require Import List NArith Bool Lia Arith.
From Verif Require Import Model.Base Model.Trie Spec.TrieSpec Proofs.BaseLemmas.
Import ListNotations.
Open Scope nat_scope.

(** Generic vector facts. *)
Lemma vec_set_some {A} (v : list A) i x : i < length v -> exists v', vec_set v i x = Some v'.
Proof.
  revert i; induction v as [|y v IH]; intros [|i] H; cbn [length] in H; try lia; cbn [vec_set]; [eauto|].
  destruct (IH i) as [v' ->]; [lia|eauto].
Qed.

Lemma vec_set_spec {A} (v v' : list A) i x : vec_set v i x = Some v' ->
  length v' = length v /\ nth_error v' i = Some x /\ forall j, j <> i -> nth_error v' j = nth_error v j.
Proof.
  revert i v'; induction v as [|y v IH]; intros [|i] v'; cbn [vec_set]; try discriminate.
  - intros [= <-]. cbn [length nth_error]. repeat split. intros [|j] Hj; [congruence|reflexivity].
  - destruct (vec_set v i x) as [w|] eqn:E; [|discriminate]. intros [= <-].
    destruct (IH _ _ E) as (H1 & H2 & H3). cbn [length nth_error]. repeat split; [lia|assumption|].
    intros [|j] Hj; [reflexivity|]. apply H3. congruence.
Qed.

(** The laws the two tables obey, for symbols satisfying [ok]. *)
Record tab_laws {T} (ops : tab_ops T) (ok : N -> Prop) (wf : T -> Prop) : Prop := mkLaws {
  law_new : wf (tab_new ops) /\ forall s, ok s -> tab_get ops (tab_new ops) s = Some None;
  law_get : forall t s, wf t -> ok s -> exists r, tab_get ops t s = Some r;
  law_set : forall t s i, wf t -> ok s -> exists t', tab_set ops t s i = Some t' /\ wf t' /\
              tab_get ops t' s = Some (Some i) /\
              forall s', ok s' -> s' <> s -> tab_get ops t' s' = tab_get ops t s'
}.

Lemma hash_laws : tab_laws hash_tab (fun _ => True) (fun _ => True).
Proof.
  split.
  - split; [exact I|]. intros s _. reflexivity.
  - intros t s _ _. eexists; reflexivity.
  - intros t s i _ _. exists ((s, i) :: t). cbn [hash_tab tab_set tab_get hash_get].
    repeat split; [rewrite N.eqb_refl; reflexivity|].
    intros s' _ Hs. destruct (N.eqb_spec s' s); [contradiction|reflexivity].
Qed.

Lemma vec_laws : tab_laws vec_tab (fun s => (s < 256)%N) (fun v => length v = 256).
Proof.
  split.
  - split; [apply repeat_length|]. intros s Hs. cbn [vec_tab tab_get tab_new]. unfold vec_get.
    rewrite nth_error_repeat; [reflexivity|]. lia.
  - intros t s Ht Hs. cbn [vec_tab tab_get]. unfold vec_get.
    destruct (nth_error t (N.to_nat s)) eqn:E; [eauto|]. apply nth_error_None in E. lia.
  - intros t s i Ht Hs. cbn [vec_tab tab_get tab_set].
    destruct (vec_set_some t (N.to_nat s) (Some i)) as [t' E]; [lia|].
    exists t'. destruct (vec_set_spec _ _ _ _ E) as (H1 & H2 & H3).
    repeat split; [assumption|lia|assumption|].
    intros s' Hs' Hne. unfold vec_get. apply H3. lia.
Qed.

Section TrieProofs.
Context {V T : Type} (ops : tab_ops T) (ok : N -> Prop) (wf : T -> Prop).
Hypothesis laws : tab_laws ops ok wf.

Definition lookup_last (h : list (list N * V)) (s : list N) : option V :=
  fold_left (fun acc e => if str_eqb (fst e) s then Some (snd e) else acc) h None.

Lemma lookup_last_app h e s :
  lookup_last (h ++ [e]) s = if str_eqb (fst e) s then Some (snd e) else lookup_last h s.
Proof. unfold lookup_last. rewrite fold_left_app. reflexivity. Qed.

Lemma lookup_last_bound h s v : lookup_last h s = Some v <-> bound h s v.
Proof.
  revert v; induction h as [|[s' v'] h IH] using rev_ind; intros v.
  - split; [discriminate|]. intros (h1 & h2 & E & _). destruct h1; discriminate.
  - rewrite lookup_last_app; cbn [fst snd]. destruct (str_eqb s' s) eqn:E.
    + apply str_eqb_eq in E; subst s'. split.
      * intros [= <-]. exists h, []. split; [reflexivity|]. intros w [].
      * intros (h1 & h2 & Eq & Hn). destruct h2 as [|x h2 _] using rev_ind.
        { apply app_inj_tail in Eq as [_ Eq]. congruence. }
        exfalso. change ((s, v) :: h2 ++ [x]) with (((s, v) :: h2) ++ [x]) in Eq.
        rewrite app_assoc in Eq. apply app_inj_tail in Eq as [_ Eq]. subst x.
        apply (Hn v'). apply in_or_app; right; left; reflexivity.
    + apply str_eqb_neq in E. rewrite IH. split.
      * intros (h1 & h2 & -> & Hn). exists h1, (h2 ++ [(s', v')]). rewrite <- app_assoc.
        split; [reflexivity|]. intros w Hw. apply in_app_or in Hw as [Hw|[Hw|[]]]; [eapply Hn; eassumption|].
        congruence.
      * intros (h1 & h2 & Eq & Hn). destruct h2 as [|x h2 _] using rev_ind.
        { apply app_inj_tail in Eq as [_ Eq]. congruence. }
        change ((s, v) :: h2 ++ [x]) with (((s, v) :: h2) ++ [x]) in Eq.
        rewrite app_assoc in Eq. apply app_inj_tail in Eq as [Eq _]. exists h1, h2. split; [assumption|].
        intros w Hw. apply (Hn w). apply in_or_app; left; assumption.
Qed.

Lemma lookup_last_none h s : lookup_last h s = None <-> ~ inserted h s.
Proof.
  unfold inserted. induction h as [|[s' v'] h IH] using rev_ind.
  - split; [intros _ [v []]|reflexivity].
  - rewrite lookup_last_app; cbn [fst snd]. destruct (str_eqb s' s) eqn:E.
    + apply str_eqb_eq in E; subst s'. split; [discriminate|]. intros H. exfalso; apply H.
      exists v'. apply in_or_app; right; left; reflexivity.
    + apply str_eqb_neq in E. rewrite IH. split; intros H [v Hv]; apply H.
      * apply in_app_or in Hv as [Hv|[Hv|[]]]; [eauto|]. congruence.
      * exists v. apply in_or_app; left; assumption.
Qed.

(** Structural invariant: every node carries the string that leads to it. *)
Definition links (t : trie V T) (ls : list (list N)) : Prop :=
  forall i nd l, nth_error t i = Some nd -> nth_error ls i = Some l ->
    wf (n_tab nd) /\
    forall s, ok s -> exists r, tab_get ops (n_tab nd) s = Some r /\
      (forall j, r = Some j <-> nth_error ls j = Some (l ++ [s])).

Definition closed (ls : list (list N)) : Prop := forall l s, In (l ++ [s]) ls -> In l ls.

Definition shape (t : trie V T) (ls : list (list N)) : Prop :=
  length t = length ls /\ NoDup ls /\ nth_error ls 0 = Some [] /\ closed ls /\ links t ls.

Definition values (t : trie V T) (ls : list (list N)) (val : list N -> option V) : Prop :=
  forall i nd l, nth_error t i = Some nd -> nth_error ls i = Some l -> n_value nd = val l.

Lemma nth_same_len (t : trie V T) (ls : list (list N)) i l :
  length t = length ls -> nth_error ls i = Some l -> exists nd, nth_error t i = Some nd.
Proof.
  intros Hl Hi. assert (i < length ls) by (apply nth_error_Some; congruence).
  destruct (nth_error t i) eqn:E; [eauto|]. apply nth_error_None in E. lia.
Qed.

Lemma nodup_nth (ls : list (list N)) i j l :
  NoDup ls -> nth_error ls i = Some l -> nth_error ls j = Some l -> i = j.
Proof.
  intros Hd Hi Hj. rewrite NoDup_nth_error in Hd. apply Hd; [|congruence].
  apply nth_error_Some. congruence.
Qed.

Lemma snoc_nth (ls : list (list N)) x j y :
  nth_error (ls ++ [x]) j = Some y <-> nth_error ls j = Some y \/ (j = length ls /\ y = x).
Proof.
  split.
  - intros H. destruct (Nat.lt_ge_cases j (length ls)) as [Hj|Hj].
    + left. rewrite nth_error_app1 in H; assumption.
    + right. rewrite nth_error_app2 in H by assumption.
      destruct (j - length ls) as [|k] eqn:E; [|destruct k; discriminate].
      injection H as <-. split; [lia|reflexivity].
  - intros [H|[-> ->]].
    + rewrite nth_error_app1; [assumption|]. apply nth_error_Some; congruence.
    + rewrite nth_error_app2, Nat.sub_diag by lia. reflexivity.
Qed.

Lemma NoDup_snoc (ls : list (list N)) x : NoDup ls -> ~ In x ls -> NoDup (ls ++ [x]).
Proof.
  intros Hd Hx. rewrite <- (rev_involutive (ls ++ [x])). apply NoDup_rev.
  rewrite rev_app_distr. cbn [rev app]. constructor; [|apply NoDup_rev; assumption].
  rewrite <- in_rev. assumption.
Qed.

Lemma grow t ls val cur nd l sym :
  shape t ls -> values t ls val -> nth_error ls cur = Some l -> nth_error t cur = Some nd -> ok sym ->
  ~ In (l ++ [sym]) ls -> val (l ++ [sym]) = None ->
  exists tab' t2, tab_set ops (n_tab nd) sym (length t) = Some tab' /\
    vec_set (t ++ [mkNode None (tab_new ops)]) cur (mkNode (n_value nd) tab') = Some t2 /\
    shape t2 (ls ++ [l ++ [sym]]) /\ values t2 (ls ++ [l ++ [sym]]) val.
Proof.
  intros (Hlen & Hnd & H0 & Hcl & Hlinks) Hval Hcur Hnd' Hs Hnew Hvn.
  destruct (Hlinks cur nd l Hnd' Hcur) as [Hwf Hl].
  destruct (law_set _ _ _ laws (n_tab nd) sym (length t) Hwf Hs) as (tab' & Eset & Hwf' & Hgs & Hgo).
  assert (Hcurl : cur < length t) by (apply nth_error_Some; congruence).
  destruct (vec_set_some (t ++ [mkNode None (tab_new ops)]) cur (mkNode (n_value nd) tab')) as [t2 E2].
  { rewrite app_length. cbn [length]. lia. }
  exists tab', t2. split; [assumption|]. split; [assumption|].
  destruct (vec_set_spec _ _ _ _ E2) as (L2 & N2 & O2).
  assert (Hnode : forall i nd2, nth_error t2 i = Some nd2 ->
            (i = cur /\ nd2 = mkNode (n_value nd) tab') \/
            (i = length t /\ nd2 = mkNode None (tab_new ops)) \/
            (i <> cur /\ nth_error t i = Some nd2)).
  { intros i nd2 Hi. destruct (Nat.eq_dec i cur) as [->|Hic]; [left; split; congruence|].
    rewrite O2 in Hi by assumption.
    destruct (Nat.lt_ge_cases i (length t)) as [Hl'|Hl'].
    - right; right. rewrite nth_error_app1 in Hi by assumption. auto.
    - right; left. rewrite nth_error_app2 in Hi by assumption.
      destruct (i - length t) as [|k] eqn:E; [|destruct k; discriminate].
      injection Hi as <-. split; [lia|reflexivity]. }
  split; [split; [|split; [|split; [|split]]]|].
  - rewrite L2, !app_length. cbn [length]. lia.
  - apply NoDup_snoc; assumption.
  - apply snoc_nth. left; assumption.
  - intros l' s Hin. apply in_app_or in Hin as [Hin|[Hin|[]]]; apply in_or_app; left.
    + eapply Hcl; eassumption.
    + apply app_inj_tail in Hin as [<- _]. eapply nth_error_In; eassumption.
  - intros i nd2 l2 Hi Hl2. apply snoc_nth in Hl2.
    destruct (Hnode i nd2 Hi) as [[-> ->]|[[-> ->]|[Hic Hi']]]; cbn [n_tab].
    + destruct Hl2 as [Hl2|[Hl2 _]]; [|lia]. assert (l2 = l) by congruence. subst l2.
      split; [assumption|]. intros s Hsok. destruct (N.eq_dec s sym) as [->|Hss].
      * exists (Some (length t)). split; [assumption|]. intros j. rewrite snoc_nth. split.
        -- intros [= <-]. right. split; [assumption|reflexivity].
        -- intros [Hj|[-> _]]; [|congruence]. exfalso; apply Hnew. eapply nth_error_In; eassumption.
      * destruct (Hl s Hsok) as (r & Hg & Hrr). exists r. rewrite Hgo by assumption.
        split; [assumption|]. intros j. rewrite snoc_nth, Hrr. split; [auto|].
        intros [Hj|[_ Hj]]; [assumption|]. apply app_inj_tail in Hj as [_ Hj]. contradiction.
    + destruct Hl2 as [Hl2|[_ ->]].
      { exfalso. assert (length t < length ls) by (apply nth_error_Some; congruence). lia. }
      destruct (law_new _ _ _ laws) as [Hw Hg]. split; [assumption|].
      intros s Hsok. exists None. split; [apply Hg; assumption|]. intros j. split; [discriminate|].
      rewrite snoc_nth. intros [Hj|[_ Hj]].
      * exfalso. apply Hnew. eapply Hcl. eapply nth_error_In; eassumption.
      * exfalso. apply (f_equal (@length N)) in Hj. rewrite !app_length in Hj. cbn [length] in Hj. lia.
    + destruct Hl2 as [Hl2|[Hl2 _]].
      2: { exfalso. assert (i < length t) by (apply nth_error_Some; congruence). lia. }
      destruct (Hlinks i nd2 l2 Hi' Hl2) as [Hw Hg]. split; [assumption|].
      intros s Hsok. destruct (Hg s Hsok) as (r & Hgr & Hrr). exists r. split; [assumption|].
      intros j. rewrite snoc_nth, Hrr. split; [auto|]. intros [Hj|[_ Hj]]; [assumption|].
      exfalso. apply app_inj_tail in Hj as [-> _]. apply Hic. eapply nodup_nth; eassumption.
  - intros i nd2 l2 Hi Hl2. apply snoc_nth in Hl2.
    destruct (Hnode i nd2 Hi) as [[-> ->]|[[-> ->]|[Hic Hi']]]; cbn [n_value].
    + destruct Hl2 as [Hl2|[Hl2 _]]; [|lia]. apply (Hval cur nd l2); assumption.
    + destruct Hl2 as [Hl2|[_ ->]]; [|symmetry; assumption].
      exfalso. assert (length t < length ls) by (apply nth_error_Some; congruence). lia.
    + destruct Hl2 as [Hl2|[Hl2 _]].
      * apply (Hval i nd2 l2); assumption.
      * exfalso. assert (i < length t) by (apply nth_error_Some; congruence). lia.
Qed.

Lemma insert_walk_spec seq : forall t ls val cur l,
  shape t ls -> values t ls val -> nth_error ls cur = Some l -> Forall ok seq ->
  (forall s, ~ In s ls -> val s = None) ->
  exists t' ls' cur', insert_walk ops t cur seq = Some (t', cur') /\
    shape t' ls' /\ values t' ls' val /\ nth_error ls' cur' = Some (l ++ seq) /\
    (forall s, In s ls' <-> In s ls \/ exists p q, seq = p ++ q /\ s = l ++ p).
Proof.
  induction seq as [|sym seq IH]; intros t ls val cur l Hsh Hval Hcur Hok Hnone.
  - exists t, ls, cur. cbn [insert_walk]. rewrite app_nil_r.
    split; [reflexivity|]. split; [assumption|]. split; [assumption|]. split; [assumption|].
    intros s. split; [auto|].
    intros [H|(p & q & Hpq & ->)]; [assumption|].
    destruct p; [|discriminate]. rewrite app_nil_r. eapply nth_error_In; eassumption.
  - inversion Hok as [|? ? Hs Hok']; subst.
    assert (Hsh0 := Hsh). destruct Hsh0 as (Hlen & Hnd & H0 & Hcl & Hlinks).
    destruct (nth_same_len t ls cur l Hlen Hcur) as [nd Hnd'].
    destruct (Hlinks cur nd l Hnd' Hcur) as [Hwf Hl].
    destruct (Hl sym Hs) as (r & Hget & Hr).
    cbn [insert_walk]. unfold vec_get. rewrite Hnd', Hget.
    assert (Hfin : forall ls0 ls' , (forall s, In s ls0 <-> In s ls \/ s = l ++ [sym]) ->
       (forall s, In s ls' <-> In s ls0 \/ exists p q, seq = p ++ q /\ s = (l ++ [sym]) ++ p) ->
       forall s, In s ls' <-> In s ls \/ exists p q, sym :: seq = p ++ q /\ s = l ++ p).
    { intros ls0 ls' H1 H2 s. rewrite H2, H1. split.
      - intros [[H| ->]|(p & q & -> & ->)]; [left; assumption| |].
        + right. exists [sym], seq. split; reflexivity.
        + right. exists (sym :: p), q. rewrite <- app_assoc. split; reflexivity.
      - intros [H|(p & q & Hpq & ->)]; [left; left; assumption|].
        destruct p as [|x p].
        + left; left. rewrite app_nil_r. eapply nth_error_In; eassumption.
        + injection Hpq as -> ->. right. exists p, q. rewrite <- app_assoc. split; reflexivity. }
    destruct r as [nxt|].
    + assert (Hnxt : nth_error ls nxt = Some (l ++ [sym])) by (apply Hr; reflexivity).
      destruct (IH t ls val nxt (l ++ [sym]) Hsh Hval Hnxt Hok' Hnone)
        as (t' & ls' & cur' & E & Hsh' & Hval' & Hcur' & Hin).
      exists t', ls', cur'. rewrite <- app_assoc in Hcur'. cbn [app] in Hcur'.
      split; [assumption|]. split; [assumption|]. split; [assumption|]. split; [assumption|].
      apply (Hfin ls); [|assumption]. intros s. split; [auto|].
      intros [H| ->]; [assumption|]. eapply nth_error_In; eassumption.
    + assert (Hnew : ~ In (l ++ [sym]) ls).
      { intros Hin. apply In_nth_error in Hin as [j Hj]. apply Hr in Hj. discriminate. }
      destruct (grow t ls val cur nd l sym Hsh Hval Hcur Hnd' Hs Hnew (Hnone _ Hnew))
        as (tab' & t2 & E1 & E2 & Hsh2 & Hval2).
      cbv zeta. rewrite E1, E2.
      destruct (IH t2 (ls ++ [l ++ [sym]]) val (length t) (l ++ [sym]) Hsh2 Hval2)
        as (t' & ls' & cur' & E & Hsh' & Hval' & Hcur' & Hin).
      { apply snoc_nth. right. split; [assumption|reflexivity]. }
      { assumption. }
      { intros s Hsn. apply Hnone. intros H; apply Hsn. apply in_or_app; left; assumption. }
      exists t', ls', cur'. rewrite <- app_assoc in Hcur'. cbn [app] in Hcur'.
      split; [assumption|]. split; [assumption|]. split; [assumption|]. split; [assumption|].
      apply (Hfin (ls ++ [l ++ [sym]])); [|assumption]. intros s. rewrite in_app_iff. cbn [In].
      split; [intros [H|[H|[]]]; auto|intros [H| ->]; auto].
Qed.

(** The invariant relating a trie to its insertion history. *)
Definition represents (t : trie V T) (h : list (list N * V)) : Prop :=
  exists ls, shape t ls /\ values t ls (lookup_last h) /\
    (forall s, In s ls <-> s = [] \/ exists q, inserted h q /\ prefix s q).

Lemma new_represents : represents (trie_new ops) [].
Proof.
  exists [[]]. split; [|split].
  - split; [reflexivity|]. split; [repeat constructor; intros []|]. split; [reflexivity|]. split.
    + intros l s [H|[]]. destruct l; discriminate.
    + intros [|i] nd l Hi Hl; [|destruct i; discriminate]. injection Hi as <-. injection Hl as <-.
      cbn [n_tab]. destruct (law_new _ _ _ laws) as [Hw Hg]. split; [assumption|].
      intros s Hs. exists None. split; [apply Hg; assumption|]. intros j. split; [discriminate|].
      destruct j as [|[|j]]; cbn; discriminate.
  - intros [|i] nd l Hi Hl; [|destruct i; discriminate]. injection Hi as <-. reflexivity.
  - intros s. split.
    + intros [<-|[]]. left; reflexivity.
    + intros [->|(q & [v []] & _)]. left; reflexivity.
Qed.

Lemma insert_represents t h seq v : represents t h -> Forall ok seq ->
  exists t', trie_insert ops t seq v = Some t' /\ represents t' (h ++ [(seq, v)]).
Proof.
  intros (ls & Hsh & Hval & Hls) Hok.
  assert (Hnone : forall s, ~ In s ls -> lookup_last h s = None).
  { intros s Hs. apply lookup_last_none. intros Hi. apply Hs, Hls. right. exists s.
    split; [assumption|]. exists []. symmetry; apply app_nil_r. }
  assert (H0 : nth_error ls 0 = Some []) by (apply Hsh).
  destruct (insert_walk_spec seq t ls (lookup_last h) 0 [] Hsh Hval H0 Hok Hnone)
    as (t1 & ls1 & cur & E & Hsh1 & Hval1 & Hcur & Hin).
  cbn [app] in Hcur, Hin.
  unfold trie_insert. rewrite E. unfold vec_get.
  destruct Hsh1 as (Hlen & Hnd & H01 & Hcl & Hlinks).
  destruct (nth_same_len t1 ls1 cur seq Hlen Hcur) as [nd Hnd'].
  rewrite Hnd'.
  destruct (vec_set_some t1 cur (mkNode (Some v) (n_tab nd))) as [t2 E2].
  { apply nth_error_Some. congruence. }
  exists t2. split; [assumption|].
  destruct (vec_set_spec _ _ _ _ E2) as (L2 & N2 & O2).
  exists ls1. split; [split; [congruence|split; [assumption|split; [assumption|split; [assumption|]]]]|split].
  - intros i nd2 l2 Hi Hl2. destruct (Nat.eq_dec i cur) as [->|Hic].
    + rewrite N2 in Hi. injection Hi as <-. cbn [n_tab]. apply (Hlinks cur nd l2); assumption.
    + rewrite O2 in Hi by assumption. apply (Hlinks i nd2 l2); assumption.
  - intros i nd2 l2 Hi Hl2. rewrite lookup_last_app. cbn [fst snd].
    destruct (Nat.eq_dec i cur) as [->|Hic].
    + rewrite N2 in Hi. injection Hi as <-. assert (l2 = seq) by congruence. subst.
      rewrite str_eqb_refl. reflexivity.
    + rewrite O2 in Hi by assumption. destruct (str_eqb seq l2) eqn:Es.
      * apply str_eqb_eq in Es; subst. exfalso; apply Hic. eapply nodup_nth; eassumption.
      * apply (Hval1 i nd2 l2); assumption.
  - intros s. rewrite Hin, Hls. unfold inserted, prefix. split.
    + intros [[H|(q & [w Hw] & Hp)]|(p & q & -> & ->)]; [left; assumption| |].
      * right. exists q. split; [|assumption]. exists w. apply in_or_app; left; assumption.
      * right. exists (p ++ q). split; [|exists q; reflexivity]. exists v. apply in_or_app; right; left; reflexivity.
    + intros [H|(q & [w Hw] & (r & ->))]; [left; left; assumption|].
      apply in_app_or in Hw as [Hw|[Hw|[]]].
      * left; right. exists (s ++ r). split; [eauto|]. exists r; reflexivity.
      * right. injection Hw as -> _. exists s, r. split; reflexivity.
Qed.

Lemma build_represents h2 : forall t h, represents t h -> Forall (fun e => Forall ok (fst e)) h2 ->
  exists t', trie_build ops t h2 = Some t' /\ represents t' (h ++ h2).
Proof.
  induction h2 as [|[seq v] h2 IH]; intros t h Hr Hok; cbn [trie_build].
  - exists t. rewrite app_nil_r. split; [reflexivity|assumption].
  - inversion Hok as [|? ? Ho Hok']; subst. cbn [fst] in Ho.
    destruct (insert_represents t h seq v Hr Ho) as (t1 & E1 & Hr1). rewrite E1.
    destruct (IH t1 (h ++ [(seq, v)]) Hr1 Hok') as (t' & E & Hr'). exists t'.
    rewrite <- app_assoc in Hr'. split; assumption.
Qed.

(** Cursors against strings. *)
Definition at_string (t : trie V T) (ls : list (list N)) (c : cursor) (s : list N) : Prop :=
  match c with
  | Start => s = []
  | Match i p => nth_error ls i = Some s
  | NoMatch => ~ In s ls
  end.

Lemma in_extend ls s q : closed ls -> In (s ++ q) ls -> In s ls.
Proof.
  intros Hcl. induction q as [|x q IH] using rev_ind; [rewrite app_nil_r; auto|].
  rewrite app_assoc. intros H. apply IH. eapply Hcl; eassumption.
Qed.

Lemma advance_spec t ls h c s sym : shape t ls -> values t ls (lookup_last h) -> at_string t ls c s -> ok sym ->
  exists c', trie_advance ops t c sym = Some c' /\ at_string t ls c' (s ++ [sym]) /\
    match c' with
    | Start => False
    | Match i p => In (s ++ [sym]) ls /\ p = (match lookup_last h (s ++ [sym]) with None => true | Some _ => false end) /\
                   trie_get t c' = Some (lookup_last h (s ++ [sym]))
    | NoMatch => True
    end.
Proof.
  intros (Hlen & Hnd & H0 & Hcl & Hlinks) Hval Hat Hok.
  assert (Hgo : forall i, nth_error ls i = Some s ->
    exists c', (match vec_get t i with
      | None => None
      | Some nd =>
          match tab_get ops (n_tab nd) sym with
          | None => None
          | Some None => Some NoMatch
          | Some (Some idx) =>
              match vec_get t idx with
              | None => None
              | Some nd' => Some (Match idx (match n_value nd' with None => true | Some _ => false end))
              end
          end
      end) = Some c' /\ at_string t ls c' (s ++ [sym]) /\
    match c' with
    | Start => False
    | Match i p => In (s ++ [sym]) ls /\ p = (match lookup_last h (s ++ [sym]) with None => true | Some _ => false end) /\
                   trie_get t c' = Some (lookup_last h (s ++ [sym]))
    | NoMatch => True
    end).
  { intros i Hi. destruct (nth_same_len t ls i s Hlen Hi) as [nd Hnd']. unfold vec_get. rewrite Hnd'.
    destruct (Hlinks i nd s Hnd' Hi) as [_ Hl]. destruct (Hl sym Hok) as (r & -> & Hr).
    destruct r as [j|].
    - assert (Hj : nth_error ls j = Some (s ++ [sym])) by (apply Hr; reflexivity).
      destruct (nth_same_len t ls j _ Hlen Hj) as [nd2 Hnd2]. rewrite Hnd2.
      eexists. split; [reflexivity|]. rewrite (Hval j nd2 _ Hnd2 Hj).
      split; [assumption|]. split; [eapply nth_error_In; eassumption|]. split; [reflexivity|].
      cbn [trie_get]. unfold vec_get. rewrite Hnd2. f_equal. apply (Hval j); assumption.
    - eexists. split; [reflexivity|]. split; [|exact I]. cbn [at_string]. intros Hin.
      apply In_nth_error in Hin as [j Hj]. apply Hr in Hj. discriminate. }
  destruct c as [|i p|]; cbn [at_string] in Hat.
  - subst s. apply (Hgo O). assumption.
  - apply (Hgo i). assumption.
  - exists NoMatch. split; [reflexivity|]. split; [|exact I]. cbn [at_string].
    intros Hin. apply Hat. eapply in_extend; eassumption.
Qed.

Lemma walk_spec t h seq : represents t h -> Forall ok seq -> seq <> [] ->
  exists c, trie_walk ops t Start seq = Some c /\ c <> Start /\
    (c = NoMatch <-> ~ exists q, inserted h q /\ prefix seq q) /\
    (forall i p, c = Match i p -> p = (match lookup_last h seq with None => true | Some _ => false end)) /\
    trie_get t c = Some (lookup_last h seq).
Proof.
  intros (ls & Hsh & Hval & Hls) Hok Hne.
  assert (Hw : forall seq2 c s, at_string t ls c s -> Forall ok seq2 ->
            (c = Start -> s = []) ->
            match c with
            | Match i p => p = (match lookup_last h s with None => true | Some _ => false end) /\
                           trie_get t c = Some (lookup_last h s)
            | _ => True
            end ->
            exists c', trie_walk ops t c seq2 = Some c' /\ at_string t ls c' (s ++ seq2) /\
               (c' = Start -> c = Start /\ seq2 = []) /\
               match c' with
               | Match i p => p = (match lookup_last h (s ++ seq2) with None => true | Some _ => false end) /\
                              trie_get t c' = Some (lookup_last h (s ++ seq2))
               | _ => True
               end).
  { induction seq2 as [|x seq2 IH]; intros c s Hat Ho Hst Hm; cbn [trie_walk].
    - exists c. rewrite app_nil_r. auto.
    - inversion Ho as [|? ? Hx Ho']; subst.
      destruct (advance_spec t ls h c s x Hsh Hval Hat Hx) as (c1 & E1 & Hat1 & Hm1). rewrite E1.
      assert (Hns : c1 <> Start) by (destruct c1; [contradiction|discriminate|discriminate]).
      destruct (IH c1 (s ++ [x]) Hat1 Ho') as (c2 & E2 & Hat2 & Hs2 & Hm2).
      { congruence. }
      { destruct c1; auto. destruct Hm1 as (_ & H1 & H2). auto. }
      exists c2. rewrite <- app_assoc in Hat2, Hm2. cbn [app] in Hat2, Hm2.
      split; [assumption|]. split; [assumption|]. split; [|assumption].
      intros Hc2. destruct (Hs2 Hc2) as [? _]. contradiction. }
  destruct (Hw seq Start [] eq_refl Hok (fun _ => eq_refl) I) as (c & E & Hat & Hst & Hm).
  cbn [app] in *. exists c. split; [assumption|].
  assert (Hc : c <> Start) by (intros Hc; destruct (Hst Hc); contradiction).
  split; [assumption|].
  assert (Hin : In seq ls <-> exists q, inserted h q /\ prefix seq q).
  { rewrite Hls. split; [intros [?|?]; [contradiction|assumption]|auto]. }
  assert (Hself : forall v, lookup_last h seq = Some v -> In seq ls).
  { intros v Hv. apply Hls. right. exists seq. split; [|exists []; symmetry; apply app_nil_r].
    apply lookup_last_bound in Hv as (h1 & h2 & -> & _). exists v. apply in_or_app; right; left; reflexivity. }
  destruct c as [|i p|]; [contradiction| |].
  - cbn [at_string] in Hat. destruct Hm as [Hp Hg]. split; [|split; [|assumption]].
    + split; [discriminate|]. intros Hn. exfalso; apply Hn, Hin. eapply nth_error_In; eassumption.
    + intros i' p' [= <- <-]. assumption.
  - cbn [at_string] in Hat. split; [|split; [discriminate|]].
    + split; [intros _; rewrite <- Hin; assumption|reflexivity].
    + cbn [trie_get]. destruct (lookup_last h seq) as [v|] eqn:Ev; [|reflexivity].
      exfalso; apply Hat. eapply Hself; reflexivity.
Qed.

Lemma contains_spec t h seq : represents t h -> Forall ok seq ->
  trie_contains ops t seq = Some (match lookup_last h seq with Some _ => true | None => false end).
Proof.
  intros (ls & Hsh & Hval & Hls) Hok. unfold trie_contains.
  assert (Hnone : forall s, ~ In s ls -> lookup_last h s = None).
  { intros s Hs. apply lookup_last_none. intros Hi. apply Hs, Hls. right. exists s.
    split; [assumption|]. exists []. symmetry; apply app_nil_r. }
  assert (Hw : forall seq2 c s, at_string t ls c s -> Forall ok seq2 -> c <> NoMatch ->
            match c with
            | Match i p => p = (match lookup_last h s with None => true | Some _ => false end)
            | _ => True
            end ->
            contains_walk ops t c seq2 = Some (match lookup_last h (s ++ seq2) with Some _ => true | None => false end)).
  { induction seq2 as [|x seq2 IH]; intros c s Hat Ho Hnm Hm; cbn [contains_walk].
    - rewrite app_nil_r. destruct c as [|i p|]; [| |contradiction].
      + cbn [at_string] in Hat. subst s. destruct Hsh as (Hlen & _ & H0 & _ & _).
        destruct (nth_same_len t ls O [] Hlen H0) as [nd Hnd]. unfold vec_get. rewrite Hnd.
        rewrite (Hval O nd [] Hnd H0). destruct (lookup_last h []); reflexivity.
      + rewrite Hm. destruct (lookup_last h s); reflexivity.
    - inversion Ho as [|? ? Hx Ho']; subst.
      destruct (advance_spec t ls h c s x Hsh Hval Hat Hx) as (c1 & E1 & Hat1 & Hm1). rewrite E1.
      destruct c1 as [|i p|].
      + contradiction.
      + destruct Hm1 as (_ & H1 & _). rewrite (IH (Match i p) (s ++ [x])); try assumption; [|discriminate].
        rewrite <- app_assoc. reflexivity.
      + cbn [at_string] in Hat1. rewrite Hnone; [reflexivity|].
        intros Hin. apply Hat1. destruct Hsh as (_ & _ & _ & Hcl & _).
        apply (in_extend ls (s ++ [x]) seq2 Hcl). rewrite <- app_assoc. assumption. }
  rewrite (Hw seq Start []); try assumption; try reflexivity; discriminate || exact I.
Qed.
End TrieProofs.

Lemma prefix_dec {V} (h : list (list N * V)) s :
  (exists q, inserted h q /\ prefix s q) \/ ~ (exists q, inserted h q /\ prefix s q).
Proof.
  assert (Hp : forall q, {prefix s q} + {~ prefix s q}).
  { induction s as [|x s IH]; intros q; [left; exists q; reflexivity|].
    destruct q as [|y q]; [right; intros [r Hr]; discriminate|].
    destruct (N.eq_dec x y) as [->|Hxy]; [|right; intros [r Hr]; injection Hr; congruence].
    destruct (IH q) as [H|H].
    - left. destruct H as [r ->]. exists r; reflexivity.
    - right. intros [r Hr]. injection Hr as ->. apply H. exists r; reflexivity. }
  induction h as [|[q v] h IH].
  - right. intros (q & [v []] & _).
  - destruct (Hp q) as [H|H]; [left; exists q; split; [exists v; left; reflexivity|assumption]|].
    destruct IH as [(q' & [w Hw] & Hq)|IH].
    + left. exists q'. split; [exists w; right; assumption|assumption].
    + right. intros (q' & [w [Hw|Hw]] & Hq); [congruence|]. apply IH. exists q'. split; [exists w|]; assumption.
Qed.
