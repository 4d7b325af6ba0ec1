From Coq Require Import List NArith Bool Arith Lia.
From Verif Require Import Model.Base Model.Trie Model.Sentinel Spec.TrieSpec Spec.SentinelSpec
  Proofs.BaseLemmas Proofs.TrieProofs.
Import ListNotations.
Open Scope N_scope.

(** The same search as a function: what is left when the word is found, or the part
    of the word read so far. *)
Fixpoint find (word cur stream : list N) : list N + list N :=
  match stream with
  | [] => inr cur
  | x :: stream' =>
      if list_eq_dec N.eq_dec (cur ++ [x]) word then inl stream'
      else if list_eq_dec N.eq_dec (firstn (length (cur ++ [x])) word) (cur ++ [x])
           then find word (cur ++ [x]) stream'
           else find word [] stream'
  end.

Lemma prefix_firstn (p w : list N) : firstn (length p) w = p <-> prefix p w.
Proof.
  split.
  - intros H. exists (skipn (length p) w). rewrite <- H at 1. symmetry; apply firstn_skipn.
  - intros [q ->]. rewrite firstn_app, firstn_all, Nat.sub_diag. cbn [firstn]. apply app_nil_r.
Qed.

Lemma find_finds word stream : forall cur rest, find word cur stream = inl rest <-> finds word cur stream rest.
Proof.
  induction stream as [|x stream IH]; intros cur rest; cbn [find].
  - split; [discriminate|]. intros H; inversion H.
  - destruct (list_eq_dec N.eq_dec (cur ++ [x]) word) as [E|E].
    + split; [intros [= ->]; apply f_done; assumption|]. intros H; inversion H; subst; [reflexivity|contradiction|].
      match goal with Hn : ~ prefix ?p ?p |- _ => exfalso; apply Hn; exists []; symmetry; apply app_nil_r end.
    + destruct (list_eq_dec N.eq_dec (firstn (length (cur ++ [x])) word) (cur ++ [x])) as [F|F].
      * apply prefix_firstn in F. rewrite IH. split; [intros H; apply f_more; assumption|].
        intros H; inversion H; subst; [contradiction|assumption|contradiction].
      * assert (F' : ~ prefix (cur ++ [x]) word) by (rewrite <- prefix_firstn; assumption).
        rewrite IH. split; [intros H; apply f_again; assumption|].
        intros H; inversion H; subst; [contradiction|contradiction|assumption].
Qed.

Lemma finds_fun word cur stream r1 r2 : finds word cur stream r1 -> finds word cur stream r2 -> r1 = r2.
Proof. intros H1 H2. apply find_finds in H1, H2. congruence. Qed.

(** * The scanner does this search *)
Definition scanning (word : list N) (s : scanner) (cur : list N) : Prop :=
  exists ls, shape vec_tab (fun s => (s < 256)%N) (fun v => length v = 256%nat) (sc_trie s) ls /\
    values (sc_trie s) ls (lookup_last [(word, tt)]) /\
    (forall q, In q ls <-> q = [] \/ exists p, inserted [(word, tt)] p /\ prefix q p) /\
    at_string (sc_trie s) ls (sc_cursor s) cur.

Lemma scanner_new_spec word : Forall (fun x => x < 256) word ->
  exists s, scanner_new word = Some s /\ scanning word s [] /\ sc_matches s = 0.
Proof.
  intros Hw. unfold scanner_new.
  destruct (insert_represents vec_tab _ _ vec_laws (trie_new vec_tab) [] word tt) as (t & E & ls & H1 & H2 & H3).
  { exact (new_represents vec_tab _ _ vec_laws). } { assumption. }
  rewrite E. eexists. split; [reflexivity|]. split; [|reflexivity].
  exists ls. cbn [sc_trie sc_cursor app] in *. split; [assumption|]. split; [assumption|]. split; [assumption|reflexivity].
Qed.

Lemma only_word (word p : list N) : inserted [(word, tt)] p <-> p = word.
Proof.
  split; [intros [v [H|[]]]; congruence|]. intros ->. exists tt. left; reflexivity.
Qed.

Lemma prefix_self (p : list N) : prefix p p.
Proof. exists []. symmetry; apply app_nil_r. Qed.

Lemma scanner_step_spec word s cur x : scanning word s cur -> x < 256 ->
  exists s' hit, scanner_step s x = Some (s', hit) /\
    ((cur ++ [x] = word /\ scanning word s' [] /\ sc_matches s' = sc_matches s + 1 /\ hit = (sc_matches s' =? 1)) \/
     (cur ++ [x] <> word /\ prefix (cur ++ [x]) word /\ scanning word s' (cur ++ [x]) /\
        sc_matches s' = sc_matches s /\ hit = false) \/
     (~ prefix (cur ++ [x]) word /\ scanning word s' [] /\ sc_matches s' = sc_matches s /\ hit = false)).
Proof.
  intros (ls & Hsh & Hval & Hls & Hat) Hx.
  destruct (advance_spec vec_tab _ _ (sc_trie s) ls [(word, tt)] (sc_cursor s) cur x Hsh Hval Hat Hx)
    as (c & E & Hat' & Hc).
  unfold scanner_step. rewrite E.
  assert (Hreset : forall n, scanning word (mkScanner (sc_trie s) Start n) []).
  { intros n. exists ls. cbn [sc_trie sc_cursor]. repeat (split; [assumption|]). reflexivity. }
  destruct c as [|i p|]; [contradiction| |].
  - destruct Hc as (Hin & Hp & _).
    apply Hls in Hin as [Hin|(w & Hw & Hin)]; [destruct cur; discriminate|].
    apply only_word in Hw. subst w.
    destruct (lookup_last [(word, tt)] (cur ++ [x])) as [[]|] eqn:El; subst p.
    + apply lookup_last_bound in El as (h1 & h2 & Eh & _).
      assert (cur ++ [x] = word).
      { destruct h1 as [|e h1]; [cbn [app] in Eh; injection Eh as Eh _; symmetry; exact Eh|destruct h1; discriminate]. }
      eexists _, _. split; [reflexivity|]. left. split; [assumption|]. split; [apply Hreset|]. split; reflexivity.
    + apply lookup_last_none in El.
      eexists _, _. split; [reflexivity|]. right; left. split.
      { intros Hz. apply El. apply only_word. assumption. }
      split; [assumption|]. split; [|split; reflexivity].
      exists ls. cbn [sc_trie sc_cursor]. repeat (split; [assumption|]). assumption.
  - eexists _, _. split; [reflexivity|]. right; right. split; [|split; [apply Hreset|split; reflexivity]].
    intros Hp. apply Hat'. apply Hls. right. exists word. split; [apply only_word; reflexivity|assumption].
Qed.

(** One read before the word was seen. *)
Lemma gate_scan_after word s cur i orig buf : scanning word s cur -> Forall (fun x => x < 256) orig ->
  1 <= sc_matches s -> exists s', gate_scan s i orig buf true = Some (s', buf, true).
Proof.
  intros Hs Ho. revert s cur i Hs. induction Ho as [|x orig Hx Ho IH]; intros s cur i Hs Hm; cbn [gate_scan].
  - eauto.
  - destruct (scanner_step_spec word s cur x Hs Hx) as (s' & hit & E & Hc). rewrite E.
    assert (Hh : hit = false /\ 1 <= sc_matches s' /\ exists cur', scanning word s' cur').
    { destruct Hc as [(_ & H1 & H2 & ->)|[(_ & _ & H1 & H2 & ->)|(_ & H1 & H2 & ->)]].
      - split; [apply N.eqb_neq; lia|]. split; [lia|eauto].
      - split; [reflexivity|]. split; [lia|eauto].
      - split; [reflexivity|]. split; [lia|eauto]. }
    destruct Hh as (-> & Hm' & cur' & Hs'). eapply IH; eassumption.
Qed.

Lemma gate_scan_spec word orig : Forall (fun x => x < 256) orig -> forall s cur done,
  scanning word s cur -> sc_matches s = 0 ->
  exists s', match find word cur orig with
    | inl rest => gate_scan s (length done) orig (done ++ orig) false = Some (s', rest, true)
    | inr cur' => gate_scan s (length done) orig (done ++ orig) false = Some (s', done ++ orig, false) /\
                  scanning word s' cur' /\ sc_matches s' = 0
    end.
Proof.
  induction 1 as [|x orig Hx Ho IH]; intros s cur done Hs Hm; cbn [find gate_scan].
  - exists s. repeat split; assumption.
  - assert (Hdone : done ++ x :: orig = (done ++ [x]) ++ orig) by (rewrite <- app_assoc; reflexivity).
    assert (Hlen : S (length done) = length (done ++ [x])) by (rewrite app_length; cbn; lia).
    destruct (scanner_step_spec word s cur x Hs Hx) as (s' & hit & E & Hc). rewrite E.
    destruct (list_eq_dec N.eq_dec (cur ++ [x]) word) as [Ew|Ew].
    + destruct Hc as [(_ & H1 & H2 & ->)|[(Hn & _)|(Hn & _)]]; [|contradiction|exfalso; apply Hn; rewrite Ew; apply prefix_self].
      rewrite H2, Hm. cbn [N.add N.eqb Pos.eqb].
      destruct (Nat.ltb_spec (length (done ++ x :: orig)) (length done + 1)) as [Hlt|Hge].
      { exfalso. rewrite app_length in Hlt. cbn in Hlt. lia. }
      destruct (gate_scan_after word s' [] (S (length done)) orig (skipn (length done + 1) (done ++ x :: orig)) H1 Ho)
        as [s2 E2]; [lia|]. rewrite E2. exists s2. do 3 f_equal.
      rewrite Hdone. replace (length done + 1)%nat with (length (done ++ [x])) by lia.
      rewrite skipn_app, skipn_all, Nat.sub_diag. reflexivity.
    + destruct Hc as [(Hn & _)|Hc]; [contradiction|].
      destruct (list_eq_dec N.eq_dec (firstn (length (cur ++ [x])) word) (cur ++ [x])) as [F|F].
      * apply prefix_firstn in F. destruct Hc as [(_ & _ & H1 & H2 & ->)|(Hn & _)]; [|contradiction].
        rewrite Hdone, Hlen. apply IH; [assumption|lia].
      * assert (F' : ~ prefix (cur ++ [x]) word) by (rewrite <- prefix_firstn; assumption).
        destruct Hc as [(_ & Hp & _)|(_ & H1 & H2 & ->)]; [contradiction|].
        rewrite Hdone, Hlen. apply IH; [assumption|lia].
Qed.

Lemma find_app word s1 : forall cur s2, find word cur (s1 ++ s2) =
  match find word cur s1 with inl rest => inl (rest ++ s2) | inr cur' => find word cur' s2 end.
Proof.
  induction s1 as [|x s1 IH]; intros cur s2; cbn [app find]; [reflexivity|].
  destruct (list_eq_dec N.eq_dec (cur ++ [x]) word); [reflexivity|].
  destruct (list_eq_dec N.eq_dec (firstn (length (cur ++ [x])) word) (cur ++ [x])); apply IH.
Qed.

Lemma gate_reads_seen g reads : g_seen g = true -> gate_reads g reads = Some (g, reads).
Proof.
  intros H. induction reads as [|r reads IH]; cbn [gate_reads]; [reflexivity|].
  unfold gate_read. rewrite H, IH. reflexivity.
Qed.

Lemma gate_reads_spec word reads : Forall (Forall (fun x => x < 256)) reads -> forall s cur,
  scanning word s cur -> sc_matches s = 0 ->
  exists g shown, gate_reads (mkGate s false) reads = Some (g, shown) /\
    match find word cur (concat reads) with
    | inl rest => g_seen g = true /\ concat shown = rest
    | inr _ => g_seen g = false /\ shown = []
    end.
Proof.
  induction 1 as [|r reads Hr Hrs IH]; intros s cur Hs Hm; cbn [gate_reads concat].
  - eexists _, _. split; [reflexivity|]. cbn [find]. split; reflexivity.
  - unfold gate_read. cbn [g_seen g_scanner].
    destruct (gate_scan_spec word r Hr s cur [] Hs Hm) as [s' Hg]. cbn [app length] in Hg.
    rewrite find_app. destruct (find word cur r) as [rest|cur'].
    + rewrite Hg. rewrite gate_reads_seen by reflexivity. eexists _, _. split; [reflexivity|].
      split; reflexivity.
    + destruct Hg as (Hg & Hs' & Hm'). rewrite Hg. destruct (IH s' cur' Hs' Hm') as (g & shown & E & Hf).
      rewrite E. exists g, shown. split; [reflexivity|assumption].
Qed.

(** * Facts about the search *)
Lemma finds_sound word cur stream rest : finds word cur stream rest ->
  exists pre, cur ++ stream = pre ++ word ++ rest.
Proof.
  induction 1 as [cur x rest E|cur x stream rest Hp Hn H [pre IH]|cur x stream rest Hn H [pre IH]].
  - exists []. rewrite <- E, <- app_assoc. reflexivity.
  - exists pre. rewrite <- IH, <- app_assoc. reflexivity.
  - exists (cur ++ x :: pre). cbn [app] in IH. rewrite IH, <- !app_assoc. reflexivity.
Qed.

Lemma find_word word post : forall cur suf, cur ++ suf = word -> suf <> [] -> find word cur (suf ++ post) = inl post.
Proof.
  intros cur suf; revert cur. induction suf as [|x suf IH]; intros cur E Hne; [contradiction|]. cbn [app find].
  destruct (list_eq_dec N.eq_dec (cur ++ [x]) word) as [Ew|Ew].
  - assert (suf = []).
    { rewrite <- Ew in E. change (x :: suf) with ([x] ++ suf) in E. rewrite app_assoc in E.
      rewrite <- (app_nil_r (cur ++ [x])) in E at 2. apply app_inv_head in E. assumption. }
    subst suf. reflexivity.
  - assert (E' : (cur ++ [x]) ++ suf = word) by (rewrite <- app_assoc; assumption).
    destruct (list_eq_dec N.eq_dec (firstn (length (cur ++ [x])) word) (cur ++ [x])) as [F|F].
    + apply IH; [assumption|]. intros ->. rewrite app_nil_r in E'. contradiction.
    + exfalso. apply F. apply prefix_firstn. exists suf. symmetry; assumption.
Qed.

Lemma find_break word x : ~ In x word -> forall s cur,
  match find word cur (s ++ [x]) with inl _ => True | inr cur' => cur' = [] end.
Proof.
  intros Hx s cur. rewrite find_app. destruct (find word cur s) as [|cur']; [exact I|]. cbn [find].
  destruct (list_eq_dec N.eq_dec (cur' ++ [x]) word) as [E|E]; [exact I|].
  destruct (list_eq_dec N.eq_dec (firstn (length (cur' ++ [x])) word) (cur' ++ [x])) as [F|F]; [|reflexivity].
  exfalso. apply Hx. apply prefix_firstn in F as [q ->]. apply in_or_app; left.
  apply in_or_app; right; left; reflexivity.
Qed.

Lemma find_complete word pre post : word <> [] ->
  (pre = [] \/ exists p x, pre = p ++ [x] /\ ~ In x word) ->
  exists extra, find word [] (pre ++ word ++ post) = inl (extra ++ post).
Proof.
  intros Hw Hpre. rewrite find_app.
  assert (Hc : match find word [] pre with inl _ => True | inr cur' => cur' = [] end).
  { destruct Hpre as [->|(p & x & -> & Hx)]; [reflexivity|apply find_break; assumption]. }
  destruct (find word [] pre) as [rest|cur'].
  - exists (rest ++ word). rewrite <- app_assoc. reflexivity.
  - subst cur'. exists []. apply find_word; [reflexivity|assumption].
Qed.

(** * Waiting for the shell to start *)
Lemma startup_scan_spec word bytes : Forall (fun x => x < 256) bytes -> forall s cur,
  scanning word s cur -> sc_matches s = 0 ->
  exists s', match find word cur bytes with
    | inl _ => startup_scan s bytes = Some (s', true)
    | inr cur' => startup_scan s bytes = Some (s', false) /\ scanning word s' cur' /\ sc_matches s' = 0
    end.
Proof.
  induction 1 as [|x bytes Hx Hb IH]; intros s cur Hs Hm; cbn [find startup_scan].
  - exists s. repeat split; assumption.
  - destruct (scanner_step_spec word s cur x Hs Hx) as (s' & hit & E & Hc). rewrite E.
    destruct (list_eq_dec N.eq_dec (cur ++ [x]) word) as [Ew|Ew].
    + destruct Hc as [(_ & H1 & H2 & ->)|[(Hn & _)|(Hn & _)]]; [|contradiction|exfalso; apply Hn; rewrite Ew; apply prefix_self].
      rewrite H2, Hm. exists s'. reflexivity.
    + destruct Hc as [(Hn & _)|Hc]; [contradiction|].
      destruct (list_eq_dec N.eq_dec (firstn (length (cur ++ [x])) word) (cur ++ [x])) as [F|F].
      * apply prefix_firstn in F. destruct Hc as [(_ & _ & H1 & H2 & ->)|(Hn & _)]; [|contradiction].
        apply IH; [assumption|lia].
      * assert (F' : ~ prefix (cur ++ [x]) word) by (rewrite <- prefix_firstn; assumption).
        destruct Hc as [(_ & Hp & _)|(_ & H1 & H2 & ->)]; [contradiction|].
        apply IH; [assumption|lia].
Qed.
