From Coq Require Import List NArith Bool Lia.
From Verif Require Import Model.Base Model.Protocol Model.Names Model.SessionFiles Spec.PathSpec Spec.SessionFilesSpec
  Proofs.BaseLemmas Proofs.NamesProofs Proofs.SessionFilesProofs.
Import ListNotations.
Open Scope N_scope.

(** An attach of this name is under way or has been. *)
Definition attaching (n : rstr) (st : tree) : Prop := exists t h p, jobs st t = Some (h, p) /\ h_name h = n.

(** What can change at all. *)
Lemma happen_changes um rd st e q : orderly rd st ->
  files (happen um rd st e) q = files st q \/
  (exists n, attaching n st /\ (q = env_of rd n \/ q = link_of rd n)) \/
  (exists n, attaching n st /\ above q (env_of rd n) /\ files st q = None /\ files (happen um rd st e) q = Some (Dir (N.ldiff 511 um))) \/
  (q = sessions_of rd /\ match files st q with
     | Some (Dir _) => files (happen um rd st e) q = Some (Dir 448)
     | Some (File _ t) => files (happen um rd st e) q = Some (File 448 t)
     | _ => False end).
Proof.
  intros O. destruct e as [t cfg h|t o]; cbn [happen].
  - destruct (jobs st t); [auto|]. destruct (daemon_rejects (h_name h)); auto.
  - destruct (jobs st t) as [[h [ok|c k]]|] eqn:J; [auto| |auto]. destruct (O _ _ _ J) as (G & A & _).
    assert (G' : attaching (h_name h) st) by (exists t, h, (Call c k); auto).
    destruct (exec um (files st) c o) as [f a] eqn:E. cbn [files]. pose proof (files st) as f0'. clear f0'. set (f0 := files st) in *.
    destruct (path_eqb q (match c with Mkdir p | Stat p | Chmod p _ | Unlink p | Symlink _ p | Create p | Write p _ => p end)) eqn:Q.
    + apply path_eqb_eq in Q. destruct c as [p|p|p m'|p|t' p|p|p t']; cbn [allowed] in A; subst q.
      * destruct o; cbn [exec] in E; [|(apply (f_equal fst) in E; cbn [fst] in E; subst f); auto]. destruct (f0 p) eqn:F; [left; assert (f = f0); [destruct p; apply (f_equal fst) in E; cbn [fst] in E; congruence|congruence]|].
        destruct p as [|x up]; [apply (f_equal fst) in E; cbn [fst] in E; subst f; auto|]. destruct (is_dir f0 up); [|destruct (f0 up); (apply (f_equal fst) in E; cbn [fst] in E; subst f); auto].
        (apply (f_equal fst) in E; cbn [fst] in E; subst f). right. right. left. exists (h_name h). split; [exact G'|]. split; [apply suffix_above; exact A|]. split; [reflexivity|apply put_same].
      * left. assert (f = f0); [|congruence]. destruct o; cbn [exec] in E; [destruct (f0 p) as [[| |]|]|]; apply (f_equal fst) in E; cbn [fst] in E; congruence.
      * destruct A as (-> & ->). destruct o; cbn [exec] in E; [|(apply (f_equal fst) in E; cbn [fst] in E; subst f); auto].
        destruct (f0 (sessions_of rd)) as [[m|m t'|]|] eqn:F; (apply (f_equal fst) in E; cbn [fst] in E; subst f); auto; right; right; right; rewrite put_same; auto.
      * right. left. eauto.
      * right. left. eauto.
      * right. left. eauto.
      * right. left. eauto.
    + left. assert (N : q <> match c with Mkdir p | Stat p | Chmod p _ | Unlink p | Symlink _ p | Create p | Write p _ => p end) by (intros X; apply path_eqb_eq in X; congruence).
      clear Q. destruct o; destruct c as [p|p|p m'|p|t' p|p|p t']; cbn [exec] in E;
        repeat match type of E with context [match ?x with _ => _ end] => destruct x end; (apply (f_equal fst) in E; cbn [fst] in E; subst f); rewrite ?put_other by exact N; reflexivity.
Qed.

Lemma happen_attaching um rd n st e : attaching n (happen um rd st e) -> attaching n st \/ exists t cfg h, e = Begin t cfg h /\ h_name h = n.
Proof.
  intros (u & h' & p & J & E). destruct e as [t cfg h|t o]; cbn [happen] in J.
  - destruct (jobs st t) eqn:Jt; [left; exists u, h', p; auto|]. destruct (daemon_rejects (h_name h)); [left; exists u, h', p; auto|]. cbn [jobs] in J.
    destruct (Nat.eqb u t); [injection J as <- <-; right; eauto|left; exists u, h', p; auto].
  - destruct (jobs st t) as [[h [ok|c k]]|] eqn:Jt; try (left; exists u, h', p; auto; fail).
    destruct (exec um (files st) c o) as [f a]. cbn [jobs] in J. destruct (Nat.eqb u t); [|left; exists u, h', p; auto].
    injection J as <- <-. left. exists t, h, (Call c k). auto.
Qed.

Lemma run_changes um rd es q : forall st, orderly rd st ->
  let names n := attaching n st \/ exists t cfg h, In (Begin t cfg h) es /\ h_name h = n in
  (forall n, names n -> q <> env_of rd n /\ q <> link_of rd n) ->
  become um rd names q (files st q) (files (run um rd st es) q).
Proof.
  induction es as [|e es IH]; intros st O names N; [left; reflexivity|].
  change (run um rd st (e :: es)) with (run um rd (happen um rd st e) es).
  set (names' := fun n => attaching n (happen um rd st e) \/ exists t cfg h, In (Begin t cfg h) es /\ h_name h = n).
  assert (Sub : forall n, names' n -> names n).
  { intros n [A|(t & cfg & h & I & E)]; [|right; exists t, cfg, h; split; [right; exact I|exact E]].
    apply happen_attaching in A. destruct A as [A|(t & cfg & h & -> & E)]; [left; exact A|]. right. exists t, cfg, h. split; [left; reflexivity|exact E]. }
  specialize (IH _ (happen_orderly um rd st e O) (fun n H => N n (Sub n H))).
  destruct (happen_changes um rd st e q O) as [S|[(n & A & [E|E])|[(n & A & B & S & T)|(Q & S)]]].
  - rewrite S in IH. destruct IH as [X|[(X & n & m & Y & Z)|X]]; [left; exact X| |right; right; exact X].
    right. left. split; [exact X|]. exists n, m. split; [apply Sub; exact Y|exact Z].
  - destruct (N n (or_introl A)). contradiction.
  - destruct (N n (or_introl A)). contradiction.
  - rewrite T in IH. right. left. split; [exact S|]. destruct IH as [X|[(X & _)|(Q & [(_ & X)|(m & t & X & _)])]]; try discriminate X.
    + exists n, (N.ldiff 511 um). split; [left; exact A|]. split; [exact B|]. split; [exact X|]. left. reflexivity.
    + exists n, 448. split; [left; exact A|]. split; [exact B|]. split; [exact X|]. right. auto.
  - destruct (files st q) as [[m|m t|]|] eqn:F; try contradiction; rewrite S in IH; right; right; (split; [exact Q|]).
    + left. split; [eauto|]. destruct IH as [X|[(X & _)|(_ & [(_ & X)|(m' & t & X & _)])]]; try discriminate X; exact X.
    + right. exists m, t. split; [reflexivity|]. destruct IH as [X|[(X & _)|(_ & [((m' & X) & _)|(m' & t' & X & Y)])]]; try discriminate X; [exact X|].
      injection X as _ <-. exact Y.
Qed.
