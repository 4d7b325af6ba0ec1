From Coq Require Import List NArith Bool Lia.
From Verif Require Import Model.Base Model.Protocol Model.Names Model.SessionFiles Spec.PathSpec Spec.SessionFilesSpec
  Proofs.BaseLemmas Proofs.NamesProofs.
Import ListNotations.
Open Scope N_scope.

Lemma component_eqb_eq a b : component_eqb a b = true <-> a = b.
Proof.
  destruct a, b; cbn; split; intros H; try discriminate; try reflexivity; try congruence.
  - apply str_eqb_eq in H. congruence.
  - injection H as ->. apply str_eqb_refl.
Qed.
Lemma path_eqb_eq a b : path_eqb a b = true <-> a = b.
Proof.
  revert b. induction a as [|x a IH]; intros [|y b]; cbn; split; intros H; try discriminate; try reflexivity.
  - apply andb_prop in H. destruct H as (H1 & H2). apply component_eqb_eq in H1. apply IH in H2. congruence.
  - injection H as -> ->. apply andb_true_intro. split; [apply component_eqb_eq; reflexivity|apply IH; reflexivity].
Qed.
Lemma put_same f p n : put f p n p = n.
Proof. unfold put. rewrite (proj2 (path_eqb_eq p p) eq_refl). reflexivity. Qed.
Lemma put_other f p n q : q <> p -> put f p n q = f q.
Proof. intros H. unfold put. destruct (path_eqb q p) eqn:E; [apply path_eqb_eq in E; congruence|reflexivity]. Qed.

(** The places. *)
Lemma dir_at rd n : good_name n -> at_ (session_dir rd n) = dir_of rd n.
Proof.
  intros G. destruct (good_name_entry n G) as (A & B & C & D). unfold at_, session_dir, dir_of, sessions_of.
  rewrite components_join by assumption.
  rewrite components_join; try (vm_compute; discriminate).
  - rewrite !rev_app_distr. reflexivity.
  - vm_compute. intros H. repeat destruct H as [H|H]; try discriminate. contradiction.
Qed.
Lemma env_at rd n : good_name n -> at_ (session_env_file rd n) = env_of rd n.
Proof.
  intros G. unfold session_env_file, at_. rewrite components_join; try (vm_compute; discriminate).
  - rewrite rev_app_distr. change (rev (components (session_dir rd n))) with (at_ (session_dir rd n)). rewrite dir_at by assumption. reflexivity.
  - vm_compute. intros H. repeat destruct H as [H|H]; try discriminate. contradiction.
Qed.
Lemma link_at rd n : good_name n -> at_ (ssh_auth_sock_symlink rd n) = link_of rd n.
Proof.
  intros G. unfold ssh_auth_sock_symlink, at_. rewrite components_join; try (vm_compute; discriminate).
  - rewrite rev_app_distr. change (rev (components (session_dir rd n))) with (at_ (session_dir rd n)). rewrite dir_at by assumption. reflexivity.
  - vm_compute. intros H. repeat destruct H as [H|H]; try discriminate. contradiction.
Qed.

(** What an attach of [n] asks for. *)
Definition allowed (rd n : rstr) (c : call) : Prop :=
  match c with
  | Mkdir p | Stat p => exists l, dir_of rd n = l ++ p
  | Chmod p m => p = sessions_of rd /\ m = 448
  | Unlink p | Symlink _ p => p = link_of rd n
  | Create p | Write p _ => p = env_of rd n
  end.

Fixpoint only (ok : call -> Prop) (p : prog) : Prop :=
  match p with Ret _ => True | Call c k => ok c /\ forall a, only ok (k a) end.

Lemma create_only ok p : forall k, (forall l q, p = l ++ q -> q <> [] -> ok (Mkdir q) /\ ok (Stat q)) ->
  (forall b, only ok (k b)) -> only ok (create_dir_all p k).
Proof.
  induction p as [|x p IH]; intros k H K; [apply K|].
  destruct (H [] (x :: p) eq_refl) as (H1 & H2); [discriminate|].
  cbn [create_dir_all only]. split; [exact H1|]. intros a.
  assert (D : only ok (Call (Stat (x :: p)) (fun s => k (says_dir s)))) by (cbn; auto).
  destruct a; try exact D; [apply K|].
  apply IH.
  - intros l q E N. apply (H (x :: l) q); [rewrite E; reflexivity|exact N].
  - intros [|]; [|apply K]. cbn [only]. split; [exact H1|]. intros [| | |]; try exact D. apply K.
Qed.

Lemma files_only cfg rd h : good_name (h_name h) -> only (allowed rd (h_name h)) (files_prog cfg rd h).
Proof.
  intros G. assert (E : only (allowed rd (h_name h)) (env_prog rd h)).
  { unfold env_prog. rewrite dir_at, env_at by assumption. apply create_only.
    - intros l q E _. cbn. split; exists l; exact E.
    - intros [|]; [|exact I]. cbn [negb only]. split; [reflexivity|]. intros a. destruct a; try exact I.
      cbn [only]. split; [reflexivity|]. intros a. destruct a; exact I. }
  unfold files_prog, link_prog. destruct (match cfg with Some b => b | None => false end); [exact E|].
  destruct (local_env_get h (lit "SSH_AUTH_SOCK")) as [sock|]; [|exact E].
  rewrite link_at by assumption. cbn [link_of dir_of tl].
  change (Entry (h_name h) :: sessions_of rd) with (dir_of rd (h_name h)).
  change (Entry (lit "ssh-auth-sock.socket") :: dir_of rd (h_name h)) with (link_of rd (h_name h)). cbv zeta.
  assert (R : only (allowed rd (h_name h)) (Call (Unlink (link_of rd (h_name h)))
     (fun _ => Call (Symlink sock (link_of rd (h_name h))) (fun a => match a with AOk => env_prog rd h | _ => Ret false end)))).
  { cbn [only]. split; [reflexivity|]. intros _. split; [reflexivity|]. intros a. destruct a; [exact E|exact I|exact I|exact I]. }
  apply create_only.
  - intros l q Eq _. cbn. split; exists l; exact Eq.
  - intros [|]; [|exact I]. cbn [negb only]. split.
    + cbn. exists [Entry (h_name h)]. reflexivity.
    + intros a. destruct a; try exact I. destruct (st_mode =? 448); [exact R|].
      cbn [only]. split; [split; reflexivity|]. intros a. destruct a; try exact I. exact R.
Qed.

(** Everything running is an attach, and asks for nothing else. *)
Definition orderly (rd : rstr) (st : tree) : Prop :=
  forall t h p, jobs st t = Some (h, p) -> good_name (h_name h) /\ only (allowed rd (h_name h)) p.

Lemma happen_orderly um rd st e : orderly rd st -> orderly rd (happen um rd st e).
Proof.
  intros H. destruct e as [t cfg h|t o]; cbn [happen].
  - destruct (jobs st t) eqn:J; [exact H|]. destruct (daemon_rejects (h_name h)) eqn:R; [exact H|].
    intros u h' p. cbn [jobs]. destruct (Nat.eqb u t); [|apply H]. intros [= <- <-].
    apply daemon_rejects_iff in R. split; [exact R|]. apply files_only. exact R.
  - destruct (jobs st t) as [[h [ok|c k]]|] eqn:J; try exact H.
    destruct (exec um (files st) c o) as [f a]. intros u h' p. cbn [jobs]. destruct (Nat.eqb u t); [|apply H].
    intros [= <- <-]. destruct (H _ _ _ J) as (G & _ & K). auto.
Qed.
Lemma run_orderly um rd es : forall st, orderly rd st -> orderly rd (run um rd st es).
Proof. induction es as [|e es IH]; intros st H; [exact H|]. apply IH. apply happen_orderly. exact H. Qed.

(** Directories stay. *)
Lemma exec_dir um f c o f' a d m : exec um f c o = (f', a) -> f d = Some (Dir m) ->
  f' d = Some (Dir m) \/ exists m', c = Chmod d m' /\ f' d = Some (Dir m').
Proof.
  intros E D. destruct o as [|n].
  - destruct c as [p|p|p m'|p|t p|p|p t]; cbn [exec] in E.
    + destruct (f p) as [nd|] eqn:F; [destruct p; injection E as <- _; auto|]. destruct p as [|x up]; [injection E as <- _; auto|].
      destruct (is_dir f up).
      * injection E as <- _. left. rewrite put_other; [exact D|]. intros ->. congruence.
      * destruct (f up); injection E as <- _; auto.
    + destruct (f p) as [[| |]|]; injection E as <- _; auto.
    + destruct (f p) as [[|m1 t|]|] eqn:F; injection E as <- _; auto.
      * destruct (path_eqb d p) eqn:Q; [apply path_eqb_eq in Q; subst p; right; exists m'; rewrite put_same; auto|].
        left. unfold put. rewrite Q. exact D.
      * left. rewrite put_other; [exact D|]. intros ->. congruence.
    + destruct (f p) as [[|m1 t|]|] eqn:F; injection E as <- _; auto; left; (rewrite put_other; [exact D|]; intros ->; congruence).
    + destruct (f p) eqn:F; [injection E as <- _; auto|]. destruct (is_dir f (tl p)); injection E as <- _; auto.
      left. rewrite put_other; [exact D|]. intros ->. congruence.
    + destruct (f p) as [[|m1 t|]|] eqn:F; try (injection E as <- _; auto).
      * left. rewrite put_other; [exact D|]. intros ->. congruence.
      * destruct (is_dir f (tl p)); injection E as <- _; auto. left. rewrite put_other; [exact D|]. intros ->. congruence.
    + destruct (f p) as [[|m1 t'|]|] eqn:F; injection E as <- _; auto. left. rewrite put_other; [exact D|]. intros ->. congruence.
  - destruct c as [p|p|p m'|p|t p|p|p t]; cbn [exec] in E; injection E as <- _; auto.
    destruct (f p) as [[|m1 t'|]|] eqn:F; auto. left. rewrite put_other; [exact D|]. intros ->. congruence.
Qed.

Lemma happen_shut um rd st e d : orderly rd st -> shut (files st) d -> shut (files (happen um rd st e)) d.
Proof.
  intros O (m & D & B1 & B2). destruct e as [t cfg h|t o]; cbn [happen].
  - destruct (jobs st t); [exists m; auto|]. destruct (daemon_rejects (h_name h)); exists m; auto.
  - destruct (jobs st t) as [[h [ok|c k]]|] eqn:J; try (exists m; auto; fail).
    destruct (exec um (files st) c o) as [f a] eqn:E. cbn [files].
    destruct (exec_dir _ _ _ _ _ _ _ _ E D) as [X|(m' & -> & X)]; [exists m; auto|].
    destruct (O _ _ _ J) as (_ & A & _). cbn in A. destruct A as (_ & ->). exists 448. auto.
Qed.
Lemma run_shut um rd es d : forall st, orderly rd st -> shut (files st) d -> shut (files (run um rd st es)) d.
Proof.
  induction es as [|e es IH]; intros st O H; [exact H|]. apply IH; [apply happen_orderly; exact O|apply happen_shut; assumption].
Qed.

Lemma shut_private s f d p : shut f d -> above d p -> ~ reaches s f p.
Proof.
  intros (m & D & B1 & B2) A R. destruct (R d A) as (m' & D' & B). rewrite D in D'. injection D' as <-. destruct s; cbn in B; congruence.
Qed.

(** Calls for one session leave another's files alone. *)
Lemma longer_not_suffix (l p q : path) : (length p < length q)%nat -> p <> l ++ q.
Proof. intros L E. apply (f_equal (@length _)) in E. rewrite app_length in E. lia. Qed.

Lemma exec_own um rd n n' f c o f' a : allowed rd n' c -> n' <> n -> exec um f c o = (f', a) ->
  f' (env_of rd n) = f (env_of rd n) /\ f' (link_of rd n) = f (link_of rd n).
Proof.
  intros A N E.
  assert (X : forall v p, (p = link_of rd n' \/ p = env_of rd n' \/ p = sessions_of rd \/ exists l, dir_of rd n' = l ++ p) ->
     put f p v (env_of rd n) = f (env_of rd n) /\ put f p v (link_of rd n) = f (link_of rd n)).
  { intros v p P. split; apply put_other; intros <-.
    - destruct P as [P|[P|[P|(l & P)]]].
      + discriminate.
      + unfold env_of, dir_of in P. congruence.
      + apply (f_equal (@length _)) in P. cbn in P. lia.
      + revert P. apply longer_not_suffix. cbn. lia.
    - destruct P as [P|[P|[P|(l & P)]]].
      + unfold link_of, dir_of in P. congruence.
      + discriminate.
      + apply (f_equal (@length _)) in P. cbn in P. lia.
      + revert P. apply longer_not_suffix. cbn. lia. }
  destruct o as [|k].
  - destruct c as [p|p|p m'|p|t p|p|p t]; cbn [exec allowed] in *.
    + destruct (f p); [destruct p; injection E as <- _; auto|]. destruct p as [|x up]; [injection E as <- _; auto|].
      destruct (is_dir f up); [|destruct (f up); injection E as <- _; auto]. injection E as <- _. apply X. auto.
    + destruct (f p) as [[| |]|]; injection E as <- _; auto.
    + destruct A as (-> & _). destruct (f (sessions_of rd)) as [[| |]|]; injection E as <- _; auto.
    + subst p. destruct (f (link_of rd n')) as [[| |]|]; injection E as <- _; auto.
    + subst p. destruct (f (link_of rd n')); [injection E as <- _; auto|].
      destruct (is_dir f (tl (link_of rd n'))); injection E as <- _; auto.
    + subst p. destruct (f (env_of rd n')) as [[| |]|]; try (injection E as <- _; auto).
      destruct (is_dir f (tl (env_of rd n'))); injection E as <- _; auto.
    + subst p. destruct (f (env_of rd n')) as [[| |]|]; injection E as <- _; auto.
  - destruct c as [p|p|p m'|p|t p|p|p t]; cbn [exec allowed] in *; injection E as <- _; auto.
    subst p. destruct (f (env_of rd n')) as [[| |]|]; auto.
Qed.

(** Weakest preconditions on a session's own files, whatever happens to the rest; [I]
    holds throughout and [Q] at a good end. *)
Definition own := (option node * option node)%type.
Definition own_of (rd n : rstr) (f : fs) : own := (f (env_of rd n), f (link_of rd n)).

Section Wp.
Variables (um : N) (rd n : rstr) (I Q : own -> Prop).
Fixpoint wp (p : prog) (o : own) : Prop :=
  I o /\
  match p with
  | Ret ok => ok = true -> Q o
  | Call c k => forall f out, own_of rd n f = o ->
      let (f', a) := exec um f c out in wp (k a) (own_of rd n f')
  end.
Lemma wp_I p o : wp p o -> I o.
Proof. destruct p; cbn; tauto. Qed.

Lemma exec_own_dir f p out f' a : (exists l, dir_of rd n = l ++ p) -> exec um f (Mkdir p) out = (f', a) ->
  own_of rd n f' = own_of rd n f.
Proof.
  intros (l & L) E. unfold own_of.
  assert (X : forall v, put f p v (env_of rd n) = f (env_of rd n) /\ put f p v (link_of rd n) = f (link_of rd n)).
  { intros v. split; apply put_other; intros <-; revert L; apply longer_not_suffix; cbn; lia. }
  destruct out as [|k]; cbn [exec] in E; [|injection E as <- _; reflexivity].
  destruct (f p); [destruct p; injection E as <- _; reflexivity|]. destruct p as [|x up]; [injection E as <- _; reflexivity|].
  destruct (is_dir f up); [|destruct (f up); injection E as <- _; reflexivity].
  injection E as <- _. destruct (X (Some (Dir (N.ldiff 511 um)))) as (X1 & X2). f_equal; [exact X1|exact X2].
Qed.
Lemma exec_stat f p out : exists a, exec um f (Stat p) out = (f, a).
Proof. destruct out as [|k]; cbn [exec]; [destruct (f p) as [[| |]|]|]; eauto. Qed.

Lemma wp_create o : forall p, (exists l, dir_of rd n = l ++ p) -> forall k,
  (forall b, wp (k b) o) -> wp (create_dir_all p k) o.
Proof.
  intros p L k K. assert (Io : I o) by (apply (wp_I _ _ (K true))). revert L k K.
  induction p as [|x p IH]; intros L k K; [apply K|].
  assert (D : wp (Call (Stat (x :: p)) (fun s => k (says_dir s))) o).
  { split; [exact Io|]. intros f out Eo. destruct (exec_stat f (x :: p) out) as (a & ->). rewrite Eo. apply K. }
  cbn [create_dir_all]. split; [exact Io|]. intros f out Eo. destruct (exec um f (Mkdir (x :: p)) out) as [f' a] eqn:E.
  rewrite (exec_own_dir _ _ _ _ _ L E), Eo. destruct a; try exact D; [apply K|].
  apply IH.
  - destruct L as (l & L). exists (l ++ [x]). rewrite L, <- app_assoc. reflexivity.
  - intros [|]; [|apply K]. split; [exact Io|]. intros f1 out1 Eo1.
    destruct (exec um f1 (Mkdir (x :: p)) out1) as [f1' a1] eqn:E1.
    rewrite (exec_own_dir _ _ _ _ _ L E1), Eo1. destruct a1; try exact D. apply K.
Qed.
End Wp.

(** What there is of the file and of the link while an attach is at work. *)
Definition env_state (um : N) (h : attach_header) (before now : option node) : Prop :=
  now = before \/ exists k, now = Some (File (mode_after um before) (firstn k (env_file_text h))).
Definition link_state (cfg : option bool) (h : attach_header) (before now : option node) : Prop :=
  now = before \/ exists sock, brings cfg h = Some sock /\ (now = None \/ now = Some (Link sock)).
Definition meanwhile um cfg h (b o : own) : Prop :=
  env_state um h (fst b) (fst o) /\ link_state cfg h (snd b) (snd o).
Definition link_after (cfg : option bool) (h : attach_header) (before : option node) : option node :=
  match brings cfg h with Some sock => Some (Link sock) | None => before end.
Definition done um cfg h (b o : own) : Prop :=
  fst o = Some (File (mode_after um (fst b)) (env_file_text h)) /\ snd o = link_after cfg h (snd b).

Lemma over_nil t : over t [] = t.
Proof. unfold over. rewrite skipn_nil, app_nil_r. reflexivity. Qed.

Lemma wp_env um rd cfg h e l l' : good_name (h_name h) -> link_state cfg h l l' -> l' = link_after cfg h l ->
  wp um rd (h_name h) (meanwhile um cfg h (e, l)) (done um cfg h (e, l)) (env_prog rd h) (e, l').
Proof.
  intros G LS LA. set (I := meanwhile um cfg h (e, l)). set (Q := done um cfg h (e, l)).
  assert (I0 : I (e, l')) by (split; [left; reflexivity|exact LS]).
  assert (IP : forall k, I (Some (File (mode_after um e) (firstn k (env_file_text h))), l')).
  { intros k. split; [right; exists k; reflexivity|exact LS]. }
  unfold env_prog. rewrite dir_at, env_at by assumption.
  apply wp_create; [exists []; reflexivity|]. intros [|]; [|split; [exact I0|discriminate]].
  cbn [negb]. split; [exact I0|]. intros f out Eo. injection Eo as E1 E2. set (p := env_of rd (h_name h)) in *.
  assert (NL : link_of rd (h_name h) <> p) by discriminate.
  assert (NF : wp um rd (h_name h) I Q (Ret false) (own_of rd (h_name h) f)).
  { split; [|discriminate]. unfold own_of. fold p. rewrite E1, E2. exact I0. }
  assert (W : forall f1, f1 p = Some (File (mode_after um e) []) -> f1 (link_of rd (h_name h)) = l' ->
     wp um rd (h_name h) I Q (Call (Write p (env_file_text h)) (fun a => match a with AOk => Ret true | _ => Ret false end))
       (own_of rd (h_name h) f1)).
  { intros f1 F1 F2. unfold own_of. fold p. rewrite F1, F2. split; [apply (IP O)|].
    intros f2 out2 Eo2. unfold own_of in Eo2. fold p in Eo2. injection Eo2 as P1 P2.
    destruct out2 as [|k]; cbn [exec].
    - rewrite P1. unfold own_of. fold p. rewrite put_same, put_other, P2 by exact NL. rewrite over_nil. split.
      + rewrite <- (firstn_all (env_file_text h)). apply IP.
      + intros _. split; [reflexivity|exact LA].
    - rewrite P1. unfold own_of. fold p. rewrite put_same, put_other, P2 by exact NL. rewrite over_nil.
      split; [apply IP|discriminate]. }
  destruct out as [|k]; cbn [exec]; [|exact NF].
  destruct (f p) as [[|m t|]|] eqn:F; try exact NF.
  - apply W; [rewrite put_same, <- E1; reflexivity|rewrite put_other by exact NL; exact E2].
  - destruct (is_dir f (tl p)); [|exact NF].
    apply W; [rewrite put_same, <- E1; reflexivity|rewrite put_other by exact NL; exact E2].
Qed.

Lemma exec_chmod_own um rd n f m out f' a : exec um f (Chmod (sessions_of rd) m) out = (f', a) -> own_of rd n f' = own_of rd n f.
Proof.
  intros X. unfold own_of. destruct out as [|k]; cbn [exec] in X; [|injection X as <- _; reflexivity].
  destruct (f (sessions_of rd)) as [[| |]|]; injection X as <- _; try reflexivity;
  rewrite !put_other; try reflexivity; intros F; apply (f_equal (@length _)) in F; cbn in F; lia.
Qed.

Lemma lookup_find (v : rstr) (e : list (rstr * rstr)) : lookup v e = match find (fun kv => str_eqb v (fst kv)) e with Some (_, x) => Some x | None => None end.
Proof. induction e as [|[k x] e IH]; cbn; [reflexivity|]. destruct (str_eqb v k); [reflexivity|exact IH]. Qed.
Lemma brings_is cfg h : brings cfg h =
  if match cfg with Some b => b | None => false end then None else local_env_get h (lit "SSH_AUTH_SOCK").
Proof. unfold brings, local_env_get. rewrite lookup_find. destruct cfg as [[|]|]; reflexivity. Qed.

Lemma wp_files um rd cfg h e l : good_name (h_name h) ->
  wp um rd (h_name h) (meanwhile um cfg h (e, l)) (done um cfg h (e, l)) (files_prog cfg rd h) (e, l).
Proof.
  intros G. unfold files_prog, link_prog. pose proof (brings_is cfg h) as B.
  destruct (match cfg with Some b => b | None => false end).
  { apply wp_env; [exact G|left; reflexivity|unfold link_after; rewrite B; reflexivity]. }
  destruct (local_env_get h (lit "SSH_AUTH_SOCK")) as [sock|].
  2: { apply wp_env; [exact G|left; reflexivity|unfold link_after; rewrite B; reflexivity]. }
  rewrite link_at by assumption. cbn [link_of dir_of tl].
  change (Entry (h_name h) :: sessions_of rd) with (dir_of rd (h_name h)).
  change (Entry (lit "ssh-auth-sock.socket") :: dir_of rd (h_name h)) with (link_of rd (h_name h)). cbv zeta.
  set (I := meanwhile um cfg h (e, l)). set (Q := done um cfg h (e, l)).
  assert (I0 : I (e, l)) by (split; left; reflexivity).
  assert (IN : I (e, None)) by (split; [left; reflexivity|right; exists sock; auto]).
  assert (IL : I (e, Some (Link sock))) by (split; [left; reflexivity|right; exists sock; auto]).
  assert (F0 : wp um rd (h_name h) I Q (Ret false) (e, l)) by (split; [exact I0|discriminate]).
  assert (NL : env_of rd (h_name h) <> link_of rd (h_name h)) by discriminate.
  assert (R : wp um rd (h_name h) I Q (Call (Unlink (link_of rd (h_name h)))
     (fun _ => Call (Symlink sock (link_of rd (h_name h))) (fun a => match a with AOk => env_prog rd h | _ => Ret false end))) (e, l)).
  { split; [exact I0|]. intros f out Eo. injection Eo as E1 E2.
    assert (X : forall o', I o' -> fst o' = e -> wp um rd (h_name h) I Q (Call (Symlink sock (link_of rd (h_name h)))
       (fun a => match a with AOk => env_prog rd h | _ => Ret false end)) o').
    { intros o' Io Fe. split; [exact Io|]. intros f2 out2 Eo2.
      assert (NF : wp um rd (h_name h) I Q (Ret false) (own_of rd (h_name h) f2)) by (rewrite Eo2; split; [exact Io|discriminate]).
      destruct out2 as [|k]; cbn [exec]; [|exact NF].
      destruct (f2 (link_of rd (h_name h))); [exact NF|].
      destruct (is_dir f2 (tl (link_of rd (h_name h)))); [|exact NF].
      unfold own_of at 1. rewrite put_same, put_other by exact NL.
      replace (f2 (env_of rd (h_name h))) with e by (rewrite <- Fe, <- Eo2; reflexivity).
      apply wp_env; [exact G|right; exists sock; auto|unfold link_after; rewrite B; reflexivity]. }
    destruct out as [|k]; cbn [exec].
    - destruct (f (link_of rd (h_name h))) as [[| |]|] eqn:FL; apply X;
        try (unfold own_of; rewrite ?put_same, ?put_other, ?E1, ?FL, ?E2 by exact NL; first [exact I0|exact IN|reflexivity]);
        unfold own_of; rewrite ?put_same, ?put_other, ?E1, ?FL by exact NL; rewrite ?E2; first [exact I0|exact IN|reflexivity].
    - apply X; unfold own_of; rewrite ?E1, ?E2; [exact I0|reflexivity]. }
  apply wp_create; [exists []; reflexivity|]. intros [|]; [|exact F0].
  cbn [negb]. split; [exact I0|]. intros f out Eo. destruct (exec_stat um f (sessions_of rd) out) as (a & ->). rewrite Eo.
  destruct a; try exact F0. destruct (st_mode =? 448); [exact R|].
  split; [exact I0|]. intros f1 out1 Eo1. destruct (exec um f1 (Chmod (sessions_of rd) 448) out1) as [f1' a1] eqn:X1.
  rewrite (exec_chmod_own _ _ _ _ _ _ _ _ X1), Eo1. destruct a1; [exact R|exact F0|exact F0|exact F0].
Qed.

(** One attach of a session among attaches of others. *)
Definition others (n : rstr) (t : nat) (st : tree) : Prop :=
  forall u h p, u <> t -> jobs st u = Some (h, p) -> h_name h = n -> finished p.

Lemma happen_others um rd n t st e : others n t st -> (forall u cfg h, e = Begin u cfg h -> u <> t -> h_name h <> n) ->
  others n t (happen um rd st e).
Proof.
  intros O N. destruct e as [u cfg h|u o]; cbn [happen].
  - destruct (jobs st u) eqn:J; [exact O|]. destruct (daemon_rejects (h_name h)); [exact O|].
    intros v h' p Nv. cbn [jobs]. destruct (Nat.eqb v u) eqn:E; [|apply O; exact Nv]. apply PeanoNat.Nat.eqb_eq in E. subst v.
    intros [= <- <-] X. exfalso. apply (N _ _ _ eq_refl Nv X).
  - destruct (jobs st u) as [[h [ok|c k]]|] eqn:J; try exact O.
    destruct (exec um (files st) c o) as [f a]. intros v h' p Nv. cbn [jobs]. destruct (Nat.eqb v u) eqn:E; [|apply O; exact Nv].
    apply PeanoNat.Nat.eqb_eq in E. subst v. intros [= <- <-] X. destruct (O _ _ _ Nv J X) as (b & D). discriminate.
Qed.

Lemma happen_other_own um rd n t st e : orderly rd st -> others n t st ->
  (forall o, e <> Step t o) -> own_of rd n (files (happen um rd st e)) = own_of rd n (files st).
Proof.
  intros Or O N. destruct e as [u cfg h|u o]; cbn [happen].
  - destruct (jobs st u); [reflexivity|]. destruct (daemon_rejects (h_name h)); reflexivity.
  - destruct (jobs st u) as [[h [ok|c k]]|] eqn:J; try reflexivity.
    destruct (exec um (files st) c o) as [f a] eqn:E. cbn [files].
    assert (Nu : u <> t) by (intros ->; apply (N o); reflexivity).
    assert (Nn : h_name h <> n) by (intros X; destruct (O _ _ _ Nu J X) as (b & D); discriminate).
    destruct (Or _ _ _ J) as (_ & A & _). destruct (exec_own _ _ _ _ _ _ _ _ _ A Nn E) as (-> & ->) || idtac.
    unfold own_of. destruct (exec_own _ _ _ _ _ _ _ _ _ A Nn E) as (X1 & X2). f_equal; [exact X1|exact X2].
Qed.

Section Alone.
Variables (um : N) (rd : rstr) (h : attach_header) (t : nat) (I Q : own -> Prop).
Let n := h_name h.
Definition at_work (st : tree) : Prop :=
  orderly rd st /\ others n t st /\ exists p, jobs st t = Some (h, p) /\ wp um rd n I Q p (own_of rd n (files st)).

Lemma happen_at_work st e : at_work st -> (forall u cfg h', e = Begin u cfg h' -> h_name h' <> n) -> at_work (happen um rd st e).
Proof.
  intros (Or & O & p & J & W) N. split; [apply happen_orderly; exact Or|]. split; [apply happen_others; [exact O|intros u cfg h' E _; apply (N u cfg h' E)]|].
  assert (D : (exists o, e = Step t o) \/ forall o, e <> Step t o).
  { destruct e as [u ? ?|u o]; [right; discriminate|]. destruct (PeanoNat.Nat.eq_dec u t) as [->|X]; [left; eauto|right]. intros o' [= -> _]. congruence. }
  destruct D as [(o & ->)|D].
  - cbn [happen]. rewrite J. destruct p as [ok|c k]; [exists (Ret ok); auto|].
    destruct W as (_ & W). specialize (W (files st) o eq_refl). destruct (exec um (files st) c o) as [f a]. cbn [jobs files].
    rewrite PeanoNat.Nat.eqb_refl. exists (k a). auto.
  - exists p. rewrite (happen_other_own _ _ _ _ _ _ Or O D). split; [|exact W].
    destruct e as [u cfg h'|u o]; cbn [happen].
    + destruct (jobs st u) eqn:Ju; [exact J|]. destruct (daemon_rejects (h_name h')); [exact J|]. cbn [jobs].
      destruct (Nat.eqb t u) eqn:E; [apply PeanoNat.Nat.eqb_eq in E; subst u; congruence|exact J].
    + destruct (jobs st u) as [[h' [ok|c k]]|] eqn:Ju; try exact J. destruct (exec um (files st) c o) as [f a]. cbn [jobs].
      destruct (Nat.eqb t u) eqn:E; [apply PeanoNat.Nat.eqb_eq in E; subst u; exfalso; apply (D o); reflexivity|exact J].
Qed.
Lemma run_at_work es : forall st, at_work st -> none_begins n es -> at_work (run um rd st es).
Proof.
  induction es as [|e es IH]; intros st A N; [exact A|]. apply IH.
  - apply happen_at_work; [exact A|]. intros u cfg h' ->. apply (N u cfg). left. reflexivity.
  - intros u cfg h' X. apply (N u cfg). right. exact X.
Qed.
End Alone.

Lemma begin_at_work um rd t cfg h st : orderly rd st -> no_attach_of (h_name h) st -> jobs st t = None -> good_name (h_name h) ->
  let b := own_of rd (h_name h) (files st) in
  at_work um rd h t (meanwhile um cfg h b) (done um cfg h b) (happen um rd st (Begin t cfg h)).
Proof.
  intros Or NA J G b. split; [apply happen_orderly; exact Or|]. split.
  - apply happen_others.
    + intros u h' p _ Ju X. apply (NA u h' p Ju X).
    + intros u cfg' h' [= <- _ _] X. congruence.
  - cbn [happen]. rewrite J. rewrite (proj2 (daemon_rejects_iff (h_name h)) G). cbn [jobs files]. rewrite PeanoNat.Nat.eqb_refl.
    eexists. split; [reflexivity|]. apply wp_files. exact G.
Qed.

Lemma idle_orderly rd f : orderly rd (idle f).
Proof. intros t h p. discriminate. Qed.
Lemma reached_orderly um rd f es : orderly rd (run um rd (idle f) es).
Proof. apply run_orderly. apply idle_orderly. Qed.

(** A session nobody attaches to keeps its files. *)
Lemma run_untouched um rd n es : forall st, orderly rd st -> no_attach_of n st -> none_begins n es ->
  own_of rd n (files (run um rd st es)) = own_of rd n (files st).
Proof.
  induction es as [|e es IH]; intros st Or NA N; [reflexivity|].
  change (run um rd st (e :: es)) with (run um rd (happen um rd st e) es).
  assert (Ne : forall u cfg h, e = Begin u cfg h -> h_name h <> n) by (intros u cfg h ->; apply (N u cfg); left; reflexivity).
  rewrite IH.
  - destruct e as [u cfg h|u o].
    + cbn [happen]. destruct (jobs st u); [reflexivity|]. destruct (daemon_rejects (h_name h)); reflexivity.
    + apply (happen_other_own _ _ _ (S u)); [exact Or|intros v h p _; apply NA|]. intros o' [= E _]. apply (PeanoNat.Nat.neq_succ_diag_r u). exact E.
  - apply happen_orderly. exact Or.
  - intros u h p J X. assert (O := happen_others um rd n (S u) st e). apply (O (fun v h' p' _ => NA v h' p') (fun v c h' E _ => Ne v c h' E) u h p); [lia|exact J|exact X].
  - intros u cfg h X. apply (N u cfg). right. exact X.
Qed.

(** Modes under a covering umask. *)
Definition closed (o : option node) : Prop :=
  match o with Some (File m _) => forall s, N.testbit m (r_bit s) = false /\ N.testbit m (w_bit s) = false | _ => True end.

Lemma exec_closed um f c o f' a p : covers um -> (forall m, c <> Chmod p m) -> exec um f c o = (f', a) -> closed (f p) -> closed (f' p).
Proof.
  intros Cv NC E C.
  assert (Z : forall s, N.testbit (N.ldiff 438 um) (r_bit s) = false /\ N.testbit (N.ldiff 438 um) (w_bit s) = false).
  { intros s. destruct (Cv s) as (C1 & C2). rewrite !N.ldiff_spec, C1, C2, !andb_false_r. split; reflexivity. }
  assert (X : forall q v, (q = p -> closed v) -> closed (put f q v p)).
  { intros q v H. destruct (path_eqb p q) eqn:Q; [apply path_eqb_eq in Q; subst q; rewrite put_same; auto|].
    unfold put. rewrite Q. exact C. }
  destruct o as [|k].
  - destruct c as [q|q|q m'|q|t q|q|q t]; cbn [exec] in E.
    + destruct (f q); [destruct q; injection E as <- _; exact C|]. destruct q as [|x up]; [injection E as <- _; exact C|].
      destruct (is_dir f up); [|destruct (f up); injection E as <- _; exact C]. injection E as <- _. apply X. intros _. exact I.
    + destruct (f q) as [[| |]|]; injection E as <- _; exact C.
    + destruct (f q) as [[| |]|]; injection E as <- _; try exact C; apply X; intros ->; exfalso; apply (NC m'); reflexivity.
    + destruct (f q) as [[| |]|]; injection E as <- _; try exact C; apply X; intros _; exact I.
    + destruct (f q); [injection E as <- _; exact C|]. destruct (is_dir f (tl q)); injection E as <- _; [|exact C]. apply X. intros _. exact I.
    + destruct (f q) as [[|m t|]|] eqn:F; try (injection E as <- _; exact C).
      * injection E as <- _. apply X. intros ->. rewrite F in C. exact C.
      * destruct (is_dir f (tl q)); injection E as <- _; [|exact C]. apply X. intros _. exact Z.
    + destruct (f q) as [[|m t'|]|] eqn:F; injection E as <- _; try exact C. apply X. intros ->. rewrite F in C. exact C.
  - destruct c as [q|q|q m'|q|t q|q|q t]; cbn [exec] in E; injection E as <- _; try exact C.
    destruct (f q) as [[|m t'|]|] eqn:F; try exact C. apply X. intros ->. rewrite F in C. exact C.
Qed.
Lemma run_closed um rd n es : covers um -> forall st, orderly rd st -> closed (files st (env_of rd n)) ->
  closed (files (run um rd st es) (env_of rd n)).
Proof.
  intros Cv. induction es as [|e es IH]; intros st Or C; [exact C|]. apply IH; [apply happen_orderly; exact Or|].
  destruct e as [u cfg h|u o]; cbn [happen].
  - destruct (jobs st u); [exact C|]. destruct (daemon_rejects (h_name h)); exact C.
  - destruct (jobs st u) as [[h [ok|c k]]|] eqn:J; try exact C.
    destruct (exec um (files st) c o) as [f a] eqn:E. cbn [files]. apply (exec_closed _ _ _ _ _ _ _ Cv) with (2 := E); [|exact C].
    destruct (Or _ _ _ J) as (_ & A & _). intros m ->. cbn in A. destruct A as (A & _).
    apply (f_equal (@length _)) in A. cbn in A. lia.
Qed.

(** The link is only made once the directory of sessions has been shut. *)
Definition no_file (f : fs) (p : path) : Prop := f p = None \/ exists m, f p = Some (Dir m).
Lemma exec_no_file um rd n f c o f' a : allowed rd n c -> exec um f c o = (f', a) -> no_file f (sessions_of rd) -> no_file f' (sessions_of rd).
Proof.
  intros A E [N|(m & D)].
  2: { destruct (exec_dir _ _ _ _ _ _ _ _ E D) as [X|(m' & _ & X)]; right; eauto. }
  assert (L : forall x, put f (link_of rd n) x (sessions_of rd) = None).
  { intros x. rewrite put_other; [exact N|]. intros F. apply (f_equal (@length _)) in F. cbn in F. lia. }
  assert (L2 : forall x, put f (env_of rd n) x (sessions_of rd) = None).
  { intros x. rewrite put_other; [exact N|]. intros F. apply (f_equal (@length _)) in F. cbn in F. lia. }
  destruct o as [|k].
  - destruct c as [q|q|q m'|q|t q|q|q t]; cbn [exec allowed] in *.
    + destruct (f q); [destruct q; injection E as <- _; left; exact N|]. destruct q as [|x up]; [injection E as <- _; left; exact N|].
      destruct (is_dir f up); [|destruct (f up); injection E as <- _; left; exact N]. injection E as <- _.
      unfold no_file, put. destruct (path_eqb (sessions_of rd) (x :: up)); [right; eauto|left; exact N].
    + destruct (f q) as [[| |]|]; injection E as <- _; left; exact N.
    + destruct A as (-> & _). rewrite N in E. injection E as <- _. left. exact N.
    + subst q. destruct (f (link_of rd n)) as [[| |]|]; injection E as <- _; left; auto.
    + subst q. destruct (f (link_of rd n)); [injection E as <- _; left; exact N|].
      destruct (is_dir f (tl (link_of rd n))); injection E as <- _; left; auto.
    + subst q. destruct (f (env_of rd n)) as [[| |]|]; try (injection E as <- _; left; auto; fail).
      destruct (is_dir f (tl (env_of rd n))); injection E as <- _; left; auto.
    + subst q. destruct (f (env_of rd n)) as [[| |]|]; injection E as <- _; left; auto.
  - destruct c as [q|q|q m'|q|t q|q|q t]; cbn [exec allowed] in *; injection E as <- _; try (left; exact N).
    subst q. destruct (f (env_of rd n)) as [[| |]|]; left; auto.
Qed.

(** [locks p]: a good end is reached only after the directory was shut. *)
Fixpoint locks (rd : rstr) (p : prog) : Prop :=
  match p with
  | Ret ok => ok = false
  | Call c k => forall a, a <> AMode 448 -> (c = Chmod (sessions_of rd) 448 -> a <> AOk) -> locks rd (k a)
  end.
Lemma amode_inj a b : AMode a = AMode b -> a = b.
Proof. intros H. change (match AMode a with AMode x => x | _ => 0 end = b). rewrite H. reflexivity. Qed.
Lemma exec_mode um f c o f' : exec um f c o <> (f', AMode 448).
Proof.
  intros E. destruct o as [|k].
  - destruct c as [q|q|q m'|q|t q|q|q t]; cbn [exec] in E.
    + destruct (f q); [destruct q; discriminate|]. destruct q as [|x up]; [discriminate|]. destruct (is_dir f up); [discriminate|destruct (f up); discriminate].
    + destruct (f q) as [[| |]|]; try discriminate; apply (f_equal snd) in E; cbn [snd] in E; apply amode_inj in E; lia.
    + destruct (f q) as [[| |]|]; discriminate.
    + destruct (f q) as [[| |]|]; discriminate.
    + destruct (f q); [discriminate|]. destruct (is_dir f (tl q)); discriminate.
    + destruct (f q) as [[| |]|]; try discriminate. destruct (is_dir f (tl q)); discriminate.
    + destruct (f q) as [[| |]|]; discriminate.
  - destruct c; discriminate.
Qed.

Lemma create_locks rd p : forall k, (forall b, locks rd (k b)) -> locks rd (create_dir_all p k).
Proof.
  induction p as [|x p IH]; intros k K; [apply K|].
  assert (D : locks rd (Call (Stat (x :: p)) (fun s => k (says_dir s)))) by (intros a _ _; apply K).
  cbn [create_dir_all locks]. intros a _ _. destruct a; try exact D; [apply K|].
  apply IH. intros [|]; [|apply K]. intros a _ _. destruct a; try exact D. apply K.
Qed.
Lemma files_locks rd cfg h sock : good_name (h_name h) -> brings cfg h = Some sock -> locks rd (files_prog cfg rd h).
Proof.
  intros G. rewrite brings_is. unfold files_prog, link_prog. destruct (match cfg with Some b => b | None => false end); [discriminate|].
  intros ->. rewrite link_at by assumption. cbn [link_of dir_of tl]. cbv zeta. apply create_locks. intros [|]; [|reflexivity].
  cbn [negb locks]. intros a Na _. destruct a; try reflexivity.
  destruct (N.eqb_spec st_mode 448) as [->|X]; [congruence|]. intros a _ N. specialize (N eq_refl). destruct a; try reflexivity. congruence.
Qed.

Definition locked (rd : rstr) (t : nat) (st : tree) : Prop :=
  orderly rd st /\ no_file (files st) (sessions_of rd) /\
  exists h p, jobs st t = Some (h, p) /\ (locks rd p \/ shut (files st) (sessions_of rd)).
Lemma happen_locked um rd t st e : locked rd t st -> locked rd t (happen um rd st e).
Proof.
  intros (Or & NF & h & p & J & L). split; [apply happen_orderly; exact Or|].
  assert (S := fun H => happen_shut um rd st e (sessions_of rd) Or H).
  destruct e as [u cfg h'|u o]; cbn [happen] in *.
  - destruct (jobs st u) eqn:Ju; [split; [exact NF|exists h, p; auto]|].
    destruct (daemon_rejects (h_name h')); [split; [exact NF|exists h, p; auto]|]. cbn [files jobs] in *. split; [exact NF|].
    exists h, p. split; [|exact L]. destruct (Nat.eqb t u) eqn:E; [apply PeanoNat.Nat.eqb_eq in E; subst u; congruence|exact J].
  - destruct (jobs st u) as [[h' [ok|c k]]|] eqn:Ju; try (split; [exact NF|exists h, p; auto]).
    destruct (Or _ _ _ Ju) as (G & A & _).
    destruct (exec um (files st) c o) as [f a] eqn:E. cbn [files jobs] in *.
    assert (NF' := exec_no_file _ _ _ _ _ _ _ _ A E NF). split; [exact NF'|].
    destruct (Nat.eqb t u) eqn:Q.
    + apply PeanoNat.Nat.eqb_eq in Q. subst u. rewrite J in Ju. injection Ju as -> ->. exists h', (k a). split; [reflexivity|].
      destruct L as [L|L]; [|right; auto]. cbn [locks] in L.
      assert (Na : a <> AMode 448) by (intros ->; apply (exec_mode _ _ _ _ _ E)).
      assert (Dec : (c = Chmod (sessions_of rd) 448 /\ a = AOk) \/ (c = Chmod (sessions_of rd) 448 -> a <> AOk)).
      { destruct a; try (right; discriminate). destruct c as [q|q|q m'|q|x q|q|q x]; try (right; discriminate).
        cbn in A. destruct A as (-> & ->). left. auto. }
      destruct Dec as [(-> & ->)|Dec]; [|left; apply L; assumption].
      right. destruct o as [|k0]; cbn [exec] in E; [|discriminate].
      destruct NF as [N|(m & D)]; [rewrite N in E; discriminate|]. rewrite D in E. injection E as <-.
      exists 448. rewrite put_same. auto.
    + exists h, p. split; [exact J|]. destruct L as [L|L]; auto.
Qed.
Lemma run_locked um rd t es : forall st, locked rd t st -> locked rd t (run um rd st es).
Proof. induction es as [|e es IH]; intros st L; [exact L|]. apply IH. apply happen_locked. exact L. Qed.

(** With nothing in the way and nothing refused an attach's files are written. *)
Fixpoint within (k : nat) (p : prog) {struct p} : Prop :=
  match p with
  | Ret _ => True
  | Call _ c => match k with O => False | S k' => forall a, within k' (c a) end
  end.
Lemma within_more p : forall k k', within k p -> (k <= k')%nat -> within k' p.
Proof.
  induction p as [ok|c f IH]; intros k k' W L; [exact I|]. destruct k as [|k]; [destruct W|]. destruct k' as [|k']; [lia|].
  intros a. apply (IH a k); [apply W|lia].
Qed.
Lemma create_within p m : forall k, (forall b, within m (k b)) -> within (3 * length p + m) (create_dir_all p k).
Proof.
  revert m. induction p as [|x p IH]; intros m k K; [apply K|].
  assert (D : within (S m) (Call (Stat (x :: p)) (fun s => k (says_dir s)))) by (intros a; apply K).
  cbn [create_dir_all]. replace (3 * length (x :: p) + m)%nat with (S (3 * length p + S (S m))) by (cbn; lia).
  intros a. destruct a.
  - apply within_more with (k := m); [apply K|lia].
  - apply IH. intros [|]; [|apply within_more with (k := m); [apply K|lia]].
    intros a. destruct a; try exact D. apply within_more with (k := m); [apply K|lia].
  - apply within_more with (k := S m); [exact D|lia].
  - apply within_more with (k := S m); [exact D|lia].
Qed.
Lemma env_within rd h : good_name (h_name h) -> within (3 * length (components rd) + 8) (env_prog rd h).
Proof.
  intros G. unfold env_prog. rewrite dir_at by assumption.
  replace (3 * length (components rd) + 8)%nat with (3 * length (dir_of rd (h_name h)) + 2)%nat.
  2: { cbn [dir_of sessions_of length]. rewrite rev_length. lia. }
  apply create_within. intros [|]; [|exact I]. cbn [negb]. intros a. destruct a; try exact I. intros a. destruct a; exact I.
Qed.
Lemma files_within rd cfg h : good_name (h_name h) -> within (6 * length (components rd) + 18) (files_prog cfg rd h).
Proof.
  intros G. pose proof (env_within rd h G) as W. unfold files_prog, link_prog.
  destruct (match cfg with Some b => b | None => false end); [apply within_more with (1 := W); lia|].
  destruct (local_env_get h (lit "SSH_AUTH_SOCK")) as [sock|]; [|apply within_more with (1 := W); lia].
  rewrite link_at by assumption. cbn [link_of dir_of tl]. cbv zeta.
  change (Entry (h_name h) :: sessions_of rd) with (dir_of rd (h_name h)).
  replace (6 * length (components rd) + 18)%nat with (3 * length (dir_of rd (h_name h)) + (3 * length (components rd) + 12))%nat.
  2: { cbn [dir_of sessions_of length]. rewrite rev_length. lia. }
  apply create_within. intros [|]; [|exact I]. cbn [negb].
  replace (3 * length (components rd) + 12)%nat with (S (S (S (S (3 * length (components rd) + 8))))) by lia.
  assert (R : within (S (S (3 * length (components rd) + 8))) (Call (Unlink (Entry (lit "ssh-auth-sock.socket") :: dir_of rd (h_name h)))
     (fun _ => Call (Symlink sock (Entry (lit "ssh-auth-sock.socket") :: dir_of rd (h_name h))) (fun a => match a with AOk => env_prog rd h | _ => Ret false end)))).
  { intros _ a. destruct a; [exact W|exact I|exact I|exact I]. }
  intros a. destruct a; try exact I. destruct (st_mode =? 448); [apply within_more with (1 := R); lia|].
  intros a. destruct a; try exact I. exact R.
Qed.

Definition fit (rd n : rstr) (f : fs) : Prop := unobstructed f rd n /\ tidy f.

Lemma exec_new um f c o f' a q : exec um f c o = (f', a) -> f q = None -> f' q <> None -> is_dir f (tl q) = true.
Proof.
  intros E N S.
  assert (X : forall p v, f' = put f p v -> (f p = None -> is_dir f (tl p) = true) -> is_dir f (tl q) = true).
  { intros p v -> H. unfold put in S. destruct (path_eqb q p) eqn:Q; [apply path_eqb_eq in Q; subst p; auto|congruence]. }
  destruct o as [|k].
  - destruct c as [p|p|p m'|p|t p|p|p t]; cbn [exec] in E.
    + destruct (f p) eqn:F; [destruct p; injection E as <- _; congruence|]. destruct p as [|x up]; [injection E as <- _; congruence|].
      destruct (is_dir f up) eqn:D; [|destruct (f up); injection E as <- _; congruence]. injection E as <- _.
      apply (X _ _ eq_refl). intros _. exact D.
    + destruct (f p) as [[| |]|]; injection E as <- _; congruence.
    + destruct (f p) as [[| |]|] eqn:F; injection E as <- _; try congruence; apply (X _ _ eq_refl); congruence.
    + destruct (f p) as [[| |]|] eqn:F; injection E as <- _; try congruence; apply (X _ _ eq_refl); congruence.
    + destruct (f p) eqn:F; [injection E as <- _; congruence|]. destruct (is_dir f (tl p)) eqn:D; injection E as <- _; [|congruence].
      apply (X _ _ eq_refl). intros _. exact D.
    + destruct (f p) as [[| |]|] eqn:F; try (injection E as <- _; congruence).
      * injection E as <- _. apply (X _ _ eq_refl). congruence.
      * destruct (is_dir f (tl p)) eqn:D; injection E as <- _; [|congruence]. apply (X _ _ eq_refl). intros _. exact D.
    + destruct (f p) as [[| |]|] eqn:F; injection E as <- _; try congruence. apply (X _ _ eq_refl). congruence.
  - destruct c as [p|p|p m'|p|t p|p|p t]; cbn [exec] in E; injection E as <- _; try congruence.
    destruct (f p) as [[| |]|] eqn:F; try congruence. apply (X _ _ eq_refl). congruence.
Qed.

(** Where a node is new or changed, what it is and where. *)
Lemma exec_changes um rd n f c o f' a : allowed rd n c -> exec um f c o = (f', a) ->
  f' = f \/
  (exists p m, (exists l, dir_of rd n = l ++ p) /\ f' = put f p (Some (Dir m)) /\ m < 4096) \/
  (exists m t t', f (sessions_of rd) = Some (File m t) /\ f' = put f (sessions_of rd) (Some (File t' t))) \/
  (exists v, (v = None \/ exists s, v = Some (Link s)) /\ f' = put f (link_of rd n) v) \/
  (exists m t, f' = put f (env_of rd n) (Some (File m t))).
Proof.
  intros A E. assert (B : N.ldiff 511 um < 4096).
  { destruct (N.eq_dec (N.ldiff 511 um) 0) as [->|Z]; [lia|]. apply N.log2_lt_pow2 with (b := 12); [lia|].
    assert (T := N.bit_log2 _ Z). rewrite N.ldiff_spec in T. apply andb_prop in T. destruct T as (T & _).
    destruct (N.le_gt_cases 12 (N.log2 (N.ldiff 511 um))) as [L|L]; [|exact L].
    rewrite N.bits_above_log2 in T; [discriminate|]. change (N.log2 511) with 8. lia. }
  destruct o as [|k].
  - destruct c as [p|p|p m'|p|t p|p|p t]; cbn [exec allowed] in *.
    + destruct (f p) eqn:F; [destruct p; injection E as <- _; auto|]. destruct p as [|x up]; [injection E as <- _; auto|].
      destruct (is_dir f up) eqn:D; [|destruct (f up); injection E as <- _; auto]. injection E as <- _. right. left. eauto 6.
    + destruct (f p) as [[| |]|]; injection E as <- _; auto.
    + destruct A as (-> & ->). destruct (f (sessions_of rd)) as [[| |]|] eqn:F; injection E as <- _; auto.
      * right. left. exists (sessions_of rd), 448. split; [exists [Entry n]; reflexivity|]. split; [reflexivity|lia].
      * right. right. left. eauto.
    + subst p. destruct (f (link_of rd n)) as [[| |]|]; injection E as <- _; auto; right; right; right; left; eauto.
    + subst p. destruct (f (link_of rd n)); [injection E as <- _; auto|].
      destruct (is_dir f (tl (link_of rd n))); injection E as <- _; auto. right; right; right; left; eauto.
    + subst p. destruct (f (env_of rd n)) as [[| |]|]; try (injection E as <- _; auto; fail).
      * injection E as <- _. right; right; right; right; eauto.
      * destruct (is_dir f (tl (env_of rd n))); injection E as <- _; auto. right; right; right; right; eauto.
    + subst p. destruct (f (env_of rd n)) as [[| |]|]; injection E as <- _; auto. right; right; right; right; eauto.
  - destruct c as [p|p|p m'|p|t p|p|p t]; cbn [exec allowed] in *; injection E as <- _; auto.
    subst p. destruct (f (env_of rd n)) as [[| |]|]; auto. right; right; right; right; eauto.
Qed.

Lemma above_length d p : above d p -> (0 < length d < length p)%nat.
Proof.
  intros (N & l & L & ->). rewrite app_length. destruct d; [congruence|]. destruct l; [congruence|]. cbn. lia.
Qed.
Lemma suffix_above rd n x p : (exists l, dir_of rd n = l ++ x :: p) -> above (x :: p) (env_of rd n).
Proof.
  intros (l & L). split; [discriminate|]. exists (Entry (lit "forward.env") :: l). split; [discriminate|].
  unfold env_of. rewrite L. reflexivity.
Qed.

Lemma exec_fit um rd n n' f c o f' a : allowed rd n' c -> exec um f c o = (f', a) -> fit rd n f -> fit rd n f'.
Proof.
  intros A E ((U1 & U2 & U3) & T1 & T2).
  assert (T : forall x up, f' (x :: up) <> None -> up = [] \/ exists m, f' up = Some (Dir m)).
  { intros x up N. destruct (f (x :: up)) eqn:F.
    - destruct (T1 x up) as [->|(m & D)]; [congruence|left; reflexivity|]. right.
      destruct (exec_dir _ _ _ _ _ _ _ _ E D) as [X|(m' & _ & X)]; eauto.
    - assert (D := exec_new _ _ _ _ _ _ _ E F N). cbn [tl] in D. destruct up as [|y up]; [left; reflexivity|]. right.
      unfold is_dir in D. destruct (f (y :: up)) as [[m| |]|] eqn:Fu; try discriminate.
      destruct (exec_dir _ _ _ _ _ _ _ _ E Fu) as [X|(m' & _ & X)]; eauto. }
  destruct (exec_changes _ _ _ _ _ _ _ _ A E) as [->|[(p & m & P & -> & B)|[(m & t & t' & F & _)|[(v & V & ->)|(m & t & ->)]]]].
  - split; [split; [exact U1|split; [exact U2|exact U3]]|split; [exact T1|exact T2]].
  - assert (Lp : (length p <= length (dir_of rd n'))%nat) by (destruct P as (l & P); rewrite P, app_length; lia).
    cbn [dir_of length] in Lp.
    split; [split; [|split]|split; [exact T|]].
    + intros d Ad. unfold put. destruct (path_eqb d p); [right; eauto|apply U1; exact Ad].
    + rewrite put_other; [exact U2|]. intros Q. apply (f_equal (@length _)) in Q. cbn [env_of link_of dir_of length] in Q. lia.
    + intros m'. rewrite put_other; [apply U3|]. intros Q. apply (f_equal (@length _)) in Q. cbn [env_of link_of dir_of length] in Q. lia.
    + intros q m'. unfold put. destruct (path_eqb q p); [intros [= <-]; exact B|apply T2].
  - exfalso. destruct (U1 (sessions_of rd)) as [X|(m' & X)]; [|congruence|congruence].
    apply suffix_above. exists [Entry n]. reflexivity.
  - split; [split; [|split]|split; [exact T|]].
    + intros d Ad. rewrite put_other; [apply U1; exact Ad|]. intros ->. apply above_length in Ad. cbn in Ad. lia.
    + rewrite put_other; [exact U2|]. discriminate.
    + intros m'. unfold put. destruct (path_eqb (link_of rd n) (link_of rd n')); [|apply U3]. destruct V as [->|(s & ->)]; discriminate.
    + intros q m'. unfold put. destruct (path_eqb q (link_of rd n')); [|apply T2]. destruct V as [->|(s & ->)]; discriminate.
  - split; [split; [|split]|split; [exact T|]].
    + intros d Ad. rewrite put_other; [apply U1; exact Ad|]. intros ->. apply above_length in Ad. cbn in Ad. lia.
    + unfold put. destruct (path_eqb (env_of rd n) (env_of rd n')); [right; eauto|exact U2].
    + intros m'. rewrite put_other; [apply U3|]. discriminate.
    + intros q m'. unfold put. destruct (path_eqb q (env_of rd n')); [discriminate|apply T2].
Qed.

Section Sure.
Variables (um : N) (rd n : rstr).
Definition dirs_stay (f g : fs) : Prop := forall d m, f d = Some (Dir m) -> exists m', g d = Some (Dir m').
Definition later (f g : fs) : Prop := fit rd n g /\ dirs_stay f g /\ own_of rd n g = own_of rd n f.
Lemma later_trans f g k : later f g -> later g k -> later f k.
Proof.
  intros (_ & D1 & O1) (F & D2 & O2). split; [exact F|]. split; [|congruence].
  intros d m H. destruct (D1 _ _ H) as (m1 & H1). apply (D2 _ _ H1).
Qed.
Lemma exec_stay c o f f' a : exec um f c o = (f', a) -> dirs_stay f f'.
Proof. intros E d m D. destruct (exec_dir _ _ _ _ _ _ _ _ E D) as [X|(m' & _ & X)]; eauto. Qed.
Lemma stay_is_dir f g p : dirs_stay f g -> is_dir f p = true -> is_dir g p = true.
Proof.
  intros S. destruct p as [|x p]; [reflexivity|]. unfold is_dir. destruct (f (x :: p)) as [[m| |]|] eqn:F; try discriminate.
  intros _. destruct (S _ _ F) as (m' & ->). reflexivity.
Qed.

Fixpoint sure (p : prog) (f : fs) : Prop :=
  match p with
  | Ret ok => ok = true
  | Call c k => forall g, later f g -> let (g', a) := exec um g c Fine in sure (k a) g'
  end.
Lemma sure_later p f g : later f g -> sure p f -> sure p g.
Proof. destruct p as [ok|c k]; [auto|]. intros L S k' Lk. apply S. apply (later_trans _ _ _ L Lk). Qed.

Lemma fit_suffix f x p : fit rd n f -> (exists l, dir_of rd n = l ++ x :: p) -> f (x :: p) = None \/ exists m, f (x :: p) = Some (Dir m) /\ m < 4096.
Proof.
  intros ((U & _) & _ & T) P. destruct (U (x :: p) (suffix_above _ _ _ _ P)) as [X|(m & X)]; [left; exact X|right]. exists m. split; [exact X|apply (T _ _ X)].
Qed.

Lemma sure_create : forall p, (exists l, dir_of rd n = l ++ p) -> forall k f, fit rd n f ->
  (forall g, later f g -> is_dir g p = true -> sure (k true) g) -> sure (create_dir_all p k) f.
Proof.
  induction p as [|x p IH]; intros P k f Ff K.
  { apply K; [|reflexivity]. split; [exact Ff|]. split; [intros d m H; eauto|reflexivity]. }
  assert (A : allowed rd n (Mkdir (x :: p))) by exact P.
  assert (Pp : exists l, dir_of rd n = l ++ p) by (destruct P as (l & P); exists (l ++ [x]); rewrite P, <- app_assoc; reflexivity).
  assert (D : forall g m, later f g -> g (x :: p) = Some (Dir m) -> sure (Call (Stat (x :: p)) (fun s => k (says_dir s))) g).
  { intros g m Lg G g2 L2. cbn [exec]. destruct L2 as (F2 & S2 & O2). destruct (fit_suffix _ _ _ F2 P) as [X|(m2 & X & B)].
    - destruct (S2 _ _ G) as (m2 & Y). congruence.
    - rewrite X. replace (says_dir (AMode (16384 + m2))) with true.
      + apply K; [apply (later_trans _ _ _ Lg); split; [exact F2|split; [exact S2|exact O2]]|]. unfold is_dir. rewrite X. reflexivity.
      + symmetry. apply andb_true_intro. split; [apply N.leb_le; lia|apply N.ltb_lt; lia]. }
  assert (M : forall g g', later f g -> g (x :: p) = None -> is_dir g p = true ->
     exec um g (Mkdir (x :: p)) Fine = (g', AOk) -> later f g' /\ is_dir g' (x :: p) = true).
  { intros g g' Lg G Dp E. split.
    - apply (later_trans _ _ _ Lg). destruct Lg as (Fg & _). split; [apply (exec_fit _ _ _ _ _ _ _ _ _ A E Fg)|].
      split; [apply (exec_stay _ _ _ _ _ E)|apply (exec_own_dir um rd n _ _ _ _ _ P E)].
    - cbn [exec] in E. rewrite G, Dp in E. injection E as <-. unfold is_dir. rewrite put_same. reflexivity. }
  cbn [create_dir_all]. intros g Lg. destruct (exec um g (Mkdir (x :: p)) Fine) as [g' a] eqn:E. pose proof E as E0.
  cbn [exec] in E. destruct (fit_suffix g x p (proj1 Lg) P) as [G|(m & G & _)].
  - rewrite G in E. destruct (is_dir g p) eqn:Dp.
    + injection E as <- <-. apply K; eapply M; eauto.
    + destruct p as [|y p]; [discriminate|]. destruct (fit_suffix g y p (proj1 Lg) Pp) as [G2|(m & G2 & _)].
      2: { unfold is_dir in Dp. rewrite G2 in Dp. discriminate. }
      rewrite G2 in E. injection E as <- <-. apply IH; [exact Pp|exact (proj1 Lg)|]. intros g1 L1 D1 g2 L2.
      assert (Lf : later f g2) by (apply (later_trans _ _ _ Lg), (later_trans _ _ _ L1), L2).
      assert (D2 : is_dir g2 (y :: p) = true) by (apply (stay_is_dir g1); [apply L2|exact D1]).
      destruct (exec um g2 (Mkdir (x :: y :: p)) Fine) as [g2' a2] eqn:E2. pose proof E2 as E2'. cbn [exec] in E2.
      destruct (fit_suffix g2 x (y :: p) (proj1 Lf) P) as [G3|(m3 & G3 & _)]; rewrite G3 in E2.
      * rewrite D2 in E2. injection E2 as <- <-. apply K; eapply M; eauto.
      * injection E2 as <- <-. apply (D g2 m3 Lf G3).
  - rewrite G in E. injection E as <- <-. apply (D g m Lg G).
Qed.
End Sure.

Lemma sure_env um rd h f : good_name (h_name h) -> fit rd (h_name h) f -> sure um rd (h_name h) (env_prog rd h) f.
Proof.
  intros G F. unfold env_prog. rewrite dir_at, env_at by assumption. apply sure_create; [exists []; reflexivity|exact F|].
  intros g Lg D. cbn [negb]. intros g2 L2.
  assert (D2 : is_dir g2 (dir_of rd (h_name h)) = true) by (apply (stay_is_dir g); [apply L2|exact D]).
  set (p := env_of rd (h_name h)).
  assert (W : forall m g3, g3 p = Some (File m []) ->
    sure um rd (h_name h) (Call (Write p (env_file_text h)) (fun a => match a with AOk => Ret true | _ => Ret false end)) g3).
  { intros m g3 X g4 (_ & _ & O). unfold own_of in O. injection O as O1 _. fold p in O1. cbn [exec]. rewrite O1, X. reflexivity. }
  cbn [exec]. destruct L2 as (((_ & U & _) & _) & _). fold p in U. destruct U as [U|(m & t & U)]; rewrite U.
  - replace (is_dir g2 (tl p)) with true. apply (W (N.ldiff 438 um)). apply put_same.
  - apply (W m). apply put_same.
Qed.

Lemma sure_files um rd cfg h f : good_name (h_name h) -> fit rd (h_name h) f -> sure um rd (h_name h) (files_prog cfg rd h) f.
Proof.
  intros G F. unfold files_prog, link_prog. destruct (match cfg with Some b => b | None => false end); [apply sure_env; assumption|].
  destruct (local_env_get h (lit "SSH_AUTH_SOCK")) as [sock|]; [|apply sure_env; assumption].
  rewrite link_at by assumption. cbn [link_of dir_of tl].
  change (Entry (h_name h) :: sessions_of rd) with (dir_of rd (h_name h)).
  change (Entry (lit "ssh-auth-sock.socket") :: dir_of rd (h_name h)) with (link_of rd (h_name h)). cbv zeta.
  apply sure_create; [exists []; reflexivity|exact F|]. intros g Lg D. cbn [negb]. set (n := h_name h) in *. set (p := link_of rd n).
  assert (R : forall g, is_dir g (dir_of rd n) = true -> sure um rd n (Call (Unlink p)
     (fun _ => Call (Symlink sock p) (fun a => match a with AOk => env_prog rd h | _ => Ret false end))) g).
  { clear g Lg D. intros g D g2 L2. assert (D2 := stay_is_dir _ _ _ (proj1 (proj2 L2)) D).
    destruct (exec um g2 (Unlink p) Fine) as [g3 a3] eqn:E3.
    assert (D3 := stay_is_dir _ _ _ (exec_stay _ _ _ _ _ _ E3) D2).
    assert (N3 : g3 p = None).
    { destruct L2 as (((_ & _ & U) & _) & _). cbn [exec] in E3. destruct (g2 p) as [[m| |]|] eqn:X; try (injection E3 as <- _; first [apply put_same|exact X]).
      exfalso. apply (U m). exact X. }
    intros g4 L4. assert (D4 := stay_is_dir _ _ _ (proj1 (proj2 L4)) D3).
    assert (N4 : g4 p = None) by (destruct L4 as (_ & _ & O); unfold own_of in O; injection O as _ O; fold p in O; congruence).
    destruct (exec um g4 (Symlink sock p) Fine) as [g5 a5] eqn:E5.
    assert (F5 : fit rd n g5) by (apply (exec_fit um rd n n g4 (Symlink sock p) Fine g5 a5); [reflexivity|exact E5|apply L4]).
    cbn [exec] in E5. rewrite N4 in E5. replace (is_dir g4 (tl p)) with true in E5. injection E5 as <- <-.
    apply sure_env; assumption. }
  assert (SD : forall g, fit rd n g -> is_dir g (dir_of rd n) = true -> exists m, g (sessions_of rd) = Some (Dir m)).
  { clear. intros g (_ & T & _) D. destruct (T (Entry n) (sessions_of rd)) as [X|X]; [|discriminate|exact X].
    unfold is_dir, dir_of in D. intros X. rewrite X in D. discriminate. }
  intros g2 L2. assert (D2 := stay_is_dir _ _ _ (proj1 (proj2 L2)) D). destruct (SD g2 (proj1 L2) D2) as (m & S). cbn [exec]. rewrite S.
  destruct (16384 + m =? 448); [apply R; exact D2|].
  intros g3 L3. assert (D3 := stay_is_dir _ _ _ (proj1 (proj2 L3)) D2). destruct (SD g3 (proj1 L3) D3) as (m3 & S3).
  destruct (exec um g3 (Chmod (sessions_of rd) 448) Fine) as [g4 a4] eqn:E4.
  assert (D4 := stay_is_dir _ _ _ (exec_stay _ _ _ _ _ _ E4) D3). cbn [exec] in E4. rewrite S3 in E4. injection E4 as <- <-.
  apply R. exact D4.
Qed.

Section Going.
Variables (um : N) (rd : rstr) (h : attach_header) (t : nat).
Let n := h_name h.
Definition going (b : nat) (st : tree) : Prop :=
  orderly rd st /\ others n t st /\ fit rd n (files st) /\
  exists p, jobs st t = Some (h, p) /\ sure um rd n p (files st) /\ within b p.

Lemma happen_fit st e : orderly rd st -> fit rd n (files st) -> fit rd n (files (happen um rd st e)).
Proof.
  intros Or F. destruct e as [u cfg h'|u o]; cbn [happen].
  - destruct (jobs st u); [exact F|]. destruct (daemon_rejects (h_name h')); exact F.
  - destruct (jobs st u) as [[h' [ok|c k]]|] eqn:J; try exact F.
    destruct (exec um (files st) c o) as [f a] eqn:E. cbn [files]. destruct (Or _ _ _ J) as (_ & A & _).
    apply (exec_fit _ _ _ _ _ _ _ _ _ A E F).
Qed.
Lemma happen_stay st e : dirs_stay (files st) (files (happen um rd st e)).
Proof.
  destruct e as [u cfg h'|u o]; cbn [happen].
  - destruct (jobs st u); [|destruct (daemon_rejects (h_name h'))]; intros d m H; exists m; exact H.
  - destruct (jobs st u) as [[h' [ok|c k]]|] eqn:J; try (intros d m H; exists m; exact H).
    destruct (exec um (files st) c o) as [f a] eqn:E. apply (exec_stay _ _ _ _ _ _ E).
Qed.

Lemma run_going es : forall b st, going b st -> none_begins n es -> (forall k, ~ In (Step t (Refused k)) es) ->
  exists p, jobs (run um rd st es) t = Some (h, p) /\ (p = Ret true \/ ~ finished p) /\ within (b - turns t es) p.
Proof.
  induction es as [|e es IH]; intros b st (Or & O & F & p & J & Su & W) N R.
  { exists p. split; [exact J|]. split; [|cbn [turns]; replace (b - 0)%nat with b by lia; exact W].
    destruct p as [ok|c k]; [left; cbn in Su; congruence|right; intros (ok & X); discriminate]. }
  change (run um rd st (e :: es)) with (run um rd (happen um rd st e) es).
  assert (Ne : forall u cfg h', e = Begin u cfg h' -> h_name h' <> n) by (intros u cfg h' ->; apply (N u cfg); left; reflexivity).
  assert (O' : others n t (happen um rd st e)) by (apply happen_others; [exact O|intros u cfg h' E _; apply (Ne u cfg h' E)]).
  assert (Or' := happen_orderly um rd st e Or). assert (F' := happen_fit st e Or F).
  assert (N' : none_begins n es) by (intros u cfg h' X; apply (N u cfg); right; exact X).
  assert (R' : forall k, ~ In (Step t (Refused k)) es) by (intros k X; apply (R k); right; exact X).
  assert (D : (exists o, e = Step t o) \/ forall o, e <> Step t o).
  { destruct e as [u ? ?|u o]; [right; discriminate|]. destruct (PeanoNat.Nat.eq_dec u t) as [->|X]; [left; eauto|right]. intros o' [= -> _]. congruence. }
  destruct D as [(o & ->)|D].
  - destruct o as [|k]; [|exfalso; apply (R k); left; reflexivity]. cbn [turns]. rewrite PeanoNat.Nat.eqb_refl.
    replace (b - S (turns t es))%nat with (Nat.pred b - turns t es)%nat by lia. apply IH; [|exact N'|exact R'].
    split; [exact Or'|]. split; [exact O'|]. split; [exact F'|]. clear N' R' O' Or' F'. cbn [happen]. rewrite J.
    destruct p as [ok|c k]; [exists (Ret ok); auto|].
    assert (L : later rd n (files st) (files st)) by (split; [exact F|split; [intros d m H; eauto|reflexivity]]).
    specialize (Su (files st) L). destruct (exec um (files st) c Fine) as [f a]. cbn [jobs files]. rewrite PeanoNat.Nat.eqb_refl.
    exists (k a). split; [reflexivity|]. split; [exact Su|]. destruct b as [|b]; [destruct W|apply W].
  - replace (turns t (e :: es)) with (turns t es).
    2: { destruct e as [u ? ?|u o]; [reflexivity|]. cbn [turns]. destruct (Nat.eqb u t) eqn:E; [|reflexivity]. apply PeanoNat.Nat.eqb_eq in E. subst u. exfalso. apply (D o). reflexivity. }
    apply IH; [|exact N'|exact R']. split; [exact Or'|]. split; [exact O'|]. split; [exact F'|]. exists p. split; [|split; [|exact W]].
    + destruct e as [u cfg h'|u o]; cbn [happen].
      * destruct (jobs st u) eqn:Ju; [exact J|]. destruct (daemon_rejects (h_name h')); [exact J|]. cbn [jobs].
        destruct (Nat.eqb t u) eqn:E; [apply PeanoNat.Nat.eqb_eq in E; subst u; congruence|exact J].
      * destruct (jobs st u) as [[h' [ok|c k]]|] eqn:Ju; try exact J. destruct (exec um (files st) c o) as [f a]. cbn [jobs].
        destruct (Nat.eqb t u) eqn:E; [apply PeanoNat.Nat.eqb_eq in E; subst u; exfalso; apply (D o); reflexivity|exact J].
    + apply (sure_later _ _ _ _ (files st)); [|exact Su]. split; [exact F'|]. split; [apply happen_stay|].
      apply (happen_other_own um rd n t); [exact Or|exact O|exact D].
Qed.
End Going.

(** Nothing removes a forward.env. *)
Lemma exec_kept um rd n n' f c o f' a : allowed rd n' c -> exec um f c o = (f', a) -> f (env_of rd n) <> None -> f' (env_of rd n) <> None.
Proof.
  intros A E H.
  assert (P : forall p v, v <> None -> put f p v (env_of rd n) <> None).
  { intros p v V. unfold put. destruct (path_eqb (env_of rd n) p); assumption. }
  destruct o as [|k].
  2: { destruct c; cbn [exec] in E; try (injection E as <- _; exact H).
       injection E as <- _. destruct (f p) as [[| |]|]; try exact H. apply P. discriminate. }
  destruct c as [p|p|p m|p|t p|p|p t]; cbn [exec allowed] in *.
  - destruct (f p) eqn:F; [injection E as <- _; exact H|]. destruct p as [|x up]; [injection E as <- _; exact H|].
    destruct (is_dir f up); [injection E as <- _; apply P; discriminate|]. destruct (f up); injection E as <- _; exact H.
  - destruct (f p) as [[| |]|]; injection E as <- _; exact H.
  - destruct (f p) as [[| |]|]; injection E as <- _; try exact H; apply P; discriminate.
  - subst p. destruct (f (link_of rd n')) as [[| |]|]; injection E as <- _; try exact H; rewrite put_other; try exact H; discriminate.
  - destruct (f p); [injection E as <- _; exact H|]. destruct (is_dir f (tl p)); injection E as <- _; [apply P; discriminate|exact H].
  - destruct (f p) as [[| |]|]; try (injection E as <- _; try exact H; apply P; discriminate).
    destruct (is_dir f (tl p)); injection E as <- _; [apply P; discriminate|exact H].
  - destruct (f p) as [[| |]|]; injection E as <- _; try exact H; apply P; discriminate.
Qed.

Lemma run_kept um rd n es : forall st, orderly rd st -> files st (env_of rd n) <> None -> files (run um rd st es) (env_of rd n) <> None.
Proof.
  induction es as [|e es IH]; intros st Or H; [exact H|]. apply IH; [apply happen_orderly; exact Or|].
  destruct e as [u cfg h|u o]; cbn [happen].
  - destruct (jobs st u); [exact H|]. destruct (daemon_rejects (h_name h)); exact H.
  - destruct (jobs st u) as [[h [ok|c k]]|] eqn:J; try exact H.
    destruct (exec um (files st) c o) as [f a] eqn:E. cbn [files]. destruct (Or _ _ _ J) as (_ & A & _). eapply exec_kept; eassumption.
Qed.
