From Coq Require Import List NArith Bool Lia.
From Verif Require Import Model.Base Model.Protocol Model.Config Model.EtcEnvironment Model.Names Model.ShellEnv
  Spec.ShellEnvSpec Proofs.BaseLemmas.
Import ListNotations.
Open Scope N_scope.

Lemma lookup_app {V} k (a b : list (list N * V)) :
  lookup k (a ++ b) = match lookup k a with Some v => Some v | None => lookup k b end.
Proof. induction a as [|[k' v] a IH]; [reflexivity|]. cbn. destruct (str_eqb k k'); [reflexivity|exact IH]. Qed.

Lemma last_value_rev k l : last_value k l = lookup k (rev l).
Proof.
  induction l as [|[k' v] l IH]; [reflexivity|]. cbn [last_value rev]. rewrite lookup_app, IH. cbn [lookup].
  destruct (lookup k (rev l)); reflexivity.
Qed.

Lemma last_value_app k a b : last_value k (a ++ b) = match last_value k b with Some v => Some v | None => last_value k a end.
Proof. rewrite !last_value_rev, rev_app_distr, lookup_app. reflexivity. Qed.

Lemma last_value_filter k f (l : list (rstr * rstr)) :
  last_value k (filter (fun p => f (fst p)) l) = if f k then last_value k l else None.
Proof.
  induction l as [|[k' v] l IH]; [destruct (f k); reflexivity|]. cbn [filter fst last_value].
  destruct (f k') eqn:E.
  - cbn [last_value]. rewrite IH. destruct (f k) eqn:Ek; [reflexivity|].
    destruct (str_eqb k k') eqn:Ee; [apply str_eqb_eq in Ee; subst; congruence|reflexivity].
  - rewrite IH. destruct (f k) eqn:Ek; [|reflexivity].
    destruct (str_eqb k k') eqn:Ee; [apply str_eqb_eq in Ee; subst; congruence|]. destruct (last_value k l); reflexivity.
Qed.

Lemma lookup_none_not_in {V} k (l : list (list N * V)) : ~ In k (map fst l) -> lookup k l = None.
Proof.
  induction l as [|[k' v] l IH]; intros H; [reflexivity|]. cbn in *. destruct (str_eqb k k') eqn:E.
  - apply str_eqb_eq in E. subst. exfalso. apply H. left. reflexivity.
  - apply IH. intros Hi. apply H. right. assumption.
Qed.

Lemma last_value_none_not_in k (l : list (rstr * rstr)) : ~ In k (map fst l) -> last_value k l = None.
Proof.
  intros H. rewrite last_value_rev. apply lookup_none_not_in. rewrite map_rev. intros Hi. apply H. apply in_rev. assumption.
Qed.

(** In a map (distinct keys) the last entry is the only entry. *)
Lemma last_value_map k (l : list (rstr * rstr)) : NoDup (map fst l) -> last_value k l = lookup k l.
Proof.
  induction l as [|[k' v] l IH]; intros H; [reflexivity|]. cbn in H. apply NoDup_cons_iff in H. destruct H as (Hn & Hd).
  cbn. destruct (str_eqb k k') eqn:E.
  - apply str_eqb_eq in E. subst. rewrite last_value_none_not_in by assumption. reflexivity.
  - rewrite IH by assumption. destruct (lookup k l); reflexivity.
Qed.

Lemma keys_remove k (l : list (rstr * rstr)) x : In x (map fst (remove k l)) -> In x (map fst l) /\ x <> k.
Proof.
  induction l as [|[k' v] l IH]; cbn; [contradiction|]. destruct (str_eqb k k') eqn:E.
  - intros H. destruct (IH H). auto.
  - cbn. intros [<-|H]; [|destruct (IH H); auto]. split; [auto|]. apply str_eqb_neq in E. congruence.
Qed.

Lemma NoDup_remove_keys k (l : list (rstr * rstr)) : NoDup (map fst l) -> NoDup (map fst (remove k l)).
Proof.
  induction l as [|[k' v] l IH]; intros H; [constructor|]. cbn in *. apply NoDup_cons_iff in H. destruct H as (Hn & Hd).
  destruct (str_eqb k k'); [auto|]. cbn. constructor; [|auto]. intros Hi. apply keys_remove in Hi. tauto.
Qed.

Lemma process_env_expected cfg rt u w h entries etc :
  (forall e, env cfg = Some e -> NoDup (map fst e)) ->
  match noread_etc_environment cfg, etc_environment w with
  | Some true, _ | _, None => etc = []
  | _, Some contents => parse_compat contents = Ok etc
  end ->
  build_shell_env cfg rt u w h = Ok entries ->
  forall k, process_env entries k =
    expected etc cfg (session_dir rt (h_name h)) (ssh_auth_sock_symlink rt (h_name h)) u w h k.
Proof.
  intros Hd Hetc Hb k. unfold process_env. rewrite <- last_value_rev.
  assert (He : exists upto, entries = upto ++ etc /\
    build_shell_env cfg rt u w h = Ok entries /\
    upto = [ (lit "HOME", home_dir u);
      (lit "PATH", match initial_path cfg with Some p => p | None => DEFAULT_INITIAL_SHELL_PATH end);
      (lit "SHPOOL_SESSION_NAME", h_name h);
      (lit "SHPOOL_SESSION_DIR", session_dir rt (h_name h));
      (lit "SHELL", default_shell u);
      (lit "USER", user_name u);
      (lit "SSH_AUTH_SOCK", ssh_auth_sock_symlink rt (h_name h)) ]
      ++ match xdg_runtime_dir w with Some d => [(lit "XDG_RUNTIME_DIR", d)] | None => [] end
      ++ match env cfg with
         | None => []
         | Some e => match pick_term (env cfg) h with None => remove (lit "TERM") e | Some _ => e end
         end
      ++ match pick_term (env cfg) h with Some t => [(lit "TERM", t)] | None => [] end
      ++ filter (fun p => negb (str_eqb (fst p) (lit "TERM") || str_eqb (fst p) (lit "SSH_AUTH_SOCK"))) (h_env h)).
  { eexists. split; [|split; [exact Hb|reflexivity]]. unfold build_shell_env in Hb. cbv zeta in Hb.
    destruct (noread_etc_environment cfg) as [[]|]; [subst etc; injection Hb as <-; rewrite app_nil_r; reflexivity| |];
      (destruct (etc_environment w) as [c|]; [rewrite Hetc in Hb; injection Hb as <-; reflexivity|]);
      subst etc; injection Hb as <-; rewrite app_nil_r; reflexivity. }
  destruct He as (upto & -> & _ & ->). clear Hb Hetc.
  rewrite !last_value_app. unfold expected. cbv zeta. cbn [first_of].
  destruct (last_value k etc) as [v|]; [reflexivity|].
  match goal with |- context [last_value k (filter ?f ?l)] =>
    replace (last_value k (filter f l)) with
      (if negb (str_eqb k (lit "TERM") || str_eqb k (lit "SSH_AUTH_SOCK")) then last_value k (h_env h) else None)
      by (symmetry; exact (last_value_filter k (fun x => negb (str_eqb x (lit "TERM") || str_eqb x (lit "SSH_AUTH_SOCK"))) (h_env h)))
  end.
  rewrite negb_orb. unfold only_if at 1.
  destruct (negb (str_eqb k (lit "TERM")) && negb (str_eqb k (lit "SSH_AUTH_SOCK"))) eqn:Ef.
  - destruct (last_value k (h_env h)) as [v|]; [reflexivity|].
    apply andb_true_iff in Ef. destruct Ef as (Et & Es). apply negb_true_iff in Et. apply negb_true_iff in Es.
    rewrite Et. cbn [only_if negb].
    assert (Hterm : last_value k match pick_term (env cfg) h with Some t => [(lit "TERM", t)] | None => [] end = None).
    { destruct (pick_term (env cfg) h); [|reflexivity]. cbn [last_value]. rewrite Et. reflexivity. }
    rewrite Hterm.
    assert (Hextra : last_value k (match env cfg with
         | None => []
         | Some e => match pick_term (env cfg) h with None => remove (lit "TERM") e | Some _ => e end
         end) = lookup k (match env cfg with Some e => e | None => [] end)).
    { destruct (env cfg) as [e|] eqn:Ee; [|reflexivity]. specialize (Hd e eq_refl).
      destruct (pick_term (Some e) h).
      - apply last_value_map. assumption.
      - rewrite last_value_map by (apply NoDup_remove_keys; assumption). apply lookup_remove_neq.
        apply str_eqb_neq. assumption. }
    rewrite Hextra. clear Hextra.
    match goal with |- match match ?a with Some _ => _ | None => _ end with Some _ => _ | None => _ end = match ?b with Some _ => _ | None => _ end =>
      change b with a; destruct a as [v|]; [reflexivity|] end.
    unfold own_variable. cbn [last_value app].
    destruct (xdg_runtime_dir w) as [d|]; cbn [last_value];
      destruct (str_eqb k (lit "XDG_RUNTIME_DIR")) eqn:E1; cbn [only_if first_of]; try reflexivity;
      rewrite Es; cbn [only_if first_of];
      destruct (str_eqb k (lit "USER")); cbn [only_if first_of]; try reflexivity;
      destruct (str_eqb k (lit "SHELL")); cbn [only_if first_of]; try reflexivity;
      destruct (str_eqb k (lit "SHPOOL_SESSION_DIR")); cbn [only_if first_of]; try reflexivity;
      destruct (str_eqb k (lit "SHPOOL_SESSION_NAME")); cbn [only_if first_of]; try reflexivity;
      destruct (str_eqb k (lit "PATH")); cbn [only_if first_of];
      try (destruct (initial_path cfg); reflexivity);
      destruct (str_eqb k (lit "HOME")); reflexivity.
  - cbn [first_of]. destruct (str_eqb k (lit "TERM")) eqn:Et.
    + apply str_eqb_eq in Et. subst k. cbn [only_if negb].
      assert (Hp : pick_term (env cfg) h = documented_term (lookup (lit "TERM") match env cfg with Some e => e | None => [] end)
                 (lookup (lit "TERM") (h_env h))).
      { unfold pick_term, local_env_get, documented_term. destruct (env cfg) as [e|]; [|reflexivity].
        destruct (lookup (lit "TERM") e) as [[|]|]; reflexivity. }
      match goal with |- context [documented_term ?x ?y] =>
        replace (documented_term x y) with (pick_term (env cfg) h) by exact Hp end.
      destruct (pick_term (env cfg) h) as [t|] eqn:Ep; [reflexivity|].
      cbn [last_value first_of].
      replace (last_value (lit "TERM") match env cfg with Some e => remove (lit "TERM") e | None => [] end) with (@None rstr).
      * destruct (xdg_runtime_dir w); reflexivity.
      * symmetry. destruct (env cfg) as [e|] eqn:Ee; [|reflexivity].
        rewrite last_value_none_not_in; [reflexivity|]. intros Hi. apply keys_remove in Hi. tauto.
    + cbn [negb andb] in Ef. apply negb_false_iff in Ef. apply str_eqb_eq in Ef. subst k. cbn [only_if negb first_of].
      assert (Hterm : last_value (lit "SSH_AUTH_SOCK") match pick_term (env cfg) h with Some t => [(lit "TERM", t)] | None => [] end = None).
      { destruct (pick_term (env cfg) h); reflexivity. }
      rewrite Hterm.
      assert (Hextra : last_value (lit "SSH_AUTH_SOCK") (match env cfg with
           | None => []
           | Some e => match pick_term (env cfg) h with None => remove (lit "TERM") e | Some _ => e end
           end) = lookup (lit "SSH_AUTH_SOCK") (match env cfg with Some e => e | None => [] end)).
      { destruct (env cfg) as [e|] eqn:Ee; [|reflexivity]. specialize (Hd e eq_refl).
        destruct (pick_term (Some e) h).
        - apply last_value_map. assumption.
        - rewrite last_value_map by (apply NoDup_remove_keys; assumption). apply lookup_remove_neq. discriminate. }
      rewrite Hextra. clear Hextra.
      match goal with |- match match ?a with Some _ => _ | None => _ end with Some _ => _ | None => _ end = match ?b with Some _ => _ | None => _ end =>
        change b with a; destruct a as [v|]; [reflexivity|] end.
      destruct (xdg_runtime_dir w); reflexivity.
Qed.
