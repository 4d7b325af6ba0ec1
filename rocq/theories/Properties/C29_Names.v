(** C29: session names are confined. *)
From Coq Require Import List NArith Bool Lia.
From Verif Require Import Model.Base Model.Protocol Model.Names Spec.PathSpec Proofs.BaseLemmas Proofs.NamesProofs.
Import ListNotations.
Open Scope N_scope.

(** The client and the daemon each accept exactly the good names. *)
Theorem C29_client_accepts_exactly : forall n, client_check n = None <-> good_name n.
Proof. exact client_check_iff. Qed.
Print Assumptions C29_client_accepts_exactly.

Theorem C29_daemon_accepts_exactly : forall n, daemon_rejects n = false <-> good_name n.
Proof. exact daemon_rejects_iff. Qed.
Print Assumptions C29_daemon_accepts_exactly.

(** The client's complaint is true of the name. *)
Theorem C29_client_complaint_is_true : forall n e, client_check n = Some e ->
  match e with
  | BlankName => n = []
  | HasWhitespace => exists c, In c n /\ is_whitespace c = true
  | HasSlash => In 47 n
  | SpecialDir => n = lit "." \/ n = lit ".."
  end.
Proof.
  intros n e. unfold client_check. destruct n as [|c n]; [intros [= <-]; reflexivity|].
  remember (c :: n) as m. destruct (existsb is_whitespace m) eqn:Ew.
  { intros [= <-]. apply existsb_exists in Ew. exact Ew. }
  destruct (existsb (N.eqb 47) m) eqn:Es.
  { intros [= <-]. apply existsb_exists in Es. destruct Es as (x & Hx & E). apply N.eqb_eq in E. subst x. assumption. }
  destruct (str_eqb m [46]) eqn:E1; [apply str_eqb_eq in E1; intros [= <-]; left; assumption|].
  destruct (str_eqb m [46; 46]) eqn:E2; [apply str_eqb_eq in E2; intros [= <-]; right; assumption|]. discriminate.
Qed.
Print Assumptions C29_client_complaint_is_true.

(** White space is what Unicode says it is. *)
Theorem C29_whitespace : forall c, is_whitespace c = true <-> In c white_space.
Proof.
  intros c. split.
  - unfold is_whitespace. intros H.
    assert (A : forall lo n : nat, N.of_nat lo <= c -> c < N.of_nat lo + N.of_nat n -> In c (map N.of_nat (seq lo n))).
    { intros lo n L U. apply in_map_iff. exists (N.to_nat c). split; [apply N2Nat.id|]. apply in_seq. lia. }
    rewrite !orb_true_iff, !andb_true_iff, !N.leb_le, !N.eqb_eq in H. unfold white_space.
    repeat destruct H as [H|H]; subst; try (cbn; tauto).
    + assert (B := A 9%nat 5%nat ltac:(cbn; lia) ltac:(cbn; lia)). cbn in B. cbn. tauto.
    + assert (B : In c (map (fun k => 8192 + N.of_nat k) (seq 0 11))).
      { apply in_map_iff. exists (N.to_nat (c - 8192)). split; [lia|]. apply in_seq. lia. }
      cbn in B. cbn. tauto.
  - intros H. assert (F : forallb is_whitespace white_space = true) by (vm_compute; reflexivity). rewrite forallb_forall in F. apply F, H.
Qed.
Print Assumptions C29_whitespace.

(** How paths are put together, in general: an absolute path stands for itself,
    anything else is looked up below the base; joining the empty path only makes the
    base end in a slash. *)
Theorem C29_join : forall base p,
  (path_join base (47 :: p) = 47 :: p) /\
  (base <> [] -> (forall q, p <> 47 :: q) ->
   components (path_join base p) = components base ++ flat_map piece (split_on 47 p)) /\
  (base <> [] -> exists q, path_join base [] = q ++ [47]) /\
  (forall n, ~ In 47 n -> n <> [] -> path_join [] n = n) /\ path_join [] [] = [].
Proof.
  intros base p. split; [reflexivity|]. split; [apply path_join_components|]. split; [apply path_join_slash|].
  split; [|reflexivity]. intros [|c n] Hs Hn; [congruence|]. cbn.
  destruct (N.eqb_spec c 47) as [->|_]; [exfalso; apply Hs; left; reflexivity|reflexivity].
Qed.
Print Assumptions C29_join.

Example C29_join_example :
  components (path_join (lit "/run/") (lit "a/./..//b")) = [Root; Entry (lit "run"); Entry (lit "a"); Up; Entry (lit "b")] /\
  path_join (lit "/run") [] = lit "/run/".
Proof. split; reflexivity. Qed.

(** For every runtime directory, the directory of an accepted name is the entry of
    that name in the sessions directory: it cannot be elsewhere in the file system. *)
Theorem C29_session_dir_is_direct_child : forall runtime_dir n, good_name n ->
  components (session_dir runtime_dir n) = components runtime_dir ++ [Entry (lit "sessions"); Entry n].
Proof.
  intros rt n H. destruct (good_name_entry n H) as (A & B & C & D). unfold session_dir.
  rewrite components_join by assumption. rewrite components_join.
  - rewrite <- app_assoc. reflexivity.
  - vm_compute. intros F. repeat destruct F as [F|F]; try discriminate; contradiction.
  - discriminate.
  - discriminate.
  - discriminate.
Qed.
Print Assumptions C29_session_dir_is_direct_child.

(** The agent symlink and the env file of a session lie directly in its directory. *)
Theorem C29_session_files_inside : forall runtime_dir n, good_name n ->
  components (ssh_auth_sock_symlink runtime_dir n) =
    components runtime_dir ++ [Entry (lit "sessions"); Entry n; Entry (lit "ssh-auth-sock.socket")] /\
  components (session_env_file runtime_dir n) =
    components runtime_dir ++ [Entry (lit "sessions"); Entry n; Entry (lit "forward.env")].
Proof.
  intros rt n H. unfold ssh_auth_sock_symlink, session_env_file.
  split; (rewrite components_join;
    [rewrite C29_session_dir_is_direct_child by assumption; rewrite <- app_assoc; reflexivity
    |vm_compute; intros F; repeat destruct F as [F|F]; try discriminate; contradiction
    |discriminate|discriminate|discriminate]).
Qed.
Print Assumptions C29_session_files_inside.

(** Different sessions have different directories. *)
Theorem C29_directories_distinct : forall runtime_dir n m, good_name n -> good_name m ->
  session_dir runtime_dir n = session_dir runtime_dir m -> n = m.
Proof.
  intros rt n m Hn Hm H. assert (E := C29_session_dir_is_direct_child rt n Hn).
  rewrite H, (C29_session_dir_is_direct_child rt m Hm) in E. apply app_inv_head in E. injection E as ->. reflexivity.
Qed.
Print Assumptions C29_directories_distinct.

(** The agent link is made exactly when not disabled and the client has an agent; it
    then points at the client's agent and lies in the session's directory. *)
Theorem C29_agent_link : forall nosymlink runtime_dir h link target,
  link_ssh_auth_sock nosymlink runtime_dir h = Some (link, target) <->
  nosymlink <> Some true /\ lookup (lit "SSH_AUTH_SOCK") (h_env h) = Some target /\
  link = ssh_auth_sock_symlink runtime_dir (h_name h).
Proof.
  intros ns rt h link target. unfold link_ssh_auth_sock, local_env_get.
  destruct ns as [[]|]; [split; [discriminate|intros (H & _); congruence]| |];
    (destruct (lookup (lit "SSH_AUTH_SOCK") (h_env h)) as [t|]; split;
     [intros [= <- <-]; repeat split; congruence|intros (_ & [= ->] & ->); reflexivity
     |discriminate|intros (_ & H & _); discriminate]).
Qed.
Print Assumptions C29_agent_link.

(** An ordinary name, one with dots, and the attacks. *)
Example C29_nonvacuous :
  good_name (lit "..main") /\
  components (session_dir (lit "/run/user/1000/shpool") (lit "..main")) =
    [Root; Entry (lit "run"); Entry (lit "user"); Entry (lit "1000"); Entry (lit "shpool"); Entry (lit "sessions"); Entry (lit "..main")] /\
  components (session_dir (lit "/run") (lit "../x")) = [Root; Entry (lit "run"); Entry (lit "sessions"); Up; Entry (lit "x")] /\
  daemon_rejects (lit "../x") = true /\ client_check (lit "..") = Some SpecialDir.
Proof.
  split; [apply daemon_rejects_iff; reflexivity|]. repeat split; reflexivity.
Qed.
