(** C72: every attach leaves the client's forwarded variables and socket in the session's
    own two files, whatever other attaches do meanwhile; the files of other sessions are
    not touched, and nobody but the owner gets at them. *)
From Coq Require Import String List NArith ZArith Bool Lia.
From Verif Require Model.Server Spec.ServerExamples.
From Verif Require Import Model.Base Model.Protocol Model.Names Model.Launch Model.SessionFiles Spec.PathSpec Spec.SessionFilesSpec
  Proofs.BaseLemmas Proofs.NamesProofs Proofs.SessionFilesProofs Proofs.FrameFilesProofs.
Import ListNotations.
Open Scope N_scope.

Lemma text_is h : env_file_text h = forwarded (h_env h).
Proof.
  unfold env_file_text. induction (h_env h) as [|[k v] [|kv r] IH]; [reflexivity|reflexivity|].
  change (map (fun p : rstr * rstr => fst p ++ 61 :: snd p) ((k, v) :: kv :: r))
    with ((k ++ 61 :: v) :: map (fun p : rstr * rstr => fst p ++ 61 :: snd p) (kv :: r)).
  change (forwarded ((k, v) :: kv :: r)) with (k ++ lit "=" ++ v ++ [10] ++ forwarded (kv :: r)). rewrite <- IH.
  cbn [map join_with]. rewrite <- app_assoc. reflexivity.
Qed.

Section Attach.
(** An attach [h] of a session, taken up by thread [t] at any time in the daemon's life,
    while none of the same session is being dealt with, and what happens from then on. *)
Variables (umask : N) (rd : rstr) (f : fs) (es1 es2 : list event) (t : nat) (nosymlink : option bool) (h : attach_header).
Let n := h_name h.
Let before := run umask rd (idle f) es1.
Let after := run umask rd before (Begin t nosymlink h :: es2).
Hypothesis good : good_name n.
Hypothesis free : jobs before t = None.
Hypothesis alone : no_attach_of n before /\ none_begins n es2.

(** If it gets through, the client's variables are in forward.env, all and nothing else,
    and the link leads to the client's socket if it brought one, and is as it was if not. *)
Theorem C72_written : jobs after t = Some (h, Ret true) ->
  files after (env_of rd n) = Some (File (mode_after umask (files before (env_of rd n))) (forwarded (h_env h))) /\
  files after (link_of rd n) = match brings nosymlink h with
                               | Some sock => Some (Link sock)
                               | None => files before (link_of rd n)
                               end.
Proof.
  intros D. assert (W := begin_at_work umask rd t nosymlink h before (reached_orderly _ _ _ _) (proj1 alone) free good).
  apply (run_at_work _ _ _ _ _ _ es2 _) in W; [|exact (proj2 alone)]. destruct W as (_ & _ & p & J & W).
  change (run umask rd (happen umask rd before (Begin t nosymlink h)) es2) with after in *. rewrite D in J. injection J as <-.
  destruct W as (_ & W). destruct (W eq_refl) as (W1 & W2). rewrite <- text_is. split; [exact W1|exact W2].
Qed.

(** Meanwhile, and if it does not get through, there is what was there before, or the
    beginning of what is to be there; the link may be missing. *)
Theorem C72_meanwhile :
  (files after (env_of rd n) = files before (env_of rd n) \/
   exists k, files after (env_of rd n) = Some (File (mode_after umask (files before (env_of rd n))) (firstn k (forwarded (h_env h))))) /\
  (files after (link_of rd n) = files before (link_of rd n) \/
   exists sock, brings nosymlink h = Some sock /\ (files after (link_of rd n) = None \/ files after (link_of rd n) = Some (Link sock))).
Proof.
  assert (W := begin_at_work umask rd t nosymlink h before (reached_orderly _ _ _ _) (proj1 alone) free good).
  apply (run_at_work _ _ _ _ _ _ es2 _) in W; [|exact (proj2 alone)]. destruct W as (_ & _ & p & J & W).
  change (run umask rd (happen umask rd before (Begin t nosymlink h)) es2) with after in *.
  apply wp_I in W. rewrite <- text_is. exact W.
Qed.

(** It gets through if nothing is in the way and the system refuses nothing, and in so
    many steps. *)
Theorem C72_gets_through :
  unobstructed (files before) rd n -> tidy (files before) -> (forall k, ~ In (Step t (Refused k)) es2) ->
  (forall ok, jobs after t = Some (h, Ret ok) -> ok = true) /\
  ((6 * length (components rd) + 18 <= turns t es2)%nat -> jobs after t = Some (h, Ret true)).
Proof.
  intros U T R.
  assert (G : going umask rd h t (6 * length (components rd) + 18) (happen umask rd before (Begin t nosymlink h))).
  { destruct (begin_at_work umask rd t nosymlink h before (reached_orderly _ _ _ _) (proj1 alone) free good) as (Or & O & _).
    split; [exact Or|]. split; [exact O|]. cbn [happen]. rewrite free. fold n. rewrite (proj2 (daemon_rejects_iff n) good). cbn [files jobs].
    split; [split; [exact U|exact T]|]. rewrite PeanoNat.Nat.eqb_refl. eexists. split; [reflexivity|].
    split; [apply sure_files; [exact good|split; [exact U|exact T]]|apply files_within; exact good]. }
  destruct (run_going _ _ _ _ _ _ _ G (proj2 alone) R) as (p & J & P & W).
  change (run umask rd (happen umask rd before (Begin t nosymlink h)) es2) with after in *. rewrite J. split.
  - intros ok [= ->]. destruct P as [P|P]; [congruence|]. exfalso. apply P. exists ok. reflexivity.
  - intros L. destruct P as [->|P]; [reflexivity|]. exfalso. replace (6 * length (components rd) + 18 - turns t es2)%nat with 0%nat in W by lia.
    destruct p as [ok|c k]; [apply P; exists ok; reflexivity|destruct W].
Qed.

(** When it has got through and brought a socket, nobody else can get into the directory
    of sessions, however it was before. *)
Theorem C72_locked : forall sock, brings nosymlink h = Some sock ->
  (files before (sessions_of rd) = None \/ exists m, files before (sessions_of rd) = Some (Dir m)) ->
  jobs after t = Some (h, Ret true) -> shut (files after) (sessions_of rd).
Proof.
  intros sock B NF D.
  assert (L : locked rd t (happen umask rd before (Begin t nosymlink h))).
  { split; [apply happen_orderly, reached_orderly|]. cbn [happen]. rewrite free. fold n. rewrite (proj2 (daemon_rejects_iff n) good). cbn [files jobs].
    split; [exact NF|]. rewrite PeanoNat.Nat.eqb_refl. eexists _, _. split; [reflexivity|]. left. apply (files_locks _ _ _ _ good B). }
  apply (run_locked umask rd t es2) in L. destruct L as (_ & _ & h' & p & J & L).
  change (run umask rd (happen umask rd before (Begin t nosymlink h)) es2) with after in *. rewrite D in J. injection J as <- <-.
  destruct L as [L|L]; [discriminate|exact L].
Qed.
End Attach.
Print Assumptions C72_written.
Print Assumptions C72_meanwhile.
Print Assumptions C72_gets_through.
Print Assumptions C72_locked.

(** Attaches of other sessions leave a session's files as they are, whatever happens. *)
Theorem C72_own_files : forall umask rd f es1 es2 n,
  let before := run umask rd (idle f) es1 in let after := run umask rd before es2 in
  no_attach_of n before -> none_begins n es2 ->
  files after (env_of rd n) = files before (env_of rd n) /\ files after (link_of rd n) = files before (link_of rd n).
Proof.
  intros um rd f es1 es2 n before after NA N.
  assert (U := run_untouched um rd n es2 before (reached_orderly _ _ _ _) NA N). unfold own_of in U. injection U as U1 U2. split; [exact U1|exact U2].
Qed.
Print Assumptions C72_own_files.

(** Whatever happens, the daemon changes nothing else: it makes the directories its
    sessions' files are in, and sets the mode of the directory of sessions. *)
Theorem C72_nothing_else : forall umask rd f es q,
  let attached n := exists t nosymlink h, In (Begin t nosymlink h) es /\ h_name h = n in
  (forall n, attached n -> q <> env_of rd n /\ q <> link_of rd n) ->
  become umask rd attached q (f q) (files (run umask rd (idle f) es) q).
Proof.
  intros um rd f es q attached N.
  assert (Sub : forall n, attaching n (idle f) \/ attached n -> attached n) by (intros n [(t & h & p & J & _)|A]; [discriminate J|exact A]).
  destruct (run_changes um rd es q (idle f) (idle_orderly rd f) (fun n H => N n (Sub n H))) as [X|[(X & n & m & Y & Z)|X]]; [left; exact X| |right; right; exact X].
  right. left. split; [exact X|]. exists n, m. split; [apply Sub; exact Y|exact Z].
Qed.
Print Assumptions C72_nothing_else.

(** Once there, forward.env stays: nothing the daemon does ever removes it.  So the
    variables of the last client are there after the session has ended. *)
Theorem C72_kept : forall umask rd f es1 es2 n,
  let before := run umask rd (idle f) es1 in let after := run umask rd before es2 in
  files before (env_of rd n) <> None ->
  files after (env_of rd n) <> None /\
  (no_attach_of n before -> none_begins n es2 -> files after (env_of rd n) = files before (env_of rd n)).
Proof.
  intros um rd f es1 es2 n before after H. split; [apply run_kept; [apply reached_orderly|exact H]|].
  intros NA N. apply (C72_own_files um rd f es1 es2 n NA N).
Qed.
Print Assumptions C72_kept.

(** What is in a directory nobody else can pass stays out of their reach. *)
Theorem C72_private : forall umask rd f es1 es2 d n s,
  let before := run umask rd (idle f) es1 in let after := run umask rd before es2 in
  shut (files before) d -> above d (env_of rd n) ->
  shut (files after) d /\ ~ may_read s (files after) (env_of rd n) /\ ~ may_change s (files after) (env_of rd n).
Proof.
  intros um rd f es1 es2 d n s before after S A.
  assert (S' : shut (files after) d) by (apply run_shut; [apply reached_orderly|exact S]).
  split; [exact S'|]. split; intros (R & _); apply (shut_private s _ d _ S' A R).
Qed.
Print Assumptions C72_private.

(** With such a umask the file itself is private, unless it was there before and was not. *)
Theorem C72_umask_partial : forall umask rd f es n s, covers umask -> f (env_of rd n) = None ->
  ~ may_read s (files (run umask rd (idle f) es)) (env_of rd n) /\
  ~ may_change s (files (run umask rd (idle f) es)) (env_of rd n).
(** Missing for the full claim: a daemon with an empty umask, for which it is false (C72_private_refuted). *)
Proof.
  intros um rd f es n s C N.
  assert (X : closed (files (run um rd (idle f) es) (env_of rd n))).
  { apply run_closed; [exact C|apply idle_orderly|]. cbn [idle files]. rewrite N. exact I. }
  split; intros (_ & m & t & F & B); rewrite F in X; destruct (X s) as (X1 & X2); congruence.
Qed.
Print Assumptions C72_umask_partial.

(** But a daemon launched by a client has an empty umask, and shuts the directory only for
    a client that brings a socket.  Without XDG_RUNTIME_DIR and in a home others can
    enter, they can then read what a client forwards, and change it. *)
Definition home : rstr := lit "/home/u/.local/run/shpool".
Definition home_tree (p : path) : option node :=
  match p with
  | [] => None
  | _ => if Nat.leb (length p) (length (at_ home)) && path_eqb p (skipn (length (at_ home) - length p) (at_ home)) then Some (Dir 493) else None
  end.
Definition plain : attach_header :=
  mkAttach (lit "main") (lit "main") (mkSize 24 80 0 0) [(lit "TOKEN", lit "secret")] None None None None.
Definition steps (t k : nat) : list event := repeat (Step t Fine) k.

Definition started : Launch.process := Launch.mkProcess (lit "/home/u") 18.
Definition their_dir : rstr := path_join home (lit "8a5edab282632443").

Theorem C72_private_refuted : exists es,
  let after := run (Launch.umask (Launch.daemon_process true started)) their_dir (idle home_tree) es in
  jobs after 0%nat = Some (plain, Ret true) /\
  (exists m, files after (env_of their_dir (lit "main")) = Some (File m (lit "TOKEN=secret"))) /\
  may_read Other (files after) (env_of their_dir (lit "main")) /\ may_change Other (files after) (env_of their_dir (lit "main")).
Proof.
  exists (Begin 0%nat None plain :: steps 0 20). cbv zeta.
  set (after := run _ _ _ _).
  assert (R : reaches Other (files after) (env_of their_dir (lit "main"))).
  { intros d (N & l & L & E).
    assert (C : In d [tl (env_of their_dir (lit "main")); tl (tl (env_of their_dir (lit "main"))); tl (tl (tl (env_of their_dir (lit "main"))));
       tl (tl (tl (tl (env_of their_dir (lit "main"))))); tl (tl (tl (tl (tl (env_of their_dir (lit "main")))))); tl (tl (tl (tl (tl (tl (env_of their_dir (lit "main"))))))); tl (tl (tl (tl (tl (tl (tl (env_of their_dir (lit "main")))))))); tl (tl (tl (tl (tl (tl (tl (tl (env_of their_dir (lit "main")))))))));
       tl (tl (tl (tl (tl (tl (tl (tl (tl (env_of their_dir (lit "main"))))))))))]).
    { destruct l as [|x l]; [congruence|]. rewrite E. cbn [app tl].
      destruct l as [|x1 l]; [left; reflexivity|right]. cbn [app tl].
      destruct l as [|x2 l]; [left; reflexivity|right]. cbn [app tl].
      destruct l as [|x3 l]; [left; reflexivity|right]. cbn [app tl].
      destruct l as [|x4 l]; [left; reflexivity|right]. cbn [app tl].
      destruct l as [|x5 l]; [left; reflexivity|right]. cbn [app tl].
      destruct l as [|x6 l]; [left; reflexivity|right]. cbn [app tl].
      destruct l as [|x7 l]; [left; reflexivity|right]. cbn [app tl].
      destruct l as [|x8 l]; [left; reflexivity|right]. cbn [app tl].
      destruct l as [|x9 l]; [left; reflexivity|right].
      exfalso. apply (f_equal (@length _)) in E. cbn [app length] in E. rewrite app_length in E.
      change (length (env_of their_dir (lit "main"))) with 10%nat in E. destruct d; [congruence|]. cbn in E. lia. }
    repeat destruct C as [<-|C]; try (vm_compute; eexists; split; reflexivity); try contradiction. }
  split; [vm_compute; reflexivity|]. split; [vm_compute; eexists; reflexivity|].
  split; (split; [exact R|vm_compute; eexists _, _; split; reflexivity]).
Qed.
Print Assumptions C72_private_refuted.

(** A case with two sessions attached to at once, one with a socket: both get through and
    the directory is shut. *)
Definition with_socket : attach_header :=
  mkAttach (lit "other") (lit "other") (mkSize 24 80 0 0) [(lit "SSH_AUTH_SOCK", lit "/tmp/agent")] None None None None.
Definition mix : list event := concat (repeat [Step 1%nat Fine; Step 0%nat Fine] 60).
Example C72_case :
  let after := run 18 home (idle home_tree) (Begin 0%nat None plain :: Begin 1%nat None with_socket :: mix) in
  jobs after 0%nat = Some (plain, Ret true) /\ jobs after 1%nat = Some (with_socket, Ret true) /\
  (6 * length (components home) + 18 <= turns 0 (Begin 1%nat None with_socket :: mix))%nat /\
  files after (env_of home (lit "main")) = Some (File 420 (lit "TOKEN=secret")) /\
  files after (link_of home (lit "other")) = Some (Link (lit "/tmp/agent")) /\
  files after (sessions_of home) = Some (Dir 448).
Proof. vm_compute. repeat split; auto 70. Qed.
Example C72_case_fits : tidy home_tree /\ unobstructed home_tree home (lit "main") /\ good_name (lit "main") /\ covers 63.
Proof.
  assert (K : forall p n, home_tree p = Some n -> n = Dir 493 /\ exists l, at_ home = l ++ p).
  { intros [|x p] n; [discriminate|]. unfold home_tree. set (k := Nat.leb _ _). destruct (k && _) eqn:E; [|discriminate]. intros [= <-]. split; [reflexivity|].
    apply andb_prop in E. destruct E as (_ & E). apply path_eqb_eq in E. exists (firstn (length (at_ home) - length (x :: p)) (at_ home)).
    rewrite E at 2. rewrite firstn_skipn. reflexivity. }
  assert (K2 : forall p, p <> [] -> (exists l, at_ home = l ++ p) -> home_tree p = Some (Dir 493)).
  { intros [|x p] Np (l & L); [congruence|]. unfold home_tree. rewrite L, app_length.
    replace (length l + length (x :: p) - length (x :: p))%nat with (length l) by lia. rewrite skipn_app, skipn_all, PeanoNat.Nat.sub_diag. cbn [skipn app].
    rewrite (proj2 (path_eqb_eq _ _) eq_refl). rewrite (proj2 (PeanoNat.Nat.leb_le _ _)) by lia. reflexivity. }
  split; [split|split; [|split]].
  - intros x up N. destruct (home_tree (x :: up)) eqn:E; [|congruence]. destruct up as [|y up]; [left; reflexivity|right]. exists 493.
    apply K2; [discriminate|]. apply K in E. destruct E as (_ & l & L). exists (l ++ [x]). rewrite L, <- app_assoc. reflexivity.
  - intros p m E. apply K in E. destruct E as ([= ->] & _). reflexivity.
  - split; [|split].
    + intros d _. destruct (home_tree d) eqn:E; [|left; reflexivity]. apply K in E. destruct E as (-> & _). right. eexists. reflexivity.
    + left. vm_compute. reflexivity.
    + intros m. vm_compute. discriminate.
  - apply daemon_rejects_iff. vm_compute. reflexivity.
  - intros [|]; vm_compute; split; reflexivity.
Qed.

(** Two attaches of one name can be at it at once: one that was given a session that is
    then killed, and one that makes the next session of that name.  Each then waits for
    nobody. *)
Theorem C72_two_at_once : exists l s1 s2 h1 h2 c1 c2,
  let st := Server.run (Server.server_new []) l in
  Server.handlers st 1%nat = Server.HReply h1 s1 c1 /\ Server.handlers st 3%nat = Server.HReply h2 s2 c2 /\ s1 <> s2 /\ h_name h1 = h_name h2.
Proof.
  exists [ServerExamples.asks 1%nat (Server.QAttach plain); Server.AAttach 1%nat true 10%Z; Server.ASpawn 1%nat true 11%Z 1000; Server.AInsert 1%nat; Server.AFetch 1%nat;
          ServerExamples.asks 2%nat (Server.QKill [lit "main"]); Server.AKill 2%nat [];
          ServerExamples.asks 3%nat (Server.QAttach plain); Server.AAttach 3%nat true 20%Z; Server.ASpawn 3%nat true 21%Z 2000; Server.AInsert 3%nat; Server.AFetch 3%nat],
    0%nat, 1%nat. do 4 eexists. vm_compute. repeat split. discriminate.
Qed.
Print Assumptions C72_two_at_once.

(** Then both can get through and leave a file with parts of the variables of both ... *)
Definition shorter : attach_header :=
  mkAttach (lit "main") (lit "main") (mkSize 24 80 0 0) [(lit "TOKEN", lit "own")] None None None None.
Theorem C72_mixed_refuted : exists es,
  let after := run 18 home (idle home_tree) es in
  jobs after 0%nat = Some (plain, Ret true) /\ jobs after 1%nat = Some (shorter, Ret true) /\
  files after (env_of home (lit "main")) = Some (File 420 (lit "TOKEN=ownret")).
Proof.
  exists ([Begin 0%nat None plain; Begin 1%nat None shorter] ++ steps 0 4 ++ steps 1 3 ++ steps 0 1 ++ steps 1 1).
  vm_compute. repeat split.
Qed.
Print Assumptions C72_mixed_refuted.

(** ... and one of them can fail because of the other although nothing was refused, which
    ends its attach without a reply. *)
Definition agent (sock : rstr) : attach_header :=
  mkAttach (lit "main") (lit "main") (mkSize 24 80 0 0) [(lit "SSH_AUTH_SOCK", sock)] None None None None.
Theorem C72_in_the_way_refuted : exists es,
  let after := run 18 home (idle home_tree) es in
  (forall t k, ~ In (Step t (Refused k)) es) /\
  jobs after 0%nat = Some (agent (lit "/tmp/a"), Ret true) /\ jobs after 1%nat = Some (agent (lit "/tmp/b"), Ret false) /\
  files after (link_of home (lit "main")) = Some (Link (lit "/tmp/a")).
Proof.
  exists ([Begin 0%nat None (agent (lit "/tmp/a")); Begin 1%nat None (agent (lit "/tmp/b"))] ++ steps 0 6 ++ steps 1 5 ++ steps 0 5 ++ steps 1 1).
  split; [intros t k H; cbn in H; repeat (destruct H as [H|H]; [discriminate H|]); exact H|]. vm_compute. repeat split.
Qed.
Print Assumptions C72_in_the_way_refuted.
