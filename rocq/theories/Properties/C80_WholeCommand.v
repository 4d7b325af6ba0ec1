(** C80: what a command reports is what the daemon did. *)
From Coq Require Import String List NArith ZArith Bool Arith Lia.
From Verif Require Import Model.Base Model.Protocol Model.Msgpack Model.Messages Model.UserInfo Model.AttachClient Model.Commands
  Spec.MessagesSpec Spec.UserInfoSpec Spec.WireSpec Spec.ServerSpec Spec.HandshakeSpec Proofs.BaseLemmas
  Proofs.ServerProofs Proofs.ServerMoves Proofs.ServerGossip Proofs.WholeServer Model.WholeCommand Spec.WholeCommandSpec Proofs.WholeCommandProofs Proofs.WholeEnds Proofs.WholeServes.
From Verif Require Model.Server Model.Handshake Model.Version Proofs.VarsProofs Proofs.CommandsProofs Spec.ServerExamples
  Properties.C18_Kill Properties.C19_List Properties.C26_Variables Properties.C46_DetachReply.
Import ListNotations.
Open Scope N_scope.

Section Commands.
  (** Any command, connection and daemon; the daemon has done nothing before, as what it did
      is part of what others do. *)
  Variables (unreadable : ty -> list byte -> bool) (version : rstr) (self other : Server.peer) (own_version : rstr)
            (c : Server.conn) (current : option rstr) (defaults : list (rstr * rstr)).
  Notation after cmd := (acts unreadable version self other own_version c current cmd defaults).
  Notation sensible := (sensible unreadable version self other current).

  (** Whatever happens, the daemon does what others make it do and, at most once, is asked
      what the command is meant to ask. *)
  Theorem C80_asked_once : forall cmd q l, sensible cmd q -> throughout (after cmd) tellable l ->
    exists steps, srv (after cmd l) = Server.run (Server.server_new defaults) steps /\
      filter (fun a => negb (mine c a)) steps = others c l /\
      filter (mine c) steps = if asked (after cmd l) then [Server.AConnect c self other (Some q)] else [].
  Proof.
    intros cmd q l [P V M S [pid A]] T. destruct (wish_meant _ _ _ M) as (v & W & R). destruct (R S) as [R1 R2].
    exists (trace unreadable version self other own_version c current cmd defaults l). split; [apply srv_trace|]. split.
    - symmetry. apply others_trace.
    - exact (g_mine _ _ _ _ _ _ _ _ _ _ _ _ l (good_all unreadable version self other own_version c current cmd defaults q pid v P V M W R1 R2 S A l T)).
  Qed.

  (** With no session named and run outside of one, kill and detach ask nothing, print
      nothing and fail. *)
  Theorem C80_no_target : forall cmd l res, (forall q, ~ meant current cmd q) ->
    srv (after cmd l) = Server.run (Server.server_new defaults) (others c l) /\
    (ended current cmd (after cmd l) = Some res -> res = mkResult [] [] 1).
  Proof.
    intros cmd l res N. apply wish_none in N. destruct (nothing_asked unreadable version self other own_version c current cmd defaults N l) as (S & _ & _ & C & _).
    split; [exact S|]. unfold ended. destruct (killed _); [discriminate|]. destruct (Handshake.at_c _); try discriminate; try contradiction. intros E. injection E as <-.
    destruct cmd as [| | |[]]; try discriminate N; reflexivity.
  Qed.

  (** A list that prints anything prints the sessions there were at one moment between its
      asking and its end, each once, with whether somebody was attached to it. *)
  Theorem C80_list : forall l res, sensible ListCmd Server.QList -> throughout (after ListCmd) tellable l ->
    ended current ListCmd (after ListCmd l) = Some res ->
    res = mkResult [] [] 1 \/
    exists l1 l2 entries, l = l1 ++ l2 /\ waiting current ListCmd (after ListCmd l1) /\
      res = mkResult (list_text entries) [] 0 /\ NoDup (map fst entries) /\
      let st := srv (after ListCmd l1) in
      (forall n, In n (map fst entries) <-> exists s, listed st n s) /\
      (forall n b s, In (n, b) entries -> listed st n s -> (b = true <-> exists k, attached st k s)).
  Proof.
    intros l res [P V M S [pid A]] T E. destruct (wish_meant _ _ _ M) as (v & W & R). destruct (R S) as [R1 R2].
    destruct (end_cases unreadable version self other own_version c current _ defaults _ pid v P V M W R1 R2 S A l res T E) as [(r & a & Hr & Hv & -> & Hk & Hc)|[_ ->]]; [right|left; reflexivity].
    pose proof (good_all unreadable version self other own_version c current _ defaults _ pid v P V M W R1 R2 S A l T) as G. pose proof Hr as Hr'. rewrite srv_trace in Hr'.
    destruct (answered_list c self other pid defaults A _ _ (g_own _ _ _ _ _ _ _ _ _ _ _ _ _ G) Hr') as (ls & t1 & t2 & -> & Et & Rn & Hh & Hs & Hm).
    cbn [reply_value answer_type] in Hv. injection Hv as <-.
    destruct (moment unreadable version self other own_version c current _ defaults _ pid v P V M W R1 R2 S A l t1 (Server.AList c) t2 _ T Hk Hc Et eq_refl Rn ltac:(rewrite Hh; discriminate)) as (l1 & l2 & -> & E1 & S1 & Wt).
    exists l1, (Others (Server.AList c) :: l2), (map (fun i => (Server.i_name i, Server.i_attached i)) ls). split; [reflexivity|]. split; [exact Wt|].
    destruct (list_typed _ ls (rn_reachable defaults t1) ltac:(rewrite <- S1; eapply T; reflexivity) Hm) as [_ Nm].
    destruct (C19_List.C19_list_exact _ _ _ _ (rn_reachable defaults t1) Hs) as (X1 & X2 & X3 & _ & _ & _). rewrite S1. split; [|split].
    - unfold finish. replace (collect line_of (map session_value ls)) with (Some (map (fun i => (Server.i_name i, Server.i_attached i)) ls)); [reflexivity|].
      clear - Nm. induction Nm as [|i ls H _ IH]; [reflexivity|]. cbn. rewrite rust_back by exact H.
      match goal with |- _ = match ?g with Some _ => _ | None => _ end => change g with (collect line_of (map session_value ls)) end. rewrite <- IH. destruct (Server.i_attached i); reflexivity.
    - rewrite map_map. exact X3.
    - cbv zeta. split.
      + intros n. rewrite map_map. cbn [fst]. rewrite in_map_iff. split.
        * intros (i & <- & Hi). destruct (X2 i Hi) as (s & L & _). exists s. exact L.
        * intros (s & L). destruct (X1 n s L) as (i & Hi & x & _ & N & _). exists i. auto.
      + intros n b s Hin L. apply in_map_iff in Hin as (i & Ei & Hi). injection Ei as <- <-. destruct (X2 i Hi) as (s' & L' & x & _ & _ & _ & _ & _ & At & _).
        unfold listed in *. rewrite L in L'. injection L' as <-. exact At.
  Qed.

  (** A kill that is answered has removed the sessions it is about, and no others, at one
      moment while it waited; it complains of exactly the names that had no session then, in
      the order they were given, and succeeds if there are none.  One that is not answered says nothing, fails and has removed
      nothing. *)
  Theorem C80_kill : forall named names l res, let cmd := KillCmd named in
    sensible cmd (Server.QKill names) -> throughout (after cmd) tellable l ->
    ended current cmd (after cmd l) = Some res ->
    (exists l1 l2 oks, l = l1 ++ Others (Server.AKill c oks) :: l2 /\ waiting current cmd (after cmd l1) /\
      let st := srv (after cmd l1) in let st' := srv (after cmd (l1 ++ [Others (Server.AKill c oks)])) in let missing := C18_Kill.missing st names in
      out res = [] /\ complaint (lit "not found: ") missing (err res) /\ (status res = 0 <-> missing = [])%Z /\
      (forall n, In n names -> forall s, ~ listed st' n s) /\
      (forall n s, ~ In n names -> listed st' n s <-> listed st n s) /\
      exists ended, Server.signalled st' = Server.signalled st ++ ended /\
        forall s, In s ended <-> exists n, In n names /\ listed st n s) \/
    (res = mkResult [] [] 1 /\
     forall l1 l2 oks, l = l1 ++ Others (Server.AKill c oks) :: l2 ->
       Server.table (srv (after cmd (l1 ++ [Others (Server.AKill c oks)]))) = Server.table (srv (after cmd l1))).
  Proof.
    intros named names l res cmd [P V M S [pid A]] T E. destruct (wish_meant _ _ _ M) as (v & W & R). destruct (R S) as [R1 R2].
    destruct (end_cases unreadable version self other own_version c current _ defaults _ pid v P V M W R1 R2 S A l res T E) as [(r & a & Hr & Hv & -> & Hk & Hc)|[Hn ->]]; [left|right].
    - pose proof (good_all unreadable version self other own_version c current _ defaults _ pid v P V M W R1 R2 S A l T) as G. pose proof Hr as Hr'. rewrite srv_trace in Hr'.
      destruct (answered_kill c self other pid defaults A _ _ _ (g_own _ _ _ _ _ _ _ _ _ _ _ _ _ G) Hr') as (nf & t1 & oks & t2 & -> & Et & Rn & Hh & Hs).
      cbn [reply_value answer_type cmd] in Hv. injection Hv as <-.
      destruct (moment unreadable version self other own_version c current _ defaults _ pid v P V M W R1 R2 S A l t1 (Server.AKill c oks) t2 _ T Hk Hc Et eq_refl Rn ltac:(rewrite Hh; discriminate)) as (l1 & l2 & -> & E1 & S1 & Wt).
      exists l1, l2, oks. split; [reflexivity|]. split; [exact Wt|]. cbv zeta. rewrite acts_snoc. cbn [WholeCommand.act mine srv]. rewrite S1.
      destruct (C18_Kill.C18_kill_exact _ _ _ _ Hs) as (p' & nm & ok & Hc' & _ & Hnf & K1 & K2 & _ & K3). rewrite Hh in Hc'. injection Hc' as <- <-.
      assert (Mi : forall n, In n nf <-> In n names /\ forall s, ~ listed (Server.run (Server.server_new defaults) t1) n s).
      { intros n. rewrite Hnf. unfold C18_Kill.missing, listed. rewrite filter_In. destruct (lookup n _) as [s0|]; split; intros [H1 H2]; split; auto; try discriminate. destruct (H2 s0 eq_refl). }
      assert (Rs : Forall rust nf) by (apply Forall_forall; intros n Hn; apply Mi in Hn as [Hn _]; destruct S as [S _]; rewrite Forall_forall in S; apply S; exact Hn).
      assert (Rv : resolve_sessions named current = Some names) by (assert (Ht : targets current named names) by (inversion M; subst; assumption); destruct Ht; [reflexivity|subst; reflexivity]).
      rewrite <- Hnf. unfold finish, cmd. rewrite (strings_back _ Rs). cbn [out err status]. split; [reflexivity|]. split.
      { unfold said. destruct nf as [|n nf]; [constructor|]. constructor. clear. revert n. induction nf as [|m nf IH]; intros n; [constructor|]. cbn [join]. apply w_more. apply IH. }
      unfold run_verb. rewrite Rv. cbn [negb snd]. split; [destruct nf; split; congruence|].
      split; [intros n Hn s L; unfold listed in L; rewrite (K1 n Hn) in L; discriminate|].
      split; [intros n s Hn; unfold listed; rewrite (K2 n Hn); reflexivity|]. exact K3.
    - split; [reflexivity|]. intros l1 l2 oks ->. rewrite acts_snoc. cbn [WholeCommand.act mine srv].
      destruct (handle_kill_shape (srv (after cmd l1)) c oks) as [K|(p & nm & _ & _ & [(sg & _ & K)|(sg & nf & rm & _ & K)])]; cbn [Server.step]; rewrite K; try reflexivity. exfalso.
      rewrite srv_others in Hn by reflexivity. apply reply_later in Hn. revert Hn. unfold reply_in. cbn [Server.step]. rewrite K.
      unfold Server.goto, Server.say. cbn [Server.with_handlers Server.with_replies Server.replies]. 
      destruct (find _ _) eqn:Ef; [discriminate|]. apply find_none with (x := (c, Server.RKill nf)) in Ef; [|apply in_or_app; right; left; reflexivity].
      cbn [fst] in Ef. rewrite Nat.eqb_refl in Ef. discriminate.
  Qed.

  (** A detach that is answered has looked at its names while no session was made or
      removed; each has met one fate, which it deserved (C46).  It complains of the names
      that had no session or, if there are none, of those that were not attached, and
      succeeds if there are neither. *)
  Theorem C80_detach : forall named names l res, let cmd := DetachCmd named in
    sensible cmd (Server.QDetach names) -> throughout (after cmd) tellable l ->
    ended current cmd (after cmd l) = Some res ->
    (exists l1 l2 l3 fates, l = l1 ++ Others (Server.ADetach c) :: l2 ++ Others (Server.ADetachFinish c) :: l3 /\
      waiting current cmd (after cmd l1) /\ waiting current cmd (after cmd (l1 ++ Others (Server.ADetach c) :: l2)) /\
      let st := srv (after cmd (l1 ++ [Others (Server.ADetach c)])) in
      Server.table (srv (after cmd (l1 ++ Others (Server.ADetach c) :: l2))) = Server.table (srv (after cmd l1)) /\
      Forall2 (C46_DetachReply.deserved st (others c l2) c) names fates /\
      let not_found := C46_DetachReply.which C46_DetachReply.NotFound names fates in
      let not_attached := C46_DetachReply.which C46_DetachReply.NotAttached names fates in
      out res = [] /\
      (not_found <> [] -> complaint (lit "not found: ") not_found (err res)) /\
      (not_found = [] -> complaint (lit "not attached: ") not_attached (err res)) /\
      (status res = 0 <-> Forall (eq C46_DetachReply.Detached) fates)%Z) \/
    res = mkResult [] [] 1.
  Proof.
    intros named names l res cmd [P V M S [pid A]] T E. destruct (wish_meant _ _ _ M) as (v & W & R). destruct (R S) as [R1 R2].
    destruct (end_cases unreadable version self other own_version c current _ defaults _ pid v P V M W R1 R2 S A l res T E) as [(r & a & Hr & Hv & -> & Hk & Hc)|[_ ->]]; [left|right; reflexivity].
    pose proof (good_all unreadable version self other own_version c current _ defaults _ pid v P V M W R1 R2 S A l T) as G. pose proof Hr as Hr'. rewrite srv_trace in Hr'.
    destruct (answered_detach c self other pid defaults A _ _ _ (g_own _ _ _ _ _ _ _ _ _ _ _ _ _ G) Hr') as (nf & na & t1 & t2 & t3 & -> & Et & Hh & Lk & Hh2 & Rn & Hs). cbv zeta in *.
    cbn [reply_value answer_type cmd] in Hv. injection Hv as <-.
    set (rn := Server.run (Server.server_new defaults)) in *.
    assert (E2 : Server.run (Server.step (rn t1) (Server.ADetach c)) t2 = rn (t1 ++ Server.ADetach c :: t2)) by (unfold rn, Server.run; rewrite fold_left_app; reflexivity).
    rewrite E2 in Hh2, Rn.
    replace (t1 ++ Server.ADetach c :: t2 ++ Server.ADetachFinish c :: t3) with ((t1 ++ Server.ADetach c :: t2) ++ Server.ADetachFinish c :: t3) in Et by (rewrite <- app_assoc; reflexivity).
    destruct (moment unreadable version self other own_version c current _ defaults _ pid v P V M W R1 R2 S A l _ _ _ _ T Hk Hc Et eq_refl Rn ltac:(fold rn; rewrite Hh2; discriminate)) as (m1 & l3 & -> & Em & Sm & Wm).
    destruct (trace_at _ _ _ _ _ _ _ _ _ _ _ _ _ Em eq_refl) as (l1 & l2 & -> & E1).
    assert (S1 : srv (after cmd l1) = rn t1) by (rewrite srv_trace, E1; reflexivity).
    assert (T1 : throughout (after cmd) tellable l1) by (intros x y ->; apply (T x ((y ++ Others (Server.ADetach c) :: l2) ++ Others (Server.ADetachFinish c) :: l3)); rewrite !app_assoc; reflexivity).
    assert (As : asked (after cmd l1) = true) by (apply (was_asked unreadable version self other own_version c current _ defaults _ pid v P V M W R1 R2 S A l1 T1); rewrite S1, Hh; discriminate).
    assert (Wt : waiting current cmd (after cmd l1)).
    { split; [exact As|]. revert Wm Hk Hc T. rewrite <- !app_assoc. intros _ Hk Hc T. eapply (not_ended unreadable version self other own_version c current _ defaults _ pid v P V M W R1 R2 S A); [exact T|exact Hk|exact Hc|].
      rewrite S1. apply (reply_later c (rn t1) (Server.ADetach c :: t2)). rewrite <- E2 in Rn. exact Rn. }
    assert (E3 : t2 = others c l2).
    { pose proof (trace_after unreadable version self other own_version c current cmd defaults pid A l1 (Others (Server.ADetach c) :: l2) As) as X. rewrite Em, E1 in X. apply app_inv_head in X. cbn [others flat_map mine app] in X. injection X as X. exact X. }
    destruct (C46_DetachReply.C46_reply_partial _ _ _ _ _ _ _ (rn_reachable defaults t1) Hh Lk Hs) as (Tb & fates & Ln & -> & -> & F).
    exists l1, l2, l3, fates. split; [rewrite <- app_assoc; reflexivity|]. split; [exact Wt|]. split; [exact Wm|]. rewrite acts_snoc. cbn [WholeCommand.act mine srv]. rewrite S1, Sm.
    split; [fold rn; rewrite <- E2; exact Tb|]. split; [rewrite <- E3; exact F|].
    assert (Rv : resolve_sessions named current = Some names) by (assert (Ht : targets current named names) by (inversion M; subst; assumption); destruct Ht; [reflexivity|subst; reflexivity]).
    assert (Sy : forall w l, l <> [] -> complaint w l (said w l)).
    { intros w [|n k] H; [contradiction|]. unfold said. constructor. clear. revert n. induction k as [|m k IH]; intros n; [constructor|]. cbn [join]. apply w_more. apply IH. }
    unfold finish, cmd. rewrite (strings_back _ (proj1 (which_many _ _ _ S))), (strings_back _ (proj1 (which_many _ _ _ S))). cbn [out err status].
    split; [reflexivity|]. unfold run_verb. rewrite Rv. cbn [negb snd]. split; [|split].
    - intros H. destruct (C46_DetachReply.which C46_DetachReply.NotFound names fates) eqn:Q; [contradiction|]. rewrite <- Q in *. apply Sy. exact H.
    - intros H. rewrite H. destruct (C46_DetachReply.which C46_DetachReply.NotAttached names fates) eqn:Q; [constructor|]. rewrite <- Q. apply Sy. rewrite Q. discriminate.
    - transitivity (C46_DetachReply.which C46_DetachReply.NotFound names fates = [] /\ C46_DetachReply.which C46_DetachReply.NotAttached names fates = []).
      { destruct (C46_DetachReply.which C46_DetachReply.NotFound names fates), (C46_DetachReply.which C46_DetachReply.NotAttached names fates); split; try intros [? ?]; try split; congruence. }
      clear - Ln. revert fates Ln. induction names as [|n names IH]; intros [|f fates] Ln; try discriminate; [split; [constructor|cbn; auto]|]. injection Ln as Ln. specialize (IH fates Ln).
      unfold C46_DetachReply.which in *. cbn [combine filter snd]. destruct f; cbn [C46_DetachReply.fate_eqb map fst].
      + split; [intros [X _]; discriminate|intros X; inversion X; discriminate].
      + split; [intros [_ X]; discriminate|intros X; inversion X; discriminate].
      + rewrite IH. split; intros X; [constructor; [reflexivity|exact X]|inversion X; assumption].
  Qed.

  (** What var list and var get print is what was set at one moment while they waited. *)
  Lemma vars_read cmd l res : cmd = VarCmd VarList \/ (exists var, cmd = VarCmd (VarGet var)) ->
    sensible cmd Server.QGetVars -> throughout (after cmd) tellable l -> ended current cmd (after cmd l) = Some res ->
    res = mkResult [] [] 1 \/
    exists l1 l2, l = l1 ++ l2 /\ waiting current cmd (after cmd l1) /\ NoDup (map fst (Server.vars (srv (after cmd l1)))) /\
      res = finish current cmd (Some (VRec [VNone; VVec (map vpair (Server.vars (srv (after cmd l1))))])) /\
      collect pair_of (map vpair (Server.vars (srv (after cmd l1)))) = Some (Server.vars (srv (after cmd l1))).
  Proof.
    intros Hcmd [P V M S [pid A]] T E. destruct (wish_meant _ _ _ M) as (v & W & R). destruct (R S) as [R1 R2].
    destruct (end_cases unreadable version self other own_version c current _ defaults _ pid v P V M W R1 R2 S A l res T E) as [(r & a & Hr & Hv & -> & Hk & Hc)|[_ ->]]; [right|left; destruct Hcmd as [->|[var ->]]; reflexivity].
    pose proof (good_all unreadable version self other own_version c current _ defaults _ pid v P V M W R1 R2 S A l T) as G. pose proof Hr as Hr'. rewrite srv_trace in Hr'.
    destruct (answered_vars c self other pid defaults A _ _ (g_own _ _ _ _ _ _ _ _ _ _ _ _ _ G) Hr') as (t1 & t2 & -> & Et & Rn & Hh).
    cbn [reply_value] in Hv. injection Hv as _ <-.
    destruct (moment unreadable version self other own_version c current _ defaults _ pid v P V M W R1 R2 S A l t1 _ t2 _ T Hk Hc Et eq_refl Rn ltac:(rewrite Hh; discriminate)) as (l1 & l2 & -> & E1 & S1 & Wt).
    exists l1, (Others (Server.AGetVars c) :: l2). split; [reflexivity|]. split; [exact Wt|]. rewrite S1. split; [apply VarsProofs.vars_nodup|]. split; [reflexivity|].
    assert (Tl : tellable (srv (after cmd l1))) by (eapply T; reflexivity). rewrite S1 in Tl. destruct Tl as [[Tl _] _].
    clear - Tl. induction Tl as [|[n x] vs [H1 H2] _ IH]; [reflexivity|]. cbn. rewrite !rust_back by assumption.
    match goal with |- match ?g with Some _ => _ | None => _ end = _ => change g with (collect pair_of (map vpair vs)) end. rewrite IH. reflexivity.
  Qed.
  Theorem C80_var_list : forall l res, let cmd := VarCmd VarList in
    sensible cmd Server.QGetVars -> throughout (after cmd) tellable l -> ended current cmd (after cmd l) = Some res ->
    res = mkResult [] [] 1 \/
    exists l1 l2, l = l1 ++ l2 /\ waiting current cmd (after cmd l1) /\
      let vs := Server.vars (srv (after cmd l1)) in
      NoDup (map fst vs) /\ res = mkResult (flat_map (fun p => fst p ++ [9] ++ snd p ++ [10]) vs) [] 0.
  Proof.
    intros l res cmd H T E. destruct (vars_read cmd l res (or_introl eq_refl) H T E) as [X|(l1 & l2 & X & Wt & N & -> & C)]; [left; exact X|right].
    exists l1, l2. split; [exact X|]. split; [exact Wt|]. cbv zeta. split; [exact N|]. unfold finish, cmd in *. rewrite C. reflexivity.
  Qed.
  Theorem C80_var_get : forall var l res, let cmd := VarCmd (VarGet var) in
    sensible cmd Server.QGetVars -> throughout (after cmd) tellable l -> ended current cmd (after cmd l) = Some res ->
    res = mkResult [] [] 1 \/
    exists l1 l2, l = l1 ++ l2 /\ waiting current cmd (after cmd l1) /\
      res = mkResult (match lookup var (Server.vars (srv (after cmd l1))) with Some val => val ++ [10] | None => [] end) [] 0.
  Proof.
    intros var l res cmd H T E. destruct (vars_read cmd l res (or_intror (ex_intro _ var eq_refl)) H T E) as [X|(l1 & l2 & X & Wt & N & -> & C)]; [left; exact X|right].
    exists l1, l2. split; [exact X|]. split; [exact Wt|]. unfold finish, cmd in *. rewrite C. cbn [var_run option_map printed code negb]. f_equal.
    destruct (lookup var _) eqn:L; [apply CommandsProofs.get_present; assumption|apply CommandsProofs.get_absent; exact L].
  Qed.

  (** A var set or unset that succeeds has changed that variable and no other at one moment
      while it waited, and later while it waited has sent all the variables, as they were then,
      to every session there was. *)
  Theorem C80_var_set : forall v var val l res, let cmd := VarCmd v in
    sensible cmd (Server.QModify var val) -> throughout (after cmd) tellable l -> ended current cmd (after cmd l) = Some res ->
    res = mkResult [] [] 1 \/
    res = mkResult [] [] 0 /\
    exists l1 l2 l3 l4, l = l1 ++ Others (Server.AModify c) :: l2 ++ l3 ++ l4 /\
      let m1 := l1 ++ [Others (Server.AModify c)] in let m2 := m1 ++ l2 in let m3 := m2 ++ l3 in
      waiting current cmd (after cmd l1) /\ waiting current cmd (after cmd m2) /\ waiting current cmd (after cmd m3) /\
      let vs := Server.vars (srv (after cmd m1)) in
      lookup var vs = val /\ (forall n, n <> var -> lookup n vs = lookup n (Server.vars (srv (after cmd l1)))) /\
      forall n s, listed (srv (after cmd m2)) n s -> exists x, Server.session_at (srv (after cmd m3)) s = Some x /\ In vs (C26_Variables.sent_to x).
  Proof.
    intros v0 var val l res cmd [P V M S [pid A]] T E. destruct (wish_meant _ _ _ M) as (v & W & R). destruct (R S) as [R1 R2].
    assert (Hv0 : v0 = Commands.VarUnset var \/ exists x, v0 = Commands.VarSet var x) by (inversion M; subst; eauto).
    destruct (end_cases unreadable version self other own_version c current _ defaults _ pid v P V M W R1 R2 S A l res T E) as [(r & a & Hr & Hv & -> & Hk & Hc)|[_ ->]]; [right|left; destruct Hv0 as [->|[x ->]]; reflexivity].
    pose proof (good_all unreadable version self other own_version c current _ defaults _ pid v P V M W R1 R2 S A l T) as G. pose proof Hr as Hr'. rewrite srv_trace in Hr'.
    destruct (answered_modify c self other pid defaults A _ _ _ _ (g_own _ _ _ _ _ _ _ _ _ _ _ _ _ G) Hr') as (t1 & t2 & t3 & late & t4 & -> & Et & Hh1 & Hh2 & Lk & Rn & Hs). cbv zeta in *.
    cbn [reply_value] in Hv. injection Hv as _ <-. split; [destruct Hv0 as [->|[x ->]]; reflexivity|].
    set (rn := Server.run (Server.server_new defaults)) in *.
    assert (Rc : forall x y a, Server.run (Server.step (rn x) a) y = rn (x ++ a :: y)) by (intros; unfold rn, Server.run; rewrite fold_left_app; reflexivity).
    rewrite (Rc t1 t2) in *. rewrite (Rc _ t3) in *.
    assert (N3 : Server.handlers (rn ((t1 ++ Server.AModify c :: t2) ++ Server.ACollect c :: t3)) c <> Server.HIdle).
    { intros X. apply new_reply in Hs. inversion Hs; congruence. }
    replace (t1 ++ Server.AModify c :: t2 ++ Server.ACollect c :: t3 ++ Server.ASend c late :: t4) with (((t1 ++ Server.AModify c :: t2) ++ Server.ACollect c :: t3) ++ Server.ASend c late :: t4) in Et by (rewrite <- !app_assoc; reflexivity).
    destruct (moment unreadable version self other own_version c current _ defaults _ pid v P V M W R1 R2 S A l _ _ _ _ T Hk Hc Et eq_refl Rn N3) as (m3 & k4 & -> & E3 & S3 & W3).
    destruct (trace_at _ _ _ _ _ _ _ _ _ _ _ _ _ E3 eq_refl) as (m2 & k3 & -> & E2). destruct (trace_at _ _ _ _ _ _ _ _ _ _ _ _ _ E2 eq_refl) as (l1 & l2 & -> & E1).
    exists l1, l2, (Others (Server.ACollect c) :: k3), (Others (Server.ASend c late) :: k4). split; [rewrite <- !app_assoc; reflexivity|].
    assert (Q2 : (l1 ++ [Others (Server.AModify c)]) ++ l2 = l1 ++ Others (Server.AModify c) :: l2) by (rewrite <- app_assoc; reflexivity). rewrite Q2.
    assert (S1 : srv (after cmd l1) = rn t1) by (rewrite srv_trace, E1; reflexivity).
    assert (S2 : srv (after cmd (l1 ++ Others (Server.AModify c) :: l2)) = rn (t1 ++ Server.AModify c :: t2)) by (rewrite srv_trace, E2; reflexivity).
    assert (Wt : forall x y tx, (l1 ++ Others (Server.AModify c) :: l2) ++ Others (Server.ACollect c) :: k3 = x ++ y -> srv (after cmd x) = rn tx -> Server.handlers (rn tx) c <> Server.HIdle ->
      (exists tl, rn ((t1 ++ Server.AModify c :: t2) ++ Server.ACollect c :: t3) = Server.run (rn tx) tl) -> waiting current cmd (after cmd x)).
    { intros x y tx Ex Sx Hx [tl El]. assert (Tx : throughout (after cmd) tellable (x ++ (y ++ Others (Server.ASend c late) :: k4))) by (rewrite app_assoc, <- Ex; exact T). split.
      - apply (was_asked unreadable version self other own_version c current _ defaults _ pid v P V M W R1 R2 S A x); [exact (told_app _ _ _ _ _ _ _ _ _ _ _ Tx)|]. rewrite Sx. exact Hx.
      - eapply (not_ended unreadable version self other own_version c current _ defaults _ pid v P V M W R1 R2 S A); [exact Tx| | |].
        + rewrite app_assoc, <- Ex. exact Hk.
        + rewrite app_assoc, <- Ex. exact Hc.
        + rewrite Sx. apply (reply_later c (rn tx) tl). rewrite <- El. exact Rn. }
    cbv zeta. split; [|split; [|split]].
    - eapply (Wt l1 _ t1); [rewrite <- app_assoc; reflexivity|exact S1|rewrite Hh1; discriminate|]. exists (Server.AModify c :: t2 ++ Server.ACollect c :: t3). unfold rn, Server.run. rewrite <- fold_left_app, <- app_assoc. reflexivity.
    - eapply (Wt _ _ (t1 ++ Server.AModify c :: t2)); [reflexivity|exact S2|rewrite Hh2; discriminate|]. exists (Server.ACollect c :: t3). unfold rn, Server.run. rewrite <- fold_left_app. reflexivity.
    - exact W3.
    - rewrite (acts_snoc _ _ _ _ _ _ _ _ _ l1). cbn [WholeCommand.act mine srv]. rewrite S1, S2. rewrite S3.
      destruct (C26_Variables.C26_updates _ _ _ _ _ Hh1) as [U _]. split; [exact U|]. split.
      + intros n N. destruct (C26_Variables.C26_exact_update (rn t1) (Server.AModify c)) as [X|(c' & p' & var' & val' & Ea & Hc' & _ & K & _)].
        * rewrite X. reflexivity.
        * injection Ea as <-. rewrite Hh1 in Hc'. injection Hc' as <- <- <-. apply K. exact N.
      + intros n s L. rewrite <- (Rc _ t3) in Hs. fold rn. rewrite <- (Rc _ t3). exact (C26_Variables.C26_broadcast_partial _ _ _ _ _ Hh2 Lk Hs n s L).
  Qed.
  (** A command gets its request to the daemon in a bounded number of rounds, as long as the
      versions can be compared and the daemon never waits for it for 200 milliseconds. *)
  Theorem C80_arrives : forall cmd q v rounds, let l := concat rounds in
    sensible cmd q -> throughout (after cmd) tellable l -> wish current cmd = Some v ->
    (forall e, Version.client_new own_version (Some version) <> Version.ConnectFails e) ->
    ~ In Dies l -> (forall l1 l2, l = l1 ++ l2 -> ~ waited 200 (Handshake.daemon (talk (after cmd l1)))) -> Forall turns rounds ->
    (length (encode_to version_header (VRec [VStr version])) + length (encode_to connect_header v) + 60 < length rounds)%nat ->
    asked (after cmd l) = true.
  Proof.
    intros cmd q v rounds l [P V M S [pid A]] T W C N Wt F L. destruct (wish_meant _ _ _ M) as (v' & W' & R). rewrite W in W'. injection W' as <-. destruct (R S) as [R1 R2].
    exact (arrives unreadable version self other own_version c current cmd defaults q pid v P V M W R1 R2 S A C rounds T N Wt F L).
  Qed.

  (** And once the daemon is done with the request the command ends in a bounded number of
      rounds: with the daemon's answer or, if it gave none, with an error.  Nothing else,
      no matter how slowly they go on, is an end. *)
  Theorem C80_ends : forall cmd q l rounds, let m := l ++ concat rounds in
    sensible cmd q -> throughout (after cmd) tellable m ->
    (forall e, Version.client_new own_version (Some version) <> Version.ConnectFails e) ->
    ~ In Dies m -> Server.handlers (srv (after cmd l)) c = Server.HDone -> Forall turns rounds ->
    match reply_to c (srv (after cmd l)) with
    | Some r => (length (reply_bytes r) + 3 < length rounds)%nat ->
        exists a, reply_value r = Some (answer_type cmd, a) /\ ended current cmd (after cmd m) = Some (finish current cmd (Some a))
    | None => (1 < length rounds)%nat -> ended current cmd (after cmd m) = Some (mkResult [] [] 1)
    end.
  Proof.
    intros cmd q l rounds m [P V M S [pid A]] T C N H F. destruct (wish_meant _ _ _ M) as (v & W & R). destruct (R S) as [R1 R2]. destruct (reply_to c (srv (after cmd l))) as [r|] eqn:E; intros L.
    - exact (ends_answered unreadable version self other own_version c current cmd defaults q pid v P V M W R1 R2 S A C l rounds r T N E F L).
    - unfold m. rewrite (ends_mute unreadable version self other own_version c current cmd defaults q pid v P V M W R1 R2 S A l rounds T N H E F L). destruct M as [| | | | | |]; reflexivity.
  Qed.

  (** A kill or a detach with nothing to name ends as well, whatever the versions. *)
  Theorem C80_no_target_ends : forall cmd rounds, (forall q, ~ meant current cmd q) -> text version -> ~ In Dies (concat rounds) -> Forall turns rounds ->
    (length (encode_to version_header (VRec [VStr version])) + 2 <= length rounds)%nat ->
    ended current cmd (after cmd (concat rounds)) = Some (mkResult [] [] 1).
  Proof.
    intros cmd rounds N V D F L. apply wish_none in N. unfold ended.
    rewrite (lives unreadable version self other own_version c current cmd defaults _ D), (nothing_ends unreadable version self other own_version c current cmd defaults N V rounds D F L).
    destruct cmd as [| | |[]]; try discriminate N; reflexivity.
  Qed.

  (** When nobody holds the table's lock and the daemon gets to it, a request it has
      taken is done with and the command ends. *)
  Theorem C80_served : forall cmd q pid l service rounds,
    let st := srv (after cmd l) in let s := l ++ map Others service in let m := s ++ concat rounds in
    sensible cmd q -> throughout (after cmd) tellable m ->
    (forall e, Version.client_new own_version (Some version) <> Version.ConnectFails e) -> ~ In Dies m ->
    Server.handlers st c = Server.HAccepted pid q -> Server.locked st = None -> serves c (length (Server.table st)) q service -> Forall turns rounds ->
    (match reply_to c (srv (after cmd s)) with Some r => length (reply_bytes r) + 3 | None => 1 end < length rounds)%nat ->
    exists res, ended current cmd (after cmd m) = Some res.
  Proof.
    intros cmd q pid l service rounds st s m Se T C N H K V F L.
    assert (D : Server.handlers (srv (after cmd s)) c = Server.HDone).
    { unfold s. rewrite acts_app. cbv zeta. rewrite others_run by (eapply serves_mine; exact V). eapply serves_done; [|exact V|exact H|exact K]. unfold st. rewrite srv_trace. apply rn_reachable. }
    pose proof (C80_ends cmd q s rounds Se T C N D F) as E. destruct (reply_to c (srv (after cmd s))) as [r|].
    - destruct (E L) as (a & _ & E'). eexists. exact E'.
    - eexists. exact (E L).
  Qed.

  (** A list served so prints what the table held when it was served, unless it fails. *)
  Theorem C80_list_served : forall pid l rounds,
    let st := srv (after ListCmd l) in let s := l ++ [Others (Server.AList c)] in let m := s ++ concat rounds in
    sensible ListCmd Server.QList -> throughout (after ListCmd) tellable m ->
    (forall e, Version.client_new own_version (Some version) <> Version.ConnectFails e) -> ~ In Dies m ->
    Server.handlers st c = Server.HAccepted pid Server.QList -> Server.locked st = None -> Forall turns rounds ->
    (match reply_to c (srv (after ListCmd s)) with Some r => length (reply_bytes r) + 3 | None => 1 end < length rounds)%nat ->
    ended current ListCmd (after ListCmd m) = Some (mkResult [] [] 1) \/
    exists entries, ended current ListCmd (after ListCmd m) = Some (mkResult (list_text entries) [] 0) /\ NoDup (map fst entries) /\
      (forall n, In n (map fst entries) <-> exists s, listed st n s) /\
      (forall n b s, In (n, b) entries -> listed st n s -> (b = true <-> exists k, attached st k s)).
  Proof.
    intros pid l rounds st s m Se T C N H K F L.
    pose proof Se as [P V M S [pid' A]]. destruct (wish_meant _ _ _ M) as (v & W & R). destruct (R S) as [R1 R2].
    assert (Tl : throughout (after ListCmd) tellable l) by (intros l1 l2 ->; apply (T l1 (l2 ++ [Others (Server.AList c)] ++ concat rounds)); unfold m, s; rewrite !app_assoc; reflexivity).
    assert (Tst : tellable st) by (apply (Tl l []); rewrite app_nil_r; reflexivity).
    pose proof (good_all unreadable version self other own_version c current _ defaults _ pid' v P V M W R1 R2 S A l Tl) as G.
    assert (Re : reachable st) by (unfold st; rewrite srv_trace; apply rn_reachable).
    assert (Q : reply_to c st = None).
    { destruct (reply_to c st) as [r|] eqn:Er; [exfalso|reflexivity]. unfold st in Er, H. rewrite srv_trace in Er, H.
      destruct (answered_list c self other pid' defaults A _ _ (g_own _ _ _ _ _ _ _ _ _ _ _ _ _ G) Er) as (ls & t1 & t2 & _ & Et & _ & Hh & Hs & Hm). rewrite Et in H.
      unfold Server.run in H. rewrite fold_left_app in H. cbn [fold_left] in H.
      assert (D : Server.handlers (Server.step (Server.run (Server.server_new defaults) t1) (Server.AList c)) c = Server.HDone).
      { cbn [Server.step]. unfold Server.handle_list. rewrite Hh. destruct (Server.locked (Server.run (Server.server_new defaults) t1)) as [k|] eqn:Lk.
        - exfalso. cbn [Server.step] in Hs. unfold Server.handle_list in Hs. rewrite Hh, Lk in Hs. symmetry in Hs. apply (f_equal (@length _)) in Hs. rewrite app_length in Hs. cbn in Hs. lia.
        - destruct (map_opt _ _); apply goto_same. }
      unfold Server.run in D. revert D H. generalize (Server.step (fold_left Server.step t1 (Server.server_new defaults)) (Server.AList c)). clear.
      induction t2 as [|a t2 IH]; intros st D H; [cbn in H; congruence|]. apply (IH (Server.step st a)); [apply step_done; exact D|exact H]. }
    assert (Es : srv (after ListCmd s) = Server.step st (Server.AList c)) by (unfold s; rewrite acts_snoc; reflexivity).
    assert (D : Server.handlers (srv (after ListCmd s)) c = Server.HDone) by (rewrite Es; cbn [Server.step]; unfold Server.handle_list; rewrite H, K; destruct (map_opt _ _); apply goto_same).
    pose proof (C80_ends ListCmd Server.QList s rounds Se T C N D F) as E. fold m in E.
    destruct (map_opt (Server.list_entry st) (Server.table st)) as [ls|] eqn:Hm.
    - assert (Hs : Server.replies (Server.step st (Server.AList c)) = Server.replies st ++ [(c, Server.RList ls)]) by (cbn [Server.step]; unfold Server.handle_list; rewrite H, K, Hm; reflexivity).
      assert (Er : reply_to c (srv (after ListCmd s)) = Some (Server.RList ls)).
      { rewrite Es. unfold reply_to. rewrite Hs. revert Q. unfold reply_to. generalize (Server.replies st). induction l0 as [|[k r] l0 IH]; cbn; [rewrite Nat.eqb_refl; reflexivity|].
        destruct (k =? c)%nat; [discriminate|exact IH]. }
      rewrite Er in E, L. destruct (E L) as (a & Hv & E'). cbn [reply_value answer_type] in Hv. injection Hv as <-.
      right. exists (map (fun i => (Server.i_name i, Server.i_attached i)) ls).
      destruct (list_typed _ ls Re Tst Hm) as [_ Nm].
      destruct (C19_List.C19_list_exact _ _ _ _ Re Hs) as (X1 & X2 & X3 & _ & _ & _). split; [|split; [|split]].
      + rewrite E'. f_equal. unfold finish. replace (collect line_of (map session_value ls)) with (Some (map (fun i => (Server.i_name i, Server.i_attached i)) ls)); [reflexivity|].
        clear - Nm. induction Nm as [|i ls H _ IH]; [reflexivity|]. cbn. rewrite rust_back by exact H.
        match goal with |- _ = match ?g with Some _ => _ | None => _ end => change g with (collect line_of (map session_value ls)) end. rewrite <- IH. destruct (Server.i_attached i); reflexivity.
      + rewrite map_map. exact X3.
      + intros n. rewrite map_map. cbn [fst]. rewrite in_map_iff. split.
        * intros (i & <- & Hi). destruct (X2 i Hi) as (x & Lx & _). exists x. exact Lx.
        * intros (x & Lx). destruct (X1 n x Lx) as (i & Hi & y & _ & Nn & _). exists i. auto.
      + intros n b x Hin Lx. apply in_map_iff in Hin as (i & Ei & Hi). injection Ei as <- <-. destruct (X2 i Hi) as (x' & Lx' & y & _ & _ & _ & _ & _ & At & _).
        unfold listed in *. rewrite Lx in Lx'. injection Lx' as <-. exact At.
    - left. assert (Er : reply_to c (srv (after ListCmd s)) = None) by (rewrite Es; cbn [Server.step]; unfold Server.handle_list; rewrite H, K, Hm; exact Q).
      rewrite Er in E, L. exact (E L).
  Qed.
End Commands.
Print Assumptions C80_served.
Print Assumptions C80_list_served.
Print Assumptions C80_arrives.
Print Assumptions C80_ends.
Print Assumptions C80_no_target_ends.
Print Assumptions C80_asked_once.
Print Assumptions C80_no_target.
Print Assumptions C80_list.
Print Assumptions C80_kill.
Print Assumptions C80_detach.
Print Assumptions C80_var_list.
Print Assumptions C80_var_get.
Print Assumptions C80_var_set.

(** *** Some commands *)
Definition rust_b (s : rstr) : bool :=
  forallb (fun x => (x <? 55296) || ((57344 <=? x) && (x <? 1114112))) s && (N.of_nat (length (str_bytes s)) <? 2 ^ 32).
Definition i64_b (z : Z) : bool := ((- 2 ^ 63 <=? z) && (z <? 2 ^ 63))%Z.
Definition maybe_b {A} (f : A -> bool) (o : option A) : bool := match o with Some x => f x | None => true end.
Definition tellable_b (st : Server.server) : bool :=
  forallb (fun p => rust_b (fst p) && rust_b (snd p)) (Server.vars st) && (N.of_nat (length (Server.vars st)) <? 2 ^ 32) && (N.of_nat (length (Server.table st)) <? 2 ^ 32) &&
  forallb (fun p => match Server.session_at st (snd p) with
                    | Some x => rust_b (fst p) && i64_b (Server.s_started x) && maybe_b i64_b (Server.s_connected x) && maybe_b i64_b (Server.s_disconnected x) &&
                        maybe_b (fun w => rust_b (fst w) && ((- 2 ^ 31 <=? snd w) && (snd w <? 2 ^ 31))%Z) (Server.s_attachment x)
                    | None => true
                    end) (Server.table st).
Lemma rust_checked s : rust_b s = true -> rust s.
Proof.
  unfold rust_b, rust. intros H. apply andb_prop in H as [H1 H2]. split; [|apply N.ltb_lt; exact H2]. rewrite forallb_forall in H1. apply Forall_forall. intros x Hx.
  specialize (H1 x Hx). unfold scalar. apply orb_prop in H1 as [H1|H1]; [left; apply N.ltb_lt; exact H1|right]. apply andb_prop in H1 as [A B]. apply N.leb_le in A. apply N.ltb_lt in B. lia.
Qed.
Lemma i64_checked z : i64_b z = true -> i64 z.
Proof. unfold i64_b, i64. intros H. apply andb_prop in H as [A B]. apply Z.leb_le in A. apply Z.ltb_lt in B. auto. Qed.
Lemma tellable_checked st : tellable_b st = true -> tellable st.
Proof.
  unfold tellable_b, tellable. rewrite !andb_true_iff. intros [[[A B] C] D]. split; [|split].
  - split; [|apply N.ltb_lt; exact B]. rewrite forallb_forall in A. apply Forall_forall. intros p Hp. specialize (A p Hp). apply andb_prop in A as [A1 A2]. split; apply rust_checked; assumption.
  - apply N.ltb_lt. exact C.
  - intros n s x L X. assert (Hin : In (n, s) (Server.table st)).
    { unfold listed in L. revert L. generalize (Server.table st). induction l as [|[k v] l IH]; cbn; [discriminate|]. destruct (str_eqb n k) eqn:En; [|auto]. apply str_eqb_eq in En. intros H. injection H as ->. subst. auto. }
    rewrite forallb_forall in D. specialize (D _ Hin). cbn [fst snd] in D. rewrite X in D. rewrite !andb_true_iff in D. destruct D as [[[[D1 D2] D3] D4] D5].
    split; [apply rust_checked; exact D1|]. split; [apply i64_checked; exact D2|]. split; [|split].
    + destruct (Server.s_connected x); [apply i64_checked; exact D3|exact I].
    + destruct (Server.s_disconnected x); [apply i64_checked; exact D4|exact I].
    + destruct (Server.s_attachment x) as [w|]; [|exact I]. cbn [maybe_b] in D5. rewrite !andb_true_iff in D5. destruct D5 as [D5 [D6 D7]]. apply Z.leb_le in D6. apply Z.ltb_lt in D7.
      split; [apply rust_checked; exact D5|auto].
Qed.
Lemma throughout_checked world l : forallb (fun k => tellable_b (srv (world (firstn k l)))) (seq 0 (S (length l))) = true -> throughout world tellable l.
Proof.
  intros H l1 l2 ->. apply tellable_checked. rewrite forallb_forall in H. specialize (H (length l1)). rewrite firstn_app, firstn_all, Nat.sub_diag, app_nil_r in H. apply H.
  apply in_seq. rewrite app_length. lia.
Qed.

(** The daemon has two sessions; then the command runs, with both ends taking turns. *)
Definition before : list deed := map Others (ServerExamples.creates 1%nat ServerExamples.work None ++ ServerExamples.creates 2%nat ServerExamples.play None ++ ServerExamples.goes 2%nat 30%Z).
Definition asking : list deed := [Daemon 3%nat; Pass 10; Daemon 40%nat; Client 0%nat; Client 4%nat; Client 99%nat; Daemon 0%nat; Daemon 0%nat].
Definition answering : list deed := [Daemon 0%nat; Daemon 5%nat; Daemon 999%nat; Client 0%nat].
Definition example cmd l := acts (fun _ _ => false) (lit "0.4.2") ServerExamples.me ServerExamples.me (lit "0.4.2") 9%nat None cmd [(lit "a", lit "1")] l.

Example C80_list_runs :
  let l := before ++ asking ++ [Others (Server.AList 9%nat)] ++ answering in
  sensible (fun _ _ => false) (lit "0.4.2") ServerExamples.me ServerExamples.me None ListCmd Server.QList /\ throughout (example ListCmd) tellable l /\
  option_map (fun r => (out r, status r)) (ended None ListCmd (example ListCmd l)) =
    Some (lit "NAME" ++ [9] ++ lit "STATUS" ++ [10] ++ lit "play" ++ [9] ++ lit "disconnected" ++ [10] ++ lit "work" ++ [9] ++ lit "attached" ++ [10], 0%Z).
Proof.
  cbv zeta. split; [|split].
  - constructor; [intros ? ? ? H; discriminate|split; [reflexivity|vm_compute; reflexivity]|constructor|exact I|eexists; reflexivity].
  - apply throughout_checked. vm_compute. reflexivity.
  - vm_compute. reflexivity.
Qed.
Example C80_kill_runs :
  let cmd := KillCmd [ServerExamples.work; lit "gone"; lit "lost"] in
  let l := before ++ asking ++ [Others (Server.AKill 9%nat [true])] ++ answering in
  sensible (fun _ _ => false) (lit "0.4.2") ServerExamples.me ServerExamples.me None cmd (Server.QKill [ServerExamples.work; lit "gone"; lit "lost"]) /\ throughout (example cmd) tellable l /\
  ended None cmd (example cmd l) = Some (mkResult [] (lit "not found: gone lost" ++ [10]) 1) /\
  map fst (Server.table (srv (example cmd l))) = [ServerExamples.play].
Proof.
  cbv zeta. split; [|split; [|split]].
  - constructor; [intros ? ? ? H; discriminate|split; [reflexivity|vm_compute; reflexivity]|constructor; constructor| |eexists; reflexivity].
    split; [repeat constructor; apply rust_checked; vm_compute; reflexivity|vm_compute; reflexivity].
  - apply throughout_checked. vm_compute. reflexivity.
  - vm_compute. reflexivity.
  - vm_compute. reflexivity.
Qed.
Example C80_detach_runs :
  let cmd := DetachCmd [ServerExamples.work; ServerExamples.play] in
  let l := before ++ asking ++ map Others [Server.ADetach 9%nat; Server.ADetachNext 9%nat 40%Z; Server.ADetachNext 9%nat 41%Z; Server.ADetachFinish 9%nat] ++ answering in
  sensible (fun _ _ => false) (lit "0.4.2") ServerExamples.me ServerExamples.me None cmd (Server.QDetach [ServerExamples.work; ServerExamples.play]) /\ throughout (example cmd) tellable l /\
  ended None cmd (example cmd l) = Some (mkResult [] (lit "not attached: play" ++ [10]) 1).
Proof.
  cbv zeta. split; [|split].
  - constructor; [intros ? ? ? H; discriminate|split; [reflexivity|vm_compute; reflexivity]|constructor; constructor| |eexists; reflexivity].
    split; [repeat constructor; apply rust_checked; vm_compute; reflexivity|vm_compute; reflexivity].
  - apply throughout_checked. vm_compute. reflexivity.
  - vm_compute. reflexivity.
Qed.
Example C80_vars_run :
  let get := VarCmd (VarGet (lit "a")) in
  let put := VarCmd (Commands.VarSet (lit "b") (lit "2")) in
  let l := before ++ asking ++ [Others (Server.AGetVars 9%nat)] ++ answering in
  let m := before ++ asking ++ map Others [Server.AModify 9%nat; Server.ACollect 9%nat; Server.ASend 9%nat false; Server.ASend 9%nat false; Server.ASend 9%nat false] ++ answering in
  sensible (fun _ _ => false) (lit "0.4.2") ServerExamples.me ServerExamples.me None get Server.QGetVars /\ throughout (example get) tellable l /\
  sensible (fun _ _ => false) (lit "0.4.2") ServerExamples.me ServerExamples.me None put (Server.QModify (lit "b") (Some (lit "2"))) /\ throughout (example put) tellable m /\
  ended None get (example get l) = Some (mkResult (lit "1" ++ [10]) [] 0) /\
  ended None (VarCmd VarList) (example (VarCmd VarList) l) = Some (mkResult (lit "a" ++ [9] ++ lit "1" ++ [10]) [] 0) /\
  ended None put (example put m) = Some (mkResult [] [] 0).
Proof.
  cbv zeta. split; [|split; [|split; [|split; [|split; [|split]]]]]; try (apply throughout_checked; vm_compute; reflexivity); try (vm_compute; reflexivity).
  - constructor; [intros ? ? ? H; discriminate|split; [reflexivity|vm_compute; reflexivity]|constructor|exact I|eexists; reflexivity].
  - constructor; [intros ? ? ? H; discriminate|split; [reflexivity|vm_compute; reflexivity]|constructor| |eexists; reflexivity].
    split; apply rust_checked; vm_compute; reflexivity.
Qed.
(** Run outside of a session and with none named. *)
Example C80_no_target_runs :
  (forall q, ~ meant None (KillCmd []) q) /\ ended None (KillCmd []) (example (KillCmd []) (before ++ asking)) = Some (mkResult [] [] 1).
Proof. split; [apply wish_none; reflexivity|vm_compute; reflexivity]. Qed.

(** Both ends getting on by a byte or two at a time: the request arrives, and the answer, and
    so does the end of a kill that is not answered and of one with no target. *)
Lemma in_time_checked (world : list deed -> world) (l : list deed) :
  forallb (fun k => match Handshake.at_d (Handshake.daemon (talk (world (firstn k l)))) with Handshake.DRequest q => q <? 200 | _ => true end) (seq 0 (S (length l))) = true ->
  forall l1 l2, l = l1 ++ l2 -> ~ waited 200 (Handshake.daemon (talk (world l1))).
Proof.
  intros H l1 l2 -> (q & D & L). rewrite forallb_forall in H. specialize (H (length l1)). rewrite firstn_app, firstn_all, Nat.sub_diag, app_nil_r, D in H.
  assert (X : (q <? 200) = true) by (apply H; apply in_seq; rewrite app_length; lia). apply N.ltb_lt in X. lia.
Qed.
Definition a_round : list deed := [Daemon 0%nat; Pass 10; Client 1%nat].
Definition rounds n : list (list deed) := (before ++ a_round) :: repeat a_round n.
Lemma rounds_turn n : Forall turns (repeat a_round n).
Proof. apply Forall_forall. intros r H. apply repeat_spec in H. subst. split; eexists; [left; reflexivity|right; right; left; reflexivity]. Qed.
Lemma no_death l : forallb (fun d => match d with Dies => false | _ => true end) l = true -> ~ In Dies l.
Proof. intros H X. rewrite forallb_forall in H. specialize (H _ X). discriminate. Qed.
Example C80_list_arrives :
  let l := concat (rounds 95) in
  throughout (example ListCmd) tellable l /\ (forall e, Version.client_new (lit "0.4.2") (Some (lit "0.4.2")) <> Version.ConnectFails e) /\
  ~ In Dies l /\ (forall l1 l2, l = l1 ++ l2 -> ~ waited 200 (Handshake.daemon (talk (example ListCmd l1)))) /\ Forall turns (rounds 95) /\
  (length (encode_to version_header (VRec [VStr (lit "0.4.2")])) + length (encode_to connect_header (VVar (lit "List") None)) + 60 < length (rounds 95))%nat /\
  asked (example ListCmd l) = true.
Proof.
  cbv zeta. split; [apply throughout_checked; vm_compute; reflexivity|]. split; [discriminate|]. split; [apply no_death; vm_compute; reflexivity|]. split; [apply in_time_checked; vm_compute; reflexivity|].
  split; [|split; [apply Nat.ltb_lt; vm_compute; reflexivity|vm_compute; reflexivity]].
  constructor; [|apply rounds_turn]. split; eexists; apply in_or_app; right; [left; reflexivity|right; right; left; reflexivity].
Qed.
Example C80_get_ends :
  let cmd := VarCmd (VarGet (lit "a")) in
  let l := before ++ asking ++ [Others (Server.AGetVars 9%nat)] in
  let m := l ++ concat (repeat a_round 60) in
  throughout (example cmd) tellable m /\ ~ In Dies m /\ Server.handlers (srv (example cmd l)) 9%nat = Server.HDone /\ Forall turns (repeat a_round 60) /\
  option_map (fun r => (length (reply_bytes r) + 3 <? length (repeat a_round 60))%nat) (reply_to 9%nat (srv (example cmd l))) = Some true /\
  ended None cmd (example cmd m) = Some (mkResult (lit "1" ++ [10]) [] 0).
Proof.
  cbv zeta. split; [apply throughout_checked; vm_compute; reflexivity|]. split; [apply no_death; vm_compute; reflexivity|]. split; [vm_compute; reflexivity|]. split; [apply rounds_turn|]. split; vm_compute; reflexivity.
Qed.
Example C80_kill_ends :
  let cmd := KillCmd [ServerExamples.work; ServerExamples.play] in
  let l := before ++ asking ++ [Others (Server.AKill 9%nat [true; false])] in
  let m := l ++ concat (repeat a_round 2) in
  throughout (example cmd) tellable m /\ ~ In Dies m /\ Server.handlers (srv (example cmd l)) 9%nat = Server.HDone /\
  reply_to 9%nat (srv (example cmd l)) = None /\ ended None cmd (example cmd m) = Some (mkResult [] [] 1).
Proof.
  cbv zeta. split; [apply throughout_checked; vm_compute; reflexivity|]. split; [apply no_death; vm_compute; reflexivity|]. split; [vm_compute; reflexivity|]. split; vm_compute; reflexivity.
Qed.
(** Nothing is locked, the daemon gets to a list and to the setting of a variable. *)
Example C80_list_is_served :
  let l := before ++ asking in
  let s := l ++ [Others (Server.AList 9%nat)] in
  let m := s ++ concat (repeat a_round 400) in
  throughout (example ListCmd) tellable m /\ ~ In Dies m /\
  (exists pid, Server.handlers (srv (example ListCmd l)) 9%nat = Server.HAccepted pid Server.QList) /\ Server.locked (srv (example ListCmd l)) = None /\
  (match reply_to 9%nat (srv (example ListCmd s)) with Some r => length (reply_bytes r) + 3 | None => 1 end <? length (repeat a_round 400))%nat = true /\
  option_map status (ended None ListCmd (example ListCmd m)) = Some 0%Z.
Proof.
  cbv zeta. split; [apply throughout_checked; vm_compute; reflexivity|]. split; [apply no_death; vm_compute; reflexivity|]. split; [eexists; vm_compute; reflexivity|]. split; [vm_compute; reflexivity|]. split; vm_compute; reflexivity.
Qed.
Example C80_set_is_served :
  let cmd := VarCmd (Commands.VarSet (lit "b") (lit "2")) in
  let l := before ++ asking in
  let s := l ++ map Others (Server.AModify 9%nat :: Server.ACollect 9%nat :: repeat (Server.ASend 9%nat true) 3) in
  let m := s ++ concat (repeat a_round 60) in
  throughout (example cmd) tellable m /\ ~ In Dies m /\
  (exists pid, Server.handlers (srv (example cmd l)) 9%nat = Server.HAccepted pid (Server.QModify (lit "b") (Some (lit "2")))) /\ Server.locked (srv (example cmd l)) = None /\
  length (Server.table (srv (example cmd l))) = 2%nat /\
  (match reply_to 9%nat (srv (example cmd s)) with Some r => length (reply_bytes r) + 3 | None => 1 end <? length (repeat a_round 60))%nat = true /\
  ended None cmd (example cmd m) = Some (mkResult [] [] 0).
Proof.
  cbv zeta. split; [apply throughout_checked; vm_compute; reflexivity|]. split; [apply no_death; vm_compute; reflexivity|]. split; [eexists; vm_compute; reflexivity|]. split; [vm_compute; reflexivity|].
  split; [vm_compute; reflexivity|]. split; vm_compute; reflexivity.
Qed.
Example C80_detach_is_served :
  let cmd := DetachCmd [ServerExamples.work; lit "gone"] in
  let l := before ++ asking in
  let s := l ++ map Others (Server.ADetach 9%nat :: map (Server.ADetachNext 9%nat) [40%Z; 41%Z] ++ [Server.ADetachFinish 9%nat]) in
  let m := s ++ concat (repeat a_round 120) in
  throughout (example cmd) tellable m /\ ~ In Dies m /\
  (exists pid, Server.handlers (srv (example cmd l)) 9%nat = Server.HAccepted pid (Server.QDetach [ServerExamples.work; lit "gone"])) /\ Server.locked (srv (example cmd l)) = None /\
  (match reply_to 9%nat (srv (example cmd s)) with Some r => length (reply_bytes r) + 3 | None => 1 end <? length (repeat a_round 120))%nat = true /\
  ended None cmd (example cmd m) = Some (mkResult [] (lit "not found: gone" ++ [10]) 1).
Proof.
  cbv zeta. split; [apply throughout_checked; vm_compute; reflexivity|]. split; [apply no_death; vm_compute; reflexivity|]. split; [eexists; vm_compute; reflexivity|]. split; [vm_compute; reflexivity|].
  split; vm_compute; reflexivity.
Qed.
Example C80_no_target_over : text (lit "0.4.2") /\ (length (encode_to version_header (VRec [VStr (lit "0.4.2")])) + 2 <= length (repeat a_round 40))%nat /\
  ended None (KillCmd []) (example (KillCmd []) (concat (repeat a_round 40))) = Some (mkResult [] [] 1).
Proof. split; [split; [reflexivity|vm_compute; reflexivity]|]. split; [apply Nat.leb_le; vm_compute; reflexivity|vm_compute; reflexivity]. Qed.

(** A kill that fails and says nothing may have ended a shell, whose session stays. *)
Theorem C80_failed_kill_harmless_refuted : ~ forall l res, let cmd := KillCmd [ServerExamples.work; ServerExamples.play] in
  throughout (example cmd) tellable l -> ended None cmd (example cmd l) = Some res -> res = mkResult [] [] 1 ->
  Server.signalled (srv (example cmd l)) = [].
Proof.
  intros H. specialize (H (before ++ asking ++ [Others (Server.AKill 9%nat [true; false])] ++ answering ++ answering) (mkResult [] [] 1)). cbv zeta in H.
  assert (X : Server.signalled (srv (example (KillCmd [ServerExamples.work; ServerExamples.play]) (before ++ asking ++ [Others (Server.AKill 9%nat [true; false])] ++ answering ++ answering))) = []).
  { apply H; [apply throughout_checked; vm_compute; reflexivity|vm_compute; reflexivity|reflexivity]. }
  vm_compute in X. discriminate.
Qed.
Print Assumptions C80_failed_kill_harmless_refuted.
