(** C57: what the var commands do. *)
From Coq Require Import List NArith ZArith Bool Arith Lia.
From Verif Require Import Model.Base Model.Protocol Model.Names Model.Server Model.Commands Spec.CommandsSpec Spec.ServerSpec
  Proofs.BaseLemmas Proofs.CommandsProofs Proofs.ServerProofs Proofs.ServerMoves Proofs.VarsProofs.
Import ListNotations.
Open Scope nat_scope.

(** Every variable of the daemon has one value, whatever was requested in whatever order. *)
Theorem C57_one_value : forall defaults l, NoDup (map fst (vars (run (server_new defaults) l))).
Proof. exact vars_nodup. Qed.
Print Assumptions C57_one_value.

(** var get prints the value of the variable and a line break if the variable is set and
    nothing if it is not; it succeeds exactly if the daemon answered. *)
Theorem C57_get : forall defaults l var connected answer,
  let vs := vars (run (server_new defaults) l) in
  (forall a, answer = Some a -> a = GotVars vs) ->
  let o := var_run connected answer (VarGet var) in
  printed o = (if connected && match answer with Some _ => true | None => false end
               then match lookup var vs with Some v => v ++ [10%N] | None => [] end
               else []) /\
  (code o = 0%Z <-> connected = true /\ answer <> None) /\
  asked o = if connected then Some AskVars else None.
Proof.
  intros defaults l var connected answer. cbv zeta. intros HA.
  assert (ND := vars_nodup defaults l). set (vs := vars (run (server_new defaults) l)) in *. clearbody vs.
  destruct connected; [|repeat split; try discriminate; intros (F & _); discriminate].
  destruct answer as [a|]; [|repeat split; try discriminate; intros (_ & F); congruence].
  rewrite (HA a eq_refl). cbn [var_run negb printed code asked andb]. split; [|split; [split; [split; [reflexivity|congruence]|reflexivity]|reflexivity]].
  destruct (lookup var vs) as [v|] eqn:E; [apply get_present; assumption|apply get_absent; assumption].
Qed.
Print Assumptions C57_get.

(** set and unset ask for exactly that change and succeed exactly if it was confirmed;
    they print nothing. *)
Theorem C57_set : forall connected answer c var val,
  (c = VarSet var val \/ c = VarUnset var) ->
  let o := var_run connected answer c in
  asked o = (if connected then Some (AskModify var (match c with VarSet _ _ => Some val | _ => None end)) else None) /\
  (code o = 0%Z <-> connected = true /\ answer = Some GotModified) /\ (code o = 0%Z \/ code o = 1%Z) /\ printed o = [].
Proof.
  intros connected answer c var val [->| ->]; destruct connected, answer as [[vs|]|]; cbn; repeat split; intros; try congruence; try discriminate;
    try (left; reflexivity); try (right; reflexivity); repeat match goal with H : _ /\ _ |- _ => destruct H end; try congruence; try discriminate.
Qed.
Print Assumptions C57_set.

(** var list prints one line for each variable: the name, a tab and the value, and the
    text says what the variables are, as long as no name has a tab or line break and no
    value has a line break.  Missing: other names and values (below). *)
Theorem C57_list_partial : forall vars,
  Forall (fun p => ~ In 9%N (fst p) /\ ~ In 10%N (fst p) /\ ~ In 10%N (snd p)) vars ->
  let o := var_run true (Some (GotVars vars)) VarList in
  code o = 0%Z /\ lines_are (printed o) (map (fun p => fst p ++ 9%N :: snd p) vars) /\
  forall vars', Forall (fun p => ~ In 9%N (fst p) /\ ~ In 10%N (fst p) /\ ~ In 10%N (snd p)) vars' ->
    printed (var_run true (Some (GotVars vars')) VarList) = printed o -> vars' = vars.
Proof.
  assert (T : forall vs : var_list, flat_map (fun p => fst p ++ 9%N :: snd p ++ [10%N]) vs = flat_map (fun l => l ++ [10%N]) (map (fun p => fst p ++ 9%N :: snd p) vs)).
  { induction vs as [|p vs IH]; [reflexivity|]. cbn [flat_map map]. rewrite IH, <- !app_assoc. cbn [app]. rewrite <- app_assoc. reflexivity. }
  assert (L : forall vs : var_list, Forall (fun p => ~ In 9%N (fst p) /\ ~ In 10%N (fst p) /\ ~ In 10%N (snd p)) vs ->
              Forall (fun l => ~ In 10%N l) (map (fun p => fst p ++ 9%N :: snd p) vs)).
  { intros vs H. apply Forall_forall. intros x I. apply in_map_iff in I. destruct I as (p & <- & I). rewrite Forall_forall in H. destruct (H p I) as (_ & B & C).
    intros J. apply in_app_or in J. destruct J as [J|[J|J]]; [auto|discriminate|auto]. }
  intros vars H. cbv zeta. cbn [var_run negb printed code]. split; [reflexivity|]. split; [split; [apply T|apply L; exact H]|].
  intros vars' H' E. rewrite !T in E. apply lines_unique in E; [|apply L; assumption..]. clear T L.
  revert vars H E. induction vars' as [|p vs' IH]; intros [|q vs] H E; try discriminate; [reflexivity|].
  cbn [map] in E. injection E as E1 E2. apply cut_unique in E1; [|apply (Forall_inv H')|apply (Forall_inv H)].
  destruct E1 as (F1 & F2). f_equal; [destruct p, q; cbn in *; congruence|]. apply IH; [exact (Forall_inv_tail H')|exact (Forall_inv_tail H)|exact E2].
Qed.
Print Assumptions C57_list_partial.

(** A value with a line break looks like another variable. *)
Theorem C57_list_refuted : exists a b : var_list, a <> b /\ NoDup (map fst a) /\ NoDup (map fst b) /\
  printed (var_run true (Some (GotVars a)) VarList) = printed (var_run true (Some (GotVars b)) VarList).
Proof.
  exists [(lit "x", lit "1" ++ [10%N] ++ lit "y" ++ [9%N] ++ lit "2")], [(lit "x", lit "1"); (lit "y", lit "2")].
  split; [discriminate|]. split; [constructor; [auto|constructor]|]. split; [|reflexivity].
  constructor; [intros [F|[]]; vm_compute in F; discriminate|]. constructor; [auto|constructor].
Qed.
Print Assumptions C57_list_refuted.

(** A script cannot tell from the exit code whether a variable is set. *)
Theorem C57_unset_exits_zero : forall var vars, lookup var vars = None ->
  code (var_run true (Some (GotVars vars)) (VarGet var)) = 0%Z.
Proof. reflexivity. Qed.
Print Assumptions C57_unset_exits_zero.

(** set-log-level asks for the level and succeeds exactly if it was confirmed. *)
Theorem C57_log_level : forall connected answered level,
  let o := set_log_level connected answered level in
  asked o = (if connected then Some (AskLogLevel level) else None) /\ printed o = [] /\
  (code o = 0%Z <-> connected = true /\ answered = true) /\ (code o = 0%Z \/ code o = 1%Z).
Proof.
  intros [] [] level; cbn; repeat split; intros; try congruence; try discriminate; try (left; reflexivity); try (right; reflexivity);
    repeat match goal with H : _ /\ _ |- _ => destruct H end; try congruence; try discriminate.
Qed.
Print Assumptions C57_log_level.

(** A daemon with a default and a change of it. *)
Example C57_nonvacuous :
  let me := mkPeer 1 7 (Some (lit "shpool")) in
  let st := run (server_new [(lit "ws", lit "a"); (lit "k", lit "v")]) [AConnect 0 me me (Some (QModify (lit "ws") (Some (lit "b")))); AModify 0] in
  lookup (lit "ws") (vars st) = Some (lit "b") /\
  printed (var_run true (Some (GotVars (vars st))) (VarGet (lit "ws"))) = lit "b" ++ [10%N] /\
  printed (var_run true (Some (GotVars (vars st))) (VarGet (lit "zz"))) = [] /\
  Forall (fun p => ~ In 9%N (fst p) /\ ~ In 10%N (fst p) /\ ~ In 10%N (snd p)) (vars st) /\
  printed (var_run true (Some (GotVars (vars st))) VarList) = lit "ws" ++ [9%N] ++ lit "b" ++ [10%N] ++ lit "k" ++ [9%N] ++ lit "v" ++ [10%N].
Proof.
  cbv zeta. repeat split; try (vm_compute; reflexivity).
  vm_compute. repeat constructor; intros F; repeat destruct F as [F|F]; try discriminate; contradiction.
Qed.
