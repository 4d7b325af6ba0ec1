(** C37: command line targets of kill and detach. *)
From Coq Require Import List NArith ZArith Bool Lia.
From Verif Require Import Model.Base Model.Protocol Model.Config Model.Duration Model.Template Model.Names Model.Chunk Model.Pipe Model.AttachClient
  Spec.TemplateSpec Spec.UnicodeSpec Spec.ShellEnvSpec Spec.PathSpec Spec.PipeSpec Spec.ClientSpec
  Proofs.BaseLemmas Proofs.TemplateProofs Proofs.ShellEnvProofs Proofs.NamesProofs Proofs.PipeProofs Proofs.AttachClientProofs.
Import ListNotations.
Open Scope nat_scope.

(** What is asked of the daemon: the sessions named on the command line; without any,
    the session the command runs in; and nothing if there is none of either. *)
Theorem C37_targets : forall v connected current answer named,
  fst (run_verb v connected current answer named) =
    (if connected then
       if match named with [] => true | _ => false end
       then match current with Some c => Some [c] | None => None end
       else Some named
     else None).
Proof. intros v [] current answer [|n named]; [destruct current as [c|]| | |]; reflexivity. Qed.
Print Assumptions C37_targets.

(** The exit code is 0 if the request was sent and answered and the daemon reported
    no problem, and 1 otherwise. *)
Theorem C37_exit_code : forall v connected current answer named,
  (snd (run_verb v connected current answer named) = 0%Z <->
   connected = true /\ (named <> [] \/ current <> None) /\
   exists not_attached, answer = Some ([], not_attached) /\ (v = DetachVerb -> not_attached = [])) /\
  (snd (run_verb v connected current answer named) = 0%Z \/ snd (run_verb v connected current answer named) = 1%Z).
Proof.
  intros v connected current answer named. unfold run_verb, resolve_sessions.
  destruct connected; cbn [negb].
  2:{ split; [split; [discriminate|intros (H & _); discriminate]|right; reflexivity]. }
  destruct named as [|n named].
  - destruct current as [c|]; cbn [snd].
    + destruct answer as [[nf na]|].
      * destruct nf as [|x nf].
        -- destruct v; [|destruct na as [|y na]].
           ++ split; [|left; reflexivity]. split; [|reflexivity]. intros _. split; [reflexivity|]. split; [right; discriminate|].
              exists na. split; [reflexivity|discriminate].
           ++ split; [|left; reflexivity]. split; [|reflexivity]. intros _. split; [reflexivity|]. split; [right; discriminate|].
              exists []. split; reflexivity.
           ++ split; [|right; reflexivity]. split; [discriminate|]. intros (_ & _ & na' & [= <-] & F). specialize (F eq_refl). discriminate.
        -- split; [|right; reflexivity]. split; [discriminate|]. intros (_ & _ & na' & F & _). discriminate.
      * split; [|right; reflexivity]. split; [discriminate|]. intros (_ & _ & na' & F & _). discriminate.
    + split; [|right; reflexivity]. split; [discriminate|]. intros (_ & [F|F] & _); congruence.
  - cbn [snd]. destruct answer as [[nf na]|].
    + destruct nf as [|x nf].
      * destruct v; [|destruct na as [|y na]].
        -- split; [|left; reflexivity]. split; [|reflexivity]. intros _. split; [reflexivity|]. split; [left; discriminate|].
           exists na. split; [reflexivity|discriminate].
        -- split; [|left; reflexivity]. split; [|reflexivity]. intros _. split; [reflexivity|]. split; [left; discriminate|].
           exists []. split; reflexivity.
        -- split; [|right; reflexivity]. split; [discriminate|]. intros (_ & _ & na' & [= <-] & F). specialize (F eq_refl). discriminate.
      * split; [|right; reflexivity]. split; [discriminate|]. intros (_ & _ & na' & F & _). discriminate.
    + split; [|right; reflexivity]. split; [discriminate|]. intros (_ & _ & na' & F & _). discriminate.
Qed.
Print Assumptions C37_exit_code.

Example C37_nonvacuous :
  run_verb DetachVerb true (Some (lit "main")) (Some ([], [])) [] = (Some [lit "main"], 0%Z) /\
  run_verb DetachVerb true (Some (lit "main")) (Some ([], [lit "b"])) [lit "a"; lit "b"] = (Some [lit "a"; lit "b"], 1%Z) /\
  run_verb KillVerb true None None [] = (None, 1%Z).
Proof. repeat split. Qed.
