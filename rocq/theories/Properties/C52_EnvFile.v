(** C52: the per-session env file. *)
From Coq Require Import List NArith Bool Lia.
From Verif Require Import Model.Base Model.Protocol Model.EtcEnvironment Model.Names Spec.EnvFileSpec
  Proofs.BaseLemmas Proofs.EtcEnvironmentProofs Proofs.NamesProofs.
Import ListNotations.
Open Scope N_scope.

(** For every set of forwarded variables whose names have no '=' and newline and
    whose values have no newline, reading the file back line by line gives exactly
    these variables, in order. *)
(** Missing for the full claim: values with line breaks; refuted below. *)
Theorem C52_file_reads_back_partial : forall h,
  Forall (fun p => ~ In 61 (fst p) /\ ~ In 10 (fst p) /\ ~ In 10 (snd p)) (h_env h) ->
  reads_as (env_file_text h) (h_env h).
Proof.
  intros h H. unfold env_file_text. remember (h_env h) as e eqn:E. clear E h.
  destruct e as [|p e]; [left; split; reflexivity|]. right.
  unfold lines_of. rewrite split_join.
  - remember (p :: e) as l. clear Heql p e. induction l as [|[k v] l IH]; [constructor|].
    cbn [map]. constructor; [split; [reflexivity|apply (Forall_inv H)]|]. apply IH. apply (Forall_inv_tail H).
  - discriminate.
  - intros q Hq. apply in_map_iff in Hq. destruct Hq as ([k v] & <- & Hi). rewrite Forall_forall in H.
    destruct (H _ Hi) as (_ & A & B). cbn in *. intros F. apply in_app_or in F. destruct F as [F|[F|F]]; [tauto|discriminate|tauto].
Qed.
Print Assumptions C52_file_reads_back_partial.

(** A reading is unique: the file determines the variables. *)
Theorem C52_reading_unique : forall t a b, reads_as t a -> reads_as t b -> a = b.
Proof.
  assert (Hl : forall ls a b, Forall2 line_is ls a -> Forall2 line_is ls b -> a = b).
  { induction ls as [|l ls IH]; intros a b Ha Hb; inversion Ha; inversion Hb; subst; [reflexivity|].
    f_equal; [|eapply IH; eassumption].
    destruct y as [k v], y0 as [k' v'].
    match goal with A : line_is l (k, v), B : line_is l (k', v') |- _ => destruct A as (A1 & A2), B as (B1 & B2) end.
    cbn in *. assert (X := proj2 (split_once_spec 61 l k v) (conj A1 A2)).
    assert (Y := proj2 (split_once_spec 61 l k' v') (conj B1 B2)). rewrite X in Y. injection Y as -> ->. reflexivity. }
  intros t a b Ha Hb. destruct Ha as [(-> & ->)|Ha], Hb as [(Hb & ->)|Hb]; try reflexivity.
  - cbn in Hb. inversion Hb as [|l [k v] ls r (H & _) _]; subst. cbn in H. destruct k; discriminate.
  - subst t. cbn in Ha. inversion Ha as [|l [k v] ls r (H & _) _]; subst. cbn in H. destruct k; discriminate.
  - eapply Hl; eassumption.
Qed.
Print Assumptions C52_reading_unique.

(** A forwarded value with a line break turns into another variable. *)
Theorem C52_newline_refuted : exists h other, other <> h_env h /\ reads_as (env_file_text h) other.
Proof.
  exists (mkAttach (lit "m") (lit "m") (mkSize 1 1 0 0) [(lit "A", lit "x" ++ [10] ++ lit "PATH=/evil")] None None None None),
    [(lit "A", lit "x"); (lit "PATH", lit "/evil")].
  split; [discriminate|]. right. vm_compute. constructor; [|constructor; [|constructor]]; split; try reflexivity;
    cbn; intros F; repeat destruct F as [F|F]; try discriminate; contradiction.
Qed.
Print Assumptions C52_newline_refuted.

Example C52_nonvacuous :
  env_file_text (mkAttach (lit "m") (lit "m") (mkSize 1 1 0 0) [(lit "TERM", lit "xterm"); (lit "X", lit "a=b")] None None None None)
  = lit "TERM=xterm" ++ [10] ++ lit "X=a=b".
Proof. reflexivity. Qed.
