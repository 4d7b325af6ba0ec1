(** C42: terminal restored. *)
From Coq Require Import List NArith Bool Lia Arith.
From Verif Require Import Model.Base Model.Tty Spec.TtySpec Proofs.TtyProofs.
Import ListNotations.
Open Scope N_scope.

(** For all terminal attributes: what is set while attached is raw mode, flag by
    flag, and nothing else is altered. *)
Theorem C42_raw_exactly : forall old new, attach_flags old = new <-> is_raw_of old new.
Proof.
  intros old new. split; [intros <-; apply attach_flags_raw|].
  intros H. eapply is_raw_unique; [apply attach_flags_raw|exact H].
Qed.
Print Assumptions C42_raw_exactly.

(** One attachment, whatever goes wrong: either it never changes the terminal, or the
    terminal is raw while attached and, if the final terminal call works, has its
    original attributes again afterwards.  (Missing for the full claim: attributes with flags the
    library does not know; see the next theorem for those.) *)
Theorem C42_restored_partial : forall k w t during after, all_known k t ->
  pipe_terminal k w t = (during, after) ->
  (restore_ok w = true -> after = t) /\
  (forall d, during = Some d ->
     if in_tty w && out_tty w && err_tty w then is_raw_of t d else d = t).
Proof.
  intros k w t during after Hk H. apply all_known_truncate in Hk. unfold pipe_terminal, set_attach_flags in H. rewrite Hk in H.
  destruct (in_tty w), (out_tty w), (err_tty w); cbn [negb orb andb] in *;
    try (injection H as <- <-; split; [reflexivity|]; intros d [= <-]; reflexivity).
  destruct (get_ok w); cbn [negb] in H; [|injection H as <- <-; split; [reflexivity|discriminate]].
  destruct (set_ok w); cbn in H; [|injection H as <- <-; split; [reflexivity|discriminate]].
  injection H as <- <-. split; [intros ->; reflexivity|]. intros d [= <-]. apply attach_flags_raw.
Qed.
Print Assumptions C42_restored_partial.

(** In general what is restored is the original minus the flag bits the library has
    no name for; everything else is as before. *)
Theorem C42_restored_up_to_unknown_bits : forall k w t during after,
  pipe_terminal k w t = (during, after) -> restore_ok w = true ->
  after = t \/ (get_ok w = true /\ set_ok w = true /\ in_tty w && out_tty w && err_tty w = true /\ is_known_part k t after).
Proof.
  intros k w t during after H Hr. unfold pipe_terminal, set_attach_flags in H.
  destruct (in_tty w), (out_tty w), (err_tty w); cbn [negb orb] in H; try (injection H as _ <-; auto).
  destruct (get_ok w); cbn [negb] in H; [|injection H as _ <-; auto].
  destruct (set_ok w); cbn in H; injection H as _ <-; [rewrite Hr|auto]. right. repeat split; apply truncate_known.
Qed.
Print Assumptions C42_restored_up_to_unknown_bits.

(** The same after any number of switches between sessions. *)
Theorem C42_restored_after_switches : forall k ws t, all_known k t -> Forall (fun w => restore_ok w = true) ws ->
  snd (attach_terminal k ws t) = t /\
  Forall (fun d => match d with None => True | Some d => d = t \/ is_raw_of t d end) (fst (attach_terminal k ws t)).
Proof.
  intros k ws t Hk. induction ws as [|w ws IH]; intros Hw; [split; [reflexivity|constructor]|].
  cbn [attach_terminal]. destruct (pipe_terminal k w t) as [during t1] eqn:E.
  destruct (C42_restored_partial k w t during t1 Hk E) as (A & B). rewrite (A (Forall_inv Hw)).
  specialize (IH (Forall_inv_tail Hw)). destruct (attach_terminal k ws t) as [rest t2]. cbn in *.
  destruct IH as (-> & IH). split; [reflexivity|]. constructor; [|assumption].
  destruct during as [d|]; [|exact I]. specialize (B d eq_refl).
  destruct (in_tty w && out_tty w && err_tty w); [right|left]; assumption.
Qed.
Print Assumptions C42_restored_after_switches.

(** A flag bit the library does not know (IUCLC, bit 9 of the input flags, for
    example) is lost by attaching and detaching. *)
Theorem C42_unknown_bits_lost_refuted : exists k w t during after,
  pipe_terminal k w t = (during, after) /\ restore_ok w = true /\ set_ok w = true /\ get_ok w = true /\
  N.testbit (input_flags t) 9 = true /\ N.testbit (input_flags after) 9 = false.
Proof.
  exists {| known_input := 0x7DFF; known_output := 0xFFFF; known_control := 0xFFFFFFFF; known_local := 0xFFFF |},
         {| in_tty := true; out_tty := true; err_tty := true; get_ok := true; set_ok := true; restore_ok := true |},
         {| input_flags := 0x200; output_flags := 5; control_flags := 0xBF; local_flags := 0x8A3B; control_chars := [3; 28]; speeds := (15, 15) |}.
  eexists _, _. split; [vm_compute; reflexivity|]. repeat split; reflexivity.
Qed.
Print Assumptions C42_unknown_bits_lost_refuted.

(** With `noecho` only the echo flag (local bit 3) of the shell's terminal changes. *)
Theorem C42_noecho_only_echo : forall t,
  only_off [3] (local_flags t) (local_flags (disable_echo t)) /\
  input_flags (disable_echo t) = input_flags t /\ output_flags (disable_echo t) = output_flags t /\
  control_flags (disable_echo t) = control_flags t /\ control_chars (disable_echo t) = control_chars t /\
  speeds (disable_echo t) = speeds t.
Proof.
  intros t. split; [|repeat split; reflexivity]. cbn. apply clear_only_off.
  apply mask_bits; [reflexivity|repeat (constructor; [reflexivity|]); constructor|reflexivity].
Qed.
Print Assumptions C42_noecho_only_echo.

(** A usual cooked terminal, attached, then switched, then exited. *)
Example C42_nonvacuous :
  let k := {| known_input := 0x7DFF; known_output := 0xFFFF; known_control := 0xFFFFFFFF; known_local := 0xFFFF |} in
  let w := {| in_tty := true; out_tty := true; err_tty := true; get_ok := true; set_ok := true; restore_ok := true |} in
  let t := {| input_flags := 0x4500; output_flags := 5; control_flags := 0x18AF; local_flags := 0x8A3B; control_chars := [3; 28]; speeds := (15, 15) |} in
  all_known k t /\
  attach_terminal k [w; w] t =
    let raw := {| input_flags := 0x4000; output_flags := 4; control_flags := 0x18BF; local_flags := 0xA30; control_chars := [3; 28]; speeds := (15, 15) |} in
    ([Some raw; Some raw], t).
Proof. 
  split; [|vm_compute; reflexivity].
  repeat split; intros i; rewrite <- N.land_spec; reflexivity.
Qed.
