(** C56: what shpool list prints. *)
From Coq Require Import List NArith ZArith Bool Arith Lia.
From Verif Require Import Model.Base Model.Protocol Model.Commands Spec.CommandsSpec Proofs.BaseLemmas Proofs.CommandsProofs.
Import ListNotations.
Open Scope nat_scope.

(** A header and one row for each session of the reply, in its order; nothing else. *)
Theorem C56_rows : forall sessions, Forall (fun s => word (fst s)) sessions ->
  exists rows, lines_are (list_text sessions) ((lit "NAME" ++ 9%N :: lit "STATUS") :: rows) /\
  Forall2 (fun line s => exists status, says_attached (snd s) status /\ row line (fst s) status) rows sessions.
Proof.
  intros ss W. exists (map (list_row (longest_name ss)) ss). split; [split; [apply list_text_rows|]|].
  - constructor; [vm_compute; intros F; repeat destruct F as [F|F]; try discriminate; contradiction|].
    apply Forall_forall. intros l I. apply in_map_iff in I. destruct I as (s & <- & I). rewrite Forall_forall in W.
    apply row_no_nl, W, I.
  - set (w := longest_name ss). clearbody w. induction ss as [|s ss IH]; [constructor|]. cbn [map]. constructor.
    + exists (status_text (snd s)). split; [reflexivity|apply list_row_row].
    + apply IH. exact (Forall_inv_tail W).
Qed.
Print Assumptions C56_rows.

(** So the text says which sessions there are and in which state: different lists of
    sessions are printed differently. *)
Theorem C56_faithful : forall a b,
  Forall (fun s => word (fst s)) a -> Forall (fun s => word (fst s)) b -> list_text a = list_text b -> a = b.
Proof.
  intros a b Wa Wb E. rewrite !list_text_rows in E. apply lines_unique in E.
  - injection E as E. set (w := longest_name a) in E. set (w' := longest_name b) in E. clearbody w w'.
    revert b Wb E. induction a as [|s a IH]; intros [|t b] Wb E; try discriminate; [reflexivity|].
    cbn [map] in E. injection E as E1 E2. f_equal; [|apply IH; [exact (Forall_inv_tail Wa)|exact (Forall_inv_tail Wb)|exact E2]].
    assert (R1 := list_row_row w s). assert (R2 := list_row_row w' t). rewrite <- E1 in R2.
    destruct (row_unique _ _ _ _ _ (Forall_inv Wa) (Forall_inv Wb) (proj2 (status_no_tab _)) (proj2 (status_no_tab _)) R1 R2) as (En & Es).
    apply status_inj in Es. destruct s, t. cbn in *. congruence.
  - constructor; [vm_compute; intros F; repeat destruct F as [F|F]; try discriminate; contradiction|].
    apply Forall_forall. intros l I. apply in_map_iff in I. destruct I as (s & <- & I). rewrite Forall_forall in Wa. apply row_no_nl, Wa, I.
  - constructor; [vm_compute; intros F; repeat destruct F as [F|F]; try discriminate; contradiction|].
    apply Forall_forall. intros l I. apply in_map_iff in I. destruct I as (s & <- & I). rewrite Forall_forall in Wb. apply row_no_nl, Wb, I.
Qed.
Print Assumptions C56_faithful.

(** The status column is straight if the names are ASCII: it starts one tab after the
    width of the longest name in every row.  Missing: other names (below). *)
Theorem C56_aligned_partial : forall sessions, Forall (fun s => word (fst s) /\ Forall (fun c => (c < 128)%N) (fst s)) sessions ->
  exists (width : nat) rows, lines_are (list_text sessions) ((lit "NAME" ++ 9%N :: lit "STATUS") :: rows) /\
  (sessions <> [] -> exists s, In s sessions /\ length (fst s) = width) /\
  Forall2 (fun (line : rstr) (s : rstr * bool) => exists column : rstr, length column = width /\ line = column ++ 9%N :: (if snd s then lit "attached" else lit "disconnected")) rows sessions.
Proof.
  intros ss W. exists (longest_name ss), (map (list_row (longest_name ss)) ss). split; [split; [apply list_text_rows|]|split].
  - constructor; [vm_compute; intros F; repeat destruct F as [F|F]; try discriminate; contradiction|].
    apply Forall_forall. intros l I. apply in_map_iff in I. destruct I as (s & <- & I). rewrite Forall_forall in W.
    apply row_no_nl. apply (W s I).
  - intros H. destruct (longest_reached ss H) as (s & I & E). exists s. split; [exact I|]. rewrite <- E. symmetry. apply ascii_len.
    rewrite Forall_forall in W. apply (W s I).
  - assert (G : forall s, In s ss -> str_len (fst s) <= longest_name ss) by (intros s; apply longest_ge).
    set (w := longest_name ss) in *. clearbody w. induction ss as [|s ss IH]; [constructor|]. cbn [map]. constructor.
    + exists (padded w (fst s)). split; [|reflexivity]. unfold padded. rewrite app_length, repeat_length.
      specialize (G s (or_introl eq_refl)). rewrite (ascii_len (fst s)) in * by apply (Forall_inv W). unfold rstr in *. lia.
    + apply IH; [exact (Forall_inv_tail W)|]. intros t I. apply G. right. exact I.
Qed.
Print Assumptions C56_aligned_partial.

(** Widths are counted in bytes, so names that are not ASCII bend the column. *)
Theorem C56_aligned_refuted : exists a b : rstr, word a /\ word b /\ length a = length b /\
  exists la lb, lines_are (list_text [(a, true); (b, true)]) [lit "NAME" ++ 9%N :: lit "STATUS"; la; lb] /\ length la <> length lb.
Proof.
  exists (lit "a"), [233%N]. split; [repeat split; vm_compute; intros F; repeat destruct F as [F|F]; try discriminate; contradiction|].
  split; [repeat split; vm_compute; intros F; repeat destruct F as [F|F]; try discriminate; contradiction|]. split; [reflexivity|].
  exists (lit "a " ++ 9%N :: lit "attached"), (233%N :: 9%N :: lit "attached"). split; [|vm_compute; discriminate].
  split; [reflexivity|]. repeat constructor; vm_compute; intros F; repeat destruct F as [F|F]; try discriminate; contradiction.
Qed.
Print Assumptions C56_aligned_refuted.

(** The exit code is 0 exactly if the daemon answered; otherwise nothing is printed; and
    the only thing ever asked is the list. *)
Theorem C56_exit : forall connected answer,
  let o := list_command connected answer in
  (code o = 0%Z <-> connected = true /\ answer <> None) /\ (code o = 0%Z \/ code o = 1%Z) /\
  (connected = true <-> asked o = Some AskList) /\
  printed o = match connected, answer with true, Some sessions => list_text sessions | _, _ => [] end.
Proof.
  intros [] [ss|]; cbn; repeat split; intros; try congruence; try discriminate; try (left; reflexivity); try (right; reflexivity);
    repeat match goal with H : _ /\ _ |- _ => destruct H end; try congruence; try discriminate.
Qed.
Print Assumptions C56_exit.

Example C56_nonvacuous :
  let ss := [(lit "main", true); (lit "b", false)] in
  Forall (fun s => word (fst s) /\ Forall (fun c => (c < 128)%N) (fst s)) ss /\
  list_text ss = lit "NAME" ++ [9%N] ++ lit "STATUS" ++ [10%N] ++ lit "main" ++ [9%N] ++ lit "attached" ++ [10%N] ++
                 lit "b   " ++ [9%N] ++ lit "disconnected" ++ [10%N] /\
  str_len [127; 128; 2047; 2048; 65535; 65536]%N = 15.
Proof.
  cbv zeta. split; [|split; reflexivity]. repeat constructor; vm_compute; try (intros F; repeat destruct F as [F|F]; try discriminate; contradiction).
Qed.
