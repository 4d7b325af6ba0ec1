(** C09: keystrokes reach the shell. *)
From Coq Require Import List NArith Bool Arith Lia.
From Verif Require Import Model.Base Model.Trie Model.Keybindings Model.Input
  Spec.TrieSpec Spec.KeySpec Spec.InputSpec Proofs.BaseLemmas Proofs.KeybindingProofs Proofs.InputProofs.
Import ListNotations.
Open Scope nat_scope.

(** [split_verdicts m reads vss]: [vss] are the verdicts of the key recogniser for
    the bytes of the reads, read by read. *)
Definition split_verdicts (m : keymap action) (reads : list (list N)) (vss : list (list (verdict action))) : Prop :=
  Forall2 (fun r vs => length r = length vs) reads vss /\ exists s, typed_all m [] (concat reads) (concat vss) s.

(** For every configuration, every history of reads and every way the typed bytes
    are cut into reads: as long as no detach fires, the thread runs on and the
    shell is given exactly what [delivered] says. *)
Theorem C09_every_history : forall cfg m b size, denotes_keymap cfg m -> bindings_new cfg = Ok b ->
  forall reads vss, Forall (good_read size) reads -> split_verdicts m reads vss ->
  ~ In (Fires Detach) (concat vss) ->
  exists st w, read_all_input (c2s_start b size) reads = Some (Continue st w) /\
    delivered (combine reads vss) [] w (c_partial st).
Proof.
  intros cfg m b size Hm H reads vss Hr [Hf [s Ht]] Hnd.
  destruct (new_state cfg m b Hm H) as [l Hst].
  destruct (reads_spec l m size reads b [] (repeat 0%N size) [] Hst Hr (repeat_length _ _))
    as (vss2 & s2 & Hf2 & Ht2 & Hrest).
  destruct (typed_all_fun _ _ _ _ _ Ht _ _ Ht2) as [Ec _].
  assert (vss2 = vss) by (eapply split_fun; eassumption). subst vss2.
  destruct (Hrest Hnd) as (b' & buf' & w & h & E & _ & _ & Hd).
  exists (mkC2s b' h buf'), w. split; assumption.
Qed.
Print Assumptions C09_every_history.

(** Unless some read has an ordinary first byte and a binding that starts at its
    second byte, how the bytes are cut into reads makes no difference: the shell is
    given every byte that is not part of a fired binding, in order, and what is
    held back is the start of a binding still being typed. *)
Theorem C09_input_is_exact_partial : forall cfg m b size, denotes_keymap cfg m -> bindings_new cfg = Ok b ->
  forall reads vss, Forall (good_read size) reads -> split_verdicts m reads vss ->
  ~ In (Fires Detach) (concat vss) -> Forall (fun vs => ~ starts_second vs) vss ->
  exists st w, read_all_input (c2s_start b size) reads = Some (Continue st w) /\
    passed (combine (concat reads) (concat vss)) [] w (c_partial st).
Proof.
  intros cfg m b size Hm H reads vss Hr Hs Hnd Hns.
  destruct (C09_every_history cfg m b size Hm H reads vss Hr Hs Hnd) as (st & w & E & Hd).
  exists st, w. split; [assumption|]. apply delivered_passed; try assumption. apply Hs.
Qed.
Print Assumptions C09_input_is_exact_partial.

(** While no binding is completed, no byte is lost, invented or reordered. *)
Theorem C09_lossless_without_bindings : forall cfg m b size, denotes_keymap cfg m -> bindings_new cfg = Ok b ->
  forall reads vss, Forall (good_read size) reads -> split_verdicts m reads vss ->
  (forall a, ~ In (Fires a) (concat vss)) ->
  exists st w, read_all_input (c2s_start b size) reads = Some (Continue st w) /\ w ++ c_partial st = concat reads.
Proof.
  intros cfg m b size Hm H reads vss Hr Hs Hq.
  destruct (C09_input_is_exact_partial cfg m b size Hm H reads vss Hr Hs (Hq Detach)) as (st & w & E & Hp).
  - apply Forall_forall. intros vs Hv (j & a & tl & ->). apply (Hq a). apply in_concat.
    eexists. split; [exact Hv|]. right. apply in_or_app. right. left. reflexivity.
  - exists st, w. split; [assumption|]. apply quiet_lossless in Hp; cbn [app] in Hp.
    + rewrite Hp. destruct Hs as [Hf _]. clear - Hf.
      assert (Hl : length (concat reads) = length (concat vss)).
      { induction Hf; [reflexivity|]. cbn [concat]. rewrite !app_length. congruence. }
      revert Hl. generalize (concat reads) (concat vss). clear. induction l as [|x l IH]; intros [|v l0] Hl;
        try discriminate; [reflexivity|]. cbn. f_equal. apply IH. cbn in Hl. lia.
    + intros a Ha. apply (Hq a). apply in_map_iff in Ha as ([x v] & Hv & Hin). cbn in Hv. subst v.
      eapply in_combine_r; eassumption.
Qed.
Print Assumptions C09_lossless_without_bindings.

(** A completed detach ends the thread at once.  What earlier reads were owed has
    been written; of the read in which it was completed at most the bytes held
    over from earlier reads (and what was typed to extend them) are written. *)
Theorem C09_detach : forall cfg m b size, denotes_keymap cfg m -> bindings_new cfg = Ok b ->
  forall reads bytes1 x bytes2 later vss vs1 s1 s2,
  Forall (good_read size) reads -> byte_stream bytes1 -> (x < 256)%N ->
  Forall2 (fun r vs => length r = length vs) reads vss -> length bytes1 = length vs1 ->
  typed_all m [] (concat reads ++ bytes1) (concat vss ++ vs1) s1 ->
  ~ In (Fires Detach) (concat vss ++ vs1) -> typed m s1 x (Fires Detach) s2 ->
  exists w w' o h h',
    read_all_input (c2s_start b size) (reads ++ (bytes1 ++ x :: bytes2) :: later) = Some (Detached (w ++ w')) /\
    delivered (combine reads vss) [] w h /\ passed (combine bytes1 vs1) h o h' /\
    (exists lost, o = w' ++ lost) /\ (h = [] -> w' = []).
Proof.
  intros cfg m b size Hm H reads bytes1 x bytes2 later vss vs1 s1 s2 Hr Hb1 Hx Hf Hl Ht Hnd Hfx.
  destruct (new_state cfg m b Hm H) as [l Hst].
  eapply reads_detach; try eassumption. apply repeat_length.
Qed.
Print Assumptions C09_detach.

(** No history of reads makes the thread panic. *)
Theorem C09_never_panics : forall cfg b size, bindings_new cfg = Ok b ->
  forall reads, Forall (good_read size) reads -> read_all_input (c2s_start b size) reads <> None.
Proof.
  intros cfg b size H reads Hr.
  destruct (proj1 (bindings_new_iff cfg)) as [m Hm]; [eauto|].
  destruct (new_state cfg m b Hm H) as [l Hst].
  assert (Hb := repeat_length 0%N size). unfold c2s_start. revert Hb. generalize (repeat 0%N size).
  revert Hst. generalize (@nil chord) as s. generalize (@nil N) as h. clear H. revert b.
  induction Hr as [|r reads (Hne & Hl & Hby) Hr IH]; intros b h s Hst buf Hb; [discriminate|].
  cbn [read_all_input].
  assert (Hd : forall (r1 : list N) b0 s0, state_of l m b0 s0 -> byte_stream r1 ->
    (exists b1 rs s1, transitions b0 r1 = Some (b1, rs) /\ no_detach rs /\ state_of l m b1 s1) \/
    exists bytes1 x bytes2 b1 rs b2, r1 = bytes1 ++ x :: bytes2 /\ transitions b0 bytes1 = Some (b1, rs) /\
      no_detach rs /\ transition b1 x = Some (b2, BMatch Detach)).
  { clear. induction r1 as [|y r1 IH]; intros b0 s0 Hst Hby.
    - left. exists b0, [], s0. split; [reflexivity|]. split; [intros []|assumption].
    - inversion Hby as [|? ? Hy Hby']; subst. destruct (transition_spec l m b0 s0 y Hst Hy) as (b1 & r & s1 & E & Hst1 & _).
      assert (Hr : r = BMatch Detach \/ r <> BMatch Detach).
      { destruct r as [| |[|]]; [right|right|left|right]; try reflexivity; discriminate. }
      destruct Hr as [->|Hr]; [right; exists [], y, r1, b0, [], b1; repeat split; [intros []|assumption]|].
      destruct (IH b1 s1 Hst1 Hby') as [(b2 & rs & s2 & E2 & Hn & Hst2)|(bytes1 & x & bytes2 & b2 & rs & b3 & -> & E2 & Hn & E3)].
      + left. exists b2, (r :: rs), s2. cbn [transitions]. rewrite E, E2. split; [reflexivity|].
        split; [intros [Hx|Hx]; [apply Hr; assumption|apply Hn; assumption]|assumption].
      + right. exists (y :: bytes1), x, bytes2, b2, (r :: rs), b3. split; [reflexivity|].
        cbn [transitions]. rewrite E, E2. split; [reflexivity|].
        split; [intros [Hx|Hx]; [apply Hr; assumption|apply Hn; assumption]|assumption]. }
  destruct (Hd r b s Hst Hby) as [(b1 & rs & s1 & E & Hn & Hst1)|(bytes1 & x & bytes2 & b1 & rs & b2 & -> & E & Hn & E2)].
  - destruct (read_once_spec b h buf r b1 rs E Hn Hne) as (buf' & w & o & h' & Er & Hbl & _ & _); [lia|].
    rewrite Er. assert (Hn2 : read_all_input (mkC2s b1 h' buf') reads <> None).
    { eapply IH; [exact Hst1|lia]. }
    destruct (read_all_input (mkC2s b1 h' buf') reads) as [[|]|]; [discriminate|discriminate|contradiction].
  - destruct (read_detach b h buf bytes1 x bytes2 b1 rs b2 E Hn E2) as (w & o & h' & Er & _).
    rewrite Er. discriminate.
Qed.
Print Assumptions C09_never_panics.

(** The full property fails: with [Ctrl-a] bound to nothing, typing [b] and then
    [Ctrl-a] in one read loses the [b], in two reads it does not. *)
Theorem C09_second_byte_binding_loses_a_byte_refuted :
  exists b st st', bindings_new [(lit "Ctrl-a", NoOp)] = Ok b /\
    transitions b [98%N; 1%N] = Some (b, [BNoMatch; BMatch NoOp]) /\
    read_all_input (c2s_start b 4) [[98%N; 1%N]] = Some (Continue st []) /\
    read_all_input (c2s_start b 4) [[98%N]; [1%N]] = Some (Continue st' [98%N]) /\
    c_partial st = [] /\ c_partial st' = [].
Proof. vm_compute. eexists _, _, _. repeat split. Qed.
Print Assumptions C09_second_byte_binding_loses_a_byte_refuted.

(** ... and what is typed just before the detach keys is lost if it arrives in the
    same read. *)
Theorem C09_detach_drops_pending_input_refuted :
  exists b, bindings_new [(lit "Ctrl-Space Ctrl-q", Detach)] = Ok b /\
    read_all_input (c2s_start b 8) [[108%N; 115%N; 13%N; 0%N; 17%N]] = Some (Detached []) /\
    read_all_input (c2s_start b 8) [[108%N; 115%N; 13%N]; [0%N; 17%N]] = Some (Detached [108%N; 115%N; 13%N]).
Proof. vm_compute. eexists. repeat split. Qed.
Print Assumptions C09_detach_drops_pending_input_refuted.

(** Hypotheses met: a keymap with a NoOp binding of two keys, a history in which
    it is broken off once across two reads, fired once across two reads, fired
    once in the middle of a read, and begun at the end. *)
Example C09_nonvacuous :
  let cfg := [(lit "Ctrl-a Ctrl-b", NoOp)] in
  let m : keymap action := [([Ctrl (Sym 97); Ctrl (Sym 98)], NoOp)] in
  let reads := [[120; 1]; [99; 1]; [2; 121; 122; 1; 2; 65]; [1]]%N in
  let vss := [[Nothing; Pending]; [Nothing; Pending]; [Fires NoOp; Nothing; Nothing; Pending; Fires NoOp; Nothing]; [Pending]] in
  denotes_keymap cfg m /\ Forall (good_read 8) reads /\ split_verdicts m reads vss /\
  ~ In (Fires Detach) (concat vss) /\ Forall (fun vs => ~ starts_second vs) vss /\
  exists b st, bindings_new cfg = Ok b /\
    read_all_input (c2s_start b 8) reads = Some (Continue st [120; 1; 99; 121; 122; 65]%N) /\ c_partial st = [1%N].
Proof.
  cbn zeta.
  assert (Hm : denotes_keymap [(lit "Ctrl-a Ctrl-b", NoOp)] [([Ctrl (Sym 97); Ctrl (Sym 98)], NoOp)]).
  { constructor; [|constructor]. split; [|reflexivity]. cbn [fst]. split.
    + repeat (constructor; [split; [cbn; unfold sym_char; lia || exact I|discriminate]|]). constructor.
    + exists [], []. split; [reflexivity|]. split; [|left; reflexivity].
      exists (lit "Ctrl"). split; [discriminate|left; reflexivity]. }
  assert (Hby : byte_stream (concat [[120; 1]; [99; 1]; [2; 121; 122; 1; 2; 65]; [1]]%N)).
  { unfold byte_stream. cbn. repeat (constructor; [lia|]). constructor. }
  assert (Hb : exists b, bindings_new [(lit "Ctrl-a Ctrl-b", NoOp)] = Ok b) by (vm_compute; eexists; reflexivity).
  destruct Hb as [b Eb].
  split; [exact Hm|]. split.
  { repeat (constructor; [split; [discriminate|split; [cbn; lia|unfold byte_stream; repeat (constructor; [lia|]); constructor]]|]).
    constructor. }
  split.
  { split; [repeat constructor|]. destruct (new_state _ _ b Hm Eb) as [l Hst].
    destruct (transitions_spec l _ _ Hby b [] Hst) as (b' & rs & s' & E & _ & Ht).
    exists s'. revert E Ht. vm_compute in Eb. injection Eb as <-. cbn [concat app].
    intros E Ht. vm_compute in E. injection E as <- <-. exact Ht. }
  split; [cbn; intros H; repeat (destruct H as [H|H]; [discriminate|]); exact H|].
  split.
  { repeat constructor; intros (j & a & tl & H); try discriminate; destruct j as [|[|j]]; discriminate. }
  exists b. vm_compute in Eb. injection Eb as <-. vm_compute. eexists. repeat split.
Qed.
