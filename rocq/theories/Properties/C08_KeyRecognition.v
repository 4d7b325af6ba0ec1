(** C08: keybinding recognition. *)
From Coq Require Import List NArith Bool Lia.
From Verif Require Import Model.Base Model.Trie Model.Keybindings Spec.TrieSpec Spec.KeySpec
  Proofs.BaseLemmas Proofs.TrieProofs Proofs.KeybindingProofs.
Import ListNotations.
Open Scope N_scope.

(** On every byte stream the engine gives one verdict for each byte, the verdict
    of the reference semantics [typed_all]; it never panics. *)
Theorem C08_engine_follows_the_keymap : forall cfg b, bindings_new cfg = Ok b ->
  exists m, denotes_keymap cfg m /\
    forall bs, byte_stream bs -> exists b' rs s',
      transitions b bs = Some (b', rs) /\ length rs = length bs /\
      typed_all m [] bs (map to_verdict rs) s'.
Proof.
  intros cfg b H. destruct (proj1 (bindings_new_iff cfg)) as [m Hm]; [eauto|].
  exists m. split; [exact Hm|]. destruct (new_state cfg m b Hm H) as [l Hst].
  intros bs Hbs. destruct (transitions_spec l m bs Hbs b [] Hst) as (b' & rs & s' & E & _ & Ht).
  exists b', rs, s'. split; [assumption|]. split; [|assumption]. eapply transitions_length; eassumption.
Qed.
Print Assumptions C08_engine_follows_the_keymap.

(** A binding fires only when the bytes just typed are the bytes of its keys; the
    binding that fires is the last one configured for those keys, and no shorter
    binding is a prefix of it. *)
Theorem C08_fires_only_when_typed : forall cfg m b, denotes_keymap cfg m -> bindings_new cfg = Ok b ->
  forall bs b' rs i a, byte_stream bs -> transitions b bs = Some (b', rs) -> nth_error rs i = Some (BMatch a) ->
  exists cs csb earlier, bound m cs a /\ cs <> [] /\ bytes_of cs csb /\ firstn (S i) bs = earlier ++ csb /\
    (forall p, prefix p cs -> p <> [] -> p <> cs -> ~ inserted m p).
Proof.
  intros cfg m b Hm H bs b' rs i a Hbs E Hi.
  destruct (new_state cfg m b Hm H) as [l Hst].
  destruct (transitions_spec l m bs Hbs b [] Hst) as (b2 & rs2 & s' & E2 & _ & Ht).
  assert (rs2 = rs) by congruence. subst rs2.
  destruct (fires_sound m [] bs (map to_verdict rs) s' Ht i a) with (sb := @nil N)
    as (cs & csb & pre & H1 & H2 & H3 & H4 & H5).
  - rewrite nth_error_map, Hi. reflexivity.
  - constructor.
  - intros p [q Hq] Hne. destruct p; [contradiction|discriminate].
  - exists cs, csb, pre. cbn [app] in H4. split; [assumption|]. split; [assumption|].
    split; [assumption|]. split; assumption.
Qed.
Print Assumptions C08_fires_only_when_typed.

(** A binding fires whenever its keys are typed, provided no key of the
    configuration shares its byte with another, no shorter binding is a prefix of
    it, and the previous byte did not leave another sequence half typed. *)
Theorem C08_fires_when_typed_partial : forall cfg m b, denotes_keymap cfg m -> bindings_new cfg = Ok b ->
  (forall c c', In c (concat (map fst m)) -> In c' (concat (map fst m)) ->
     shpool_byte c = shpool_byte c' -> c = c') ->
  forall cs a, bound m cs a -> cs <> [] ->
  (forall p, prefix p cs -> p <> [] -> p <> cs -> ~ inserted m p) ->
  forall earlier csb b1 rs1, byte_stream earlier -> byte_stream csb -> bytes_of cs csb ->
  transitions b earlier = Some (b1, rs1) -> (forall rs0, rs1 <> rs0 ++ [BPartial]) ->
  exists b2, transitions b (earlier ++ csb) =
    Some (b2, rs1 ++ repeat BPartial (length cs - 1) ++ [BMatch a]).
Proof.
  intros cfg m b Hm H Hu cs a Hb Hne Hnp earlier csb b1 rs1 Hbe Hbc Hby E1 Hlast.
  destruct (new_state cfg m b Hm H) as [l Hst].
  destruct (transitions_spec l m earlier Hbe b [] Hst) as (b1' & rs1' & s1 & E1' & Hst1 & Ht1).
  assert (b1' = b1 /\ rs1' = rs1) as [-> ->] by (split; congruence).
  assert (s1 = []).
  { eapply settled; [exact Ht1|reflexivity|]. intros vs0 Hv.
    apply map_eq_app in Hv as (r1 & r2 & -> & _ & Hr2). destruct r2 as [|[| |] [|]]; try discriminate.
    eapply Hlast; reflexivity. }
  subst s1.
  destruct (transitions_spec l m csb Hbc b1 [] Hst1) as (b2 & rs2 & s2 & E2 & Hst2 & Ht2).
  destruct (fires_complete m cs a Hu Hb Hnp cs csb [] (map to_verdict rs2) s2) as [Hv _]; try assumption;
    try reflexivity.
  exists b2. rewrite transitions_app, E1, E2. do 3 f_equal.
  clear - Hv. revert Hv. generalize (length cs - 1)%nat as n. intros n. revert rs2.
  induction n as [|n IH]; intros rs2 Hv; cbn [repeat app] in *.
  - destruct rs2 as [|[| |a'] [|]]; try discriminate. injection Hv as ->. reflexivity.
  - destruct rs2 as [|[| |a'] rs2]; try discriminate. cbn [map] in Hv. injection Hv as Hv.
    f_equal. apply IH; assumption.
Qed.
Print Assumptions C08_fires_when_typed_partial.

(** The default configuration meets those provisos. *)
Example C08_default_configuration :
  let m := [([Ctrl SpaceBar; Ctrl (Sym 113)], Detach)] in
  denotes_keymap [(lit "Ctrl-Space Ctrl-q", Detach)] m /\
  (forall c c', In c (concat (map fst m)) -> In c' (concat (map fst m)) ->
     shpool_byte c = shpool_byte c' -> c = c') /\
  bound m [Ctrl SpaceBar; Ctrl (Sym 113)] Detach /\
  (forall p, prefix p [Ctrl SpaceBar; Ctrl (Sym 113)] -> p <> [] -> p <> [Ctrl SpaceBar; Ctrl (Sym 113)] -> ~ inserted m p) /\
  bytes_of [Ctrl SpaceBar; Ctrl (Sym 113)] [0; 17] /\
  exists b b2, bindings_new [(lit "Ctrl-Space Ctrl-q", Detach)] = Ok b /\
    transitions b [97; 0; 17; 0; 98; 0; 17] =
      Some (b2, [BNoMatch; BPartial; BMatch Detach; BPartial; BNoMatch; BPartial; BMatch Detach]).
Proof.
  cbn zeta. split; [|split; [|split; [|split; [|split]]]].
  - constructor; [|constructor]. split; [|reflexivity]. cbn [fst]. split.
    + repeat (constructor; [split; [cbn; unfold sym_char; lia || exact I|discriminate]|]). constructor.
    + exists [], []. split; [reflexivity|]. split; [|left; reflexivity].
      exists (lit "Ctrl"). split; [discriminate|left; reflexivity].
  - cbn. intros c c' [<-|[<-|[]]] [<-|[<-|[]]] H; try reflexivity; discriminate.
  - exists [], []. split; [reflexivity|intros v []].
  - intros p _ _ Hp [v [Hv|[]]]. congruence.
  - repeat constructor.
  - vm_compute. eexists _, _. split; reflexivity.
Qed.

(** How the stream is cut into pieces does not matter. *)
Theorem C08_splitting_is_invisible : forall b xs ys b1 rs1 b2 rs2,
  transitions b xs = Some (b1, rs1) -> transitions b1 ys = Some (b2, rs2) ->
  transitions b (xs ++ ys) = Some (b2, rs1 ++ rs2).
Proof. intros b xs ys b1 rs1 b2 rs2 H1 H2. rewrite transitions_app, H1, H2. reflexivity. Qed.
Print Assumptions C08_splitting_is_invisible.

(** Typing the first key twice loses the binding: the byte that breaks a partial
    match is not considered as the start of a new one. *)
Theorem C08_broken_match_not_restarted_refuted :
  exists b b2, bindings_new [(lit "Ctrl-Space Ctrl-q", Detach)] = Ok b /\
    transitions b [0; 0; 17] = Some (b2, [BPartial; BNoMatch; BNoMatch]) /\
    transitions b [0; 17] <> None /\ (exists b3, transitions b [0; 17] = Some (b3, [BPartial; BMatch Detach])).
Proof.
  vm_compute. eexists _, _. split; [reflexivity|]. split; [reflexivity|]. split; [discriminate|].
  eexists; reflexivity.
Qed.
Print Assumptions C08_broken_match_not_restarted_refuted.

(** Two names for one byte: the binding written first stops working. *)
Theorem C08_aliased_chord_refuted :
  exists b b2, bindings_new [(lit "Ctrl-Space Ctrl-q", Detach); (lit "Ctrl-@ a", NoOp)] = Ok b /\
    shpool_byte (Ctrl SpaceBar) = shpool_byte (Ctrl (Sym 64)) /\
    transitions b [0; 17] = Some (b2, [BPartial; BNoMatch]).
Proof. vm_compute. eexists _, _. repeat split. Qed.
Print Assumptions C08_aliased_chord_refuted.

(** A binding that is a prefix of another makes the longer one unreachable. *)
Theorem C08_shadowed_binding_refuted :
  exists b b2, bindings_new [(lit "a", NoOp); (lit "a b", Detach)] = Ok b /\
    transitions b [97; 98] = Some (b2, [BMatch NoOp; BNoMatch]).
Proof. vm_compute. eexists _, _. repeat split. Qed.
Print Assumptions C08_shadowed_binding_refuted.
