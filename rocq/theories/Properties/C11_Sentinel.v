(** C11: the shell's output is hidden until the prompt sentinel. *)
From Coq Require Import List NArith Bool Arith Lia.
From Verif Require Import Model.Base Model.Trie Model.Sentinel Model.Protocol Model.Config Model.Spawn
  Spec.TrieSpec Spec.SentinelSpec Spec.SpawnSpec
  Proofs.BaseLemmas Proofs.TrieProofs Proofs.SentinelProofs Proofs.SpawnProofs.
Import ListNotations.
Open Scope N_scope.

Definition byte_reads (reads : list (list N)) : Prop := Forall (Forall (fun x => x < 256)) reads.

(** For every output and every way it is cut into reads: what is shown is exactly
    what follows the point where the reference search finds the sentinel, and
    nothing if it does not find it. *)
Theorem C11_gate_follows_the_search : forall reads, byte_reads reads ->
  exists g0 g shown, gate_new true = Some g0 /\ gate_reads g0 reads = Some (g, shown) /\
    (forall rest, finds PROMPT_SENTINEL [] (concat reads) rest -> g_seen g = true /\ concat shown = rest) /\
    ((forall rest, ~ finds PROMPT_SENTINEL [] (concat reads) rest) -> g_seen g = false /\ shown = []).
Proof.
  intros reads Hr. unfold gate_new.
  destruct (scanner_new_spec PROMPT_SENTINEL) as (s & E & Hs & Hm).
  { repeat (constructor; [reflexivity|]). constructor. }
  rewrite E. cbn [negb].
  destruct (gate_reads_spec PROMPT_SENTINEL reads Hr s [] Hs Hm) as (g & shown & Eg & Hf).
  exists (mkGate s false), g, shown. split; [reflexivity|]. split; [assumption|]. split.
  - intros rest Hfi. apply find_finds in Hfi. rewrite Hfi in Hf. assumption.
  - intros Hn. destruct (find PROMPT_SENTINEL [] (concat reads)) as [rest|] eqn:Ef; [|assumption].
    exfalso. apply (Hn rest). apply find_finds. assumption.
Qed.
Print Assumptions C11_gate_follows_the_search.

(** Nothing is shown but what follows an occurrence of the sentinel. *)
Theorem C11_nothing_before_the_sentinel_is_shown : forall reads g0 g shown, byte_reads reads ->
  gate_new true = Some g0 -> gate_reads g0 reads = Some (g, shown) -> shown <> [] ->
  exists pre, concat reads = pre ++ PROMPT_SENTINEL ++ concat shown.
Proof.
  intros reads g0 g shown Hr E0 E Hne.
  destruct (scanner_new_spec PROMPT_SENTINEL) as (s & Es & Hs & Hm).
  { repeat (constructor; [reflexivity|]). constructor. }
  unfold gate_new in E0. rewrite Es in E0. injection E0 as <-. cbn [negb] in E.
  destruct (gate_reads_spec PROMPT_SENTINEL reads Hr s [] Hs Hm) as (g' & shown' & Eg & Hf).
  rewrite E in Eg. injection Eg as <- <-.
  destruct (find PROMPT_SENTINEL [] (concat reads)) as [rest|] eqn:Ef; [|destruct Hf as [_ ->]; contradiction].
  destruct Hf as [_ Hc]. apply find_finds, finds_sound in Ef as [pre Ef]. exists pre. rewrite Hc. exact Ef.
Qed.
Print Assumptions C11_nothing_before_the_sentinel_is_shown.

(** If the sentinel is printed at the very start or after a byte that is none of
    its own letters, everything after it is shown.  (Without that proviso it may be
    missed: the refuted statement below.) *)
Theorem C11_sentinel_is_recognised_partial : forall reads g0 g shown pre post, byte_reads reads ->
  gate_new true = Some g0 -> gate_reads g0 reads = Some (g, shown) ->
  concat reads = pre ++ PROMPT_SENTINEL ++ post ->
  (pre = [] \/ exists p x, pre = p ++ [x] /\ ~ In x PROMPT_SENTINEL) ->
  g_seen g = true /\ exists extra, concat shown = extra ++ post.
Proof.
  intros reads g0 g shown pre post Hr E0 E Hc Hpre.
  destruct (scanner_new_spec PROMPT_SENTINEL) as (s & Es & Hs & Hm).
  { repeat (constructor; [reflexivity|]). constructor. }
  unfold gate_new in E0. rewrite Es in E0. injection E0 as <-. cbn [negb] in E.
  destruct (gate_reads_spec PROMPT_SENTINEL reads Hr s [] Hs Hm) as (g' & shown' & Eg & Hf).
  rewrite E in Eg. injection Eg as <- <-.
  destruct (find_complete PROMPT_SENTINEL pre post) as [extra Ef]; [discriminate|assumption|].
  rewrite Hc, Ef in Hf. destruct Hf as [H1 H2]. split; [assumption|]. exists extra. assumption.
Qed.
Print Assumptions C11_sentinel_is_recognised_partial.

(** ... and if that is the first place where the sentinel occurs, exactly that. *)
Theorem C11_first_sentinel_partial : forall reads g0 g shown pre post, byte_reads reads ->
  gate_new true = Some g0 -> gate_reads g0 reads = Some (g, shown) ->
  concat reads = pre ++ PROMPT_SENTINEL ++ post ->
  (pre = [] \/ exists p x, pre = p ++ [x] /\ ~ In x PROMPT_SENTINEL) ->
  (forall p q, concat reads = p ++ PROMPT_SENTINEL ++ q -> (length pre <= length p)%nat) ->
  concat shown = post.
Proof.
  intros reads g0 g shown pre post Hr E0 E Hc Hpre Hfirst.
  destruct (C11_sentinel_is_recognised_partial reads g0 g shown pre post Hr E0 E Hc Hpre) as [Hseen [extra He]].
  assert (Hs : exists p, concat reads = p ++ PROMPT_SENTINEL ++ concat shown).
  { destruct shown as [|r shown].
    - symmetry in He. apply app_eq_nil in He as [-> ->]. exists pre. exact Hc.
    - eapply C11_nothing_before_the_sentinel_is_shown; try eassumption. discriminate. }
  destruct Hs as [p Hp]. assert (Hl := Hfirst p _ Hp).
  assert (Hlen : length (concat reads) = length (concat reads)) by reflexivity.
  rewrite Hp in Hlen at 1. rewrite Hc, He, !app_length in Hlen.
  assert (extra = []) by (destruct extra; [reflexivity|cbn in Hlen; lia]). subst extra. exact He.
Qed.
Print Assumptions C11_first_sentinel_partial.

(** How the output is cut into reads does not matter. *)
Theorem C11_splitting_is_invisible : forall g0 reads1 reads2 g1 g2 shown1 shown2,
  byte_reads reads1 -> byte_reads reads2 -> gate_new true = Some g0 ->
  gate_reads g0 reads1 = Some (g1, shown1) -> gate_reads g0 reads2 = Some (g2, shown2) ->
  concat reads1 = concat reads2 -> concat shown1 = concat shown2.
Proof.
  intros g0 reads1 reads2 g1 g2 shown1 shown2 H1 H2 E0 E1 E2 Hc.
  destruct (scanner_new_spec PROMPT_SENTINEL) as (s & Es & Hs & Hm).
  { repeat (constructor; [reflexivity|]). constructor. }
  unfold gate_new in E0. rewrite Es in E0. injection E0 as <-. cbn [negb] in *.
  destruct (gate_reads_spec PROMPT_SENTINEL reads1 H1 s [] Hs Hm) as (g & sh & Eg & Hf).
  destruct (gate_reads_spec PROMPT_SENTINEL reads2 H2 s [] Hs Hm) as (g' & sh' & Eg' & Hf').
  rewrite E1 in Eg. injection Eg as <- <-. rewrite E2 in Eg'. injection Eg' as <- <-. rewrite <- Hc in Hf'.
  destruct (find PROMPT_SENTINEL [] (concat reads1)); [|destruct Hf as [_ ->]; destruct Hf' as [_ ->]; reflexivity].
  destruct Hf as [_ ->], Hf' as [_ ->]. reflexivity.
Qed.
Print Assumptions C11_splitting_is_invisible.

(** A session without sentinels (a custom command, or no prompt prefix) shows
    everything. *)
Theorem C11_no_gate : forall reads, exists g0, gate_new false = Some g0 /\ gate_reads g0 reads = Some (g0, reads).
Proof.
  intros reads. unfold gate_new.
  destruct (scanner_new_spec PROMPT_SENTINEL) as (s & Es & _).
  { repeat (constructor; [reflexivity|]). constructor. }
  rewrite Es. eexists. split; [reflexivity|]. apply gate_reads_seen. reflexivity.
Qed.
Print Assumptions C11_no_gate.

(** Recognised wherever it appears: no.  One letter S in front hides it, and with
    it everything the shell ever prints. *)
Theorem C11_sentinel_after_S_is_missed_refuted :
  exists g0 g, gate_new true = Some g0 /\
    gate_reads g0 [lit "S"; PROMPT_SENTINEL; lit "prompt$ "] = Some (g, []) /\ g_seen g = false.
Proof. eexists _, _. split; [vm_compute; reflexivity|]. split; vm_compute; reflexivity. Qed.
Print Assumptions C11_sentinel_after_S_is_missed_refuted.

(** Waiting for the shell to come up: with a clock that has not passed the deadline
    and reads that give bytes, the wait ends well exactly when the search finds the
    startup sentinel. *)
Fixpoint read_bytes (turns : list (N * startup_event)) : list N :=
  match turns with
  | [] => []
  | (_, StRead bs) :: turns' => bs ++ read_bytes turns'
  | _ :: turns' => read_bytes turns'
  end.

Definition healthy (deadline : N) (turn : N * startup_event) : Prop :=
  fst turn <= deadline /\
  match snd turn with StTimeout => True | StRead bs => bs <> [] /\ Forall (fun x => x < 256) bs | _ => False end.

Theorem C11_startup_wait : forall deadline turns s, scanner_new STARTUP_SENTINEL = Some s ->
  Forall (healthy deadline) turns ->
  (wait_for_startup s deadline turns = Some Started <->
     exists rest, finds STARTUP_SENTINEL [] (read_bytes turns) rest) /\
  (wait_for_startup s deadline turns = Some StillWaiting <->
     forall rest, ~ finds STARTUP_SENTINEL [] (read_bytes turns) rest).
Proof.
  intros deadline turns s E Ht.
  assert (Hg : forall s cur, scanning STARTUP_SENTINEL s cur -> sc_matches s = 0 ->
     match find STARTUP_SENTINEL cur (read_bytes turns) with
     | inl _ => wait_for_startup s deadline turns = Some Started
     | inr _ => wait_for_startup s deadline turns = Some StillWaiting
     end).
  { clear E s. induction Ht as [|[now ev] turns [Hnow Hev] Ht IH]; intros s cur Hs Hm; cbn [read_bytes wait_for_startup find].
    - reflexivity.
    - cbn [fst snd] in *. destruct (N.ltb_spec deadline now); [lia|].
      destruct ev as [| |bs|]; try contradiction; [apply IH; assumption|].
      destruct Hev as [Hne Hby]. destruct (Nat.eqb_spec (length bs) 0) as [Hz|Hz].
      { destruct bs; [contradiction|discriminate]. }
      rewrite find_app. destruct (startup_scan_spec STARTUP_SENTINEL bs Hby s cur Hs Hm) as [s' Hsc].
      destruct (find STARTUP_SENTINEL cur bs) as [rest|cur'].
      + rewrite Hsc. reflexivity.
      + destruct Hsc as (Hsc & Hs' & Hm'). rewrite Hsc. apply IH; assumption. }
  destruct (scanner_new_spec STARTUP_SENTINEL) as (s' & Es & Hs & Hm).
  { repeat (constructor; [reflexivity|]). constructor. }
  rewrite E in Es. injection Es as <-. specialize (Hg s [] Hs Hm).
  destruct (find STARTUP_SENTINEL [] (read_bytes turns)) as [rest|cur'] eqn:Ef; rewrite Hg.
  - apply find_finds in Ef. split; split; intros H.
    + exists rest; assumption.
    + reflexivity.
    + discriminate.
    + exfalso. apply (H rest). assumption.
  - assert (Hno : forall rest, ~ finds STARTUP_SENTINEL [] (read_bytes turns) rest).
    { intros rest H. apply find_finds in H. congruence. }
    split; split; intros H.
    + discriminate.
    + destruct H as [rest H]. exfalso. eapply Hno; eassumption.
    + assumption.
    + reflexivity.
Qed.
Print Assumptions C11_startup_wait.

(** The wait is over at the latest on the first turn after the deadline. *)
Theorem C11_startup_wait_is_bounded : forall s deadline turns now ev rest,
  deadline < now -> wait_for_startup s deadline (turns ++ (now, ev) :: rest) <> Some StillWaiting.
Proof.
  intros s deadline turns now ev rest Hn. revert s. induction turns as [|[n e] turns IH]; intros s; cbn [app wait_for_startup].
  - destruct (N.ltb_spec deadline now); [discriminate|lia].
  - destruct (deadline <? n); [discriminate|]. destruct e as [| |bs|]; try discriminate; [apply IH|].
    destruct (length bs =? 0)%nat; [discriminate|]. destruct (startup_scan s bs) as [[s' [|]]|]; try discriminate. apply IH.
Qed.
Print Assumptions C11_startup_wait_is_bounded.

(** *** The sentinels themselves *)

(** Started as [daemon] with the flag variable set to one of two words, the program
    prints the sentinel that word stands for on a line of its own, and in no other
    case prints one. *)
Theorem C11_printed_exactly_when : forall is_daemon env out,
  print_sentinel is_daemon env = Some out <->
  is_daemon = true /\
  (env (lit "SHPOOL__INTERNAL__PRINT_SENTINEL") = Some (lit "prompt") /\ out = lit "SHPOOL_PROMPT_SETUP_SENTINEL" ++ [10] \/
   env (lit "SHPOOL__INTERNAL__PRINT_SENTINEL") = Some (lit "startup") /\ out = lit "SHPOOL_STARTUP_SENTINEL" ++ [10]).
Proof.
  intros is_daemon env out. unfold print_sentinel. change (lit "SHPOOL__INTERNAL__PRINT_SENTINEL") with SENTINEL_FLAG_VAR.
  destruct is_daemon; [|split; [discriminate|intros (H & _); discriminate]].
  destruct (env SENTINEL_FLAG_VAR) as [v|]; [|split; [discriminate|intros (_ & [(H & _)|(H & _)]); discriminate]].
  destruct (str_eqb v (lit "prompt")) eqn:Ep.
  { apply str_eqb_eq in Ep. subst v. split.
    - intros [= <-]. split; [reflexivity|]. left. split; reflexivity.
    - intros (_ & [(_ & ->)|(H & _)]); [reflexivity|discriminate]. }
  apply str_eqb_neq in Ep. destruct (str_eqb v (lit "startup")) eqn:Es.
  { apply str_eqb_eq in Es. subst v. split.
    - intros [= <-]. split; [reflexivity|]. right. split; reflexivity.
    - intros (_ & [(H & _)|(_ & ->)]); [discriminate|reflexivity]. }
  apply str_eqb_neq in Es. split; [discriminate|]. intros (_ & [(H & _)|(H & _)]); injection H as H; contradiction.
Qed.
Print Assumptions C11_printed_exactly_when.

Lemma prompt_not_startup : Some (lit "prompt") <> Some (lit "startup").
Proof. discriminate. Qed.

(** The command typed last into the shell sets that variable and runs the program as
    [daemon]; what the program then prints on a fresh line opens the gate, whatever
    came before and however the output is cut into reads. *)
Theorem C11_typed_command_opens_the_gate : forall e env out reads pre post g0 g shown,
  sentinel_cmd (lit "prompt") e =
    [10] ++ lit " SHPOOL__INTERNAL__PRINT_SENTINEL=prompt " ++ e ++ lit " daemon" ++ [10] /\
  (env (lit "SHPOOL__INTERNAL__PRINT_SENTINEL") = Some (lit "prompt") ->
   print_sentinel true env = Some out ->
   byte_reads reads -> concat reads = (pre ++ [10]) ++ out ++ post ->
   gate_new true = Some g0 -> gate_reads g0 reads = Some (g, shown) -> g_seen g = true).
Proof.
  intros e env out reads pre post g0 g shown. split; [reflexivity|].
  intros He Hp Hr Ec Hg Hs. apply C11_printed_exactly_when in Hp. destruct Hp as (_ & [(_ & ->)|(H & _)]); [|exfalso; exact (prompt_not_startup (eq_trans (eq_sym He) H))].
  destruct (C11_gate_follows_the_search reads Hr) as (g0' & g' & shown' & Hg' & Hs' & Hf & _).
  rewrite Hg in Hg'. injection Hg' as <-. rewrite Hs in Hs'. injection Hs' as <- <-.
  destruct (find_complete PROMPT_SENTINEL (pre ++ [10]) ([10] ++ post)) as (extra & Ef).
  { discriminate. }
  { right. exists pre, 10. split; [reflexivity|]. intros H. vm_compute in H. repeat (destruct H as [H|H]; [discriminate|]). exact H. }
  apply find_finds in Ef. eapply Hf. rewrite Ec.
  change (lit "SHPOOL_PROMPT_SETUP_SENTINEL") with PROMPT_SENTINEL. rewrite <- (app_assoc PROMPT_SENTINEL). exact Ef.
Qed.
Print Assumptions C11_typed_command_opens_the_gate.

(** Likewise for the command that is typed first and the wait for the shell. *)
Theorem C11_typed_command_ends_the_startup_wait : forall e env out deadline turns pre post s,
  sentinel_cmd (lit "startup") e =
    [10] ++ lit " SHPOOL__INTERNAL__PRINT_SENTINEL=startup " ++ e ++ lit " daemon" ++ [10] /\
  (env (lit "SHPOOL__INTERNAL__PRINT_SENTINEL") = Some (lit "startup") ->
   print_sentinel true env = Some out ->
   Forall (healthy deadline) turns -> read_bytes turns = (pre ++ [10]) ++ out ++ post ->
   scanner_new STARTUP_SENTINEL = Some s -> wait_for_startup s deadline turns = Some Started).
Proof.
  intros e env out deadline turns pre post s. split; [reflexivity|].
  intros He Hp Hr Ec Hs. apply C11_printed_exactly_when in Hp. destruct Hp as (_ & [(H & _)|(_ & ->)]); [exfalso; exact (prompt_not_startup (eq_trans (eq_sym H) He))|].
  apply (C11_startup_wait deadline turns s Hs Hr).
  destruct (find_complete STARTUP_SENTINEL (pre ++ [10]) ([10] ++ post)) as (extra & Ef).
  { discriminate. }
  { right. exists pre, 10. split; [reflexivity|]. intros H. vm_compute in H. repeat (destruct H as [H|H]; [discriminate|]). exact H. }
  apply find_finds in Ef. exists (extra ++ [10] ++ post). rewrite Ec.
  change (lit "SHPOOL_STARTUP_SENTINEL") with STARTUP_SENTINEL. rewrite <- (app_assoc STARTUP_SENTINEL). exact Ef.
Qed.
Print Assumptions C11_typed_command_ends_the_startup_wait.

(** The echo of what was typed is not mistaken for the sentinel: unless the user's own
    text (the prompt prefix with the session name put in, the start command, the path of
    the program) contains the sentinel, the search does not find it in the typed text. *)
Theorem C11_echo_is_no_sentinel : forall w cfg h sp,
  let sentinel := lit "SHPOOL_PROMPT_SETUP_SENTINEL" in
  let configured := match prompt_prefix cfg with Some p => p | None => lit "shpool:$SHPOOL_SESSION_NAME " end in
  (forall e, exe w = Some e -> ~ contains sentinel e) ->
  (forall p, replaced (lit "$SHPOOL_SESSION_NAME") (h_name h) configured p -> ~ contains sentinel p) ->
  (forall c, h_start_cmd h = Some c -> ~ contains sentinel c) ->
  forall rest, ~ finds PROMPT_SENTINEL [] (concat (fst (inject w cfg h sp))) rest.
Proof.
  intros w cfg h sp sentinel configured He Hp Hc rest Hf.
  assert (Hin : contains sentinel (concat (fst (inject w cfg h sp)))).
  { apply finds_sound in Hf. destruct Hf as (pre & E). exists pre, rest. exact E. }
  clear Hf. revert Hin. unfold inject. destruct (supports_sentinels sp).
  2: { intros H. apply containsb_complete in H. vm_compute in H. discriminate. }
  fold configured. change (match prompt_prefix cfg with Some p => p | None => DEFAULT_PROMPT_PREFIX end) with configured.
  unfold maybe_setup. cbn [fst]. destruct (exe w) as [e|] eqn:Ee.
  2: { intros H. apply containsb_complete in H. vm_compute in H. discriminate. }
  specialize (He e eq_refl).
  assert (Hno : forall x, In x [10; 32; 34; 36] -> ~ In x sentinel).
  { intros x Hx H. cbn in Hx. vm_compute in H.
    repeat (destruct Hx as [<-|Hx]; [repeat (destruct H as [H|H]; [discriminate|]); exact H|]). exact Hx. }
  assert (Hcut : forall x a b, In x [10; 32; 34; 36] -> contains sentinel (a ++ x :: b) -> contains sentinel a \/ contains sentinel b).
  { intros x a b Hx H. exact (contains_split sentinel x (Hno x Hx) a b H). }
  assert (Hlit : forall s, containsb sentinel s = false -> ~ contains sentinel s).
  { intros s Hs H. apply containsb_complete in H. congruence. }
  assert (Hcmd : forall which tail, containsb sentinel (lit " " ++ SENTINEL_FLAG_VAR ++ lit "=" ++ which) = false ->
    contains sentinel (sentinel_cmd which e ++ tail) -> contains sentinel tail).
  { intros which tail Hw H.
    replace (sentinel_cmd which e ++ tail) with
      ([] ++ 10 :: (lit " " ++ SENTINEL_FLAG_VAR ++ lit "=" ++ which) ++ 32 :: e ++ 32 :: lit "daemon" ++ 10 :: tail) in H.
    2: { unfold sentinel_cmd. cbn [app lit]. rewrite <- !app_assoc. reflexivity. }
    apply Hcut in H; [|cbn; auto]. destruct H as [H|H]; [destruct (Hlit [] eq_refl H)|].
    apply Hcut in H; [|cbn; auto]. destruct H as [H|H]; [destruct (Hlit _ Hw H)|].
    apply Hcut in H; [|cbn; auto]. destruct H as [H|H]; [contradiction|].
    apply Hcut in H; [|cbn; auto]. destruct H as [H|H]; [destruct (Hlit (lit "daemon") eq_refl H)|]. exact H. }
  destruct (negb (startup_seen w)).
  { cbn [fst concat]. intros H. apply Hcmd in H; [|reflexivity]. exact (Hlit [] eq_refl H). }
  cbn [fst concat]. intros H. apply Hcmd in H; [|reflexivity]. rewrite app_nil_r in H.
  set (which := match proc_name w with Some n => sniff_shell n | None => None end) in H.
  set (prefix := str_replace (lit "$SHPOOL_SESSION_NAME") (h_name h) configured) in H.
  assert (Hpre : ~ contains sentinel prefix).
  { apply Hp. apply str_replace_replaced. discriminate. }
  assert (Hscript : ~ contains sentinel (prompt_script which prefix)).
  { intros HH. unfold prompt_script in HH. destruct which as [[| |]|].
    - change bash_1 with (removelast bash_1 ++ 34 :: []) in HH.
      change bash_2 with (36 :: removelast (tl bash_2) ++ 34 :: []) in HH.
      change bash_3 with (36 :: tl bash_3) in HH.
      replace ((removelast bash_1 ++ [34]) ++ prefix ++ (36 :: removelast (tl bash_2) ++ [34]) ++ prefix ++ 36 :: tl bash_3)
        with (removelast bash_1 ++ 34 :: prefix ++ 36 :: removelast (tl bash_2) ++ 34 :: prefix ++ 36 :: tl bash_3) in HH.
      2: { rewrite <- !app_assoc. cbn [app]. rewrite <- !app_assoc. reflexivity. }
      apply Hcut in HH; [|cbn; auto]. destruct HH as [HH|HH]; [exact (Hlit (removelast bash_1) eq_refl HH)|].
      apply Hcut in HH; [|cbn; auto]. destruct HH as [HH|HH]; [contradiction|].
      apply Hcut in HH; [|cbn; auto]. destruct HH as [HH|HH]; [exact (Hlit (removelast (tl bash_2)) eq_refl HH)|].
      apply Hcut in HH; [|cbn; auto]. destruct HH as [HH|HH]; [contradiction|exact (Hlit (tl bash_3) eq_refl HH)].
    - change zsh_1 with (removelast zsh_1 ++ 34 :: []) in HH. change zsh_2 with (36 :: tl zsh_2) in HH.
      rewrite <- app_assoc in HH. cbn [app] in HH.
      apply Hcut in HH; [|cbn; auto]. destruct HH as [HH|HH]; [exact (Hlit (removelast zsh_1) eq_refl HH)|].
      apply Hcut in HH; [|cbn; auto]. destruct HH as [HH|HH]; [contradiction|exact (Hlit (tl zsh_2) eq_refl HH)].
    - change fish_1 with (removelast fish_1 ++ 34 :: []) in HH. change fish_2 with (34 :: tl fish_2) in HH.
      rewrite <- app_assoc in HH. cbn [app] in HH.
      apply Hcut in HH; [|cbn; auto]. destruct HH as [HH|HH]; [exact (Hlit (removelast fish_1) eq_refl HH)|].
      apply Hcut in HH; [|cbn; auto]. destruct HH as [HH|HH]; [contradiction|exact (Hlit (tl fish_2) eq_refl HH)].
    - exact (Hlit [] eq_refl HH). }
  assert (Hend : ~ contains sentinel (tl (sentinel_cmd (lit "prompt") e))).
  { intros HH. apply (Hlit [] eq_refl). apply (Hcmd (lit "prompt") []); [reflexivity|]. rewrite app_nil_r.
    destruct HH as (a & b & E). exists (10 :: a), b. change (sentinel_cmd (lit "prompt") e) with (10 :: tl (sentinel_cmd (lit "prompt") e)).
    rewrite E. reflexivity. }
  change (sentinel_cmd (lit "prompt") e) with (10 :: tl (sentinel_cmd (lit "prompt") e)) in H.
  destruct (h_start_cmd h) as [[|x c]|] eqn:Eh.
  - apply Hcut in H; [|cbn; auto]. destruct H; contradiction.
  - rewrite <- app_assoc in H. cbn [app] in H.
    apply Hcut in H; [|cbn; auto]. destruct H as [H|H]; [contradiction|].
    change (x :: (c ++ [10]) ++ 10 :: tl (sentinel_cmd (lit "prompt") e))
      with ((x :: c ++ [10]) ++ 10 :: tl (sentinel_cmd (lit "prompt") e)) in H.
    apply Hcut in H; [|cbn; auto]. destruct H as [H|H]; [|contradiction].
    change (x :: c ++ [10]) with ((x :: c) ++ 10 :: []) in H.
    apply Hcut in H; [|cbn; auto]. destruct H as [H|H]; [exact (Hc _ eq_refl H)|exact (Hlit [] eq_refl H)].
  - apply Hcut in H; [|cbn; auto]. destruct H; contradiction.
Qed.
Print Assumptions C11_echo_is_no_sentinel.

(** Hypotheses met: the echoed command, a newline, the sentinel cut in two. *)
Example C11_nonvacuous :
  let reads := [lit "$ SHPOOL__INTERNAL"; [10] ++ lit "SHPOOL_PROMPT_"; lit "SETUP_SENTINEL" ++ [10] ++ lit "user"; lit "@host"] in
  byte_reads reads /\
  concat reads = (lit "$ SHPOOL__INTERNAL" ++ [10]) ++ PROMPT_SENTINEL ++ ([10] ++ lit "user@host") /\
  ~ In 10 PROMPT_SENTINEL /\
  exists g0 g, gate_new true = Some g0 /\ gate_reads g0 reads = Some (g, [[10] ++ lit "user"; lit "@host"]).
Proof.
  cbn zeta. split; [|split; [|split]].
  - unfold byte_reads. repeat (constructor; [repeat (constructor; [reflexivity|]); constructor|]). constructor.
  - reflexivity.
  - intros H. vm_compute in H. repeat (destruct H as [H|H]; [discriminate|]). exact H.
  - eexists _, _. split; vm_compute; reflexivity.
Qed.

Example C11_startup_nonvacuous :
  exists s, scanner_new STARTUP_SENTINEL = Some s /\
    Forall (healthy 100) [(1, StTimeout); (2, StRead (lit "x SHPOOL_STARTUP")); (3, StRead (lit "_SENTINEL..."))] /\
    wait_for_startup s 100 [(1, StTimeout); (2, StRead (lit "x SHPOOL_STARTUP")); (3, StRead (lit "_SENTINEL..."))] = Some Started.
Proof.
  eexists. split; [vm_compute; reflexivity|]. split; [|vm_compute; reflexivity].
  constructor; [split; [discriminate|exact I]|].
  constructor; [split; [discriminate|split; [discriminate|repeat (constructor; [reflexivity|]); constructor]]|].
  constructor; [split; [discriminate|split; [discriminate|repeat (constructor; [reflexivity|]); constructor]]|].
  constructor.
Qed.

(** The default configuration, a bash, a start command and an installed program: the
    echoed text is long and meets the conditions of the theorem on echoes; the printed
    line is found after it. *)
Example C11_echo_nonvacuous :
  let w := {| startup_seen := true; proc_name := Some (lit "bash"); exe := Some (lit "/usr/bin/shpool"); write_ok := true |} in
  let h := mkAttach (lit "main") (lit "main") (mkSize 24 80 0 0) [] None None None (Some (lit "htop")) in
  let sp := mkSpawned (lit "/bin/bash") [] (Some (lit "-bash")) (lit "/") false true in
  let sentinel := lit "SHPOOL_PROMPT_SETUP_SENTINEL" in
  (forall e, exe w = Some e -> ~ contains sentinel e) /\
  (forall p, replaced (lit "$SHPOOL_SESSION_NAME") (h_name h) (lit "shpool:$SHPOOL_SESSION_NAME ") p -> ~ contains sentinel p) /\
  (forall c, h_start_cmd h = Some c -> ~ contains sentinel c) /\
  (100 < length (concat (fst (inject w default_config h sp))))%nat /\
  finds PROMPT_SENTINEL [] (concat (fst (inject w default_config h sp)) ++ PROMPT_SENTINEL ++ lit "$ ") (lit "$ ").
Proof.
  cbv zeta. split; [|split; [|split; [|split]]].
  - intros e [= <-] H. apply containsb_complete in H. discriminate.
  - intros p Hp H. cbn [h_name] in Hp.
    assert (E : p = lit "shpool:main ").
    { apply (replaced_unique (lit "$SHPOOL_SESSION_NAME") _ _ _ ltac:(discriminate) Hp).
      change (lit "shpool:main ") with (str_replace (lit "$SHPOOL_SESSION_NAME") (lit "main") (lit "shpool:$SHPOOL_SESSION_NAME ")).
      apply str_replace_replaced. discriminate. }
    subst p. apply containsb_complete in H. discriminate.
  - intros c [= <-] H. apply containsb_complete in H. discriminate.
  - vm_compute. lia.
  - apply find_finds. vm_compute. reflexivity.
Qed.
