(** C82: what a program does from its start to its end. *)
From Coq Require Import String List NArith ZArith Bool Arith Lia.
From Verif Require Import Model.Base Model.Names Model.Launch Model.Spawn Model.Main Spec.MainSpec Proofs.BaseLemmas.
Import ListNotations.
Open Scope N_scope.

(** The version is printed whatever else is given, and nothing is touched; so are the words
    a shell is asked to print, which end a program that was to be a daemon. *)
Theorem C82_version : forall hash version w a, let e := main hash version w true a in
  out e = lit "shpool " ++ version ++ [10] /\ effects e = [] /\ told e = None /\ logged e = None /\ status e = 0%Z.
Proof. intros. cbn. auto. Qed.
Theorem C82_word : forall hash version w a, asks_for_word w a -> let e := main hash version w false a in
  out e = (if str_eqb (match o_vars w (lit "SHPOOL__INTERNAL__PRINT_SENTINEL") with Some v => v | None => [] end) (lit "prompt")
           then lit "SHPOOL_PROMPT_SETUP_SENTINEL" else lit "SHPOOL_STARTUP_SENTINEL") ++ [10] /\ effects e = [] /\ told e = None /\ logged e = None /\ status e = 0%Z.
Proof.
  intros hash version w a [D S]. cbn [main]. unfold run, print_sentinel. rewrite D. change SENTINEL_FLAG_VAR with (lit "SHPOOL__INTERNAL__PRINT_SENTINEL").
  destruct S as [-> | ->]; (split; [vm_compute; reflexivity|]); repeat split.
Qed.
Lemma no_word w a : ~ asks_for_word w a -> print_sentinel (a_is_daemon a) (o_vars w) = None.
Proof.
  intros N. unfold print_sentinel. destruct (a_is_daemon a) eqn:D; [|reflexivity]. change SENTINEL_FLAG_VAR with (lit "SHPOOL__INTERNAL__PRINT_SENTINEL").
  destruct (o_vars w (lit "SHPOOL__INTERNAL__PRINT_SENTINEL")) as [v|] eqn:V; [|reflexivity].
  destruct (str_eqb v (lit "prompt")) eqn:P; [apply str_eqb_eq in P; subst; destruct N; split; auto|].
  destruct (str_eqb v (lit "startup")) eqn:S; [apply str_eqb_eq in S; subst; destruct N; split; auto|]. reflexivity.
Qed.

(** Otherwise, when it has a place for its files and knows its own name: the log file is
    emptied, the directory made, the configuration read, a daemon looked for if one is
    wanted, and the command done, in this order and up to the first that fails.  The
    program succeeds if all do; if the command fails the error is logged, and if
    something fails before it is said on the standard error stream. *)
Theorem C82_in_order : forall hash version w a base dir socket,
  let vars := mkSurroundings (o_vars w (lit "XDG_RUNTIME_DIR")) (o_vars w (lit "HOME")) in
  let e := main hash version w false a in
  ~ asks_for_word w a -> runtime_base vars = Some base -> locations hash vars (a_socket a) = Some (dir, socket) -> o_arg0 w = None ->
  exists look how, (In (FindDaemon socket) look <-> exists nd, o_config w = inr nd /\ wanted nd a) /\ (look = [] \/ look = [FindDaemon socket]) /\
    in_order w (match a_log_file a with Some path => [EmptyLog path] | None => [] end ++ [MakeDir base; ReadConfig (a_config_file a)] ++ look ++ [Command dir socket]) (effects e) how /\
    seen how e.
Proof.
  intros hash version w a base dir socket vars e N B L A0. unfold e. cbn [main]. unfold run. rewrite (no_word _ _ N).
  assert (Cm : forall es, exists how, in_order w [Command dir socket] [Command dir socket] how /\ seen how (command w es dir socket) /\ effects (command w es dir socket) = es ++ [Command dir socket]).
  { intros es. unfold command. destruct (o_command w) as [err|] eqn:O.
    - exists (Some (Command dir socket, err)). split; [apply io_fail; exact O|]. repeat split.
    - exists None. split; [apply io_step; [exact O|constructor]|]. repeat split. }
  assert (Pr : forall es, exists look how done, (In (FindDaemon socket) look <-> exists nd, o_config w = inr nd /\ wanted nd a) /\ (look = [] \/ look = [FindDaemon socket]) /\
    in_order w ([MakeDir base; ReadConfig (a_config_file a)] ++ look ++ [Command dir socket]) done how /\ seen how (prepare hash w a es) /\ effects (prepare hash w a es) = es ++ done).
  { intros es. unfold prepare. fold vars. rewrite B, L.
    assert (Lk : exists look, (In (FindDaemon socket) look <-> exists nd, o_config w = inr nd /\ wanted nd a) /\ (look = [] \/ look = [FindDaemon socket]) /\
      (look = [] -> forall nd, o_config w = inr nd -> ~ wanted nd a)).
    { destruct (o_config w) as [err|nd].
      - exists []. split; [split; [intros []|intros (nd & X & _); discriminate]|]. split; [auto|]. intros _ nd X. discriminate.
      - destruct (considered nd a && negb (a_no_daemonize a) && negb (a_is_daemon a)) eqn:W.
        + assert (Wd : wanted nd a) by (apply andb_prop in W as [W W3]; apply andb_prop in W as [W1 W2]; repeat split; [exact W1|destruct (a_no_daemonize a); [discriminate|reflexivity]|destruct (a_is_daemon a); [discriminate|reflexivity]]).
          exists [FindDaemon socket]. split; [split; [intros _; eauto|intros _; left; reflexivity]|]. split; [auto|]. discriminate.
        + assert (Wd : ~ wanted nd a) by (intros (W1 & W2 & W3); rewrite W1, W2, W3 in W; discriminate).
          exists []. split; [split; [intros []|intros (nd' & X & Y); injection X as <-; contradiction]|]. split; [auto|]. intros _ nd' X. injection X as <-. exact Wd. }
    destruct Lk as (look & L1 & L2 & L3).
    destruct (o_dir w) as [err|] eqn:D; cbn [or_fail].
    { exists look, (Some (MakeDir base, err)), [MakeDir base]. split; [exact L1|]. split; [exact L2|]. split; [apply io_fail; exact D|]. repeat split. }
    destruct (o_config w) as [err|nd] eqn:Cf.
    { exists look, (Some (ReadConfig (a_config_file a), err)), [MakeDir base; ReadConfig (a_config_file a)]. split; [exact L1|]. split; [exact L2|].
      split; [apply io_step; [exact D|]; apply io_fail; cbn [fails]; rewrite Cf; reflexivity|]. split; [repeat split|]. cbn. rewrite <- app_assoc. reflexivity. }
    assert (Fc : fails w (ReadConfig (a_config_file a)) = None) by (cbn [fails]; rewrite Cf; reflexivity).
    unfold find_daemon. rewrite A0. cbn [or_fail].
    assert (Cs : considered nd a = negb (match nd with Some b => b | None => false end) || a_daemonize a) by (unfold considered; destruct nd as [[]|], (a_daemonize a); reflexivity).
    set (es2 := (es ++ [MakeDir base]) ++ [ReadConfig (a_config_file a)]).
    assert (Plain : look = [] -> exists how done, in_order w ([MakeDir base; ReadConfig (a_config_file a)] ++ look ++ [Command dir socket]) done how /\ seen how (command w es2 dir socket) /\ effects (command w es2 dir socket) = es ++ done).
    { intros ->. destruct (Cm es2) as (how & O & S & E). exists how, [MakeDir base; ReadConfig (a_config_file a); Command dir socket].
      split; [apply io_step; [exact D|]; apply io_step; [exact Fc|]; exact O|]. split; [exact S|]. rewrite E. unfold es2. rewrite <- !app_assoc. reflexivity. }
    assert (Wn : look = [FindDaemon socket] -> wanted nd a) by (intros ->; destruct (proj1 L1 (or_introl eq_refl)) as (nd' & X & Y); injection X as <-; exact Y).
    destruct L2 as [L2|L2].
    - specialize (L3 L2 nd eq_refl). destruct (Plain L2) as (how & done & O & S & E). exists look, how, done. split; [exact L1|]. split; [auto|]. split; [exact O|].
      rewrite <- Cs. destruct (considered nd a) eqn:Co; [|auto]. destruct (negb (a_no_daemonize a) && negb (a_is_daemon a)) eqn:X; [|auto]. exfalso. apply L3. apply andb_prop in X as [X1 X2].
      repeat split; [exact Co|destruct (a_no_daemonize a); [discriminate|reflexivity]|destruct (a_is_daemon a); [discriminate|reflexivity]].
    - specialize (Wn L2). destruct Wn as (W1 & W2 & W3). rewrite <- Cs, W1, W2, W3. cbn [negb andb]. subst look. destruct (o_launch w) as [err|] eqn:Ol; cbn [or_fail].
      + eexists _, (Some (FindDaemon socket, err)), [MakeDir base; ReadConfig (a_config_file a); FindDaemon socket]. split; [exact L1|]. split; [auto|].
        split; [apply io_step; [exact D|]; apply io_step; [exact Fc|]; apply io_fail; exact Ol|]. split; [repeat split|]. cbn [effects failing]. unfold es2. rewrite <- !app_assoc. reflexivity.
      + destruct (Cm (es2 ++ [FindDaemon socket])) as (how & O & S & E). eexists _, how, [MakeDir base; ReadConfig (a_config_file a); FindDaemon socket; Command dir socket]. split; [exact L1|]. split; [auto|].
        split; [apply io_step; [exact D|]; apply io_step; [exact Fc|]; apply io_step; [exact Ol|]; exact O|]. split; [exact S|]. rewrite E. unfold es2. rewrite <- !app_assoc. reflexivity. }
  destruct (a_log_file a) as [path|].
  - destruct (o_log w) as [err|] eqn:Ol; cbn [or_fail].
    + destruct (Pr []) as (look & how & done & L1 & L2 & _). exists look, (Some (EmptyLog path, err)). split; [exact L1|]. split; [exact L2|]. split; [apply io_fail; exact Ol|]. repeat split.
    + destruct (Pr [EmptyLog path]) as (look & how & done & L1 & L2 & O & S & E). exists look, how. split; [exact L1|]. split; [exact L2|]. split; [|exact S]. rewrite E. apply io_step; [exact Ol|exact O].
  - destruct (Pr []) as (look & how & done & L1 & L2 & O & S & E). exists look, how. split; [exact L1|]. split; [exact L2|]. split; [|exact S]. rewrite E. exact O.
Qed.

(** Without XDG_RUNTIME_DIR and HOME nothing is done but for the log file, and the reason is
    said. *)
Theorem C82_no_home : forall hash version w a, let e := main hash version w false a in
  ~ asks_for_word w a -> o_vars w (lit "XDG_RUNTIME_DIR") = None -> o_vars w (lit "HOME") = None -> (a_log_file a <> None -> o_log w = None) ->
  effects e = match a_log_file a with Some path => [EmptyLog path] | None => [] end /\
  status e = 1%Z /\ out e = [] /\ told e = Some (lit "Error: no XDG_RUNTIME_DIR or HOME" ++ [10; 10] ++ lit "Caused by:" ++ [10] ++ lit "    environment variable not found" ++ [10]) /\ logged e = None.
Proof.
  intros hash version w a e N X H L. unfold e. cbn [main]. unfold run. rewrite (no_word _ _ N).
  assert (P : forall es, prepare hash w a es = failing es no_home) by (intros es; unfold prepare; rewrite X, H; reflexivity).
  destruct (a_log_file a); [rewrite L by discriminate; cbn [or_fail]|]; rewrite P; repeat split.
Qed.

(** What follows: the command is done once at most, after all else, with the socket a daemon
    was looked for at; a daemon never looks for another. *)
Lemma order_command w : forall es done how, in_order w es done how -> exists rest, es = done ++ rest /\ (how = None -> rest = []).
Proof. induction 1 as [|e err rest F|e rest done how F O (r & -> & R)]; [exists []; auto|exists rest; split; [reflexivity|discriminate]|exists r; auto]. Qed.
Lemma order_whole w c : forall l how, in_order w (l ++ [c]) (l ++ [c]) how -> how = match fails w c with Some err => Some (c, err) | None => None end.
Proof.
  induction l as [|e l IH]; cbn [app]; intros how O.
  - inversion O as [|? err ? F|? ? ? ? F O']; subst; rewrite F; [reflexivity|]. inversion O'. reflexivity.
  - inversion O as [|? err ? F Q|? ? ? ? F O']; subst; [destruct l; discriminate|]. auto.
Qed.
Theorem C82_command_last : forall hash version w a dir socket before after, let e := main hash version w false a in
  ~ asks_for_word w a -> o_arg0 w = None -> effects e = before ++ Command dir socket :: after ->
  after = [] /\ (forall d s, ~ In (Command d s) before) /\ told e = None /\ (status e = 0%Z <-> o_command w = None) /\
  (forall s, In (FindDaemon s) before -> s = socket) /\ (a_is_daemon a = true -> forall s, ~ In (FindDaemon s) before).
Proof.
  intros hash version w a dir socket before after e N A0 E.
  set (vars := mkSurroundings (o_vars w (lit "XDG_RUNTIME_DIR")) (o_vars w (lit "HOME"))).
  destruct (runtime_base vars) as [base|] eqn:B.
  - destruct (locations hash vars (a_socket a)) as [[d s]|] eqn:L; [|unfold locations in L; rewrite B in L; destruct (a_socket a); discriminate].
    destruct (C82_in_order hash version w a base d s N B L A0) as (look & how & Lk & Lk2 & O & S). fold e in O, S.
    destruct (order_command _ _ _ _ O) as (rest & R & _).
    rewrite E in R, O. set (front := match a_log_file a with Some path => [EmptyLog path] | None => [] end ++ [MakeDir base; ReadConfig (a_config_file a)] ++ look) in *.
    assert (R' : front ++ [Command d s] = before ++ Command dir socket :: (after ++ rest)) by (unfold front; rewrite <- !app_assoc; cbn [app] in *; rewrite R; rewrite <- app_assoc; reflexivity).
    assert (Fr : forall x y, ~ In (Command x y) front).
    { intros x y I. unfold front in I. apply in_app_or in I as [I|I]; [destruct (a_log_file a); [destruct I as [I|[]]; discriminate|destruct I]|]. cbn in I. destruct I as [I|[I|I]]; try discriminate.
      destruct Lk2 as [-> | ->]; [destruct I|destruct I as [I|[]]; discriminate]. }
    assert (Sp : forall (f b : list effect) x y z, f ++ [x] = b ++ y :: z -> ~ In y f -> z = [] /\ f = b /\ x = y).
    { clear. induction f as [|k f IH]; intros b x y z H Nf.
      - destruct b as [|k b]; [injection H as -> <-; auto|]. injection H as _ H. destruct b; discriminate.
      - destruct b as [|k' b]; [injection H as -> _; destruct Nf; left; reflexivity|]. injection H as -> H. destruct (IH b x y z H) as (-> & -> & ->); [intros X; apply Nf; right; exact X|auto]. }
    destruct (Sp _ _ _ _ _ R' (Fr _ _)) as (Z & Fb & Cq). apply app_eq_nil in Z as [-> ->]. injection Cq as <- <-. subst before.
    split; [reflexivity|]. split; [exact Fr|].
    assert (How : how = match o_command w with Some err => Some (Command d s, err) | None => None end).
    { apply (order_whole w (Command d s) front). unfold front in *. rewrite <- !app_assoc in *. exact O. }
    subst how. destruct S as [_ S]. split; [destruct (o_command w); cbn [is_command] in S; tauto|].
    split; [destruct (o_command w); destruct S as [St _]; rewrite St; split; (reflexivity || discriminate)|].
    assert (Fd : forall x, In (FindDaemon x) front -> look = [FindDaemon s] /\ x = s).
    { intros x I. unfold front in I. apply in_app_or in I as [I|I]; [destruct (a_log_file a); [destruct I as [I|[]]; discriminate|destruct I]|]. cbn in I. destruct I as [I|[I|I]]; try discriminate.
      destruct Lk2 as [-> | ->]; [destruct I|destruct I as [I|[]]; injection I as <-; auto]. }
    split; [intros x I; apply (Fd _ I)|]. intros D x I. destruct (Fd _ I) as [-> _]. destruct (proj1 Lk (or_introl eq_refl)) as (nd & _ & _ & _ & D'). congruence.
  - exfalso. unfold e in E. cbn [main] in E. unfold run in E. rewrite (no_word _ _ N) in E.
    assert (P : forall es, prepare hash w a es = failing es no_home) by (intros es; unfold prepare; fold vars; rewrite B; reflexivity).
    destruct (a_log_file a) as [path|]; [destruct (o_log w); cbn [or_fail] in E|]; try rewrite P in E; cbn [effects failing] in E;
      (destruct before as [|x before]; [discriminate|]); try discriminate; injection E as _ E; destruct before; discriminate.
Qed.

(** The daemon a command launches, whatever its surroundings: it empties the log file beside
    its socket and no other, looks for no daemon in turn, reads the configuration the command
    was given, and serves the socket it was looked for at. *)
Theorem C82_launched : forall hash version w' a socket, let e := main hash version w' false (launched_arguments a socket) in
  (forall path, In (EmptyLog path) (effects e) -> path = daemon_log socket) /\ (forall s, ~ In (FindDaemon s) (effects e)) /\
  (forall f, In (ReadConfig f) (effects e) -> f = a_config_file a) /\ (forall d s, In (Command d s) (effects e) -> s = socket).
Proof.
  intros hash version w' a socket e.
  assert (F : effects e = [] \/ exists d b, incl (effects e) [EmptyLog (daemon_log socket); MakeDir b; ReadConfig (a_config_file a); Command d socket]).
  { unfold e. cbn [main]. unfold run. destruct (print_sentinel _ _); [left; reflexivity|right]. cbn [launched_arguments a_log_file].
    assert (L : forall d b x, x = [EmptyLog (daemon_log socket)] \/ x = [EmptyLog (daemon_log socket); MakeDir b] \/ x = [EmptyLog (daemon_log socket); MakeDir b; ReadConfig (a_config_file a)] \/ x = [EmptyLog (daemon_log socket); MakeDir b; ReadConfig (a_config_file a); Command d socket] ->
      incl x [EmptyLog (daemon_log socket); MakeDir b; ReadConfig (a_config_file a); Command d socket]).
    { intros d b x [-> | [-> | [-> | ->]]] y I; cbn [In] in I |- *; tauto. }
    destruct (o_log w'); cbn [or_fail]; [exists [], []; apply L; auto|]. unfold prepare. set (v := mkSurroundings _ _).
    destruct (runtime_base v) as [b|] eqn:B; [|exists [], []; apply L; auto].
    destruct (locations hash v (a_socket (launched_arguments a socket))) as [[d s]|] eqn:Lc; [|exists [], []; apply L; auto].
    assert (s = socket) as -> by (unfold locations in Lc; rewrite B in Lc; cbn [a_socket launched_arguments] in Lc; injection Lc as _ Lc; symmetry; exact Lc).
    exists d, b. destruct (o_dir w'); cbn [or_fail]; [apply L; auto|]. destruct (o_config w') as [err|nd]; [apply L; auto|].
    unfold find_daemon. cbn [launched_arguments a_daemonize a_no_daemonize a_is_daemon negb andb].
    assert (Cm : effects (command w' (([EmptyLog (daemon_log socket)] ++ [MakeDir b]) ++ [ReadConfig (a_config_file a)]) d socket) = [EmptyLog (daemon_log socket); MakeDir b; ReadConfig (a_config_file a); Command d socket]) by (unfold command; destruct (o_command w'); reflexivity).
    destruct (_ || _); [destruct (o_arg0 w'); cbn [or_fail]|]; apply L; auto. }
  destruct F as [F|(d & b & F)].
  - rewrite F. repeat split; [intros x []|intros x []|intros x []|intros x y []].
  - assert (G : forall x, In x (effects e) -> EmptyLog (daemon_log socket) = x \/ MakeDir b = x \/ ReadConfig (a_config_file a) = x \/ Command d socket = x \/ False) by (intros x I; exact (F x I)).
    repeat split.
    + intros x I. destruct (G _ I) as [X|[X|[X|[X|[]]]]]; try discriminate X. injection X as X. symmetry. exact X.
    + intros x I. destruct (G _ I) as [X|[X|[X|[X|[]]]]]; discriminate X.
    + intros x I. destruct (G _ I) as [X|[X|[X|[X|[]]]]]; try discriminate X. injection X as X. symmetry. exact X.
    + intros x y I. destruct (G _ I) as [X|[X|[X|[X|[]]]]]; try discriminate X. injection X as _ X. symmetry. exact X.
Qed.

(** A program that does not know its own name (argv is empty) fails wherever launching a
    daemon is considered, also if none is wanted: with -D, or for the daemon itself. *)
Theorem C82_no_name : forall hash version w a err nd, let e := main hash version w false a in
  ~ asks_for_word w a -> o_vars w (lit "HOME") <> None -> (a_log_file a <> None -> o_log w = None) -> o_dir w = None -> o_config w = inr nd -> o_arg0 w = Some err ->
  if considered nd a then status e = 1%Z /\ told e = Some (lit "Error: " ++ err ++ [10]) /\ (forall d s, ~ In (Command d s) (effects e)) /\ (forall s, ~ In (FindDaemon s) (effects e))
  else (exists d s, In (Command d s) (effects e)) /\ (forall s, ~ In (FindDaemon s) (effects e)).
Proof.
  intros hash version w a err nd e N H Lg D Cf A0. unfold e. cbn [main]. unfold run. rewrite (no_word _ _ N).
  set (vars := mkSurroundings (o_vars w (lit "XDG_RUNTIME_DIR")) (o_vars w (lit "HOME"))).
  assert (exists base, runtime_base vars = Some base) as [base B] by (unfold runtime_base, vars; cbn [xdg_runtime_dir home]; destruct (o_vars w (lit "XDG_RUNTIME_DIR")); [eauto|]; destruct (o_vars w (lit "HOME")); [eauto|congruence]).
  assert (exists d s, locations hash vars (a_socket a) = Some (d, s)) as (d & s & L) by (unfold locations; rewrite B; destruct (a_socket a); eauto).
  assert (P : forall es, prepare hash w a es = if considered nd a then failing ((es ++ [MakeDir base]) ++ [ReadConfig (a_config_file a)]) err else command w ((es ++ [MakeDir base]) ++ [ReadConfig (a_config_file a)]) d s).
  { intros es. unfold prepare. fold vars. rewrite B, L, D. cbn [or_fail]. rewrite Cf. unfold find_daemon. rewrite A0. cbn [or_fail].
    replace (considered nd a) with (negb (match nd with Some b => b | None => false end) || a_daemonize a) by (unfold considered; destruct nd as [[]|], (a_daemonize a); reflexivity). reflexivity. }
  assert (Q : forall es, (forall x y, ~ In (Command x y) es) -> (forall x, ~ In (FindDaemon x) es) ->
    if considered nd a then status (prepare hash w a es) = 1%Z /\ told (prepare hash w a es) = Some (lit "Error: " ++ err ++ [10]) /\ (forall x y, ~ In (Command x y) (effects (prepare hash w a es))) /\ (forall x, ~ In (FindDaemon x) (effects (prepare hash w a es)))
    else (exists x y, In (Command x y) (effects (prepare hash w a es))) /\ (forall x, ~ In (FindDaemon x) (effects (prepare hash w a es)))).
  { intros es Nc Nf. rewrite P. destruct (considered nd a).
    - split; [reflexivity|]. split; [reflexivity|]. cbn [effects failing]. split; [intros x y I|intros x I]; rewrite !in_app_iff in I; cbn in I; destruct I as [[I|[I|[]]]|[I|[]]]; try discriminate; [apply (Nc _ _ I)|apply (Nf _ I)].
    - split; [exists d, s|intros x I]; (unfold command in *; destruct (o_command w); cbn [effects] in *; [rewrite !in_app_iff in *; cbn in *|rewrite !in_app_iff in *; cbn in *]); try tauto;
        destruct I as [[[I|[I|[]]]|[I|[]]]|[I|[]]]; try discriminate; apply (Nf _ I). }
  destruct (a_log_file a) as [path|]; [rewrite Lg by discriminate; cbn [or_fail]|]; apply Q; cbn; intuition discriminate.
Qed.

(** A program with a configuration it cannot read has emptied its log file and made its
    directory before it says so. *)
Definition vars0 (k : rstr) : option rstr := if str_eqb k (lit "HOME") then Some (lit "/home/u") else None.
Definition args0 : arguments := mkArguments None None (Some (lit "/tmp/l")) 0 false false false.
Definition bad : outside := mkOutside vars0 None None (inl (lit "parsing config")) None None None.
Theorem C82_failing_changes_nothing_refuted :
  ~ (forall hash version w a, status (main hash version w false a) <> 0%Z -> o_command w = None -> forall path, ~ In (EmptyLog path) (effects (main hash version w false a))).
Proof. intros H. refine (H (fun _ => 0) (lit "0.9.3") bad args0 _ _ (lit "/tmp/l") _); vm_compute; [discriminate|reflexivity|left; reflexivity]. Qed.

(** A command of a user without a runtime directory: all five steps are done; and the
    daemon it launches, whose sessions have a directory of their own. *)
Definition good : outside := mkOutside vars0 None None (inr None) None None None.
Example C82_holds :
  ~ asks_for_word good args0 /\
  effects (main (fun _ => 0) (lit "0.9.3") good false args0) =
    [EmptyLog (lit "/tmp/l"); MakeDir (lit "/home/u/.local/run/shpool"); ReadConfig None; FindDaemon (lit "/home/u/.local/run/shpool/shpool.socket"); Command (lit "/home/u/.local/run/shpool") (lit "/home/u/.local/run/shpool/shpool.socket")] /\
  status (main (fun _ => 0) (lit "0.9.3") good false args0) = 0%Z /\
  effects (main (fun _ => 0) (lit "0.9.3") good false (launched_arguments args0 (lit "/home/u/.local/run/shpool/shpool.socket"))) =
    [EmptyLog (lit "/home/u/.local/run/shpool/daemonized-shpool.log"); MakeDir (lit "/home/u/.local/run/shpool"); ReadConfig None; Command (lit "/home/u/.local/run/shpool/0") (lit "/home/u/.local/run/shpool/shpool.socket")].
Proof. split; [intros [D _]; discriminate|]. repeat split; vm_compute; reflexivity. Qed.

Print Assumptions C82_version.
Print Assumptions C82_word.
Print Assumptions C82_in_order.
Print Assumptions C82_no_home.
Print Assumptions C82_command_last.
Print Assumptions C82_launched.
Print Assumptions C82_no_name.
Print Assumptions C82_failing_changes_nothing_refuted.
