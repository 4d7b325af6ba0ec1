(** C71: the directory a session starts in, and the user it starts for. *)
From Coq Require Import List NArith ZArith Bool Lia ZifyBool ZifyN ZifyNat.
From Verif Require Import Model.Base Model.Protocol Model.Config Model.Template Model.EtcEnvironment Model.Names Model.ShellEnv Model.AttachClient Model.Spawn Model.UserInfo
  Spec.PathSpec Spec.UserInfoSpec Proofs.BaseLemmas Proofs.UserInfoProofs.
Import ListNotations.
Open Scope N_scope.

(** The entry of the user [uid]: the first with that number. *)
Definition entry_of (db : list passwd) (uid : N) (p : passwd) : Prop :=
  exists before after, db = before ++ p :: after /\ pw_uid p = uid /\ Forall (fun q => pw_uid q <> uid) before.

(** All five texts of an entry, each with a NUL after it, take no more than 4 KiB. *)
Definition fits (p : passwd) : Prop :=
  N.of_nat (length (pw_name p ++ [0] ++ pw_passwd p ++ [0] ++ pw_gecos p ++ [0] ++ pw_dir p ++ [0] ++ pw_shell p ++ [0])) <= 4096.

Lemma find_entry db uid p : find (fun q => pw_uid q =? uid) db = Some p <-> entry_of db uid p.
Proof.
  unfold entry_of. induction db as [|x db IH].
  - split; [discriminate|]. intros (b & a & E & _). destruct b; discriminate.
  - cbn [find]. destruct (pw_uid x =? uid) eqn:E.
    + split.
      * intros [= <-]. exists [], db. split; [reflexivity|split; [lia|constructor]].
      * intros (b & a & Eq & U & F). destruct b as [|y b].
        -- injection Eq as -> _. reflexivity.
        -- injection Eq as <- _. inversion F. lia.
    + rewrite IH. split.
      * intros (b & a & -> & U & F). exists (x :: b), a. split; [reflexivity|split; [exact U|constructor; [lia|exact F]]].
      * intros (b & a & Eq & U & F). destruct b as [|y b].
        -- injection Eq as -> _. lia.
        -- injection Eq as <- ->. exists b, a. inversion F. auto.
Qed.

Lemma room_fits p : (room p <=? PASSWD_BUF) = true <-> fits p.
Proof. unfold room, PASSWD_BUF, fits. repeat rewrite app_length. cbn [length]. lia. Qed.

(** Who the session is for: the user's own entry, as far as it is text, and nothing
    else; and exactly when that is not to be had. *)
Theorem C71_user : forall db uid,
  (forall u, info db uid = Ok u <->
     exists p, entry_of db uid p /\ fits p /\
       read_as (pw_dir p) (home_dir u) /\ read_as (pw_shell p) (default_shell u) /\ read_as (pw_name p) (user_name u)) /\
  (info db uid = Err CouldNotFind <-> forall p, ~ entry_of db uid p) /\
  (forall e, info db uid = Err (ErrorResolving e) <-> e = 34 (* numerical result out of range *) /\ exists p, entry_of db uid p /\ ~ fits p).
Proof.
  intros db uid. unfold info, getpwuid_r. destruct (find (fun p => pw_uid p =? uid) db) as [p|] eqn:F.
  - pose proof (proj1 (find_entry _ _ _) F) as En. destruct (room p <=? PASSWD_BUF) eqn:R.
    + pose proof (proj1 (room_fits p) R) as Fi. split.
      * intros u. split.
        -- intros [= <-]. exists p. cbn. repeat split; auto using lossy_reads; apply En.
        -- intros (q & Eq & _ & H1 & H2 & H3). apply find_entry in Eq. rewrite F in Eq. injection Eq as <-.
           apply reads_lossy in H1, H2, H3. destruct u. cbn in *. subst. reflexivity.
      * split; [split; [discriminate|intros H; destruct (H p En)]|]. intros e. split; [discriminate|].
        intros (_ & q & Eq & Fq). apply find_entry in Eq. rewrite F in Eq. injection Eq as <-. destruct (Fq Fi).
    + assert (Fi : ~ fits p) by (rewrite <- room_fits, R; discriminate). split.
      * intros u. split; [discriminate|]. intros (q & Eq & Fq & _). apply find_entry in Eq. rewrite F in Eq. injection Eq as <-. contradiction.
      * split; [split; [discriminate|intros H; destruct (H p En)]|]. intros e. split; [intros [= <-]; split; [reflexivity|eauto]|].
        intros (-> & _). reflexivity.
  - assert (N : forall p, ~ entry_of db uid p) by (intros p E; apply find_entry in E; rewrite F in E; discriminate). split.
    + intros u. split; [discriminate|]. intros (q & Eq & _). destruct (N q Eq).
    + split; [split; [intros _; exact N|reflexivity]|]. intros e. split; [discriminate|]. intros (_ & q & Eq & _). destruct (N q Eq).
Qed.
Print Assumptions C71_user.

(** How bytes are read as text: character by character, each piece that is not one
    becoming U+FFFD; there is one such reading. *)
Theorem C71_reading : forall s cs, cs = lossy s <-> read_as s cs.
Proof. intros s cs. split; [intros ->; apply lossy_reads|apply reads_lossy]. Qed.
Print Assumptions C71_reading.

(** Text goes through unchanged and comes out as the same bytes; nothing else does. *)
Theorem C71_text : forall s, str_bytes (lossy s) = s <-> is_text s.
Proof. exact lossy_exact. Qed.
Print Assumptions C71_text.

(** In a path only the names that are not text are changed. *)
Theorem C71_names : forall ns s, path_of ns s ->
  path_of (map lossy ns) (lossy s) /\ (forall n cs, In n ns -> utf8_of cs n -> lossy n = cs).
Proof. intros ns s H. split; [apply lossy_path, H|]. intros n cs _. apply lossy_text. Qed.
Print Assumptions C71_names.

Lemma resolve_absolute here d : resolve here (47 :: d) = 47 :: d.
Proof. reflexivity. Qed.

Definition client_in (w : client_world) (here : list N) (cs : rstr) : Prop := read_as here cs /\ c_cwd w = Some cs.

Lemma client_world_in w here : client_in (world_in w here) here (lossy here).
Proof. split; [apply lossy_reads|reflexivity]. Qed.

Lemma spawned_dir split cfg u h sp : spawn_command split cfg u h = Ok sp ->
  cwd sp = match h_dir h with None => home_dir u | Some p => p end.
Proof.
  unfold spawn_command. cbv zeta. destruct (h_cmd h) as [c|].
  - destruct (split c) as [[|p rest]|]; try discriminate. intros [= <-]. reflexivity.
  - destruct (file_name (shell_path cfg u)); [|discriminate]. intros [= <-]. reflexivity.
Qed.

Lemma started split cfg db uid dd h d : started_in split cfg db uid dd h = Some d ->
  exists u, info db uid = Ok u /\ d = resolve dd (str_bytes (match h_dir h with None => home_dir u | Some p => p end)).
Proof.
  unfold started_in. destruct (info db uid) as [u|e]; [|discriminate].
  destruct (spawn_command split cfg u h) as [sp|] eqn:E; [|discriminate]. intros [= <-]. exists u. split; [reflexivity|].
  rewrite (spawned_dir _ _ _ _ _ E). reflexivity.
Qed.

(** Where nothing is said, or $HOME is: the user's home, wherever daemon and client run. *)
Theorem C71_home : forall split cfg db uid daemon_dir k w here r h p d,
  r_dir r = None -> default_dir (c_config w) = None \/ default_dir (c_config w) = Some (lit "$HOME") ->
  attach_request k (world_in w here) r = Some h ->
  entry_of db uid p -> is_text (pw_dir p) -> (exists rest, pw_dir p = 47 :: rest) ->
  started_in split cfg db uid daemon_dir h = Some d -> d = pw_dir p.
Proof.
  intros split cfg db uid dd k w here r h p d Hr Hd Hq En T (rest & Ab) S.
  apply started in S. destruct S as (u & Iu & ->). destruct (C71_user db uid) as (U & _). apply U in Iu.
  destruct Iu as (q & Eq & _ & H1 & _). apply find_entry in En, Eq. rewrite En in Eq. injection Eq as <-.
  unfold attach_request in Hq. cbn [world_in c_cwd] in Hq. injection Hq as <-. cbn [h_dir]. unfold start_dir. cbn [world_in c_config].
  assert (X : str_bytes (home_dir u) = pw_dir p).
  { apply reads_lossy in H1. rewrite H1. apply lossy_exact, T. }
  destruct Hd as [-> | ->]; rewrite Hr; cbn [str_eqb]; change (str_eqb (lit "$HOME") (lit ".")) with false;
    change (str_eqb (lit "$HOME") (lit "$HOME")) with true; cbv iota; rewrite X, Ab; reflexivity.
Qed.
Print Assumptions C71_home.

(** Where [.] is said: the directory the client was in - if its path is text, and
    otherwise never there. *)
Theorem C71_here : forall split cfg db uid daemon_dir k w here r h d,
  r_dir r = Some (lit ".") \/ r_dir r = None /\ default_dir (c_config w) = Some (lit ".") ->
  (exists rest, here = 47 :: rest) ->
  attach_request k (world_in w here) r = Some h ->
  started_in split cfg db uid daemon_dir h = Some d ->
  (d = here <-> is_text here) /\ read_as here (lossy here) /\ d = str_bytes (lossy here).
Proof.
  intros split cfg db uid dd k w here r h d Hr (rest & ->) Hq S. apply started in S. destruct S as (u & _ & S).
  unfold attach_request in Hq. cbn [world_in c_cwd] in Hq. injection Hq as <-. cbn [h_dir] in S. unfold start_dir in S. cbn [world_in c_config] in S.
  assert (X : d = resolve dd (str_bytes (lossy (47 :: rest)))).
  { destruct Hr as [Hr|(Hr & Hd)]; rewrite Hr in S; [|rewrite Hd in S]; change (str_eqb (lit ".") (lit ".")) with true in S; exact S. }
  assert (Y : d = str_bytes (lossy (47 :: rest))).
  { rewrite X. change (47 :: rest) with ([] ++ 47 :: rest). rewrite lossy_ascii by lia. reflexivity. }
  split; [rewrite Y; apply lossy_exact|split; [apply lossy_reads|exact Y]].
Qed.
Print Assumptions C71_here.

(** Where an absolute directory is given: there. *)
Theorem C71_given_partial : forall split cfg db uid daemon_dir k w here r h d rest bytes,
  r_dir r = Some (47 :: rest) \/ r_dir r = None /\ default_dir (c_config w) = Some (47 :: rest) ->
  utf8_of (47 :: rest) bytes ->
  attach_request k (world_in w here) r = Some h ->
  started_in split cfg db uid daemon_dir h = Some d -> d = bytes.
(** Missing for the full claim: directories that are relative or not text, for which it is false
    (C71_relative_refuted, C71_not_text_refuted). *)
Proof.
  intros split cfg db uid dd k w here r h d rest bytes Hr U Hq S. apply started in S. destruct S as (u & _ & S).
  unfold attach_request in Hq. cbn [world_in c_cwd] in Hq. injection Hq as <-. cbn [h_dir] in S. unfold start_dir in S. cbn [world_in c_config] in S.
  assert (X : d = resolve dd (str_bytes (47 :: rest))).
  { destruct Hr as [Hr|(Hr & Hd)]; rewrite Hr in S; [|rewrite Hd in S];
      change (str_eqb (47 :: rest) (lit ".")) with false in S; [exact S|].
    change (str_eqb (47 :: rest) (lit "$HOME")) with false in S. exact S. }
  rewrite X. rewrite <- (str_bytes_is _ _ U). reflexivity.
Qed.
Print Assumptions C71_given_partial.

(** A relative directory is taken from where the daemon works, whatever the client's
    directory. *)
Theorem C71_relative : forall split cfg db uid daemon_dir k w here r h d c rest,
  r_dir r = Some (c :: rest) -> c <> 47 -> c < 128 -> c :: rest <> lit "." ->
  attach_request k (world_in w here) r = Some h ->
  started_in split cfg db uid daemon_dir h = Some d -> d = daemon_dir ++ lit "/" ++ str_bytes (c :: rest).
Proof.
  intros split cfg db uid dd k w here r h d c rest Hr N A Nd Hq S. apply started in S. destruct S as (u & _ & S).
  unfold attach_request in Hq. cbn [world_in c_cwd] in Hq. injection Hq as <-. cbn [h_dir] in S. unfold start_dir in S.
  rewrite Hr in S. apply str_eqb_neq in Nd. rewrite Nd in S. rewrite S.
  assert (X : str_bytes (c :: rest) = c :: str_bytes rest).
  { unfold str_bytes. cbn [flat_map]. unfold char_bytes at 1. replace (c <? 128) with true by lia. reflexivity. }
  rewrite X. unfold resolve. change (lit "/") with [47]. cbn [app].
  destruct c as [|p]; [reflexivity|]. repeat (destruct p as [p|p|]; try reflexivity). congruence.
Qed.
Print Assumptions C71_relative.

(** ** An everyday case, and what goes wrong. *)
Definition some_user : passwd := mkPasswd 1000 (lit "ann") (lit "x") (lit "Ann") (lit "/home/ann") (lit "/bin/bash").
Definition the_db : list passwd := [mkPasswd 0 (lit "root") (lit "x") (lit "root") (lit "/root") (lit "/bin/sh"); some_user].
Definition one_word (s : rstr) : option (list rstr) := Some [s].
Definition ask (dir : option rstr) : resolved := mkResolved (lit "s") None dir None.
Definition somebody : attach_client :=
  mkClient (mkTemplates (Template.mkTemplate (lit "s") []) None None None) false false None.
Definition at_home : client_world := {| c_tty := None; c_env := fun _ => None; c_cwd := None; c_config := default_config |}.
Definition start_for (db : list passwd) (dir : option rstr) (here daemon_dir : list N) : option (list N) :=
  match attach_request somebody (world_in at_home here) (ask dir) with
  | Some h => started_in one_word default_config db 1000 daemon_dir h
  | None => None
  end.

Example C71_nonvacuous :
  entry_of the_db 1000 some_user /\ fits some_user /\ is_text (pw_dir some_user) /\
  start_for the_db None (lit "/tmp") (lit "/") = Some (lit "/home/ann") /\
  start_for the_db (Some (lit ".")) (lit "/srv/" ++ [195; 169]) (lit "/") = Some (lit "/srv/" ++ [195; 169]) /\
  start_for the_db (Some (lit "/opt")) (lit "/tmp") (lit "/") = Some (lit "/opt") /\
  read_as [97; 226; 130; 98; 240; 159; 152; 128; 255] [97; 65533; 98; 128512; 65533].
Proof.
  split; [|split; [|split; [|split; [|split; [|split]]]]].
  - apply find_entry. reflexivity.
  - apply room_fits. reflexivity.
  - apply C71_text. reflexivity.
  - reflexivity.
  - reflexivity.
  - reflexivity.
  - apply C71_reading. reflexivity.
Qed.

(** [--dir .] in a directory whose name is not text: the session starts in another
    directory - the same one for different names. *)
Theorem C71_not_text_refuted :
  ~ (forall here d, start_for the_db (Some (lit ".")) (47 :: here) (lit "/") = Some d -> d = 47 :: here) /\
  exists a b, a <> b /\ start_for the_db (Some (lit ".")) a (lit "/") = start_for the_db (Some (lit ".")) b (lit "/").
Proof.
  split.
  - intros H. specialize (H [255] _ eq_refl). vm_compute in H. discriminate.
  - exists [47; 254], [47; 255]. split; [discriminate|reflexivity].
Qed.
Print Assumptions C71_not_text_refuted.

(** [--dir src] in /home/ann does not start in /home/ann/src. *)
Theorem C71_relative_refuted :
  ~ (forall here dir d, is_text here -> start_for the_db (Some dir) (47 :: here) (lit "/") = Some d ->
       hd 0 dir <> 47 -> dir <> lit "." -> d = 47 :: here ++ 47 :: str_bytes dir).
Proof.
  intros H. specialize (H (lit "home/ann") (lit "src") _ (proj1 (C71_text _) eq_refl) eq_refl).
  assert (X : hd 0 (lit "src") <> 47) by (vm_compute; discriminate). specialize (H X).
  assert (Y : lit "src" <> lit ".") by (vm_compute; discriminate). specialize (H Y). vm_compute in H. discriminate.
Qed.
Print Assumptions C71_relative_refuted.

(** A user whose entry is long - a long comment field, say - gets no session. *)
Theorem C71_long_entry_refuted :
  ~ (forall db uid p, entry_of db uid p -> exists u, info db uid = Ok u).
Proof.
  intros H. set (p := mkPasswd 1000 (lit "ann") (lit "x") (repeat 97 4096) (lit "/home/ann") (lit "/bin/bash")).
  destruct (H [p] 1000 p) as (u & E).
  - exists [], []. repeat split. constructor.
  - vm_compute in E. discriminate.
Qed.
Print Assumptions C71_long_entry_refuted.
