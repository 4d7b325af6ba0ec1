(** C54: separate sockets are separate instances. *)
From Coq Require Import List NArith Bool Lia.
From Verif Require Import Model.Base Model.Names Model.Launch Spec.PathSpec Spec.LaunchSpec Proofs.BaseLemmas Proofs.NamesProofs Proofs.LaunchProofs.
Import ListNotations.
Open Scope N_scope.

Ltac plain := vm_compute; intros F; repeat destruct F as [F|F]; try discriminate; contradiction.

(** Without --socket everything is in the directory "shpool" of XDG_RUNTIME_DIR, or of
    ~/.local/run if that is not set. *)
Theorem C54_default_place : forall hash e,
  match locations hash e None with
  | None => xdg_runtime_dir e = None /\ home e = None
  | Some (dir, socket) =>
      (exists top, match xdg_runtime_dir e with
                   | Some x => top = components x
                   | None => exists h, home e = Some h /\ top = components h ++ [Entry (lit ".local"); Entry (lit "run")]
                   end /\ components dir = top ++ [Entry (lit "shpool")]) /\
      components socket = components dir ++ [Entry (lit "shpool.socket")]
  end.
Proof.
  intros hash e. unfold locations, runtime_base. destruct (xdg_runtime_dir e) as [x|].
  - split; [exists (components x); split; [reflexivity|]|]; (apply components_join; [plain|discriminate..]).
  - destruct (home e) as [h|]; [|auto]. split; [|apply components_join; [plain|discriminate..]].
    exists (components h ++ [Entry (lit ".local"); Entry (lit "run")]). split; [exists h; auto|].
    rewrite !components_join by (discriminate || plain). rewrite <- !app_assoc. reflexivity.
Qed.
Print Assumptions C54_default_place.

(** With --socket the control socket is what was asked for, and sessions of instances
    whose sockets have different hashes have different directories. *)
Theorem C54_sessions_apart : forall hash e s1 s2 d1 k1 d2 k2 n m,
  (forall s, hash s < 2 ^ 64) -> hash s1 <> hash s2 ->
  locations hash e (Some s1) = Some (d1, k1) -> locations hash e (Some s2) = Some (d2, k2) ->
  good_name n -> good_name m ->
  k1 = s1 /\ k2 = s2 /\ ~ same_file (session_dir d1 n) (session_dir d2 m).
Proof.
  intros hash e s1 s2 d1 k1 d2 k2 n m Hh Hs. unfold locations. destruct (runtime_base e) as [b|]; [|discriminate].
  intros [= <- <-] [= <- <-] Hn Hm. repeat split. unfold same_file, session_dir. intros E.
  destruct (good_name_entry n Hn) as (N1 & N2 & N3 & N4). destruct (good_name_entry m Hm) as (M1 & M2 & M3 & M4).
  destruct (hex_entry (hash s1)) as (A1 & A2 & A3 & A4 & _). destruct (hex_entry (hash s2)) as (B1 & B2 & B3 & B4 & _).
  rewrite !components_join in E by (assumption || discriminate || plain).
  rewrite <- !app_assoc in E. apply app_inv_head in E. injection E as E _.
  apply Hs, hex_inj; [apply Hh|apply Hh|exact E].
Qed.
Print Assumptions C54_sessions_apart.

(** The sessions of the default instance are apart from those of every other, and
    neither is inside the other. *)
Theorem C54_default_apart : forall hash e s d1 k1 d2 k2 n m r1 r2,
  locations hash e None = Some (d1, k1) -> locations hash e (Some s) = Some (d2, k2) ->
  good_name n -> good_name m ->
  components (session_dir d1 n) ++ r1 <> components (session_dir d2 m) ++ r2.
Proof.
  intros hash e s d1 k1 d2 k2 n m r1 r2. unfold locations. destruct (runtime_base e) as [b|]; [|discriminate].
  intros [= <- <-] [= <- <-] Hn Hm. unfold session_dir. intros E.
  destruct (good_name_entry n Hn) as (N1 & N2 & N3 & N4). destruct (good_name_entry m Hm) as (M1 & M2 & M3 & M4).
  destruct (hex_entry (hash s)) as (A1 & A2 & A3 & A4 & A5).
  rewrite !components_join in E by (assumption || discriminate || plain).
  rewrite <- !app_assoc in E. apply app_inv_head in E. injection E as E _. apply A5. symmetry. exact E.
Qed.
Print Assumptions C54_default_apart.

(** The other files lie beside the control socket: two instances share them exactly if
    their sockets are in one directory.  Missing from the property: this makes sockets
    in the same directory share them. *)
Theorem C54_files_apart_partial : forall s1 dir1 name1 s2 dir2 name2,
  is_file_in s1 dir1 name1 -> is_file_in s2 dir2 name2 ->
  (same_file (events_socket s1) (events_socket s2) <-> same_file dir1 dir2) /\
  (same_file (pid_file s1) (pid_file s2) <-> same_file dir1 dir2) /\
  (same_file (daemon_log s1) (daemon_log s2) <-> same_file dir1 dir2).
Proof.
  intros s1 dir1 name1 s2 dir2 name2 (A1 & A2 & A3) (B1 & B2 & B3). unfold same_file, events_socket, pid_file, daemon_log. subst s1 s2.
  rewrite !components_with_file_name by (discriminate || plain). rewrite !dir_part_unique by assumption.
  repeat split; intros E; try (rewrite E; reflexivity); eapply app_inv_tail; exact E.
Qed.
Print Assumptions C54_files_apart_partial.

(** Within one instance the control socket, the events socket, the pid file and the log
    are different files exactly if the socket does not have the name of one of them. *)
Theorem C54_own_files : forall s dir name, is_file_in s dir name -> name <> [] -> name <> lit "." -> name <> lit ".." ->
  (same_file s (events_socket s) <-> name = lit "events.socket") /\
  (same_file s (pid_file s) <-> name = lit "daemonized-shpool.pid") /\
  (same_file s (daemon_log s) <-> name = lit "daemonized-shpool.log") /\
  ~ same_file (events_socket s) (pid_file s) /\ ~ same_file (events_socket s) (daemon_log s) /\
  ~ same_file (pid_file s) (daemon_log s).
Proof.
  intros s dir name (A1 & A2 & A3) N1 N2 N3. subst s. unfold same_file, events_socket, pid_file, daemon_log.
  assert (Q : components (with_file_name (dir ++ name) name) = components dir ++ [Entry name]).
  { rewrite components_with_file_name, dir_part_unique by assumption. reflexivity. }
  unfold with_file_name in Q. rewrite dir_part_unique in Q by assumption.
  rewrite !components_with_file_name by (discriminate || plain). rewrite !dir_part_unique by assumption. rewrite Q.
  repeat split; intros E; try (subst name; reflexivity); try (apply app_inv_head in E; injection E; auto; discriminate);
    apply app_inv_head in E; discriminate.
Qed.
Print Assumptions C54_own_files.

(** Two different sockets in one directory: one events socket, one pid file (so the
    second daemon takes the first one's events socket away and cannot be launched). *)
Theorem C54_one_directory_refuted : exists s1 s2, absolute s1 /\ absolute s2 /\ ~ same_file s1 s2 /\
  same_file (events_socket s1) (events_socket s2) /\ same_file (pid_file s1) (pid_file s2).
Proof.
  exists (lit "/tmp/work.sock"), (lit "/tmp/home.sock").
  split; [eexists; reflexivity|]. split; [eexists; reflexivity|]. split; [vm_compute; discriminate|]. split; reflexivity.
Qed.
Print Assumptions C54_one_directory_refuted.

(** The same relative path used in two directories names two sockets and one set of
    session directories. *)
Theorem C54_relative_refuted : exists p1 p2 s, ~ same_file (open_at p1 s) (open_at p2 s) /\
  forall hash e x d k n, xdg_runtime_dir e = Some x -> absolute x -> locations hash e (Some s) = Some (d, k) ->
  open_at p1 (session_dir d n) = open_at p2 (session_dir d n).
Proof.
  exists (mkProcess (lit "/home/a") 18), (mkProcess (lit "/home/b") 18), (lit "s.sock"). split; [vm_compute; discriminate|].
  intros hash e x d k n X A E. unfold locations, runtime_base in E. rewrite X in E. injection E as <- _.
  assert (AD : absolute (session_dir (path_join (path_join x (lit "shpool")) (hex (hash (lit "s.sock")))) n)).
  { unfold session_dir. do 4 apply absolute_join. exact A. }
  rewrite !open_absolute by exact AD. reflexivity.
Qed.
Print Assumptions C54_relative_refuted.

Example C54_nonvacuous :
  let e := mkSurroundings None (Some (lit "/home/me")) in
  let hash := fun s : rstr => N.of_nat (length s) in
  locations hash e None = Some (lit "/home/me/.local/run/shpool", lit "/home/me/.local/run/shpool/shpool.socket") /\
  locations hash e (Some (lit "/tmp/abcdefghijklm/s")) = Some (lit "/home/me/.local/run/shpool/14", lit "/tmp/abcdefghijklm/s") /\
  hex 18446744073709551615 = lit "ffffffffffffffff" /\ hex 0 = lit "0" /\
  is_file_in (lit "/tmp/work.sock") (lit "/tmp/") (lit "work.sock") /\
  events_socket (lit "/tmp/work.sock") = lit "/tmp/events.socket" /\ pid_file (lit "s") = lit "daemonized-shpool.pid".
Proof.
  cbv zeta. repeat split; try reflexivity; [right; exists (lit "/tmp"); reflexivity|plain].
Qed.
