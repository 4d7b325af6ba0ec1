(** C66: the JSON output of list and var list, and the lines of the events command, can be
    read by any JSON reader, and say what the daemon answered. *)
From Coq Require Import List NArith ZArith Bool Arith Lia Permutation.
From Verif Require Import Model.Base Model.Protocol Model.Server Model.Commands Model.EventBus Model.Json Spec.JsonSpec Proofs.BaseLemmas Proofs.JsonProofs
  Proofs.ServerProofs Proofs.ServerMoves Proofs.VarsProofs.
Import ListNotations.
Open Scope N_scope.

(** A text has at most one reading. *)
Theorem C66_one_reading : forall t v v', reads t v -> reads t v' -> v = v'.
Proof. exact reads_unique. Qed.
Print Assumptions C66_one_reading.

(** What an entry of the output should say about a session, by field name. *)
Definition states (v : json) (i : session_info) : Prop :=
  field (lit "name") v = Some (JStr (i_name i)) /\
  field (lit "started_at_unix_ms") v = Some (JInt (i_started i)) /\
  field (lit "last_connected_at_unix_ms") v = Some (match i_connected i with Some z => JInt z | None => JNull end) /\
  field (lit "last_disconnected_at_unix_ms") v = Some (match i_disconnected i with Some z => JInt z | None => JNull end) /\
  field (lit "status") v = Some (JStr (if i_attached i then lit "Attached" else lit "Disconnected")) /\
  exists l, field (lit "attachments") v = Some (JArr l) /\
    Forall2 (fun w a => field (lit "session_name_template") w = Some (JStr (fst a)) /\ field (lit "pid") w = Some (JInt (snd a))) l (i_attachments i).

(** list --json prints one JSON text and a line break: an object with the list of the
    sessions of the reply, in order, each with all its fields, whatever the names are. *)
Theorem C66_list : forall sessions, exists v l,
  let o := list_json_command true (Some sessions) in
  reads (printed o) v /\ (exists t, printed o = t ++ [10]) /\ field (lit "sessions") v = Some (JArr l) /\ Forall2 states l sessions.
Proof.
  intros ss. exists (json_reply ss), (map json_session ss). cbv zeta. split; [apply printed_reads|]. split; [eexists; reflexivity|]. split; [reflexivity|].
  induction ss as [|i ss IH]; [constructor|]. cbn [map]. constructor; [|exact IH]. repeat (split; [reflexivity|]).
  exists (map json_attachment (i_attachments i)). split; [reflexivity|]. induction (i_attachments i) as [|a l IHl]; [constructor|]. cbn [map]. constructor; [|exact IHl].
  split; reflexivity.
Qed.
Print Assumptions C66_list.

(** So different replies are printed differently. *)
Theorem C66_list_faithful : forall a b,
  printed (list_json_command true (Some a)) = printed (list_json_command true (Some b)) -> a = b.
Proof.
  intros a b E. assert (H : json_reply a = json_reply b).
  { apply (reads_unique (printed (list_json_command true (Some a)))); [apply printed_reads|]. rewrite E. apply printed_reads. }
  injection H as H. clear E. revert b H. induction a as [|i a IH]; intros [|j b] H; try discriminate; [reflexivity|].
  cbn [map] in H. injection H as H1 H2 H3 H4 H5 H6 H7. f_equal; [|apply IH; exact H7].
  destruct i as [n s c d t w], j as [n' s' c' d' t' w']. cbn [i_name i_started i_connected i_disconnected i_attached i_attachments] in *.
  f_equal; auto.
  - destruct c, c'; cbn in H3; congruence.
  - destruct d, d'; cbn in H4; congruence.
  - destruct t, t'; try reflexivity; vm_compute in H5; discriminate.
  - clear - H6. revert w' H6. induction w as [|x w IH]; intros [|y w'] H; try discriminate; [reflexivity|].
    cbn [map] in H. injection H as A B C. f_equal; [destruct x, y; cbn in *; congruence|]. apply IH. exact C.
Qed.
Print Assumptions C66_list_faithful.

(** var list --json prints one JSON text and a line break: an object with one member for
    each variable of the daemon, holding its value, whatever names and values are; the
    members are sorted by name. *)
Theorem C66_vars : forall defaults l, let vs := vars (run (server_new defaults) l) in exists m,
  let o := var_list_json_command true (Some vs) in
  reads (printed o) (JObj m) /\ (exists t, printed o = t ++ [10]) /\
  (forall k, lookup k m = match lookup k vs with Some v => Some (JStr v) | None => None end) /\
  Permutation m (map (fun p => (fst p, JStr (snd p))) vs) /\ ascending m.
Proof.
  intros defaults l vs. assert (ND := vars_nodup defaults l). fold vs in ND. clearbody vs.
  set (m := fold_left (fun m p => btree_insert (fst p) (JStr (snd p)) m) vs []). exists m. cbv zeta.
  assert (A : ascending m) by (apply vars_ascending; constructor).
  assert (ND' : NoDup (map fst (rev vs))) by (rewrite map_rev; apply NoDup_rev; exact ND).
  assert (L : forall k, lookup k m = match lookup k vs with Some v => Some (JStr v) | None => None end).
  { intros k. unfold m. rewrite vars_lookup. cbn [lookup]. replace (lookup k (rev vs)) with (lookup k vs); [reflexivity|].
    destruct (lookup k vs) as [v|] eqn:E.
    - symmetry. apply in_lookup; [exact ND'|]. apply in_rev. rewrite rev_involutive. apply lookup_in. exact E.
    - destruct (lookup k (rev vs)) as [v|] eqn:E'; [|reflexivity]. apply lookup_in, in_rev, (in_lookup _ _ _ ND) in E'. congruence. }
  split; [apply (printed_reads (json_vars vs))|]. split; [eexists; reflexivity|]. split; [exact L|]. split; [|exact A].
  assert (D := ascending_nodup m A). apply NoDup_Permutation.
  - eapply NoDup_map_inv. exact D.
  - apply (NoDup_map_inv fst). rewrite map_map. cbn [fst]. exact ND.
  - intros (k, v). split; intros I.
    + apply (in_lookup _ _ _ D) in I. rewrite L in I. destruct (lookup k vs) as [w|] eqn:E; [|discriminate]. injection I as <-.
      apply lookup_in in E. apply in_map_iff. exists (k, w). auto.
    + apply in_map_iff in I. destruct I as ((k', w) & [= -> <-] & I). apply (in_lookup _ _ _ ND) in I. apply lookup_in. rewrite L, I. reflexivity.
Qed.
Print Assumptions C66_vars.

(** A command that got no answer prints nothing and fails; one that did succeeds. *)
Theorem C66_exit : forall connected (answer : option (list session_info)) (answer' : option var_list),
  let o := list_json_command connected answer in let o' := var_list_json_command connected answer' in
  (code o = 0%Z <-> connected = true /\ answer <> None) /\ (code o = 0%Z \/ (code o = 1%Z /\ printed o = [])) /\
  asked o = (if connected then Some AskList else None) /\
  (code o' = 0%Z <-> connected = true /\ answer' <> None) /\ (code o' = 0%Z \/ (code o' = 1%Z /\ printed o' = [])) /\
  asked o' = (if connected then Some AskVars else None).
Proof.
  intros [] [a|] [b|]; cbn; repeat split; intros; try congruence; try discriminate; auto;
    repeat match goal with H : _ /\ _ |- _ => destruct H end; try congruence; try discriminate.
Qed.
Print Assumptions C66_exit.

(** Every line of the events socket is a JSON object whose type says what happened; no
    line has a line break in it. *)
Theorem C66_events : forall e, exists t,
  serialize_line e = t ++ [10] /\ ~ In 10 t /\
  reads (serialize_line e) (JObj [(lit "type", JStr (match e with
    | ECreated => lit "session.created" | EAttached => lit "session.attached"
    | EDetached => lit "session.detached" | ERemoved => lit "session.removed" end))]).
Proof.
  intros e. exists (removelast (serialize_line e)). split; [destruct e; reflexivity|]. split.
  - destruct e; vm_compute; intros F; repeat destruct F as [F|F]; try discriminate; contradiction.
  - exists 5%nat, [10]. destruct e; split; vm_compute; reflexivity.
Qed.
Print Assumptions C66_events.

(** A session whose name has a quote, a backslash, a line break and an escape character in
    it, attached and disconnected before; and the text of a small reply. *)
Definition odd_name : rstr := lit "a" ++ [34; 92; 10; 27; 233; 128512].
Definition odd : session_info := mkInfo odd_name 1700000000123 (Some 1700000000500%Z) None true [(lit "{ws}-x", (-5)%Z)].
Example C66_an_odd_name :
  let text := printed (list_json_command true (Some [odd])) in
  (exists a b, text = a ++ lit ": ""a\""\\\n\u001b" ++ [233; 128512; 34] ++ b) /\
  exists v l w, reads text v /\ field (lit "sessions") v = Some (JArr l) /\ nth_error l 0 = Some w /\ field (lit "name") w = Some (JStr odd_name).
Proof.
  cbv zeta. split.
  - exists (lit "{" ++ 10 :: lit "  ""sessions"": [" ++ 10 :: lit "    {" ++ 10 :: lit "      ""name""").
    eexists. vm_compute. reflexivity.
  - exists (json_reply [odd]), [json_session odd], (json_session odd). split; [apply printed_reads|]. repeat split; reflexivity.
Qed.
Example C66_a_reply : printed (list_json_command true (Some [mkInfo (lit "x") 12 None (Some (-3)%Z) false []])) =
  lit "{" ++ 10 :: lit "  ""sessions"": [" ++ 10 :: lit "    {" ++ 10 :: lit "      ""name"": ""x""," ++ 10 ::
  lit "      ""started_at_unix_ms"": 12," ++ 10 :: lit "      ""last_connected_at_unix_ms"": null," ++ 10 ::
  lit "      ""last_disconnected_at_unix_ms"": -3," ++ 10 :: lit "      ""status"": ""Disconnected""," ++ 10 ::
  lit "      ""attachments"": []" ++ 10 :: lit "    }" ++ 10 :: lit "  ]" ++ 10 :: lit "}" ++ [10].
Proof. vm_compute. reflexivity. Qed.
Example C66_some_vars : printed (var_list_json_command true (Some [(lit "b", lit "2"); (lit "a", lit "1")])) =
  lit "{" ++ 10 :: lit "  ""a"": ""1""," ++ 10 :: lit "  ""b"": ""2""" ++ 10 :: lit "}" ++ [10].
Proof. vm_compute. reflexivity. Qed.
