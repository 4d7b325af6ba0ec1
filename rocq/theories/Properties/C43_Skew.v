(** C43: a message written by a newer peer with extra fields, or by an older peer
    lacking optional fields, is decoded with the unknown fields ignored and the missing
    ones defaulted; every message round trips. *)
From Coq Require Import String List NArith ZArith Bool Arith Lia.
From Verif Require Import Model.Base Model.Msgpack Model.Messages Spec.MessagesSpec Spec.UserInfoSpec Spec.WireSpec
  Proofs.BaseLemmas Proofs.MsgpackProofs Proofs.MessagesProofs Proofs.UserInfoProofs Proofs.MessageTextProofs Proofs.WireProofs.
Import ListNotations.
Open Scope N_scope.

(** Every message that goes over the socket, whatever its contents, is read back as it
    was written, and what follows it in the stream is untouched. *)
Theorem C43_round_trip : forall t v rest, In t messages -> has_type t v -> decode_from t (encode_to t v ++ rest) = Some (v, rest).
Proof.
  intros t v rest It H. assert (S : sound t = true).
  { assert (A : forallb sound messages = true) by (vm_compute; reflexivity). rewrite forallb_forall in A. exact (A t It). }
  unfold encode_to. rewrite decode_from_app by (apply fits_encode; assumption). rewrite decode_encode by assumption. reflexivity.
Qed.
Print Assumptions C43_round_trip.

(** Whatever either program has to say fits in a message: every attach request with any
    name, window, environment, lifetime up to the 64 bits of the command line, and so on;
    every listing, with times and process numbers of their full ranges.  It arrives as it
    was said, and different requests are different messages. *)
Theorem C43_every_request : forall r rest, request_ok r ->
  decode_from connect_header (encode_to connect_header (request_message r) ++ rest) = Some (request_message r, rest) /\
  forall r', request_message r' = request_message r -> r' = r.
Proof.
  intros r rest H. split; [|intros r'; apply request_inj]. apply C43_round_trip; [right; left; reflexivity|apply t_request; exact H].
Qed.
Print Assumptions C43_every_request.

Theorem C43_every_reply : forall r rest, reply_ok r ->
  decode_from (reply_type r) (encode_to (reply_type r) (reply_message r) ++ rest) = Some (reply_message r, rest) /\
  forall r', reply_type r' = reply_type r -> reply_message r' = reply_message r -> r' = r \/ (r = LevelSet \/ r = VarSet).
Proof.
  intros r rest H. split.
  - apply C43_round_trip; [|apply t_reply; exact H]. destruct r; unfold messages; repeat (try (left; reflexivity); right).
  - intros r' T M. destruct (reply_inj r' r T M) as [E|E]; [left; exact E|right].
    rewrite T in E. destruct r; auto; vm_compute in E; discriminate.
Qed.
Print Assumptions C43_every_reply.

Example C43_largest_request :
  request_ok (Attach {| a_name := lit "main"; a_template := []; a_window := {| w_rows := 65535; w_cols := 80; w_xpixel := 0; w_ypixel := 65535 |};
    a_env := [(lit "TERM", lit "xterm")]; a_ttl := Some (2 ^ 64 - 1)%Z; a_cmd := None; a_dir := Some [195; 169]; a_start_cmd := None |}) /\
  reply_ok (Sessions [{| l_name := lit "main"; l_started := 1700000000000; l_connected := Some (2 ^ 63 - 1)%Z; l_disconnected := None; l_attached := true;
    l_attachments := [(lit "m", (2 ^ 31 - 1)%Z)] |}]).
Proof.
  split; cbv [request_ok reply_ok a_name a_template a_window a_env a_ttl a_cmd a_dir a_start_cmd window_ok u16 w_rows w_cols w_xpixel w_ypixel maybe many two text
    line_ok l_name l_started l_connected l_disconnected l_attached l_attachments i64 fst snd];
    repeat split; repeat constructor; cbn; try lia; try reflexivity.
Qed.

(** The two peers need not have the same declarations: fields one does not know are
    ignored, fields the other does not know are defaulted, at any depth. *)
Theorem C43_skew : forall writer reader v v' rest, sound writer = true -> sound reader = true -> has_type writer v -> skew writer reader v v' ->
  decode_from reader (encode_to writer v ++ rest) = Some (v', rest).
Proof.
  intros t t' v v' rest S S' H K. unfold encode_to. rewrite decode_from_app by (apply fits_encode; assumption). rewrite (skew_decode t S t' v v' S' H K). reflexivity.
Qed.
Print Assumptions C43_skew.

(** The declarations of this version are among those the above is about. *)
Theorem C43_ours : forall t, In t messages -> sound t = true.
Proof. intros t It. assert (A : forallb sound messages = true) by (vm_compute; reflexivity). rewrite forallb_forall in A. exact (A t It). Qed.
Print Assumptions C43_ours.

(** Whatever the peer sent, however it came to be written, the value read is exactly
    what the message says, and nothing is read that it does not say. *)
Theorem C43_reads : forall t, In t messages -> forall m rest, fits m -> forall v r,
  decode_from t (enc m ++ rest) = Some (v, r) <-> says t m v /\ r = rest.
Proof.
  intros t It m rest F v r. rewrite decode_from_app by exact F. pose proof (decode_says t (C43_ours t It) m v) as D. split.
  - destruct (decode t m) as [w|]; [|discriminate]. intros E. injection E as -> ->. split; [apply D; reflexivity|reflexivity].
  - intros [X ->]. apply D in X. rewrite X. reflexivity.
Qed.
Print Assumptions C43_reads.

(** The strings taken are exactly the UTF-8 ones. *)
Theorem C43_text : forall s, (exists v, decode TStr (MStr s) = Some v) <-> is_text s.
Proof.
  intros s. cbn [decode]. rewrite <- utf8_is_text. destruct (utf8 s); split; intros H; try reflexivity; try discriminate.
  - eexists. reflexivity.
  - destruct H. discriminate.
Qed.
Print Assumptions C43_text.

(** The numbers taken are exactly those of the machine type they go to. *)
Theorem C43_numbers : forall z,
  (decode TU16 (MInt z) = Some (VInt z) <-> (0 <= z < 2 ^ 16)%Z) /\ (decode TU64 (MInt z) = Some (VInt z) <-> (0 <= z < 2 ^ 64)%Z) /\
  (decode TI32 (MInt z) = Some (VInt z) <-> (- 2 ^ 31 <= z < 2 ^ 31)%Z) /\ (decode TI64 (MInt z) = Some (VInt z) <-> (- 2 ^ 63 <= z < 2 ^ 63)%Z).
Proof.
  intros z.
  assert (R : forall lo hi, decode (TInt lo hi) (MInt z) = Some (VInt z) <-> (lo <= z < hi + 1)%Z).
  { intros lo hi. cbn [decode]. destruct (Z.leb_spec lo z), (Z.leb_spec z hi); cbn [andb]; split; intros Q; try reflexivity; try discriminate; lia. }
  split; [|split; [|split]]; apply R.
Qed.
Print Assumptions C43_numbers.

(** The names both peers go by, in the order of the declarations. *)
Theorem C43_names : map names messages =
  [ [lit "version"];
    [lit "Attach"; lit "name"; lit "name_template"; lit "local_tty_size"; lit "rows"; lit "cols"; lit "xpixel"; lit "ypixel"; lit "local_env"; lit "ttl_secs"; lit "cmd"; lit "dir"; lit "start_cmd";
     lit "List"; lit "SessionMessage"; lit "session_name"; lit "payload"; lit "Resize"; lit "tty_size"; lit "rows"; lit "cols"; lit "xpixel"; lit "ypixel"; lit "Detach";
     lit "Detach"; lit "sessions"; lit "Kill"; lit "sessions"; lit "SetLogLevel"; lit "level"; lit "Off"; lit "Error"; lit "Warn"; lit "Info"; lit "Debug"; lit "Trace"; lit "GetVars";
     lit "ModifyVar"; lit "var"; lit "val"];
    [lit "status"; lit "Attached"; lit "warnings"; lit "Created"; lit "warnings"; lit "Busy"; lit "Forbidden"; lit "UnexpectedError"];
    [lit "sessions"; lit "name"; lit "started_at_unix_ms"; lit "last_connected_at_unix_ms"; lit "last_disconnected_at_unix_ms"; lit "status"; lit "Attached"; lit "Disconnected";
     lit "attachments"; lit "session_name_template"; lit "pid"];
    [lit "NotFound"; lit "NotAttached"; lit "Resize"; lit "Ok"; lit "Detach"; lit "Ok"];
    [lit "not_found_sessions"; lit "not_attached_sessions"]; [lit "not_found_sessions"]; []; [];
    [lit "switch_to"; lit "vars"] ].
Proof. vm_compute. reflexivity. Qed.
Print Assumptions C43_names.

(** An entry for no known field can be put anywhere in a struct and changes nothing,
    whatever it holds. *)
Theorem C43_ignored : forall fs before e after, field_key e -> (forall i f, nth_error fs i = Some f -> ~ for_field i (fst (fst f)) e) ->
  forall m rest, m = MMap (before ++ e :: after) -> fits m -> decode_from (TStruct fs) (enc m ++ rest) = decode_from (TStruct fs) (enc (MMap (before ++ after)) ++ rest).
Proof.
  intros fs a e b K N m rest -> F. assert (F' : fits (MMap (a ++ b))).
  { apply fits_map in F as [L F]. apply fits_map. split.
    - unfold len_ok in *. rewrite app_length in *. cbn [length] in L. lia.
    - apply Forall_app in F as [Fa Fb]. inversion Fb; subst. apply Forall_app. auto. }
  rewrite !decode_from_app by assumption. rewrite (unknown_entry fs a e b K N). reflexivity.
Qed.
Print Assumptions C43_ignored.

(** What a message takes from the stream does not depend on what follows it, whether or
    not the reader knows all its fields, and it takes something. *)
Theorem C43_stream : forall t bs v r more, decode_from t bs = Some (v, r) -> decode_from t (bs ++ more) = Some (v, r ++ more) /\ (length r < length bs)%nat.
Proof.
  intros t bs v r more. unfold decode_from. destruct (read_value bs) as [[m r0]|] eqn:R; [|discriminate]. destruct (decode t m) as [w|] eqn:D; [|discriminate].
  intros E. injection E as -> ->. pose proof (parse_enough _ _ _ _ R) as [_ L]. split; [|exact L].
  pose proof (parse_rest _ _ _ _ more R) as P. pose proof (parse_enough _ _ _ _ P) as [Q _]. rewrite Q, D. reflexivity.
Qed.
Print Assumptions C43_stream.

(** The fields that can be left out are what each message takes for them: the message
    with every field left out. *)
Theorem C43_defaults :
  decode attach_header (MMap []) = Some (VRec [VStr []; VStr []; VRec [VInt 0; VInt 0; VInt 0; VInt 0]; VVec []; VNone; VNone; VNone; VNone]) /\
  decode session_message_request (MMap []) = Some (VRec [VStr []; VVar (lit "Detach") None]) /\
  decode resize_request (MMap []) = Some (VRec [VRec [VInt 0; VInt 0; VInt 0; VInt 0]]) /\
  decode detach_request (MMap []) = Some (VRec [VVec []]) /\
  decode kill_request (MMap []) = Some (VRec [VVec []]) /\
  decode set_log_level_request (MMap []) = Some (VRec [VVar (lit "Off") None]) /\
  decode attach_reply_header (MMap []) = Some (VRec [VVar (lit "UnexpectedError") (Some (VStr (lit "default")))]) /\
  decode list_reply (MMap []) = Some (VRec [VVec []]) /\
  decode session (MMap []) = Some (VRec [VStr []; VInt 0; VNone; VNone; VVar (lit "Attached") None; VVec []]) /\
  decode attachment (MMap []) = Some (VRec [VStr []; VInt 0]) /\
  decode detach_reply (MMap []) = Some (VRec [VVec []; VVec []]) /\
  decode kill_reply (MMap []) = Some (VRec [VVec []]) /\
  decode set_log_level_reply (MMap []) = Some (VRec []) /\
  decode modify_var_reply (MMap []) = Some (VRec []).
Proof. vm_compute. repeat split; reflexivity. Qed.
Print Assumptions C43_defaults.

(** The fields that cannot be left out of some message. *)
Theorem C43_required : flat_map required messages =
  [lit "version";
   lit "rows"; lit "cols"; lit "xpixel"; lit "ypixel";      (* of Attach's window size *)
   lit "rows"; lit "cols"; lit "xpixel"; lit "ypixel";      (* of a Resize *)
   lit "var";                                                (* of ModifyVar *)
   lit "warnings"; lit "warnings";                           (* of the reply to an attach *)
   lit "vars"].                                              (* of the switch instruction *)
Proof. vm_compute. reflexivity. Qed.
Print Assumptions C43_required.

(** A struct that lacks such a field is refused, whatever else it has. *)
Theorem C43_refuses : forall fs i n t es, nth_error fs i = Some (n, t, None) -> (forall t', t <> TOpt t') ->
  Forall (fun e => ~ for_field i n e) es -> decode (TStruct fs) (MMap es) = None.
Proof.
  intros fs i n t es Hf No N. cbn [decode]. destruct (forallb _ es); [|reflexivity].
  enough (G : forall k gs j, nth_error gs j = Some (n, t, None) -> (k + j = i)%nat -> fields_of decode es k gs = None) by (rewrite (G 0%nat fs i); auto).
  intros k gs. revert k. induction gs as [|[[m s] d] gs IH]; intros k j Hg E; [destruct j; discriminate|]. rewrite fields_of_cons. destruct j as [|j]; cbn in Hg.
  - injection Hg as -> -> ->. replace k with i by lia. apply not_field, filter_none in N. rewrite N. cbn [missing]. destruct t; try reflexivity. exfalso. eapply No. reflexivity.
  - rewrite (IH (S k) j Hg) by lia. destruct (match filter _ es with [] => _ | _ => _ end); reflexivity.
Qed.
Print Assumptions C43_refuses.

(** So a peer that came to leave one out of a nested struct would make the whole request
    unreadable, although the field it is nested in has a default: here an attach
    request whose window size has no pixel sizes. *)
Theorem C43_nested_refuted :
  decode connect_header (MMap [(MStr (lit "Attach"), MMap [(MStr (lit "name"), MStr (lit "s")); (MStr (lit "local_tty_size"), MMap [(MStr (lit "rows"), MInt 24); (MStr (lit "cols"), MInt 80)])])]) = None /\
  decode connect_header (MMap [(MStr (lit "Attach"), MMap [(MStr (lit "name"), MStr (lit "s"))])]) <> None.
Proof. vm_compute. split; [reflexivity|discriminate]. Qed.
Print Assumptions C43_nested_refuted.

(** A request or a reply that the reader's version does not have is refused, not taken
    for another one. *)
Theorem C43_unknown_variant : forall vs n, ~ In n (map fst vs) -> decode (TEnum vs) (MStr n) = None /\ forall m, decode (TEnum vs) (MMap [(MStr n, m)]) = None.
Proof.
  intros vs n N. cbn [decode]. split.
  - match goal with |- context [existsb ?f vs] => destruct (existsb f vs) eqn:E end; [|reflexivity]. apply unit_iff in E. apply (in_map fst) in E. contradiction.
  - intros m. destruct (variant_of (fun t' => decode t' m) n vs) as [[w|]|] eqn:E; try reflexivity. apply variant_some in E as (t & I0 & _). apply (in_map fst) in I0. contradiction.
Qed.
Print Assumptions C43_unknown_variant.

(** A newer client: its attach request has one more field; an older one: its has only
    the first six, in another order. *)
Definition newer : ty := TEnum [(lit "Detach", None); (lit "Attach", Some (TStruct (req (lit "colour") TStr :: match attach_header with TStruct fs => fs | _ => [] end)))].
Definition older : ty := TEnum [(lit "Attach", Some (TStruct [opt (lit "ttl_secs") (TOpt TU64) VNone; req (lit "name") TStr; req (lit "local_tty_size") tty_size]))].
Definition size_24_80 := VRec [VInt 24; VInt 80; VInt 0; VInt 0].
Example C43_peers :
  sound newer = true /\ sound older = true /\
  decode_from connect_header (encode_to newer (VVar (lit "Attach") (Some (VRec
     [VStr (lit "red"); VStr (lit "s"); VStr []; size_24_80; VVec [VPair (VStr (lit "TERM")) (VStr (lit "xterm"))]; VSome (VInt 60); VNone; VNone; VNone]))) ++ [1; 2]) =
    Some (VVar (lit "Attach") (Some (VRec [VStr (lit "s"); VStr []; size_24_80; VVec [VPair (VStr (lit "TERM")) (VStr (lit "xterm"))]; VSome (VInt 60); VNone; VNone; VNone])), [1; 2]) /\
  skew older connect_header (VVar (lit "Attach") (Some (VRec [VNone; VStr (lit "s"); size_24_80])))
    (VVar (lit "Attach") (Some (VRec [VStr (lit "s"); VStr []; size_24_80; VVec []; VNone; VNone; VNone; VNone]))) /\
  has_type older (VVar (lit "Attach") (Some (VRec [VNone; VStr (lit "s"); size_24_80]))).
Proof.
  split; [vm_compute; reflexivity|]. split; [vm_compute; reflexivity|]. split; [vm_compute; reflexivity|]. split.
  - eapply k_new; [left; reflexivity|left; reflexivity|]. apply k_struct.
    assert (D : forall n v t, existsb (str_eqb n) [lit "ttl_secs"; lit "name"; lit "local_tty_size"] = false ->
      skew_field [opt (lit "ttl_secs") (TOpt TU64) VNone; req (lit "name") TStr; req (lit "local_tty_size") tty_size] [VNone; VStr (lit "s"); size_24_80] (n, t, Some v) v).
    { intros n v t E. apply k_default. intros I. apply Bool.not_true_iff_false in E. apply E. apply existsb_exists. exists n. split; [exact I|apply str_eqb_refl]. }
    constructor; [apply (k_known _ _ 1 _ TStr None _ _ (VStr (lit "s"))); try reflexivity; constructor|].
    constructor; [apply D; reflexivity|]. constructor; [apply (k_known _ _ 2 _ tty_size None _ _ size_24_80); try reflexivity; constructor|].
    constructor; [apply D; reflexivity|]. constructor; [apply (k_known _ _ 0 _ (TOpt TU64) (Some VNone) _ _ VNone); try reflexivity; constructor|].
    constructor; [apply D; reflexivity|]. constructor; [apply D; reflexivity|]. constructor; [apply D; reflexivity|]. constructor.
  - eapply h_new; [left; reflexivity|]. apply h_struct. repeat constructor; cbn; lia.
Qed.

(** On the wire: the version header, and a request to list sessions. *)
Example C43_bytes :
  encode_to version_header (VRec [VStr (lit "0.9.4")]) = 0x81 :: 0xa7 :: lit "version" ++ 0xa5 :: lit "0.9.4" /\
  encode_to connect_header (VVar (lit "List") None) = 0xa4 :: lit "List" /\
  encode_to connect_header (VVar (lit "Kill") (Some (VRec [VVec [VStr (lit "s"); VStr (lit "t")]]))) =
    0x81 :: 0xa4 :: lit "Kill" ++ 0x81 :: 0xa8 :: lit "sessions" ++ [0x92; 0xa1; 115; 0xa1; 116] /\
  In version_header messages /\ has_type version_header (VRec [VStr (lit "0.9.4")]).
Proof. split; [vm_compute; reflexivity|]. split; [vm_compute; reflexivity|]. split; [vm_compute; reflexivity|]. split; [left; reflexivity|]. repeat constructor. Qed.
