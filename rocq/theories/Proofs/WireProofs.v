From Coq Require Import String List NArith ZArith Bool Arith Lia.
From Verif Require Import Model.Base Model.Msgpack Model.Messages Spec.MessagesSpec Spec.WireSpec.
Import ListNotations.
Open Scope N_scope.

Lemma t_text s : text s -> has_type TStr (VStr s).
Proof. intros [A B]. constructor; assumption. Qed.
Lemma t_opt {A} (P : A -> Prop) f t o : (forall x, P x -> has_type t (f x)) -> maybe P o -> has_type (TOpt t) (vopt f o).
Proof. intros H M. destruct o as [x|]; cbn in *; constructor. auto. Qed.
Lemma t_vec {A} (P : A -> Prop) f t l : (forall x, P x -> has_type t (f x)) -> many P l -> has_type (TVec t) (VVec (map f l)).
Proof.
  intros H [M L]. constructor; [|rewrite map_length; exact L]. rewrite Forall_map. eapply Forall_impl; [|exact M]. exact H.
Qed.
Lemma t_pair p : two text p -> has_type (TPair TStr TStr) (vpair p).
Proof. intros [A B]. constructor; apply t_text; assumption. Qed.
Lemma t_window w : window_ok w -> has_type tty_size (vwindow w).
Proof. intros (A & B & C & D). unfold u16 in *. repeat constructor; cbn; lia. Qed.

Ltac rows2 := repeat (apply Forall2_cons || apply Forall2_nil).
Ltac pick := repeat (try (left; reflexivity); right).
Lemma t_request r : request_ok r -> has_type connect_header (request_message r).
Proof.
  destruct r as [a| |n w|n|l|l|l| |n v|n]; cbn [request_ok request_message]; intros H; try (apply h_unit; pick; fail);
    try (eapply h_new; [pick|]); apply h_struct; repeat match goal with X : _ /\ _ |- _ => destruct X end; rows2;
    cbn [fst snd req opt];
    try (apply t_text; assumption); try (apply t_window; assumption); try (eapply t_vec; [apply t_text|eassumption]; fail);
    try (eapply t_vec; [apply t_pair|eassumption]; fail); try (eapply t_opt; [apply t_text|eassumption]; fail).
  - eapply t_opt; [|eassumption]. intros x Hx. constructor. cbn beta in Hx. lia.
  - eapply h_new; [pick|]. apply h_struct. rows2. cbn. apply t_window. assumption.
  - apply h_unit. pick.
  - apply h_unit. destruct l; pick.
  - apply h_some, t_text. assumption.
  - apply h_none.
Qed.

Lemma t_line l : line_ok l -> has_type session (line_message l).
Proof.
  intros (A & B & C & D & E). unfold i64 in *. apply h_struct. rows2; cbn [fst snd req opt].
  - apply t_text, A.
  - constructor. lia.
  - eapply t_opt; [|exact C]. intros x Hx. constructor. cbn beta in Hx. lia.
  - eapply t_opt; [|exact D]. intros x Hx. constructor. cbn beta in Hx. lia.
  - apply h_unit. destruct (l_attached l); pick.
  - eapply t_vec; [|exact E]. intros [n p] [X Y]. cbn [fst snd] in *. apply h_struct. rows2; cbn [fst snd req opt]; [apply t_text, X|constructor; lia].
Qed.

Lemma t_reply r : reply_ok r -> has_type (reply_type r) (reply_message r).
Proof.
  destruct r as [v|l|l| |w|w|l| | | | |a c|a| | |t vs]; cbn [reply_ok reply_type reply_message]; intros H; unfold warned;
    repeat match goal with X : _ /\ _ |- _ => destruct X end;
    try (apply h_unit; pick; fail); try (eapply h_new; [pick|apply h_unit; pick]; fail); apply h_struct; rows2; cbn [fst snd req opt];
    try (apply t_text; assumption); try (eapply t_vec; [apply t_text|eassumption]; fail); try (eapply t_vec; [apply t_text|eassumption]; fail).
  all: try (eapply h_new; [pick|]; apply t_text; assumption).
  all: try (eapply h_new; [pick|]; apply h_struct; rows2; cbn [fst snd req opt]; eapply t_vec; [apply t_text|eassumption]).
  all: try (apply h_unit; pick; fail).
  - eapply t_vec; [apply t_line|eassumption].
  - eapply t_opt; [apply t_text|eassumption].
  - eapply t_vec; [apply t_pair|eassumption].
Qed.

Lemma map_inj {A B} (f : A -> B) : (forall x y, f x = f y -> x = y) -> forall l l', map f l = map f l' -> l = l'.
Proof. intros I l. induction l as [|x l IH]; intros [|y l'] H; try discriminate; [reflexivity|]. cbn in H. injection H as H1 H2. f_equal; auto. Qed.
Lemma vopt_inj {A} (f : A -> value) : (forall x y, f x = f y -> x = y) -> forall o o', vopt f o = vopt f o' -> o = o'.
Proof. intros I [x|] [y|] H; cbn in H; try discriminate; [|reflexivity]. injection H as H. f_equal. auto. Qed.
Lemma VStr_inj x y : VStr x = VStr y -> x = y. Proof. congruence. Qed.
Lemma VInt_inj x y : VInt x = VInt y -> x = y. Proof. congruence. Qed.
Lemma vpair_inj p q : vpair p = vpair q -> p = q.
Proof. destruct p, q. unfold vpair. cbn. congruence. Qed.
Lemma vwindow_inj p q : vwindow p = vwindow q -> p = q.
Proof. destruct p, q. unfold vwindow. cbn. congruence. Qed.
Lemma level_inj a b : level_name a = level_name b -> a = b.
Proof. destruct a, b; intros H; try reflexivity; vm_compute in H; discriminate. Qed.

Ltac strs := repeat match goal with
  | H : map VStr _ = map VStr _ |- _ => apply (map_inj _ VStr_inj) in H
  | H : map vpair _ = map vpair _ |- _ => apply (map_inj _ vpair_inj) in H
  | H : vopt VStr _ = vopt VStr _ |- _ => apply (vopt_inj _ VStr_inj) in H
  | H : vopt VInt _ = vopt VInt _ |- _ => apply (vopt_inj _ VInt_inj) in H
  end.

Lemma request_inj r r' : request_message r = request_message r' -> r = r'.
Proof.
  destruct r as [a| |n w|n|l|l|l| |n v|n], r' as [a'| |n' w'|n'|l'|l'|l'| |n' v'|n']; intros H; try reflexivity;
    try (exfalso; vm_compute in H; discriminate); cbn [request_message] in H.
  - injection H as H1 H2 H3 H4 H5 H6 H7 H8 H9 H10 H11. strs. destruct a as [? ? w0 ? ? ? ? ?], a' as [? ? w1 ? ? ? ? ?]. cbn in *. destruct w0, w1. cbn in *. congruence.
  - injection H as H1 H2 H3 H4 H5. destruct w, w'. cbn in *. congruence.
  - congruence.
  - injection H as H. strs. congruence.
  - injection H as H. strs. congruence.
  - remember (level_name l) as x. remember (level_name l') as y. injection H as H. f_equal. apply level_inj. congruence.
  - congruence.
  - congruence.
Qed.

Lemma attachments_inj (l l' : list (list byte * Z)) :
  map (fun a => VRec [VStr (fst a); VInt (snd a)]) l = map (fun a => VRec [VStr (fst a); VInt (snd a)]) l' -> l = l'.
Proof. apply map_inj. intros [a p] [c q] H. cbn in H. congruence. Qed.
Lemma line_inj l l' : line_message l = line_message l' -> l = l'.
Proof.
  intros H. destruct l as [n s c d a t], l' as [n' s' c' d' a' t']. unfold line_message in H. cbn [l_name l_started l_connected l_disconnected l_attached l_attachments] in H.
  remember (if a then lit "Attached" else lit "Disconnected") as x eqn:X. remember (if a' then lit "Attached" else lit "Disconnected") as y eqn:Y.
  injection H as H1 H2 H3 H4 H5 H6. strs. apply attachments_inj in H6. assert (a = a') by (destruct a, a'; try reflexivity; subst; discriminate). congruence.
Qed.

(** The replies to one request are told apart. *)
Lemma reply_inj r r' : reply_type r = reply_type r' -> reply_message r = reply_message r' -> r = r' \/ reply_type r = TStruct [].
Proof.
  destruct r as [v|l|l| |w|w|l| | | | |a c|a| | |t vs], r' as [v'|l'|l'| |w'|w'|l'| | | | |a' c'|a'| | |t' vs']; intros T H;
    try (left; reflexivity); try (right; reflexivity);
    try (exfalso; vm_compute in T; discriminate); try (exfalso; vm_compute in H; discriminate); clear T; left; cbn [reply_message] in H; unfold warned in H.
  - congruence.
  - injection H as H. strs. congruence.
  - injection H as H. strs. congruence.
  - congruence.
  - congruence.
  - injection H as H. apply (map_inj _ line_inj) in H. congruence.
  - injection H as H1 H2. strs. congruence.
  - injection H as H1. strs. congruence.
  - injection H as H1 H2. strs. congruence.
Qed.
