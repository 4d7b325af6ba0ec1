From Coq Require Import List NArith Bool.
From Verif Require Import Model.Base Model.Protocol Model.Winch Spec.WinchSpec.
Import ListNotations.

Lemma knows_now name z l m : concerns name z m -> knows name z (l ++ [m]).
Proof. intros H. exists l, m, []. split; [reflexivity|]. split; [exact H|]. intros ? ? []. Qed.

Lemma knows_still name z l m : knows name z l -> (forall z', ~ concerns name z' m) -> knows name z (l ++ [m]).
Proof.
  intros (b & x & a & -> & Hx & Ha) Hm. exists b, x, (a ++ [m]). split; [rewrite <- app_assoc; reflexivity|].
  split; [exact Hx|]. intros m' z' H. apply in_app_or in H. destruct H as [H|[<-|[]]]; [apply Ha; exact H|apply Hm].
Qed.

Definition measured_ok (s : winch) : Prop :=
  match at_ s with Measured z | Asked _ z => z = size_now s \/ signalled s = true | _ => True end.

Definition on_its_way (s : winch) : Prop :=
  signalled s = true \/
  match at_ s with
  | Dialling | Connected => True
  | Measured z => z = size_now s
  | Asked n z => n = slot_name s /\ z = size_now s
  | Idle => False
  end.

Definition winch_inv (s : winch) : Prop :=
  measured_ok s /\
  (attach_sent s = true -> all_heard (log s) -> on_its_way s \/ knows (slot_name s) (size_now s) (log s)).

Lemma all_heard_app l m : all_heard (l ++ [m]) -> all_heard l.
Proof. intros H x Hx. apply H. apply in_or_app. left. exact Hx. Qed.

Lemma winch_step_inv s e : winch_inv s -> winch_inv (winch_step s e).
Proof.
  intros (HM & HK). destruct s as [z n se sg a l].
  unfold winch_inv, measured_ok, on_its_way in *. cbn [size_now slot_name attach_sent signalled at_ log] in *.
  destruct e as [z'|n'| | |ok|ok|ok|r].
  - cbn. split; [destruct a; auto|]. intros Hs Hh. left. left. reflexivity.
  - cbn. split; [destruct a; auto|]. intros Hs. discriminate Hs.
  - cbn. split; [destruct a; auto|]. intros _ _. right. apply knows_now. constructor.
  - destruct a; cbn [winch_step at_]; try (split; assumption).
    cbn [signalled]. destruct sg; [|split; [exact I|assumption]].
    cbn. split; [exact I|]. intros _ _. left. right. exact I.
  - destruct a; cbn [winch_step at_]; try (split; assumption).
    destruct ok; cbn.
    + split; [exact I|]. intros Hs Hh. left. right. exact I.
    + split; [exact I|]. intros Hs Hh. exfalso. specialize (Hh MFailed). apply Hh. apply in_or_app. right. left. reflexivity.
  - destruct a; cbn [winch_step at_]; try (split; assumption).
    destruct ok; cbn.
    + split; [left; reflexivity|]. intros Hs Hh. left. right. reflexivity.
    + split; [exact I|]. intros Hs Hh. exfalso. specialize (Hh MFailed). apply Hh. apply in_or_app. right. left. reflexivity.
  - destruct a as [| | |zm|]; cbn [winch_step at_]; try (split; assumption).
    destruct ok; cbn.
    + split; [exact HM|]. intros Hs Hh. destruct HM as [-> | HM]; [left; right; split; reflexivity|left; left; exact HM].
    + split; [exact I|]. intros Hs Hh. exfalso. specialize (Hh MFailed). apply Hh. apply in_or_app. right. left. reflexivity.
  - destruct a as [| | | |na za]; cbn [winch_step at_]; try (split; assumption).
    cbn. split; [exact I|]. intros Hs Hh.
    assert (Hm := Hh (match r with Some o => MReport na za o | None => MFailed end) ltac:(apply in_or_app; right; left; reflexivity)).
    destruct r as [[| |]|]; try contradiction Hm.
    specialize (HK Hs (all_heard_app _ _ Hh)). destruct HM as [-> | HM]; [|left; left; exact HM].
    destruct HK as [[HK|(-> & _)]|HK].
    + left. left. exact HK.
    + right. apply knows_now. constructor.
    + right. destruct (list_eq_dec N.eq_dec na n) as [->|Hn]; [apply knows_now; constructor|].
      apply knows_still; [exact HK|]. intros z' Hc. inversion Hc; subst. apply Hn. reflexivity.
Qed.

Lemma winch_run_inv es : forall s, winch_inv s -> winch_inv (winch_run s es).
Proof. induction es as [|e es IH]; intros s H; [exact H|]. cbn [winch_run fold_left]. apply IH. apply winch_step_inv. exact H. Qed.

Lemma winch_start_inv z n : winch_inv (winch_start z n).
Proof. split; [exact I|]. cbn. discriminate. Qed.

Lemma winch_run_app s a b : winch_run s (a ++ b) = winch_run (winch_run s a) b.
Proof. apply fold_left_app. Qed.

(** Where the sizes and names in the log come from. *)
Definition size_seen (s0 : winch) (es : list winch_event) (z : tty_size) : Prop :=
  exists a b, es = a ++ b /\ size_now (winch_run s0 a) = z.

Definition report_seen (s0 : winch) (es : list winch_event) (n : rstr) (z : tty_size) : Prop :=
  exists a b c, es = a ++ b ++ c /\ size_now (winch_run s0 a) = z /\ slot_name (winch_run s0 (a ++ b)) = n.

Definition sources (s0 : winch) (es : list winch_event) (s : winch) : Prop :=
  (match at_ s with
   | Measured z => size_seen s0 es z
   | Asked n z => report_seen s0 es n z
   | _ => True
   end) /\
  forall m, In m (log s) -> match m with
    | MAttach n z => exists a b, es = a ++ b /\ size_now (winch_run s0 a) = z /\ slot_name (winch_run s0 a) = n
    | MReport n z _ => report_seen s0 es n z
    | MFailed => True
    end.

Lemma size_seen_more s0 es e z : size_seen s0 es z -> size_seen s0 (es ++ [e]) z.
Proof. intros (a & b & -> & H). exists a, (b ++ [e]). rewrite <- app_assoc. auto. Qed.
Lemma report_seen_more s0 es e n z : report_seen s0 es n z -> report_seen s0 (es ++ [e]) n z.
Proof. intros (a & b & c & -> & H). exists a, b, (c ++ [e]). rewrite <- !app_assoc. auto. Qed.

Lemma sources_keep s0 es e s s' : sources s0 es s -> at_ s' = at_ s -> log s' = log s -> sources s0 (es ++ [e]) s'.
Proof.
  intros (HA & HL) Ea El. unfold sources. rewrite Ea, El. split.
  - destruct (at_ s); auto using size_seen_more, report_seen_more.
  - intros m Hm. specialize (HL m Hm). destruct m; [|apply report_seen_more; exact HL|exact I].
    destruct HL as (a & b & -> & H). exists a, (b ++ [e]). rewrite <- app_assoc. auto.
Qed.

Lemma sources_log s0 es e s m : sources s0 es s ->
  (match m with
   | MAttach n z => exists a b, es ++ [e] = a ++ b /\ size_now (winch_run s0 a) = z /\ slot_name (winch_run s0 a) = n
   | MReport n z _ => report_seen s0 (es ++ [e]) n z
   | MFailed => True
   end) -> sources s0 (es ++ [e]) (finish s m).
Proof.
  intros (HA & HL) Hm. split; [exact I|]. cbn [finish log]. intros x Hx. apply in_app_or in Hx. destruct Hx as [Hx|[<-|[]]]; [|exact Hm].
  specialize (HL x Hx). destruct x; [|apply report_seen_more; exact HL|exact I].
  destruct HL as (a & b & -> & H). exists a, (b ++ [e]). rewrite <- app_assoc. auto.
Qed.

Lemma winch_sources s0 es : sources s0 [] s0 -> sources s0 es (winch_run s0 es).
Proof.
  intros H0. induction es as [|e es IH] using rev_ind; [exact H0|].
  rewrite winch_run_app. cbn [winch_run fold_left]. remember (winch_run s0 es) as s eqn:Es.
  fold (winch_run s0 es) in Es.
  destruct e as [z'|n'| | |ok|ok|ok|r].
  - apply (sources_keep s0 es (SizeChange z') s); [exact IH|reflexivity|reflexivity].
  - apply (sources_keep s0 es (Rename n') s); [exact IH|reflexivity|reflexivity].
  - destruct (sources_keep s0 es AttachSent s s IH eq_refl eq_refl) as (HA & HL). split; [exact HA|].
    cbn [winch_step log]. intros m Hm. apply in_app_or in Hm. destruct Hm as [Hm|[<-|[]]]; [apply HL; exact Hm|].
    exists es, [AttachSent]. rewrite <- Es. auto.
  - cbn [winch_step]. destruct (at_ s) eqn:Ea; try exact (sources_keep s0 es Take s s IH eq_refl eq_refl).
    destruct (signalled s); [|exact (sources_keep s0 es Take s s IH eq_refl eq_refl)].
    destruct (sources_keep s0 es Take s s IH eq_refl eq_refl) as (_ & HL). split; [exact I|exact HL].
  - cbn [winch_step]. destruct (at_ s) eqn:Ea; try exact (sources_keep s0 es (Dial ok) s s IH eq_refl eq_refl).
    destruct ok; [|apply sources_log; [exact IH|exact I]].
    destruct (sources_keep s0 es (Dial true) s s IH eq_refl eq_refl) as (_ & HL). split; [exact I|exact HL].
  - cbn [winch_step]. destruct (at_ s) eqn:Ea; try exact (sources_keep s0 es (Measure ok) s s IH eq_refl eq_refl).
    destruct ok; [|apply sources_log; [exact IH|exact I]].
    destruct (sources_keep s0 es (Measure true) s s IH eq_refl eq_refl) as (_ & HL). split; [|exact HL].
    cbn. exists es, [Measure true]. rewrite <- Es. auto.
  - cbn [winch_step]. destruct (at_ s) eqn:Ea; try exact (sources_keep s0 es (Send ok) s s IH eq_refl eq_refl).
    destruct ok; [|apply sources_log; [exact IH|exact I]].
    destruct (sources_keep s0 es (Send true) s s IH eq_refl eq_refl) as (_ & HL). split; [|exact HL].
    cbn. destruct IH as (HA & _). rewrite Ea in HA. destruct HA as (a & b & E & Hz).
    exists a, b, [Send true]. rewrite app_assoc, <- E, <- Es. auto.
  - cbn [winch_step]. destruct (at_ s) eqn:Ea; try exact (sources_keep s0 es (Reply r) s s IH eq_refl eq_refl).
    apply sources_log; [exact IH|]. destruct r; [|exact I]. destruct IH as (HA & _). rewrite Ea in HA. apply report_seen_more. exact HA.
Qed.
