From Coq Require Import List NArith Bool Lia.
From Verif Require Import Model.Base Model.Protocol Model.ShellToClient Model.Winch Model.Window Spec.WinchSpec Spec.OutputSpec Spec.WindowSpec
  Proofs.WinchProofs.
Import ListNotations.

Definition zero := mkSize 0 0 0 0.
Definition event_sizes (ev : s2c_event) : list tty_size :=
  match ev with First m _ _ => first_size m | Iter it => iter_size it end.
Definition target (j : journey) : tty_size :=
  match held j with Some z => z | None => last (flat_map event_sizes (life j)) zero end.

Definition coming (s : winch) : Prop :=
  signalled s = true \/
  match at_ s with
  | Dialling | Connected => True
  | Measured z | Asked _ z => z = size_now s
  | Idle => False
  end.

Record fine (j : journey) : Prop := {
  f_measured : measured_ok (user j);
  f_life : past_ok (life j);
  f_pager : pager j <> NoPager -> held j <> None;
  f_handed : attach_sent (user j) = true -> held j = None -> life j <> [];
  f_coming : attach_sent (user j) = true -> all_heard (log (user j)) -> coming (user j) \/ target j = size_now (user j) }.

Lemma past_snoc past it : past_ok past -> past <> [] -> past_ok (past ++ [Iter it]).
Proof.
  intros [->|(m & now & ok & its & ->)] N; [congruence|]. right. exists m, now, ok, (its ++ [it]). rewrite map_app. reflexivity.
Qed.

Lemma sizes_snoc l ev d : last (flat_map event_sizes (l ++ [ev])) d = last (event_sizes ev) (last (flat_map event_sizes l) d).
Proof.
  rewrite flat_map_app. cbn [flat_map]. rewrite app_nil_r. generalize (event_sizes ev). generalize (flat_map event_sizes l). intros a b.
  destruct b as [|x b] using rev_ind; [rewrite app_nil_r; reflexivity|]. rewrite app_assoc, !last_last. reflexivity.
Qed.

Lemma iter_sizes_with it c : event_sizes (Iter (with_sel it c)) = match c with SelConn (NewConn _ z) => [z] | SelSize z => [z] | _ => [] end.
Proof. reflexivity. Qed.

(** A step of the client alone. *)
Lemma client_coming s e t : match e with SizeChange _ | Take | Dial _ | Measure _ | Send _ => True | _ => False end ->
  measured_ok s -> (attach_sent s = true -> all_heard (log s) -> coming s \/ t = size_now s) ->
  let s' := winch_step s e in
  measured_ok s' /\ attach_sent s' = attach_sent s /\ (attach_sent s' = true -> all_heard (log s') -> coming s' \/ t = size_now s').
Proof.
  intros He HM HK. destruct s as [z n se sg a l]. unfold measured_ok, coming in *. cbn [size_now slot_name attach_sent signalled at_ log] in *.
  destruct e as [z'|n'| | |ok|ok|ok|r]; try contradiction; cbn zeta.
  - cbn. repeat split; [destruct a; auto|]. intros _ _. left. left. reflexivity.
  - destruct a; cbn [winch_step at_ signalled]; try (repeat split; assumption).
    destruct sg; cbn; repeat split; auto.
  - destruct a; cbn [winch_step at_]; try (repeat split; assumption). destruct ok; cbn; repeat split; auto.
    intros Hs Hh. exfalso. exact (Hh MFailed ltac:(apply in_or_app; right; left; reflexivity)).
  - destruct a; cbn [winch_step at_]; try (repeat split; assumption). destruct ok; cbn; repeat split; auto.
    intros Hs Hh. exfalso. exact (Hh MFailed ltac:(apply in_or_app; right; left; reflexivity)).
  - destruct a as [| | |zm|]; cbn [winch_step at_]; try (repeat split; assumption). destruct ok; cbn; repeat split; auto.
    intros Hs Hh. exfalso. exact (Hh MFailed ltac:(apply in_or_app; right; left; reflexivity)).
Qed.

(** A report that comes to nothing. *)
Lemma fails_coming s r t : r <> Some ReportOk ->
  measured_ok s -> (attach_sent s = true -> all_heard (log s) -> coming s \/ t = size_now s) ->
  let s' := winch_step s (Reply r) in
  measured_ok s' /\ attach_sent s' = attach_sent s /\ (attach_sent s' = true -> all_heard (log s') -> coming s' \/ t = size_now s').
Proof.
  intros Hr HM HK. cbn zeta. destruct s as [z n se sg a l]. destruct a as [| | | |na za]; cbn [winch_step at_]; try (repeat split; assumption).
  cbn. repeat split. intros Hs Hh. exfalso.
  specialize (Hh (match r with Some o => MReport na za o | None => MFailed end) ltac:(apply in_or_app; right; left; reflexivity)).
  destruct r as [[| |]|]; contradiction.
Qed.

(** A report that is taken up and reaches [t]. *)
Lemma heard_coming s (heard : bool) n z : at_ s = Asked n z -> measured_ok s ->
  let s' := winch_step s (Reply (if heard then Some ReportOk else None)) in
  measured_ok s' /\ attach_sent s' = attach_sent s /\ (attach_sent s' = true -> all_heard (log s') -> coming s' \/ z = size_now s').
Proof.
  intros Ha HM. cbn zeta. destruct s as [z0 n0 se sg a l]. cbn in Ha. subst a. unfold measured_ok in *. cbn in HM.
  destruct heard; cbn; repeat split.
  - intros _ _. destruct HM as [HM|HM]; [right; exact HM|left; left; exact HM].
  - intros _ Hh. exfalso. exact (Hh MFailed ltac:(apply in_or_app; right; left; reflexivity)).
Qed.

Lemma fine_step j h : fine j -> alone h -> ~ too_early j h -> fine (happens j h).
Proof.
  intros [HM HL HP HH HC] Ha Ht.
  destruct h as [e| | | | |id now ok it|it heard| | |it]; cbn [happens].
  - assert (G : match e with SizeChange _ | Take | Dial _ | Measure _ | Send _ => True | _ => False end ->
       fine (mkJourney (winch_step (user j) e) (held j) (pager j) (life j))).
    { intros He. destruct (client_coming (user j) e (target j) He HM HC) as (A & B & C). constructor; cbn [user held pager life]; auto; rewrite B; exact HH. }
    destruct e; try (apply G; exact I); constructor; assumption.
  - destruct (held j) as [z|] eqn:Hh; [constructor; rewrite ?Hh; assumption|].
    destruct (attach_sent (user j)) eqn:Hs; [constructor; rewrite ?Hh; try assumption; rewrite Hs; assumption|].
    destruct (user j) as [z n se sg a l] eqn:Eu. cbn [winch_step]. constructor; cbn [user held pager life]; auto; try discriminate.
  - destruct (held j) as [z|] eqn:Hh; [|constructor; rewrite ?Hh; assumption].
    destruct (pager j); constructor; cbn [user held pager life]; rewrite ?Hh; try assumption; try discriminate; unfold target in *; cbn [held life]; rewrite Hh in HC; exact HC.
  - destruct (pager j) eqn:Ep; [constructor; rewrite ?Ep; assumption| |constructor; rewrite ?Ep; assumption].
    constructor; cbn [user held pager life]; try assumption. intros _. apply HP. discriminate.
  - destruct (pager j) eqn:Ep; [constructor; rewrite ?Ep; assumption|constructor; rewrite ?Ep; assumption|].
    constructor; cbn [user held pager life]; try assumption. congruence.
  - destruct (held j) as [z|] eqn:Hh; [|constructor; rewrite ?Hh; assumption].
    destruct (pager j) eqn:Ep; [|constructor; rewrite ?Ep, ?Hh; assumption|constructor; rewrite ?Ep, ?Hh; assumption].
    constructor; cbn [user held pager life]; try assumption.
    + destruct (life j) as [|x l] eqn:El; [right; exists (Some (NewConn id z)), now, ok, []; reflexivity|]. apply past_snoc; [exact HL|discriminate].
    + congruence.
    + intros _ _ E. apply app_eq_nil in E as (_ & E). discriminate.
    + intros Hs Hl. unfold target in *. cbn [held life] in *. rewrite sizes_snoc.
      rewrite Hh in HC. specialize (HC Hs Hl). destruct (life j); cbn [event_sizes first_size iter_size with_sel sel last]; exact HC.
  - destruct (at_ (user j)) as [| | |zm|n z] eqn:Eat; try (constructor; assumption). cbv zeta.
    destruct (heard_coming (user j) heard n z Eat HM) as (A & B & C). cbn zeta in *.
    destruct (pager j) eqn:Ep.
    + destruct (life j) as [|x l] eqn:El; [constructor; rewrite ?El, ?Ep; assumption|].
      destruct (held j) as [zh|] eqn:Hh.
      { exfalso. apply Ht. cbn [too_early]. rewrite Ep, El, Hh. split; discriminate. }
      constructor; cbn [user held pager life]; auto.
      * apply past_snoc; [exact HL|discriminate].
      * intros _ _ E. apply app_eq_nil in E as (_ & E). discriminate.
      * unfold target. cbn [held life]. rewrite sizes_snoc. exact C.
    + assert (Hh : exists zh, held j = Some zh) by (destruct (held j); [eauto|exfalso; apply HP; [discriminate|reflexivity]]).
      destruct Hh as (zh & Hh). rewrite Hh. cbn [option_map].
      constructor; cbn [user held pager life]; auto; try discriminate.
    + exfalso. apply Ht. cbn [too_early]. rewrite Ep. split; [apply HP; discriminate|exact I].
  - destruct (fails_coming (user j) (Some ReportNotFound) (target j) ltac:(discriminate) HM HC) as (A & B & C).
    constructor; cbn [user held pager life]; auto; rewrite B; exact HH.
  - destruct (fails_coming (user j) None (target j) ltac:(discriminate) HM HC) as (A & B & C).
    constructor; cbn [user held pager life]; auto; rewrite B; exact HH.
  - destruct (life j) as [|x l] eqn:El; [constructor; rewrite ?El; assumption|].
    constructor; cbn [user held pager life]; auto.
    + apply past_snoc; [exact HL|discriminate].
    + intros _ _ E. apply app_eq_nil in E as (_ & E). discriminate.
    + unfold target in *. cbn [held life]. cbn [alone] in Ha. rewrite sizes_snoc. cbn [event_sizes]. rewrite Ha. cbn [last]. rewrite El in HC. exact HC.
Qed.

Lemma fine_start z name past : past_ok past -> fine (set_out z name past).
Proof. intros H. constructor; cbn; auto; try discriminate; congruence. Qed.

Lemma fine_run l : forall j, fine j -> Forall alone l -> never too_early j l -> fine (travel j l).
Proof.
  induction l as [|h l IH]; intros j F A N; [exact F|]. inversion A; subst. destruct N as (N1 & N2). cbn [travel fold_left].
  apply IH; [apply fine_step; assumption|assumption|assumption].
Qed.

Lemma fine_settled j : fine j -> settled_in j ->
  exists m now ok its, life j = First m now ok :: map Iter its /\ last (size_requests m its) zero = size_now (user j).
Proof.
  intros [HM HL HP HH HC] (S1 & S2 & S3 & S4 & S5). destruct HL as [E|(m & now & ok & its & E)]; [exfalso; exact (HH S1 S2 E)|].
  exists m, now, ok, its. split; [exact E|]. destruct (HC S1 S5) as [[C|C]|C]; [congruence|rewrite S4 in C; contradiction|].
  unfold target in C. rewrite S2, E in C. cbn [flat_map event_sizes] in C. unfold size_requests.
  replace (flat_map iter_size its) with (flat_map event_sizes (map Iter its)); [exact C|].
  clear. induction its as [|it its IH]; [reflexivity|]. cbn [map flat_map event_sizes]. rewrite IH. reflexivity.
Qed.

(** From anywhere, the rest of the way. *)
Lemma travel_app j a b : travel j (a ++ b) = travel (travel j a) b.
Proof. unfold travel. apply fold_left_app. Qed.
Lemma never_app P a b j : never P j (a ++ b) <-> never P j a /\ never P (travel j a) b.
Proof.
  revert j. induction a as [|h a IH]; intros j; cbn [app never travel fold_left]; [tauto|]. rewrite IH. unfold travel. tauto.
Qed.

Definition to_session (it : iter) : list happening := [PagerDone; PagerOff; HandOver 0 0 true it].
Definition to_daemon (it : iter) : list happening := [Client (Dial true); Client (Measure true); Client (Send true); Report it true].
Definition the_rest (it : iter) : list happening := to_session it ++ to_daemon it ++ Client Take :: to_daemon it.

Lemma to_session_done it j : attach_sent (user j) = true -> fine j ->
  let j' := travel j (to_session it) in user j' = user j /\ held j' = None /\ pager j' = NoPager /\ life j' <> [].
Proof.
  intros Hs [HM HL HP HH HC]. cbn zeta. destruct j as [u h p l]. cbn [user held pager life] in *. cbn [travel to_session fold_left happens].
  destruct p, h as [z|]; cbn [happens held pager user life] in *; try (exfalso; apply HP; [discriminate|reflexivity]);
    repeat split; try (intros E; apply app_eq_nil in E as (_ & E); discriminate); auto.
Qed.
Lemma to_daemon_done it u l : l <> [] ->
  exists l', travel (mkJourney u None NoPager l) (to_daemon it) =
    mkJourney (match at_ u with
               | Idle => u
               | Dialling | Connected => mkWinch (size_now u) (slot_name u) (attach_sent u) (signalled u) Idle (log u ++ [MReport (slot_name u) (size_now u) ReportOk])
               | Measured z => mkWinch (size_now u) (slot_name u) (attach_sent u) (signalled u) Idle (log u ++ [MReport (slot_name u) z ReportOk])
               | Asked n z => mkWinch (size_now u) (slot_name u) (attach_sent u) (signalled u) Idle (log u ++ [MReport n z ReportOk])
               end) None NoPager l' /\ l' <> [].
Proof.
  intros N. destruct l as [|x l]; [congruence|]. destruct u as [z n se sg a lg]. destruct a; cbn [travel to_daemon fold_left happens user held pager life winch_step at_ at_step finish size_now slot_name attach_sent signalled log Winch.log app];
    eexists; (split; [reflexivity|]); discriminate.
Qed.

Lemma heard_snoc l n z : all_heard l -> all_heard (l ++ [MReport n z ReportOk]).
Proof. intros H x Hx. apply in_app_or in Hx as [Hx|[<-|[]]]; [apply H; exact Hx|exact I]. Qed.

Lemma rest_settles it j : fine j -> attach_sent (user j) = true -> all_heard (log (user j)) ->
  settled_in (travel j (the_rest it)) /\ size_now (user (travel j (the_rest it))) = size_now (user j).
Proof.
  intros F Hs Hh. unfold the_rest. rewrite !travel_app. destruct (to_session_done it j Hs F) as (A & B & C & D).
  destruct (travel j (to_session it)) as [u h p l]. cbn [user held pager life] in A, B, C, D. subst u h p.
  destruct (to_daemon_done it (user j) l D) as (l' & -> & D').
  change (Client Take :: to_daemon it) with ([Client Take] ++ to_daemon it). rewrite travel_app.
  set (u1 := match at_ (user j) with Idle => user j | Dialling | Connected => _ | Measured z => _ | Asked n z => _ end).
  assert (U : at_ u1 = Idle /\ all_heard (log u1) /\ attach_sent u1 = true /\ size_now u1 = size_now (user j)).
  { subst u1. destruct (at_ (user j)) eqn:E; cbn; repeat split; auto; apply heard_snoc; exact Hh. }
  clearbody u1. destruct U as (U1 & U2 & U3 & U4). destruct u1 as [z1 n1 se1 sg1 a1 lg1]. cbn in U1, U2, U3, U4. subst a1 se1.
  replace (travel (mkJourney (mkWinch z1 n1 true sg1 Idle lg1) None NoPager l') [Client Take])
    with (mkJourney (mkWinch z1 n1 true false (if sg1 then Dialling else Idle) lg1) None NoPager l') by (destruct sg1; reflexivity).
  destruct sg1.
  - destruct (to_daemon_done it (mkWinch z1 n1 true false Dialling lg1) l' D') as (l2 & E & D2). rewrite E.
    cbn [at_]. unfold settled_in. cbn. repeat split; auto. apply heard_snoc. exact U2.
  - destruct (to_daemon_done it (mkWinch z1 n1 true false Idle lg1) l' D') as (l2 & E & D2). rewrite E.
    cbn [at_]. unfold settled_in. cbn. repeat split; auto.
Qed.

Lemma in_time_step j h : held j = None -> h <> Request -> held (happens j h) = None /\ (~ too_early j h).
Proof.
  intros H N. split; [|destruct h; cbn [too_early]; try tauto; intros [A _]; congruence].
  destruct h as [e| | | | |id now ok it|it heard| | |it]; cbn [happens];
    repeat match goal with |- context [match ?x with _ => _ end] => destruct x eqn:? end; cbn [held option_map] in *; try congruence; rewrite H; reflexivity.
Qed.
Lemma in_time l : forall j, held j = None -> Forall (fun h => h <> Request) l -> never too_early j l.
Proof.
  induction l as [|h l IH]; intros j H F; [exact I|]. inversion F; subst. destruct (in_time_step j h H ltac:(assumption)) as (A & B).
  split; [exact B|]. apply IH; assumption.
Qed.

Lemma rest_in_time it j : fine j -> attach_sent (user j) = true -> never too_early j (the_rest it).
Proof.
  intros F Hs. unfold the_rest. apply never_app. split.
  - cbn. tauto.
  - destruct (to_session_done it j Hs F) as (_ & B & _). apply in_time; [exact B|]. cbn. repeat constructor; discriminate.
Qed.

Lemma done_in_time : forall l j, held j = None -> attach_sent (user j) = true -> never too_early j l.
Proof.
  induction l as [|h l IH]; intros j H S; [exact I|]. split; [destruct h; cbn [too_early]; try tauto; intros [A _]; congruence|].
    apply IH.
    - destruct (match h with Request => true | _ => false end) eqn:E.
      + destruct h; try discriminate. cbn [happens]. rewrite H, S. exact H.
      + apply in_time_step; [exact H|destruct h; discriminate].
    - assert (K : forall u e, attach_sent u = true -> match e with Rename _ => False | _ => True end -> attach_sent (winch_step u e) = true).
      { clear. intros [z n se sg a lg] e Hs He. cbn in Hs. subst se. destruct e as [z'|n'| | |ok|ok|ok|r]; try contradiction; destruct a; cbn; try reflexivity;
          try (destruct sg; reflexivity); try (destruct ok; reflexivity). }
      destruct h as [e| | | | |id now ok it|it heard| | |it]; cbn [happens]; cbv zeta;
        repeat match goal with |- context [match ?x with _ => _ end] => destruct x eqn:? end; cbn [user]; try assumption; try discriminate; apply K; try assumption; exact I.
Qed.

(** A new session without a pager. *)
Lemma fresh_in_time l : forall j, life j = [] -> pager j = NoPager -> (attach_sent (user j) = true <-> held j <> None) ->
  ~ In PagerUp l -> never too_early j l.
Proof.
  induction l as [|h l IH]; intros j L P S N; [exact I|]. split.
  { destruct h; cbn [too_early]; try tauto. rewrite P, L. intros [_ X]. congruence. }
  assert (N' : ~ In PagerUp l) by (intros X; apply N; right; exact X).
  assert (Sent : forall u e, match e with Rename _ | AttachSent => False | _ => True end -> attach_sent (winch_step u e) = attach_sent u).
  { clear. intros [z n se sg a lg] e He. destruct e as [z'|n'| | |ok|ok|ok|r]; try contradiction; destruct a; cbn; try reflexivity;
          try (destruct sg; reflexivity); try (destruct ok; reflexivity). }
  destruct h as [e| | | | |id now ok it|it heard| | |it].
  - cbn [happens]. destruct e; try (apply IH; assumption); apply IH; cbn [life pager user held]; rewrite ?Sent by exact I; assumption.
  - cbn [happens]. destruct (held j) as [z|] eqn:Hh; [apply IH; try assumption; rewrite Hh; exact S|]. destruct (attach_sent (user j)) eqn:Hs.
    + exfalso. apply S; reflexivity.
    + apply IH; cbn [life pager held]; try assumption. split; [discriminate|intros _]. destruct (user j); reflexivity.
  - exfalso. apply N. left. reflexivity.
  - cbn [happens]. rewrite P. apply IH; assumption.
  - cbn [happens]. rewrite P. apply IH; assumption.
  - cbn [happens]. destruct (held j) as [z|] eqn:Hh; [|apply IH; try assumption; rewrite Hh; exact S]. rewrite P.
    apply done_in_time; [reflexivity|]. cbn [user]. apply S. discriminate.
  - cbn [happens]. destruct (at_ (user j)); try (apply IH; assumption). rewrite P, L. apply IH; assumption.
  - cbn [happens]. apply IH; cbn [life pager user held]; rewrite ?Sent by exact I; assumption.
  - cbn [happens]. apply IH; cbn [life pager user held]; rewrite ?Sent by exact I; assumption.
  - cbn [happens]. rewrite L. apply IH; assumption.
Qed.

(** What holds even when a report came too early. *)
Record sound (j : journey) : Prop := {
  n_measured : measured_ok (user j);
  n_life : past_ok (life j);
  n_pager : pager j <> NoPager -> held j <> None;
  n_handed : attach_sent (user j) = true -> held j = None -> life j <> [] }.

Lemma measured_step u e : measured_ok u -> measured_ok (winch_step u e).
Proof.
  destruct u as [z n se sg a lg]. unfold measured_ok. intros H. destruct e as [z'|n'| | |ok|ok|ok|r]; destruct a; cbn in *; auto;
    try (destruct sg; cbn; auto); try (destruct ok; cbn; auto).
Qed.
Lemma sent_step u e : match e with Rename _ | AttachSent => False | _ => True end -> attach_sent (winch_step u e) = attach_sent u.
Proof.
  destruct u as [z n se sg a lg]. intros He. destruct e as [z'|n'| | |ok|ok|ok|r]; try contradiction; destruct a; cbn; try reflexivity;
    try (destruct sg; reflexivity); try (destruct ok; reflexivity).
Qed.

Lemma sound_step j h : sound j -> sound (happens j h).
Proof.
  intros [HM HL HP HH].
  assert (Same : sound j) by (constructor; assumption).
  assert (U : forall e, match e with Rename _ | AttachSent => False | _ => True end ->
                sound (mkJourney (winch_step (user j) e) (held j) (pager j) (life j))).
  { intros e He. constructor; cbn [user held pager life]; [apply measured_step; exact HM|exact HL|exact HP|rewrite sent_step by exact He; exact HH]. }
  assert (SN : forall (l : list s2c_event) x, l ++ [x] <> []) by (intros l x E; apply app_eq_nil in E as (_ & E); discriminate).
  destruct h as [e| | | | |id now ok it|it heard| | |it]; cbn [happens]; try (apply U; exact I).
  - destruct e; try exact Same; apply U; exact I.
  - destruct (held j) as [z|] eqn:Hh; [exact Same|]. destruct (attach_sent (user j)) eqn:Hs; [exact Same|].
    constructor; cbn [user held pager life]; [apply measured_step; exact HM|exact HL|discriminate|discriminate].
  - destruct (held j) as [z|] eqn:Hh; [|exact Same]. destruct (pager j); try exact Same.
    constructor; cbn [user held pager life]; auto; discriminate.
  - destruct (pager j) eqn:Ep; try exact Same. constructor; cbn [user held pager life]; auto. intros _. apply HP. discriminate.
  - destruct (pager j) eqn:Ep; try exact Same. constructor; cbn [user held pager life]; auto; congruence.
  - destruct (held j) as [z|] eqn:Hh; [|exact Same]. destruct (pager j) eqn:Ep; try exact Same.
    constructor; cbn [user held pager life]; auto.
    destruct (life j) as [|x l] eqn:El; [right; exists (Some (NewConn id z)), now, ok, []; reflexivity|]. apply past_snoc; [exact HL|discriminate].
  - destruct (at_ (user j)) as [| | |zm|n z] eqn:Eat; try exact Same. cbv zeta.
    assert (T : forall h p l, past_ok l -> (p <> NoPager -> h <> None) -> (attach_sent (user j) = true -> h = None -> l <> []) ->
      sound (mkJourney (winch_step (user j) (Reply (if heard then Some ReportOk else None))) h p l)).
    { intros h p l A B C. constructor; cbn [user held pager life]; [apply measured_step; exact HM|exact A|exact B|rewrite sent_step by exact I; exact C]. }
    destruct (pager j) eqn:Ep.
    + destruct (life j) as [|x l] eqn:El; [exact Same|]. apply T; [apply past_snoc; [exact HL|discriminate]|congruence|intros _ _; apply SN].
    + assert (Hh : held j <> None) by (apply HP; discriminate). apply T; [exact HL| |]; destruct (held j); cbn; congruence.
    + apply T; assumption.
  - destruct (life j) as [|x l] eqn:El; [exact Same|]. constructor; cbn [user held pager life]; auto. apply past_snoc; [exact HL|discriminate].
Qed.
Lemma sound_run l : forall j, sound j -> sound (travel j l).
Proof. induction l as [|h l IH]; intros j S; [exact S|]. cbn [travel fold_left]. apply IH, sound_step, S. Qed.
Lemma sound_start z name past : past_ok past -> sound (set_out z name past).
Proof. intros H. constructor; cbn; auto; try discriminate; congruence. Qed.

(** Once the attach is over, a change of size starts afresh. *)
Lemma sound_change j z : sound j -> fine (happens j (Client (SizeChange z))).
Proof.
  intros S. destruct (sound_step j (Client (SizeChange z)) S) as [A B C D]. constructor; auto. intros _ _. left. left.
  cbn [happens user]. destruct (user j); reflexivity.
Qed.

Lemma last_cons {A} (a : A) l d : last (a :: l) d = last l a.
Proof. revert a d. induction l as [|b l IH]; intros a d; [reflexivity|]. change (last (a :: b :: l) d) with (last (b :: l) d). rewrite !IH. reflexivity. Qed.
Lemma size_is l : forall j, size_now (user (travel j l)) = terminal (size_now (user j)) l.
Proof.
  assert (K : forall u e, match e with SizeChange _ => False | _ => True end -> size_now (winch_step u e) = size_now u).
  { clear. intros [z n se sg a lg] e He. destruct e as [z'|n'| | |ok|ok|ok|r]; try contradiction; destruct a; cbn; try reflexivity;
      try (destruct sg; reflexivity); try (destruct ok; reflexivity). }
  induction l as [|h l IH]; intros j; [reflexivity|]. cbn [travel fold_left]. change (fold_left happens l (happens j h)) with (travel (happens j h) l). rewrite IH.
  unfold terminal. cbn [flat_map].
  assert (H : size_now (user (happens j h)) = match h with Client (SizeChange y) => y | _ => size_now (user j) end).
  { destruct h as [e| | | | |id now ok it|it heard| | |it]; cbn [happens]; cbv zeta;
      repeat match goal with |- context [match ?x with _ => _ end] => destruct x eqn:? end; cbn [user]; try reflexivity; try (apply K; exact I). }
  rewrite H. destruct h as [[]| | | | | | | | |]; cbn [app]; try reflexivity. rewrite last_cons. reflexivity.
Qed.
