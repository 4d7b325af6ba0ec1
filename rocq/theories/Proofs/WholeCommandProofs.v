(** Proofs about a command and the daemon it talks to, for C80. *)
From Coq Require Import String List NArith ZArith Bool Arith Lia.
From Verif Require Import Model.Base Model.Protocol Model.Msgpack Model.Messages Model.UserInfo Model.AttachClient Model.Commands
  Spec.MessagesSpec Spec.UserInfoSpec Spec.WireSpec Spec.ServerSpec Spec.HandshakeSpec Proofs.BaseLemmas Proofs.UserInfoProofs Proofs.WireProofs
  Proofs.ServerProofs Proofs.ServerMoves Proofs.ServerGossip Proofs.HandshakeProofs Proofs.WholeServer Model.WholeCommand Spec.WholeCommandSpec.
From Verif Require Model.Server Model.Handshake Proofs.FollowingProofs Proofs.ServerCounts Properties.C18_Kill Properties.C19_List Properties.C26_Variables Properties.C46_DetachReply.
Import ListNotations.
Open Scope N_scope.

(** *** Strings on the wire *)
Lemma utf8_encodes ch bs r : encodes ch bs -> utf8 (bs ++ r) = utf8 r.
Proof.
  unfold scalar. intros E. destruct E; cbn [app utf8]; unfold cont;
    repeat match goal with |- context [?a <=? ?b] => destruct (N.leb_spec a b); try (exfalso; unfold scalar in *; lia) | |- context [?a =? ?b] => destruct (N.eqb_spec a b); try (exfalso; unfold scalar in *; lia) end;
    cbn [andb]; reflexivity.
Qed.
Lemma utf8_text cs s : utf8_of cs s -> utf8 s = true.
Proof. induction 1 as [|ch bs cs rest E _ IH]; [reflexivity|]. rewrite (utf8_encodes _ _ _ E). exact IH. Qed.
Lemma rust_text s : rust s -> text (str_bytes s).
Proof. intros [A B]. split; [|exact B]. eapply utf8_text, str_bytes_utf8. exact A. Qed.
Lemma rust_back s : rust s -> lossy (str_bytes s) = s.
Proof. intros [A _]. apply lossy_text, str_bytes_utf8. exact A. Qed.

Lemma many_text l : many rust l -> many text (map str_bytes l).
Proof. intros [A B]. split; [|rewrite map_length; exact B]. apply Forall_map. eapply Forall_impl; [|exact A]. apply rust_text. Qed.
Lemma strings_back l : Forall rust l -> strings (map vstr l) = Some l.
Proof.
  induction 1 as [|s l H _ IH]; [reflexivity|]. unfold strings in *. cbn. unfold vstr in *. rewrite rust_back by exact H. rewrite IH. reflexivity.
Qed.

(** *** What is asked *)
Lemma wish_meant current cmd q : meant current cmd q -> exists v, wish current cmd = Some v /\
  (speakable q -> has_type connect_header v /\ request_of v = Some q).
Proof.
  assert (T : forall named names, targets current named names -> resolve_sessions named current = Some names) by (intros ? ? []; [reflexivity|subst; reflexivity]).
  assert (M : forall names, map vstr names = map VStr (map str_bytes names)) by (intros; rewrite map_map; reflexivity).
  destruct 1; cbn [wish]; try (rewrite (T _ _ H); cbn [option_map]); eexists; (split; [reflexivity|]); intros S; cbn [speakable] in S.
  - split; [exact (t_request ListSessions I)|reflexivity].
  - split; [rewrite M; exact (t_request (Kill _) (many_text _ S))|]. cbn. rewrite (strings_back _ (proj1 S)). reflexivity.
  - split; [rewrite M; exact (t_request (Detach _) (many_text _ S))|]. cbn. rewrite (strings_back _ (proj1 S)). reflexivity.
  - split; [exact (t_request GetVars I)|reflexivity].
  - split; [exact (t_request GetVars I)|reflexivity].
  - destruct S as [S1 S2]. cbn [maybe] in S2. split; [exact (t_request (SetVar (str_bytes var) (str_bytes val)) (conj (rust_text _ S1) (rust_text _ S2)))|].
    cbn. rewrite !rust_back by assumption. reflexivity.
  - destruct S as [S1 _]. split; [exact (t_request (UnsetVar (str_bytes var)) (rust_text _ S1))|]. cbn. rewrite !rust_back by assumption. reflexivity.
Qed.
Lemma wish_none current cmd : wish current cmd = None <-> forall q, ~ meant current cmd q.
Proof.
  split.
  - intros E q M. destruct (wish_meant _ _ _ M) as (v & V & _). congruence.
  - intros N. destruct (wish current cmd) eqn:E; [|reflexivity]. exfalso. destruct cmd as [|[|n ns]|[|n ns]|[]]; cbn in E.
    + eapply N; constructor.
    + destruct current; [|discriminate]. eapply N; constructor; constructor; reflexivity.
    + eapply N; constructor; constructor.
    + destruct current; [|discriminate]. eapply N; constructor; constructor; reflexivity.
    + eapply N; constructor; constructor.
    + eapply N; constructor.
    + eapply N; constructor.
    + eapply N; constructor.
    + eapply N; constructor.
Qed.
Lemma meant_plain current cmd q : meant current cmd q -> match q with Server.QAttach _ | Server.QMessageDetach _ => False | _ => True end.
Proof. destruct 1; exact I. Qed.
Lemma answer_known cmd : In (answer_type cmd) messages.
Proof. destruct cmd as [| | |[]]; unfold messages, answer_type; cbn; tauto. Qed.
Lemma answer_some cmd : exists a, has_type (answer_type cmd) a.
Proof.
  destruct cmd as [| | |[]]; cbn [answer_type]; eexists.
  - apply (t_reply (Sessions [])). split; [constructor|cbn; lia].
  - apply (t_reply (KillFailed [])). split; [constructor|cbn; lia].
  - apply (t_reply (DetachFailed [] [])). split; (split; [constructor|cbn; lia]).
  - apply (t_reply (Switch None [])). split; [exact I|]. split; [constructor|cbn; lia].
  - apply (t_reply (Switch None [])). split; [exact I|]. split; [constructor|cbn; lia].
  - apply (t_reply WireSpec.VarSet). exact I.
  - apply (t_reply WireSpec.VarSet). exact I.
Qed.

(** *** The replies as messages *)
Lemma many_filter (f : rstr -> bool) l : many rust l -> many rust (filter f l).
Proof.
  intros [A B]. split.
  - rewrite Forall_forall in *. intros x H. apply filter_In in H as [H _]. auto.
  - assert (length (filter f l) <= length l)%nat by (clear; induction l as [|x l IH]; cbn; [lia|destruct (f x); cbn; lia]). lia.
Qed.
Lemma map_opt_length {A B} (f : A -> option B) l : forall m, map_opt f l = Some m -> length m = length l.
Proof.
  induction l as [|x l IH]; intros m E; cbn in E; [injection E as <-; reflexivity|]. destruct (f x); [|discriminate]. destruct (map_opt f l); [|discriminate].
  injection E as <-. cbn. rewrite (IH l0 eq_refl). reflexivity.
Qed.
Lemma map_opt_in {A B} (f : A -> option B) l : forall m, map_opt f l = Some m -> forall y, In y m -> exists x, In x l /\ f x = Some y.
Proof.
  induction l as [|x l IH]; intros m E y H; cbn in E; [injection E as <-; destruct H|]. destruct (f x) eqn:Fx; [|discriminate]. destruct (map_opt f l); [|discriminate].
  injection E as <-. destruct H as [<-|H]; [exists x; split; [left; reflexivity|exact Fx]|]. destruct (IH _ eq_refl _ H) as (z & Z & Fz). exists z. split; [right; exact Z|exact Fz].
Qed.
Definition line_as (i : Server.session_info) : session_line :=
  {| l_name := str_bytes (Server.i_name i); l_started := Server.i_started i; l_connected := Server.i_connected i; l_disconnected := Server.i_disconnected i;
     l_attached := Server.i_attached i; l_attachments := map (fun a => (str_bytes (fst a), snd a)) (Server.i_attachments i) |}.
Lemma session_value_line i : session_value i = line_message (line_as i).
Proof. unfold session_value, line_message, line_as. cbn. rewrite map_map. reflexivity. Qed.

Lemma list_typed st ls : reachable st -> tellable st -> map_opt (Server.list_entry st) (Server.table st) = Some ls ->
  reply_ok (Sessions (map line_as ls)) /\ Forall (fun i => rust (Server.i_name i)) ls.
Proof.
  intros R (_ & L & T) E. cbn [reply_ok]. assert (G : forall i, In i ls -> line_ok (line_as i) /\ rust (Server.i_name i)).
  { intros i Hi. destruct (map_opt_in _ _ _ E i Hi) as ([n s] & Hin & He). unfold Server.list_entry in He. cbn [fst snd] in He.
    destruct (Server.session_at st s) as [x|] eqn:Hx; [|discriminate]. apply C19_List.info_fields in He. subst i.
    assert (Hl : listed st n s) by (apply FollowingProofs.lookup_in_nodup; [apply ServerCounts.nodup_run; exact R|exact Hin]).
    destruct (T n s x Hl Hx) as (T1 & T2 & T3 & T4 & T5). split; [|exact T1]. unfold line_ok, line_as. cbn [l_name l_started l_connected l_disconnected l_attachments Server.i_name Server.i_started Server.i_connected Server.i_disconnected Server.i_attachments].
    split; [apply rust_text; exact T1|]. split; [exact T2|]. split; [exact T3|]. split; [exact T4|].
    destruct (Server.s_attachment x) as [w|]; cbn in *; (split; [|cbn; lia]); repeat constructor; cbn; try (apply rust_text; tauto); lia. }
  split; [split|].
  - apply Forall_map, Forall_forall. intros i Hi. apply G. exact Hi.
  - rewrite map_length, (map_opt_length _ _ _ E). exact L.
  - apply Forall_forall. intros i Hi. apply G. exact Hi.
Qed.

Lemma which_many f names fates : many rust names -> many rust (C46_DetachReply.which f names fates).
Proof.
  intros [A B]. unfold C46_DetachReply.which. split.
  - apply Forall_map, Forall_forall. intros [n x] H. apply filter_In in H as [H _]. apply in_combine_l in H. rewrite Forall_forall in A. apply A. exact H.
  - rewrite map_length. set (g := fun p : rstr * C46_DetachReply.fate => C46_DetachReply.fate_eqb (snd p) f).
    assert (length (filter g (combine names fates)) <= length (combine names fates))%nat by (generalize (combine names fates); clear; intros l; induction l as [|x l IH]; cbn; [lia|destruct (g x); cbn; lia]).
    rewrite combine_length in H. lia.
Qed.

(** *** The two programs together *)
Section Whole.
  Variables (unreadable : ty -> list byte -> bool) (version : rstr) (self other : Server.peer) (own_version : rstr)
            (c : Server.conn) (current : option rstr) (cmd : command) (defaults : list (rstr * rstr)).
  Notation act := (act unreadable self other own_version c current cmd).
  Notation acts := (acts unreadable version self other own_version c current cmd defaults).
  Notation rn := (Server.run (Server.server_new defaults)).
  Notation reply_to := (reply_to c).

  Lemma acts_snoc l d : acts (l ++ [d]) = act (acts l) d.
  Proof. unfold WholeCommand.acts. rewrite fold_left_app. reflexivity. Qed.
  Lemma acts_app l m : acts (l ++ m) = fold_left act m (acts l).
  Proof. unfold WholeCommand.acts. rewrite fold_left_app. reflexivity. Qed.

  (** The daemon's steps. *)
  Definition did (w : world) (d : deed) : list Server.action :=
    match d with
    | Others a => if mine c a then [] else [a]
    | Daemon _ =>
        match Handshake.at_d (Handshake.daemon (talk w)) with
        | Handshake.DPeer h => if negb (asked w) then [Server.AConnect c self other (request_of h)] else []
        | _ => []
        end
    | _ => []
    end.
  Fixpoint trace_from (w : world) (l : list deed) : list Server.action :=
    match l with [] => [] | d :: l => did w d ++ trace_from (act w d) l end.
  Definition trace (l : list deed) : list Server.action := trace_from (at_first version defaults) l.
  Lemma trace_snoc l d : trace (l ++ [d]) = trace l ++ did (acts l) d.
  Proof.
    unfold trace, WholeCommand.acts. generalize (at_first version defaults). induction l as [|x l IH]; intros w; cbn.
    - apply app_nil_r.
    - rewrite IH, app_assoc. reflexivity.
  Qed.

  Lemma act_srv w d : srv (act w d) = Server.run (srv w) (did w d).
  Proof.
    destruct d as [a|k|k|ms|]; cbn [WholeCommand.act did]; try reflexivity.
    - destruct (mine c a); reflexivity.
    - unfold daemon_move. destruct (Handshake.at_d (Handshake.daemon (talk w))); try reflexivity. destruct (negb (asked w)); [reflexivity|].
      destruct (Server.check_peer self other), (WholeCommand.reply_to c (srv w)); try reflexivity. destruct (Server.handlers (srv w) c); reflexivity.
    - destruct (Handshake.at_c (talk w)); reflexivity.
  Qed.
  Lemma srv_trace l : srv (acts l) = rn (trace l).
  Proof.
    induction l as [|d l IH] using rev_ind; [reflexivity|]. rewrite acts_snoc, act_srv, IH, trace_snoc. unfold Server.run. rewrite fold_left_app. reflexivity.
  Qed.
  Lemma trace_split l p a r : trace l = p ++ a :: r -> exists l1 d l2, l = l1 ++ d :: l2 /\ trace l1 = p /\ did (acts l1) d = [a].
  Proof.
    revert r. induction l as [|d l IH] using rev_ind; intros r E; [destruct p; discriminate|]. rewrite trace_snoc in E.
    assert (D : did (acts l) d = [] \/ exists b, did (acts l) d = [b]).
    { destruct d; cbn; auto; [destruct (mine c a0); eauto|]. destruct (Handshake.at_d _); auto. destruct (negb _); eauto. }
    destruct D as [D|[b D]]; rewrite D in E.
    - rewrite app_nil_r in E. destruct (IH _ E) as (l1 & x & l2 & -> & X). exists l1, x, (l2 ++ [d]). rewrite <- app_assoc. auto.
    - destruct r as [|y r] using rev_ind.
      + apply app_inj_tail in E as [E <-]. exists l, d, []. auto.
      + clear IHr. replace (p ++ a :: r ++ [y]) with ((p ++ a :: r) ++ [y]) in E by (rewrite <- app_assoc; reflexivity). apply app_inj_tail in E as [E _].
        destruct (IH _ E) as (l1 & x & l2 & -> & X). exists l1, x, (l2 ++ [d]). rewrite <- app_assoc. auto.
  Qed.
  (** A step of somebody's is a deed of theirs, the asking apart. *)
  Lemma did_others w d a : did w d = [a] -> mine c a = false -> d = Others a.
  Proof.
    destruct d as [b|k|k|ms|]; cbn [did]; try discriminate.
    - destruct (mine c b) eqn:M; [discriminate|]. intros E. injection E as ->. reflexivity.
    - destruct (Handshake.at_d _); try discriminate. destruct (negb _); [|discriminate]. intros E. injection E as <-. cbn. rewrite Nat.eqb_refl. discriminate.
  Qed.
  Lemma trace_at l p a r : trace l = p ++ a :: r -> mine c a = false -> exists l1 l2, l = l1 ++ Others a :: l2 /\ trace l1 = p.
  Proof. intros E M. destruct (trace_split _ _ _ _ E) as (l1 & d & l2 & -> & T & D). apply did_others in D; [|exact M]. subst. eauto. Qed.

  Variables (q : Server.request) (pid : Z) (request : value).
  Hypothesis patience : patient unreadable.
  Hypothesis version_ok : text version.
  Hypothesis meaning : meant current cmd q.
  Hypothesis wished : wish current cmd = Some request.
  Hypothesis request_ok : has_type connect_header request.
  Hypothesis request_is : request_of request = Some q.
  Hypothesis spoken : speakable q.
  Hypothesis allowed : Server.check_peer self other = Ok pid.

  Notation own := (own c self other q).
  Notation ok a := (ok version request (answer_type cmd) a [] pid).
  Definition told (l : list deed) : Prop := forall l1 l2, l = l1 ++ l2 -> tellable (srv (acts l1)).
  Lemma told_less l d : told (l ++ [d]) -> told l.
  Proof. intros T l1 l2 ->. apply (T l1 (l2 ++ [d])). rewrite app_assoc. reflexivity. Qed.
  Lemma told_at l p a r : told l -> trace l = p ++ a :: r -> tellable (rn p).
  Proof.
    intros T E. destruct (trace_split _ _ _ _ E) as (l1 & d & l2 & El & <- & _). rewrite <- srv_trace. eapply T. exact El.
  Qed.

  Lemma strs l : map vstr l = map VStr (map str_bytes l).
  Proof. rewrite map_map. reflexivity. Qed.
  Lemma reply_typed l r : told l -> Forall own (trace l) -> reply_to (srv (acts l)) = Some r ->
    exists a, reply_value r = Some (answer_type cmd, a) /\ has_type (answer_type cmd) a.
  Proof.
    intros T F H. rewrite srv_trace in H. revert F. change (reply_in c (rn (trace l)) = Some r) in H. pose proof meaning as M. pose proof spoken as Sp.
    destruct M; intros F; cbn [speakable] in Sp.
    - destruct (answered_list c self other pid defaults allowed _ _ F H) as (ls & l1 & l2 & -> & E & _ & _ & _ & Hm). cbn [reply_value answer_type]. eexists. split; [reflexivity|].
      destruct (list_typed (rn l1) ls (rn_reachable defaults l1) (told_at _ _ _ _ T E) Hm) as [Ok _].
      replace (map session_value ls) with (map line_message (map line_as ls)) by (rewrite map_map; apply map_ext; intros; symmetry; apply session_value_line).
      exact (t_reply (Sessions _) Ok).
    - destruct (answered_kill c self other pid defaults allowed _ _ _ F H) as (nf & l1 & oks & l2 & -> & E & _ & Hc & Er). cbn [reply_value answer_type]. eexists. split; [reflexivity|].
      rewrite strs. apply (t_reply (KillFailed _)). apply many_text. apply C18_Kill.C18_kill_exact in Er as (p & nm & ok & Hc' & _ & -> & _).
      rewrite Hc in Hc'. injection Hc' as <- <-. apply many_filter. exact Sp.
    - destruct (answered_detach c self other pid defaults allowed _ _ _ F H) as (nf & na & l1 & l2 & l3 & -> & E & Hc & Lk & _ & _ & Er). cbn [reply_value answer_type]. eexists. split; [reflexivity|].
      rewrite !strs. apply (t_reply (DetachFailed _ _)). destruct (C46_DetachReply.C46_reply_partial _ _ _ _ _ _ _ (rn_reachable defaults l1) Hc Lk Er) as (_ & fates & _ & -> & -> & _).
      split; apply many_text, which_many; exact Sp.
    - destruct (answered_vars c self other pid defaults allowed _ _ F H) as (l1 & l2 & -> & E & _). cbn [reply_value answer_type]. eexists. split; [reflexivity|].
      destruct (told_at _ _ _ _ T E) as ([V1 V2] & _). replace (map vpair (Server.vars (rn l1))) with (map WireSpec.vpair (map (fun p => (str_bytes (fst p), str_bytes (snd p))) (Server.vars (rn l1)))) by (rewrite map_map; reflexivity).
      apply (t_reply (Switch None _)). split; [exact I|]. split; [|rewrite map_length; exact V2]. apply Forall_map. eapply Forall_impl; [|exact V1]. intros p [P1 P2]. split; apply rust_text; assumption.
    - destruct (answered_vars c self other pid defaults allowed _ _ F H) as (l1 & l2 & -> & E & _). cbn [reply_value answer_type]. eexists. split; [reflexivity|].
      destruct (told_at _ _ _ _ T E) as ([V1 V2] & _). replace (map vpair (Server.vars (rn l1))) with (map WireSpec.vpair (map (fun p => (str_bytes (fst p), str_bytes (snd p))) (Server.vars (rn l1)))) by (rewrite map_map; reflexivity).
      apply (t_reply (Switch None _)). split; [exact I|]. split; [|rewrite map_length; exact V2]. apply Forall_map. eapply Forall_impl; [|exact V1]. intros p [P1 P2]. split; apply rust_text; assumption.
    - destruct (answered_modify c self other pid defaults allowed _ _ _ _ F H) as (l1 & l2 & l3 & late & l4 & -> & _). cbn [reply_value answer_type]. eexists. split; [reflexivity|]. exact (t_reply WireSpec.VarSet I).
    - destruct (answered_modify c self other pid defaults allowed _ _ _ _ F H) as (l1 & l2 & l3 & late & l4 & -> & _). cbn [reply_value answer_type]. eexists. split; [reflexivity|]. exact (t_reply WireSpec.VarSet I).
  Qed.

  Definition consistent (st : Server.server) (a : value) : Prop :=
    has_type (answer_type cmd) a /\ forall r, reply_to st = Some r -> reply_value r = Some (answer_type cmd, a).
  Lemma consistent_some l : told l -> Forall own (trace l) -> exists a, consistent (srv (acts l)) a.
  Proof.
    intros T F. destruct (reply_to (srv (acts l))) as [r|] eqn:E.
    - destruct (reply_typed l r T F E) as (a & A & B). exists a. split; [exact B|]. intros r' E'. rewrite E in E'. injection E' as <-. exact A.
    - destruct (answer_some cmd) as (a & A). exists a. split; [exact A|]. intros r' E'. rewrite E in E'. discriminate.
  Qed.
  Lemma consistent_before st l a : consistent (Server.run st l) a -> consistent st a.
  Proof.
    intros [H G]. split; [exact H|]. intros r E. apply G. clear G H. revert st E. induction l as [|x l IH]; intros st E; [exact E|]. apply (IH (Server.step st x)).
    apply (reply_in_stays c). exact E.
  Qed.

  Record good (l : list deed) : Prop := {
    g_own : Forall own (trace l);
    g_idle : asked (acts l) = false -> Server.handlers (srv (acts l)) c = Server.HIdle;
    g_mine : filter (mine c) (trace l) = if asked (acts l) then [Server.AConnect c self other (Some q)] else [];
    g_wire : forall a, consistent (srv (acts l)) a -> ok a (talk (acts l));
    g_handled : Handshake.handled (Handshake.daemon (talk (acts l))) <> [] -> reply_to (srv (acts l)) <> None
  }.

  Lemma version_typed : has_type version_header (VRec [VStr version]).
  Proof. exact (t_reply (VersionIs version) version_ok). Qed.

  Lemma daemon_turn_answer ans ans' k f : (forall h, Handshake.at_d f <> Handshake.DPeer h) ->
    Handshake.daemon_turn unreadable self other ans k f = Handshake.daemon_turn unreadable self other ans' k f.
  Proof. intros N. unfold Handshake.daemon_turn. destruct (Handshake.at_d f) as [| |h| | |]; try reflexivity. destruct (N h eq_refl). Qed.
  Lemma daemon_turn_handled ans k f : (forall h, Handshake.at_d f <> Handshake.DPeer h) ->
    Handshake.handled (Handshake.daemon_turn unreadable self other ans k f) = Handshake.handled f.
  Proof.
    intros N. unfold Handshake.daemon_turn. destruct (Handshake.at_d f) as [rest| |h|[|]|h' [|]|]; try reflexivity.
    - destruct (Handshake.client_closed _); [reflexivity|]. destruct (skipn _ _); reflexivity.
    - destruct (decode_from _ _) as [[]|]; [reflexivity|]. destruct (_ || _); reflexivity.
    - destruct (N h eq_refl).
    - destruct (Handshake.client_closed _); reflexivity.
    - destruct (Handshake.is_attach _); reflexivity.
    - destruct (Handshake.client_closed _); reflexivity.
  Qed.
  Lemma client_turn_handled r k t : Handshake.handled (Handshake.daemon (Handshake.client_turn unreadable own_version true false r (answer_type cmd) k t)) = Handshake.handled (Handshake.daemon t).
  Proof.
    assert (D : forall x t', Handshake.handled (Handshake.daemon (Handshake.dialled_with true false r x t')) = Handshake.handled (Handshake.daemon t')) by (intros [] t'; reflexivity).
    unfold Handshake.client_turn. destruct (Handshake.at_c t); try reflexivity.
    - destruct (decode_from version_header _) as [[v rest]|].
      + repeat match goal with
               | |- context [match ?x with _ => _ end] => is_var x; destruct x; try (destruct (_ || _); [rewrite D; reflexivity|reflexivity])
               end; rewrite D; reflexivity.
      + destruct (_ || _); [rewrite D; reflexivity|reflexivity].
    - destruct (Handshake.daemon_closed _); [reflexivity|]. destruct (skipn _ _); reflexivity.
    - destruct (decode_from _ _) as [[]|]; [reflexivity|]. destruct (_ || _); reflexivity.
  Qed.

  Lemma good_start : good [].
  Proof.
    split.
    - constructor.
    - intros _. reflexivity.
    - reflexivity.
    - intros a _. apply ok_begun.
    - intros H. exfalso. apply H. reflexivity.
  Qed.

  Lemma idle_stays st a : mine c a = false -> Server.handlers st c = Server.HIdle -> Server.handlers (Server.step st a) c = Server.HIdle.
  Proof.
    intros M H. destruct (step_moves st a c) as [->|Mv]; [exact H|]. exfalso.
    inversion Mv; subst; try congruence; cbn in M; rewrite Nat.eqb_refl in M; discriminate.
  Qed.
  Lemma not_mine_own a : mine c a = false -> own a.
  Proof. intros M. left. intros s p r ->. cbn in M. rewrite Nat.eqb_refl in M. discriminate. Qed.

  Lemma peer_request l h : told l -> good l -> Handshake.at_d (Handshake.daemon (talk (acts l))) = Handshake.DPeer h -> h = request.
  Proof.
    intros T G E. destruct (consistent_some l T (g_own l G)) as (a & A). destruct (g_wire l G a A) as (S & O & r & _ & D & _). unfold dok in D. rewrite E in D. tauto.
  Qed.

  Lemma good_step l d : told l -> good l -> good (l ++ [d]).
  Proof.
    intros T G. pose proof (peer_request l) as PR. specialize (fun h => PR h T G). destruct G as [G1 G2 G3 G4 G5].
    assert (Pre : forall a, consistent (srv (acts (l ++ [d]))) a -> ok a (talk (acts l))).
    { intros a A. apply G4. rewrite acts_snoc, act_srv in A. exact (consistent_before _ _ _ A). }
    assert (Post : Handshake.handled (Handshake.daemon (talk (acts l))) <> [] -> reply_to (srv (acts (l ++ [d]))) <> None).
    { intros H. apply G5 in H. destruct (reply_to (srv (acts l))) as [r|] eqn:E; [|congruence]. rewrite acts_snoc, act_srv. revert E. generalize (srv (acts l)) (did (acts l) d). clear. intros st m. revert st.
      induction m as [|x m IH]; intros st E; [cbn; congruence|]. apply (IH (Server.step st x)). exact (reply_in_stays c _ _ _ E). }
    assert (Whole : forall (F : Forall own (did (acts l) d))
      (Gi : asked (acts (l ++ [d])) = false -> Server.handlers (srv (acts (l ++ [d]))) c = Server.HIdle)
      (Gm : (if asked (acts l) then [Server.AConnect c self other (Some q)] else []) ++ filter (mine c) (did (acts l) d) = if asked (acts (l ++ [d])) then [Server.AConnect c self other (Some q)] else [])
      (Gw : forall a, consistent (srv (acts (l ++ [d]))) a -> ok a (talk (acts (l ++ [d]))))
      (Gh : Handshake.handled (Handshake.daemon (talk (acts (l ++ [d])))) <> [] -> reply_to (srv (acts (l ++ [d]))) <> None), good (l ++ [d])).
    { intros. split; auto; rewrite trace_snoc; [apply Forall_app; auto|]. rewrite filter_app, G3. exact Gm. }
    apply Whole; clear Whole.
    - destruct d as [a|k|k|ms|]; cbn [did]; try constructor.
      + destruct (mine c a) eqn:M; constructor; [apply not_mine_own; exact M|constructor].
      + destruct (Handshake.at_d _) eqn:E; try constructor. destruct (negb _); constructor; [|constructor]. rewrite (PR _ eq_refl), request_is. right. reflexivity.
    - rewrite acts_snoc. intros As. rewrite act_srv. destruct d as [a|k|k|ms|]; cbn [WholeCommand.act did] in *.
      + destruct (mine c a) eqn:M; [exact (G2 As)|]. cbn. apply idle_stays; [exact M|exact (G2 As)].
      + unfold daemon_move in As. destruct (Handshake.at_d _) eqn:E; try exact (G2 As). destruct (negb (asked (acts l))) eqn:N; [discriminate|].
        destruct (asked (acts l)) eqn:As'; [|discriminate]. exfalso.
        destruct (Server.check_peer self other); [destruct (WholeCommand.reply_to _ _); [|destruct (Server.handlers _ _)]|]; cbn in As; congruence.
      + exact (G2 As).
      + exact (G2 As).
      + destruct (Handshake.at_c _); exact (G2 As).
    - rewrite acts_snoc. destruct d as [a|k|k|ms|]; cbn [WholeCommand.act did].
      + destruct (mine c a) eqn:M; cbn [filter asked]; rewrite ?M, app_nil_r; reflexivity.
      + unfold daemon_move. destruct (Handshake.at_d _) eqn:E; try (cbn [filter asked]; rewrite app_nil_r; reflexivity). destruct (asked (acts l)) eqn:As; cbn [negb filter asked app].
        * destruct (Server.check_peer self other); [destruct (WholeCommand.reply_to _ _); [|destruct (Server.handlers _ _)]|]; cbn [asked]; rewrite ?As; reflexivity.
        * cbn [mine]. rewrite Nat.eqb_refl, (PR _ eq_refl), request_is. reflexivity.
      + cbn. rewrite app_nil_r. reflexivity.
      + cbn. rewrite app_nil_r. reflexivity.
      + destruct (Handshake.at_c _); cbn; rewrite app_nil_r; reflexivity.
    - intros a A. pose proof (Pre a A) as P. pose proof A as [A1 A2]. pose proof A2 as A3. rewrite acts_snoc in A2. rewrite acts_snoc. clear Pre Post.
      assert (Turn : forall k ans, ans = encode_to (answer_type cmd) a -> ok a (Handshake.mkTalk (Handshake.daemon_turn unreadable self other (fun _ => ans) k (Handshake.daemon (talk (acts l)))) (Handshake.at_c (talk (acts l))))).
      { intros k ans ->. apply (ok_daemon unreadable version self other (fun _ => encode_to (answer_type cmd) a) own_version true false request (answer_type cmd) a [] pid request_ok);
          [rewrite app_nil_r; reflexivity|exact allowed|exact P]. }
      destruct d as [x|k|k|ms|]; cbn [WholeCommand.act] in *.
      + destruct (mine c x); exact P.
      + assert (Quiet : (forall h, Handshake.at_d (Handshake.daemon (talk (acts l))) <> Handshake.DPeer h) ->
          ok a (Handshake.mkTalk (Handshake.daemon_turn unreadable self other (fun _ => []) k (Handshake.daemon (talk (acts l)))) (Handshake.at_c (talk (acts l))))).
        { intros N. rewrite (daemon_turn_answer _ (fun _ => encode_to (answer_type cmd) a) k _ N). apply (Turn k _ eq_refl). }
        unfold daemon_move in *. destruct (Handshake.at_d (Handshake.daemon (talk (acts l)))) as [rest|qt|h|rest|h rest|e] eqn:E; try (apply Quiet; intros ? ?; discriminate).
        destruct (negb (asked (acts l))); [exact P|]. rewrite allowed in *. destruct (WholeCommand.reply_to c (srv (acts l))) as [r|] eqn:Er.
        * cbn [talk] in *. cbn [srv] in A2. apply Turn. unfold reply_bytes. rewrite (A2 r Er). reflexivity.
        * destruct (Server.handlers (srv (acts l)) c); try exact P. cbn [talk]. destruct P as (S & O & r & ES & D & K). exists S, O, r. split; [exact ES|].
          pose proof (dok_begins _ _ _ _ _ _ _ _ _ D) as B. unfold dok in D. rewrite E in D. destruct D as (D1 & D2 & D3 & D4 & D5 & D6). split.
          -- unfold dok, Handshake.end_with. cbn [Handshake.daemon Handshake.wire Handshake.at_d Handshake.handled Handshake.close_daemon Handshake.daemon_closed Handshake.client_closed]. split; [exact B|]. auto.
          -- unfold cok in *. exact K.
      + unfold client_move. rewrite wished. cbn [talk].
        replace (match Handshake.at_c (talk (acts l)) with Handshake.CRequest _ | _ => Handshake.client_turn unreadable own_version true false request (answer_type cmd) k (talk (acts l)) end)
          with (Handshake.client_turn unreadable own_version true false request (answer_type cmd) k (talk (acts l))) by (destruct (Handshake.at_c (talk (acts l))); reflexivity).
        exact (ok_client unreadable version self other (fun _ => []) own_version true false request (answer_type cmd) a [] pid patience version_typed request_ok (answer_known cmd) A1 k _ P).
      + exact (ok_wait _ _ _ _ _ _ ms _ P).
      + destruct (Handshake.at_c (talk (acts l))); first [exact P|exact (ok_give_up _ _ _ _ _ _ _ P)].
    - rewrite acts_snoc in *. destruct d as [x|k|k|ms|]; cbn [WholeCommand.act] in *.
      + destruct (mine c x); exact Post.
      + unfold daemon_move in *.
        assert (Quiet : (forall h, Handshake.at_d (Handshake.daemon (talk (acts l))) <> Handshake.DPeer h) ->
          Handshake.handled (Handshake.daemon_turn unreadable self other (fun _ => []) k (Handshake.daemon (talk (acts l)))) = Handshake.handled (Handshake.daemon (talk (acts l)))) by (apply daemon_turn_handled).
        destruct (Handshake.at_d (Handshake.daemon (talk (acts l)))) as [rest|qt|h|rest|h rest|e] eqn:E;
          try (cbn [talk Handshake.daemon]; rewrite Quiet by (intros ? ?; discriminate); exact Post).
        destruct (negb (asked (acts l))); [exact Post|]. rewrite allowed in *. destruct (WholeCommand.reply_to c (srv (acts l))) as [r|] eqn:Er.
        * intros _. cbn [srv]. congruence.
        * destruct (Server.handlers (srv (acts l)) c); exact Post.
      + unfold client_move in *. rewrite wished in *. intros H. apply Post. intros X. apply H. cbn [talk].
        destruct (Handshake.at_c (talk (acts l))); cbn [talk]; rewrite client_turn_handled; exact X.
      + exact Post.
      + destruct (Handshake.at_c (talk (acts l))); exact Post.
  Qed.

  Lemma good_all l : told l -> good l.
  Proof.
    induction l as [|d l IH] using rev_ind; intros T; [exact good_start|]. apply good_step; [|apply IH]; eapply told_less; exact T.
  Qed.

  (** What a command is told is what the daemon has said. *)
  Lemma done_reply l v : told l -> Handshake.at_c (talk (acts l)) = Handshake.CDone v ->
    exists r, reply_to (srv (acts l)) = Some r /\ reply_value r = Some (answer_type cmd, v).
  Proof.
    intros T E. pose proof (good_all l T) as G. destruct (consistent_some l T (g_own l G)) as (a & A).
    destruct (ok_done version (fun _ => encode_to (answer_type cmd) a) request (answer_type cmd) a [] pid (answer_known cmd) (proj1 A) ltac:(rewrite app_nil_r; reflexivity) _ v (g_wire l G a A) E) as (-> & H & _).
    pose proof (g_handled l G) as N. rewrite H in N. destruct (reply_to (srv (acts l))) as [r|] eqn:Er; [|destruct N; [discriminate|reflexivity]].
    exists r. split; [reflexivity|]. apply A. exact Er.
  Qed.

  (** A prefix with no reply yet is one in which the command has not ended well. *)
  Lemma killed_stays w d : killed w = true -> killed (act w d) = true.
  Proof.
    intros K. destruct d as [x|k|k|ms|]; cbn [WholeCommand.act]; try exact K.
    - destruct (mine c x); exact K.
    - unfold daemon_move. destruct (Handshake.at_d _); try exact K. destruct (negb _); [exact K|].
      destruct (Server.check_peer self other); [destruct (WholeCommand.reply_to _ _); [|destruct (Server.handlers _ _)]|]; exact K.
    - destruct (Handshake.at_c _); try exact K; reflexivity.
  Qed.
  Lemma failed_stays w d : Handshake.at_c (talk w) = Handshake.CFailed -> Handshake.at_c (talk (act w d)) = Handshake.CFailed.
  Proof.
    intros K. destruct d as [x|k|k|ms|]; cbn [WholeCommand.act]; try exact K.
    - destruct (mine c x); exact K.
    - unfold daemon_move. destruct (Handshake.at_d _); try exact K. destruct (negb _); [exact K|].
      destruct (Server.check_peer self other); [destruct (WholeCommand.reply_to _ _); [|destruct (Server.handlers _ _)]|]; exact K.
    - unfold client_move. rewrite K. cbn [talk]. unfold Handshake.client_turn. rewrite K. destruct (wish current cmd); exact K.
    - rewrite K. exact K.
  Qed.
  Lemma not_ended l1 l2 v : told (l1 ++ l2) -> killed (acts (l1 ++ l2)) = false -> Handshake.at_c (talk (acts (l1 ++ l2))) = Handshake.CDone v ->
    reply_to (srv (acts l1)) = None -> ended current cmd (acts l1) = None.
  Proof.
    intros T K E N. assert (T1 : told l1) by (intros x y ->; apply (T x (y ++ l2)); rewrite app_assoc; reflexivity).
    unfold ended. destruct (killed (acts l1)) eqn:K1; [reflexivity|]. destruct (Handshake.at_c (talk (acts l1))) eqn:E1; try reflexivity; exfalso.
    - destruct (done_reply l1 _ T1 E1) as (r & R & _). congruence.
    - rewrite acts_app in E. assert (Z : forall l w, Handshake.at_c (talk w) = Handshake.CFailed -> Handshake.at_c (talk (fold_left act l w)) = Handshake.CFailed).
      { induction l as [|d l IH]; intros w Hw; [exact Hw|]. apply IH, failed_stays, Hw. }
      rewrite (Z l2 _ E1) in E. discriminate.
  Qed.
  Lemma was_asked l : told l -> Server.handlers (srv (acts l)) c <> Server.HIdle -> asked (acts l) = true.
  Proof. intros T H. destruct (asked (acts l)) eqn:E; [reflexivity|]. destruct (H (g_idle l (good_all l T) E)). Qed.

  (** *** Commands that are not answered *)
  Definition late (t : Handshake.client_at) : Prop := match t with Handshake.CReply | Handshake.CDone _ | Handshake.CFailed => True | _ => False end.
  Definition deaf (f : Handshake.front) : Prop :=
    match Handshake.at_d f with
    | Handshake.DVersion _ | Handshake.DRequest _ => decode_from connect_header (Handshake.up (Handshake.wire f)) = None
    | Handshake.DPeer _ => False
    | _ => True
    end.
  Record fair (l : list deed) : Prop := {
    f_late : asked (acts l) = true -> late (Handshake.at_c (talk (acts l)));
    f_mute : asked (acts l) = true -> Handshake.handled (Handshake.daemon (talk (acts l))) = [] ->
      (exists h, Handshake.at_d (Handshake.daemon (talk (acts l))) = Handshake.DPeer h) \/
      (exists e, Handshake.at_d (Handshake.daemon (talk (acts l))) = Handshake.DGone e) /\ Server.handlers (srv (acts l)) c = Server.HDone /\ reply_to (srv (acts l)) = None;
    f_fail : killed (acts l) = false -> Handshake.at_c (talk (acts l)) = Handshake.CFailed -> Handshake.handled (Handshake.daemon (talk (acts l))) = [] /\
      if asked (acts l) then exists e, Handshake.at_d (Handshake.daemon (talk (acts l))) = Handshake.DGone e else deaf (Handshake.daemon (talk (acts l)))
  }.

  Lemma late_stays k t : late (Handshake.at_c t) -> late (Handshake.at_c (Handshake.client_turn unreadable own_version true false request (answer_type cmd) k t)).
  Proof.
    intros H. unfold Handshake.client_turn. destruct (Handshake.at_c t) eqn:E; cbn in H; try contradiction; try (rewrite E; exact I).
    destruct (decode_from _ _) as [[]|]; [exact I|]. destruct (_ || _); [exact I|]. rewrite E. exact I.
  Qed.
  Lemma done_mute st a : own a -> of_kind q pid (Server.handlers st c) -> unheard c st ->
    Server.handlers st c = Server.HDone /\ reply_to st = None -> Server.handlers (Server.step st a) c = Server.HDone /\ reply_to (Server.step st a) = None.
  Proof.
    intros O K U [H N]. split; [apply step_done; exact H|]. destruct (reply_to (Server.step st a)) as [r|] eqn:E; [|reflexivity]. exfalso.
    pose proof (reply_in_new c _ _ _ N E) as R. apply new_reply in R.
    destruct (life_says c self other q pid (meant_plain _ _ _ meaning) _ _ _ O K U R) as (_ & _ & X & _). contradiction.
  Qed.

  Lemma client_fails k t a : ok a t -> has_type (answer_type cmd) a -> Handshake.at_c t <> Handshake.CFailed ->
    Handshake.at_c (Handshake.client_turn unreadable own_version true false request (answer_type cmd) k t) = Handshake.CFailed ->
    Handshake.handled (Handshake.daemon t) = [] /\
    (late (Handshake.at_c t) -> exists e, Handshake.at_d (Handshake.daemon t) = Handshake.DGone e) /\
    (deaf (Handshake.daemon t) \/ exists e, Handshake.at_d (Handshake.daemon t) = Handshake.DGone e) /\
    deaf (Handshake.daemon (Handshake.client_turn unreadable own_version true false request (answer_type cmd) k t)) /\
    Handshake.at_d (Handshake.daemon (Handshake.client_turn unreadable own_version true false request (answer_type cmd) k t)) = Handshake.at_d (Handshake.daemon t).
  Proof.
    intros Ok Ta NF Hf. destruct (Handshake.at_c t) eqn:E; try (unfold Handshake.client_turn in Hf; rewrite E in Hf; congruence).
    - destruct (version_turn unreadable version own_version true false request (answer_type cmd) a [] pid patience version_typed k t Ok E) as [[_ X]|(_ & x & X & Y)].
      + rewrite X in Hf. congruence.
      + rewrite Y in *. unfold Handshake.dialled_with in *. destruct (Version.client_new own_version (Some version)); cbn [orb] in Hf; try discriminate Hf.
        cbn [Handshake.give_up Handshake.daemon Handshake.hang_up Handshake.take_down Handshake.at_d Handshake.wire Handshake.up].
        pose proof Ok as (S & O & r & ES & D & K). unfold cok in K. rewrite E in K. destruct K as (-> & K2 & K3).
        assert (Nr : encode_to connect_header request <> []) by (eapply (R_some request); exact request_ok).
        assert (Q : Handshake.handled (Handshake.daemon t) = [] /\ deaf (Handshake.daemon t)).
        { unfold dok in D. unfold deaf. destruct (Handshake.at_d (Handshake.daemon t)) as [rest|qt|h|rest|h rest|e0].
          - destruct D as (_ & -> & -> & _). split; reflexivity.
          - destruct D as (_ & -> & -> & _). split; reflexivity.
          - destruct D as (_ & _ & D & _). congruence.
          - destruct D.
          - destruct D as (_ & D & _). congruence.
          - destruct e0; try (destruct D as (_ & _ & _ & [D|[_ D]]); [congruence|split; [exact D|exact I]]). destruct D as (_ & D & _). congruence. }
        destruct Q as [Q1 Q2]. split; [exact Q1|]. split; [intros []|]. split; [left; exact Q2|]. split; [|reflexivity]. exact Q2.
    - pose proof Ok as (S & O & r & ES & D & K). unfold cok in K. rewrite E in K. destruct K as (-> & K1 & K2 & K3).
      assert (N : S <> encode_to connect_header request) by (intros N; rewrite N in ES; rewrite <- (app_nil_r (encode_to connect_header request)) in ES at 2; apply app_inv_head in ES; contradiction).
      unfold Handshake.client_turn in *. rewrite E in *. destruct (Handshake.daemon_closed (Handshake.wire (Handshake.daemon t))) eqn:C; [|destruct (skipn _ _); discriminate Hf].
      unfold dok in D. unfold deaf. cbn [Handshake.give_up Handshake.daemon Handshake.hang_up Handshake.at_d Handshake.wire Handshake.up].
      destruct (Handshake.at_d (Handshake.daemon t)) as [rest|qt|h|rest|h rest|e]; try (exfalso; intuition congruence).
      destruct e; try (destruct D as (_ & _ & _ & [D|[_ D]]); [congruence|]; split; [exact D|]; split; [intros []|]; split; [right; eauto|]; split; [exact I|reflexivity]).
      destruct D as (_ & D & _). congruence.
    - pose proof Ok as (S & O & r & ES & D & K). unfold cok in K. rewrite E in K. destruct K as (K1 & K2 & K3).
      pose proof (dok_begins _ _ _ _ _ _ _ _ _ D) as B. rewrite K2 in B. apply begins_cancel in B.
      destruct (reply_prefix unreadable (answer_type cmd) a [] patience (answer_known cmd) Ta _ B) as [P U].
      unfold Handshake.client_turn in *. rewrite E in *. destruct (decode_from (answer_type cmd) (Handshake.down (Handshake.wire (Handshake.daemon t)))) as [[v rest]|] eqn:Dc; [discriminate Hf|].
      rewrite U, orb_false_r in *. destruct (Handshake.daemon_closed (Handshake.wire (Handshake.daemon t))) eqn:C; [|rewrite E in Hf; discriminate Hf].
      unfold dok in D. unfold deaf. cbn [Handshake.give_up Handshake.daemon Handshake.hang_up Handshake.at_d Handshake.wire Handshake.up].
      destruct (Handshake.at_d (Handshake.daemon t)) as [rest|qt|h|rest|h rest|e]; try (exfalso; intuition congruence).
      destruct e; try (destruct D as (_ & _ & _ & [D|[_ D]]); [congruence|]; split; [exact D|]; split; [eauto|]; split; [right; eauto|]; split; [exact I|reflexivity]).
      exfalso. destruct D as (_ & _ & D). rewrite K2 in D. apply app_inv_head in D. pose proof (A_reads (answer_type cmd) a [] (answer_known cmd) Ta) as X. rewrite <- D, Dc in X. discriminate.
  Qed.

  Lemma deaf_turn ans k f : deaf f -> deaf (Handshake.daemon_turn unreadable self other ans k f).
  Proof.
    unfold deaf, Handshake.daemon_turn. destruct f as [w a h]. cbn [Handshake.at_d Handshake.wire]. destruct a as [rest|qt|h0|[|]|h0 [|]|e]; intros H; try exact I.
    - destruct (Handshake.client_closed w); [exact I|]. destruct (skipn (S k) rest); exact H.
    - rewrite H. destruct (_ || _); [exact I|exact H].
    - destruct H.
    - destruct (Handshake.client_closed w); exact I.
    - destruct (Handshake.is_attach h0); exact I.
    - destruct (Handshake.client_closed w); exact I.
  Qed.
  Lemma gone_turn ans k f e : Handshake.at_d f = Handshake.DGone e -> Handshake.daemon_turn unreadable self other ans k f = f.
  Proof. intros H. unfold Handshake.daemon_turn. rewrite H. reflexivity. Qed.
  Lemma late_at_d k t : late (Handshake.at_c t) ->
    Handshake.at_d (Handshake.daemon (Handshake.client_turn unreadable own_version true false request (answer_type cmd) k t)) = Handshake.at_d (Handshake.daemon t).
  Proof.
    unfold Handshake.client_turn. destruct (Handshake.at_c t); cbn; try contradiction; try reflexivity. intros _. destruct (decode_from _ _) as [[]|]; [reflexivity|]. destruct (_ || _); reflexivity.
  Qed.
  Lemma client_move_talk k w : talk (client_move unreadable own_version current cmd k w) = Handshake.client_turn unreadable own_version true false request (answer_type cmd) k (talk w).
  Proof. unfold client_move. rewrite wished. cbn [talk]. destruct (Handshake.at_c (talk w)); reflexivity. Qed.

  Lemma fair_start : fair [].
  Proof. split; cbn; discriminate. Qed.
  Lemma fair_step l d : told l -> fair l -> fair (l ++ [d]).
  Proof.
    intros T [L1 L2 L3]. pose proof (good_all l T) as G. pose proof (story_life c self other q pid defaults (meant_plain _ _ _ meaning) allowed (trace l) (g_own l G)) as [K U].
    rewrite <- srv_trace in K, U. destruct (consistent_some l T (g_own l G)) as (a & A). pose proof (g_wire l G a A) as Ok.
    split; rewrite acts_snoc.
    - destruct d as [x|k|k|ms|]; cbn [WholeCommand.act].
      + destruct (mine c x); exact L1.
      + unfold daemon_move. destruct (Handshake.at_d (Handshake.daemon (talk (acts l)))) as [rest|qt|h|rest|h rest|e] eqn:E; try exact L1.
        destruct (asked (acts l)) eqn:As; cbn [negb].
        * rewrite allowed. destruct (WholeCommand.reply_to c (srv (acts l))); [intros _; exact (L1 eq_refl)|]. destruct (Server.handlers (srv (acts l)) c); intros _; exact (L1 eq_refl).
        * intros _. cbn [talk]. destruct Ok as (S & O & r & ES & D & C). unfold dok in D. rewrite E in D. destruct D as (_ & _ & D & _). unfold cok in C.
          assert (Nr : encode_to connect_header request <> []) by (eapply (R_some request); exact request_ok).
          destruct (Handshake.at_c (talk (acts l))); try exact I; exfalso; [destruct C; congruence|destruct C; congruence|]. destruct C as (_ & C & _). rewrite D in ES.
          rewrite <- (app_nil_r (encode_to connect_header request)) in ES at 2. apply app_inv_head in ES. contradiction.
      + cbn [asked]. rewrite client_move_talk. intros H. apply late_stays. exact (L1 H).
      + exact L1.
      + destruct (Handshake.at_c (talk (acts l))) eqn:Ac; intros; first [exact I|rewrite Ac; exact I].
    - destruct d as [x|k|k|ms|]; cbn [WholeCommand.act].
      + destruct (mine c x) eqn:M; [exact L2|]. cbn [asked talk srv]. intros As Hd. destruct (L2 As Hd) as [X|[X Y]]; [left; exact X|right]. split; [exact X|].
        exact (done_mute _ _ (not_mine_own x M) K U Y).
      + unfold daemon_move. destruct (Handshake.at_d (Handshake.daemon (talk (acts l)))) as [rest|qt|h|rest|h rest|e] eqn:E.
        all: try (cbn [asked talk srv Handshake.daemon]; rewrite daemon_turn_handled by (rewrite E; discriminate); intros As Hd; exfalso; destruct (L2 As Hd) as [[h' X]|[[e' X] _]]; discriminate).
        * destruct (asked (acts l)) eqn:As; cbn [negb]; [|intros _ _; left; exists h; exact E]. rewrite allowed. destruct (WholeCommand.reply_to c (srv (acts l))) as [r|] eqn:Er.
          -- cbn [talk Handshake.daemon]. intros _ H. exfalso. unfold Handshake.daemon_turn in H. rewrite E, allowed in H. cbn in H. destruct (Handshake.handled _); discriminate.
          -- destruct (Server.handlers (srv (acts l)) c) eqn:Hh; try (intros _ _; left; exists h; exact E). intros _ _. right. cbn [talk Handshake.daemon Handshake.end_with Handshake.at_d srv].
             split; [eauto|]. split; [exact Hh|exact Er].
        * cbn [asked talk srv Handshake.daemon]. rewrite (gone_turn _ _ _ _ E), E. exact L2.
      + change (asked (client_move unreadable own_version current cmd k (acts l))) with (asked (acts l)). change (srv (client_move unreadable own_version current cmd k (acts l))) with (srv (acts l)).
        rewrite client_move_talk, client_turn_handled. intros As. rewrite (late_at_d k _ (L1 As)). exact (L2 As).
      + cbn [asked talk srv Handshake.daemon]. unfold Handshake.wait. cbn [Handshake.handled Handshake.at_d]. intros As Hd. destruct (L2 As Hd) as [[h X]|[[e X] Y]]; rewrite X; [left|right]; eauto.
      + destruct (Handshake.at_c (talk (acts l))); exact L2.
    - destruct d as [x|k|k|ms|]; cbn [WholeCommand.act].
      + destruct (mine c x); exact L3.
      + unfold daemon_move. destruct (Handshake.at_d (Handshake.daemon (talk (acts l)))) as [rest|qt|h|rest|h rest|e] eqn:E.
        all: try (cbn [asked talk srv killed Handshake.daemon Handshake.at_c]; intros Kl Ft; destruct (L3 Kl Ft) as [H1 H2]; rewrite daemon_turn_handled by (rewrite E; discriminate); (split; [exact H1|]);
          destruct (asked (acts l)); [destruct H2 as [e' H2]; try discriminate H2; rewrite (gone_turn _ _ _ _ E), E; eauto|apply deaf_turn; exact H2]).
        destruct (asked (acts l)) eqn:As; cbn [negb].
        * rewrite allowed. destruct (WholeCommand.reply_to c (srv (acts l))); [|destruct (Server.handlers (srv (acts l)) c)]; cbn [killed talk Handshake.at_c];
            intros Kl Ft; destruct (L3 Kl Ft) as [_ [e X]]; discriminate.
        * cbn [killed talk]. intros Kl Ft. destruct (L3 Kl Ft) as [_ X]. unfold deaf in X. rewrite E in X. destruct X.
      + change (asked (client_move unreadable own_version current cmd k (acts l))) with (asked (acts l)). change (killed (client_move unreadable own_version current cmd k (acts l))) with (killed (acts l)).
        rewrite client_move_talk, client_turn_handled. intros Kl Ft. destruct (Handshake.at_c (talk (acts l))) eqn:Ac;
          try (destruct (client_fails k _ a Ok (proj1 A) ltac:(rewrite Ac; discriminate) Ft) as (H1 & H2 & _ & H4 & H5); split; [exact H1|];
               destruct (asked (acts l)) eqn:As; [rewrite H5; apply H2; rewrite Ac; exact (L1 eq_refl)|exact H4]).
        destruct (L3 Kl eq_refl) as [H1 H2]. split; [exact H1|]. unfold Handshake.client_turn. rewrite Ac. exact H2.
      + cbn [killed asked talk Handshake.daemon Handshake.at_c]. intros Kl Ft. destruct (L3 Kl Ft) as [H1 H2]. split; [exact H1|]. destruct (asked (acts l)).
        * unfold Handshake.wait. cbn [Handshake.at_d]. destruct H2 as [e H2]. rewrite H2. eauto.
        * unfold deaf, Handshake.wait in *. cbn [Handshake.at_d Handshake.wire]. destruct (Handshake.at_d _); exact H2.
      + destruct (Handshake.at_c (talk (acts l))) eqn:Ac; first [discriminate|cbn [killed]; discriminate|rewrite Ac; exact L3].
  Qed.
  Lemma fair_all l : told l -> fair l.
  Proof.
    induction l as [|d l IH] using rev_ind; intros T; [exact fair_start|]. apply fair_step; [|apply IH]; eapply told_less; exact T.
  Qed.

  Lemma asked_later l m : asked (acts l) = true -> asked (acts (l ++ m)) = true.
  Proof.
    rewrite acts_app. generalize (acts l). induction m as [|d m IH]; intros w H; [exact H|]. apply IH. destruct d as [x|k|k|ms|]; cbn [WholeCommand.act].
    - destruct (mine c x); exact H.
    - unfold daemon_move. destruct (Handshake.at_d _); try exact H. rewrite H. cbn [negb]. rewrite allowed. destruct (WholeCommand.reply_to c (srv w)); [reflexivity|]. destruct (Server.handlers _ _); first [exact H|reflexivity].
    - exact H.
    - exact H.
    - destruct (Handshake.at_c _); exact H.
  Qed.
  (** A command that fails though nobody has killed it was never answered. *)
  Lemma failed_unanswered l : told l -> killed (acts l) = false -> Handshake.at_c (talk (acts l)) = Handshake.CFailed -> reply_to (srv (acts l)) = None.
  Proof.
    intros T Kl Ft. destruct (f_fail l (fair_all l T) Kl Ft) as [H1 H2]. destruct (asked (acts l)) eqn:As.
    - destruct (f_mute l (fair_all l T) As H1) as [[h X]|(_ & _ & X)]; [|exact X]. destruct H2 as [e H2]. congruence.
    - destruct (reply_to (srv (acts l))) as [r|] eqn:E; [|reflexivity]. exfalso. rewrite srv_trace in E.
      destruct (story_reply c self other q pid defaults (meant_plain _ _ _ meaning) allowed _ r (g_own l (good_all l T)) E) as (t1 & b & t2 & Et & _ & _ & _ & _ & Nh).
      destruct (trace_split _ _ _ _ Et) as (l1 & d & l2 & -> & <- & _). assert (T1 : told l1) by (intros x y ->; apply (T x (y ++ d :: l2)); rewrite app_assoc; reflexivity).
      rewrite <- srv_trace in Nh. pose proof (was_asked l1 T1 Nh) as X. rewrite (asked_later l1 (d :: l2) X) in As. discriminate.
  Qed.

  (** *** The end, and the moments before it *)
  Lemma end_cases l res : told l -> ended current cmd (acts l) = Some res ->
    (exists r v, reply_to (srv (acts l)) = Some r /\ reply_value r = Some (answer_type cmd, v) /\ res = finish current cmd (Some v) /\
       killed (acts l) = false /\ Handshake.at_c (talk (acts l)) = Handshake.CDone v) \/
    (reply_to (srv (acts l)) = None /\ res = finish current cmd None).
  Proof.
    intros T E. unfold ended in E. destruct (killed (acts l)) eqn:K; [discriminate|]. destruct (Handshake.at_c (talk (acts l))) eqn:A; try discriminate; injection E as <-.
    - left. destruct (done_reply l v T A) as (r & R & V). exists r, v. auto.
    - right. split; [|reflexivity]. apply failed_unanswered; assumption.
  Qed.
  Lemma told_app l m : told (l ++ m) -> told l.
  Proof. intros T x y ->. apply (T x (y ++ m)). rewrite app_assoc. reflexivity. Qed.
  Lemma moment l t1 a t2 v : told l -> killed (acts l) = false -> Handshake.at_c (talk (acts l)) = Handshake.CDone v ->
    trace l = t1 ++ a :: t2 -> mine c a = false -> reply_in c (rn t1) = None -> Server.handlers (rn t1) c <> Server.HIdle ->
    exists l1 l2, l = l1 ++ Others a :: l2 /\ trace l1 = t1 /\ srv (acts l1) = rn t1 /\ waiting current cmd (acts l1).
  Proof.
    intros T K A E M R H. destruct (trace_at _ _ _ _ E M) as (l1 & l2 & -> & E1). exists l1, l2. split; [reflexivity|]. split; [exact E1|].
    assert (S : srv (acts l1) = rn t1) by (rewrite srv_trace, E1; reflexivity). split; [exact S|]. split.
    - apply was_asked; [exact (told_app _ _ T)|]. rewrite S. exact H.
    - eapply not_ended; [exact T|exact K|exact A|]. rewrite S. exact R.
  Qed.
  Lemma trace_after l m : asked (acts l) = true -> trace (l ++ m) = trace l ++ others c m.
  Proof.
    intros A. induction m as [|d m IH] using rev_ind; [cbn; rewrite !app_nil_r; reflexivity|]. rewrite app_assoc, trace_snoc, IH, <- app_assoc. f_equal.
    unfold others. rewrite flat_map_app. f_equal. cbn [flat_map]. rewrite app_nil_r. destruct d; cbn [did]; try reflexivity.
    destruct (Handshake.at_d _); try reflexivity. rewrite (asked_later l m A). reflexivity.
  Qed.
  Lemma others_trace l : others c l = filter (fun a => negb (mine c a)) (trace l).
  Proof.
    induction l as [|d l IH] using rev_ind; [reflexivity|]. rewrite trace_snoc, filter_app, <- IH. unfold others. rewrite flat_map_app. f_equal. cbn [flat_map]. rewrite app_nil_r.
    destruct d as [a|k|k|ms|]; cbn [did]; try reflexivity.
    - destruct (mine c a) eqn:M; [reflexivity|]. cbn [filter]. rewrite M. reflexivity.
    - destruct (Handshake.at_d _); try reflexivity. destruct (negb (asked (acts l))); [|reflexivity]. cbn [filter mine]. rewrite Nat.eqb_refl. reflexivity.
  Qed.
  Lemma reply_later st m : reply_in c (Server.run st m) = None -> reply_in c st = None.
  Proof.
    intros H. destruct (reply_in c st) as [r|] eqn:E; [|reflexivity]. exfalso. revert st r H E. induction m as [|a m IH]; intros st r H E; [cbn in H; congruence|].
    eapply (IH (Server.step st a)); [exact H|]. apply reply_in_stays. exact E.
  Qed.
  Lemma srv_others l a m : mine c a = false -> srv (acts (l ++ Others a :: m)) = Server.run (Server.step (srv (acts l)) a) (trace_from (act (acts l) (Others a)) m).
  Proof.
    intros M. rewrite srv_trace. replace (l ++ Others a :: m) with ((l ++ [Others a]) ++ m) by (rewrite <- app_assoc; reflexivity).
    assert (G : forall m, trace ((l ++ [Others a]) ++ m) = trace l ++ a :: trace_from (act (acts l) (Others a)) m).
    { intros k. unfold trace, WholeCommand.acts. generalize (at_first version defaults). induction l as [|d l' IH]; intros w; cbn [app trace_from fold_left].
      - cbn [did]. rewrite M. reflexivity.
      - rewrite IH, app_assoc. reflexivity. }
    rewrite G. unfold Server.run. rewrite fold_left_app. cbn [fold_left]. f_equal. f_equal. symmetry. apply srv_trace.
  Qed.
End Whole.

(** *** A command with nothing to name *)
Section Nothing.
  Variables (unreadable : ty -> list byte -> bool) (version : rstr) (self other : Server.peer) (own_version : rstr)
            (c : Server.conn) (current : option rstr) (cmd : command) (defaults : list (rstr * rstr)).
  Notation acts := (acts unreadable version self other own_version c current cmd defaults).
  Hypothesis unwished : wish current cmd = None.

  Lemma nothing_asked l :
    let w := acts l in
    srv w = Server.run (Server.server_new defaults) (others c l) /\ asked w = false /\
    Handshake.up (Handshake.wire (Handshake.daemon (talk w))) = [] /\
    match Handshake.at_c (talk w) with Handshake.CVersion | Handshake.CRequest _ | Handshake.CFailed => True | _ => False end /\
    match Handshake.at_d (Handshake.daemon (talk w)) with Handshake.DVersion _ | Handshake.DRequest _ | Handshake.DGone _ => True | _ => False end.
  Proof.
    cbv zeta. induction l as [|d l IH] using rev_ind; [cbn; auto|]. rewrite acts_snoc. unfold others. rewrite flat_map_app. fold (others c l). cbn [flat_map]. rewrite app_nil_r.
    destruct IH as (S & A & U & C & D). destruct d as [a|k|k|ms|]; cbn [WholeCommand.act].
    - destruct (mine c a); [rewrite app_nil_r; auto|]. cbn [srv asked talk]. rewrite S, run_step. auto.
    - rewrite app_nil_r. unfold daemon_move. destruct (Handshake.at_d (Handshake.daemon (talk (acts l)))) as [rest|qt|h|rest|h rest|e] eqn:E; try contradiction;
        cbn [srv asked talk Handshake.daemon Handshake.at_c]; (split; [exact S|]); (split; [exact A|]); unfold Handshake.daemon_turn; rewrite E.
      + destruct (Handshake.client_closed _); [cbn; auto|]. destruct (skipn (Datatypes.S k) rest); cbn; auto.
      + rewrite U. change (decode_from connect_header []) with (@None (value * list byte)). cbv iota. destruct (_ || _); cbn; rewrite ?E; auto.
      + rewrite E. auto.
    - rewrite app_nil_r. unfold client_move. rewrite unwished. cbn [srv asked talk]. split; [exact S|]. split; [exact A|].
      destruct (Handshake.at_c (talk (acts l))) eqn:E; try contradiction.
      + unfold Handshake.client_turn. rewrite E. destruct (decode_from version_header _) as [[v rest]|]; [|destruct (_ || _)];
          repeat match goal with |- context [match ?x with _ => _ end] => lazymatch x with Handshake.at_c _ => fail | Handshake.at_d _ => fail | _ => destruct x end end;
          unfold Handshake.dialled_with; repeat match goal with |- context [Version.client_new ?x ?y] => destruct (Version.client_new x y) end; cbn; rewrite ?E; auto.
      + cbn. auto.
      + unfold Handshake.client_turn. rewrite E, E. auto.
    - rewrite app_nil_r. cbn [srv asked talk Handshake.daemon Handshake.at_c]. unfold Handshake.wait. cbn [Handshake.wire Handshake.at_d].
      split; [exact S|]. split; [exact A|]. split; [exact U|]. split; [exact C|]. destruct (Handshake.at_d _); exact D.
    - rewrite app_nil_r. destruct (Handshake.at_c (talk (acts l))) eqn:E; try contradiction; [cbn; auto|cbn; auto|rewrite E; auto].
  Qed.
End Nothing.
