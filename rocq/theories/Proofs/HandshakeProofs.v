(** Proofs about the start of a conversation, for C67. *)
From Coq Require Import String List NArith ZArith Bool Arith Lia.
From Verif Require Import Model.Base Model.Version Model.Msgpack Model.Messages Model.Dial Model.Server Model.Handshake
  Spec.MessagesSpec Spec.HandshakeSpec Proofs.BaseLemmas Proofs.MsgpackProofs Proofs.MessagesProofs.
Import ListNotations.
Open Scope N_scope.

Lemma decode_more t bs v r more : decode_from t bs = Some (v, r) -> decode_from t (bs ++ more) = Some (v, r ++ more) /\ (length r < length bs)%nat.
Proof.
  unfold decode_from. destruct (read_value bs) as [[m r0]|] eqn:R; [|discriminate]. destruct (decode t m) as [w|] eqn:D; [|discriminate].
  intros E. injection E as -> ->. pose proof (parse_enough _ _ _ _ R) as [_ L]. split; [|exact L].
  pose proof (parse_rest _ _ _ _ more R) as P. pose proof (parse_enough _ _ _ _ P) as [Q _]. rewrite Q, D. reflexivity.
Qed.

Lemma round_trip t v rest : In t messages -> has_type t v -> decode_from t (encode_to t v ++ rest) = Some (v, rest).
Proof.
  intros It H. assert (S : sound t = true).
  { assert (A : forallb sound messages = true) by (vm_compute; reflexivity). rewrite forallb_forall in A. exact (A t It). }
  unfold encode_to. rewrite decode_from_app by (apply fits_encode; assumption). rewrite decode_encode by assumption. reflexivity.
Qed.

Lemma begins_refl {A} (a : list A) : begins a a.
Proof. exists []. rewrite app_nil_r. reflexivity. Qed.
Lemma begins_app {A} (a b : list A) : begins a (a ++ b).
Proof. exists b. reflexivity. Qed.
Lemma begins_trans {A} (a b c : list A) : begins a b -> begins b c -> begins a c.
Proof. intros (x & ->) (y & ->). exists (x ++ y). rewrite app_assoc. reflexivity. Qed.

(** A proper beginning of a message is not read, and not given up on. *)
Lemma early t v bs more rest : decode_from t (bs ++ more) = Some (v, rest) -> (length rest < length more)%nat -> decode_from t bs = None.
Proof.
  intros H L. destruct (decode_from t bs) as [[w r]|] eqn:E; [|reflexivity]. apply (decode_more _ _ _ _ more) in E as [E _].
  rewrite E in H. injection H as -> <-. rewrite app_length in L. lia.
Qed.

Lemma attaching_is h : attaching h = is_attach h.
Proof.
  destruct h as [| | | | | | |n o]; try reflexivity. unfold attaching, is_attach. destruct (list_eq_dec N.eq_dec n (lit "Attach")) as [->|D].
  - symmetry. apply str_eqb_eq. reflexivity.
  - destruct (str_eqb n (lit "Attach")) eqn:E; [apply str_eqb_eq in E; congruence|reflexivity].
Qed.

Section Front.
  Variables (unreadable : ty -> list byte -> bool) (version : rstr) (self other : peer) (answer : value -> list byte).
  Notation met := (met unreadable version self other answer).
  Notation meet := (meet unreadable self other answer).
  Notation vb := (version_bytes version).
  Notation due := (due version self other answer).

  Lemma met_snoc l e : met (l ++ [e]) = meet (met l) e.
  Proof. unfold Handshake.met. rewrite fold_left_app. reflexivity. Qed.

  Definition hung_up (l : list event) : bool := existsb (fun e => match e with HangUp => true | _ => false end) l.
  Lemma hung_up_snoc l e : hung_up (l ++ [e]) = hung_up l || match e with HangUp => true | _ => false end.
  Proof. unfold hung_up. rewrite existsb_app. cbn. rewrite orb_false_r. reflexivity. Qed.
  Lemma sent_snoc l e : sent (l ++ [e]) = sent l ++ (if hung_up l then [] else match e with Arrive bs => bs | _ => [] end).
  Proof.
    induction l as [|x l IH]; [destruct e; cbn; rewrite ?app_nil_r; reflexivity|]. cbn [app].
    destruct x; cbn [sent hung_up existsb orb]; [exact IH| |exact IH|reflexivity]. rewrite IH, app_assoc. reflexivity.
  Qed.

  Definition fine (b : list byte) (f : front) : Prop :=
    let l := wire f in
    match at_d f with
    | DVersion rest => down l ++ rest = vb /\ up l = b /\ handled f = [] /\ rest <> [] /\ daemon_closed l = false
    | DRequest _ => down l = vb /\ up l = b /\ handled f = [] /\ daemon_closed l = false
    | DPeer h => down l = vb /\ handled f = [] /\ decode_from connect_header b = Some (h, up l) /\ daemon_closed l = false
    | DRefuse rest => handled f = [] /\ down l ++ rest = due b /\ (exists h, decode_from connect_header b = Some (h, up l)) /\ exists why, check_peer self other = Err why
    | DAnswer h rest => (exists pid, handled f = [(pid, h)] /\ check_peer self other = Ok pid) /\ down l ++ rest = due b /\
        decode_from connect_header b = Some (h, up l) /\ daemon_closed l = false
    | DGone e => begins (down l) (due b) /\
        match e with
        | Probe => handled f = [] /\ daemon_closed l = true
        | Refused => handled f = [] /\ daemon_closed l = true /\ down l = due b /\ (exists h r, decode_from connect_header b = Some (h, r)) /\ exists why, check_peer self other = Err why
        | Served => (exists pid h r, handled f = [(pid, h)] /\ check_peer self other = Ok pid /\ decode_from connect_header b = Some (h, r) /\
            daemon_closed l = negb (is_attach h)) /\ down l = due b
        | Failed => (handled f = [] \/ exists pid h r, handled f = [(pid, h)] /\ check_peer self other = Ok pid /\ decode_from connect_header b = Some (h, r)) /\
            daemon_closed l = true
        end
    end.

  Lemma vb_some : vb <> [].
  Proof. discriminate. Qed.
  Lemma due_vb b : begins vb (due b).
  Proof. apply begins_app. Qed.
  Lemma due_grows b more : begins (due b) (due (b ++ more)).
  Proof.
    unfold HandshakeSpec.due. destruct (decode_from connect_header b) as [[h r]|] eqn:E.
    - apply (decode_more _ _ _ _ more) in E as [E _]. rewrite E. apply begins_refl.
    - rewrite app_nil_r. apply begins_app.
  Qed.
  Lemma due_same b more h r : decode_from connect_header b = Some (h, r) -> due (b ++ more) = due b.
  Proof. intros E. unfold HandshakeSpec.due. rewrite E. apply (decode_more _ _ _ _ more) in E as [E _]. rewrite E. reflexivity. Qed.

  Lemma firstn_skipn_app {A} (k : nat) (a d l : list A) : d ++ l = a -> (d ++ firstn k l) ++ skipn k l = a.
  Proof. intros <-. rewrite <- app_assoc, firstn_skipn. reflexivity. Qed.
  Lemma begins_of {A} (a b c : list A) : a ++ b = c -> begins a c.
  Proof. intros <-. apply begins_app. Qed.

  Ltac fld := cbn [wire at_d handled up down client_closed daemon_closed say_down end_with close_daemon].

  Lemma turn_fine k b f : fine b f -> fine b (daemon_turn unreadable self other answer k f).
  Proof.
    intros F. unfold fine, daemon_turn in *. destruct f as [l a hd]. cbn [wire at_d handled] in *. destruct a as [rest|q|h|rest|h rest|e].
    - destruct F as (F1 & F2 & F3 & F4 & F5). destruct (client_closed l).
      + fld. split; [|auto]. eapply begins_trans; [eapply begins_of; exact F1|apply due_vb].
      + destruct (skipn (S k) rest) as [|x more] eqn:E; fld.
        * pose proof (firstn_skipn_app (S k) _ _ _ F1) as G. rewrite E, app_nil_r in G. auto.
        * pose proof (firstn_skipn_app (S k) _ _ _ F1) as G. rewrite E in G. repeat split; auto. discriminate.
    - destruct F as (F1 & F2 & F3 & F5). destruct (decode_from connect_header (up l)) as [[h rest]|] eqn:E.
      + fld. rewrite F2 in E. auto.
      + destruct (client_closed l || unreadable connect_header (up l) || (read_timeout <=? q)); fld.
        * split; [rewrite F1; apply due_vb|auto].
        * auto.
    - destruct F as (F1 & F2 & F3 & F5). destruct (check_peer self other) as [pid|why] eqn:P; fld.
      + split; [exists pid; rewrite F2; auto|]. split; [|auto]. unfold HandshakeSpec.due. rewrite F3, P, F1. reflexivity.
      + split; [exact F2|]. split; [|split; [eauto|eauto]]. unfold HandshakeSpec.due. rewrite F3, P, F1, attaching_is. destruct (is_attach h); reflexivity.
    - destruct F as (F1 & F2 & (h & F3) & why & F4). destruct rest as [|x rest].
      + fld. rewrite app_nil_r in F2. split; [rewrite F2; apply begins_refl|]. eauto 10.
      + destruct (client_closed l).
        * fld. split; [eapply begins_of; exact F2|auto].
        * cbn [wire at_d handled say_down down up]. split; [exact F1|]. split; [apply firstn_skipn_app; exact F2|eauto].
    - destruct F as ((pid & F1 & F2) & F3 & F4 & F5). destruct rest as [|x rest].
      + rewrite app_nil_r in F3. destruct (is_attach h) eqn:Ia; fld; (split; [rewrite F3; apply begins_refl|]); (split; [|exact F3]); exists pid, h, (up l); rewrite Ia; auto.
      + destruct (client_closed l).
        * fld. split; [eapply begins_of; exact F3|]. split; [|reflexivity]. right. eauto 10.
        * cbn [wire at_d handled say_down down up]. split; [eauto|]. split; [apply firstn_skipn_app; exact F3|auto].
    - exact F.
  Qed.

  Lemma arrive_fine bs b f : fine b f -> fine (b ++ bs) (arrive bs f).
  Proof.
    intros F. unfold fine, arrive in *. destruct f as [l a hd]. cbn [wire at_d handled] in *. destruct a as [rest|q|h|rest|h rest|e].
    - fld. destruct F as (F1 & -> & F). auto.
    - destruct bs; fld; destruct F as (F1 & -> & F); auto.
    - fld. destruct F as (F1 & F2 & F3 & F5). apply (decode_more _ _ _ _ bs) in F3 as [F3 _]. auto.
    - fld. destruct F as (F1 & F2 & (h & F3) & F4). rewrite (due_same _ bs _ _ F3). split; [exact F1|]. split; [exact F2|].
      apply (decode_more _ _ _ _ bs) in F3 as [F3 _]. eauto.
    - fld. destruct F as (F1 & F2 & F3 & F5). rewrite (due_same _ bs _ _ F3). split; [exact F1|]. split; [exact F2|].
      apply (decode_more _ _ _ _ bs) in F3 as [F3 _]. auto.
    - fld. destruct F as (F1 & F2). split; [eapply begins_trans; [exact F1|apply due_grows]|]. destruct e.
      + exact F2.
      + destruct F2 as [[F2|(pid & h & r & A & B & C)] D]; split; auto. right. apply (decode_more _ _ _ _ bs) in C as [C _]. eauto 10.
      + destruct F2 as (A & B & C & (h & r & D) & E). rewrite (due_same _ bs _ _ D). apply (decode_more _ _ _ _ bs) in D as [D _]. eauto 10.
      + destruct F2 as [(pid & h & r & A & B & C & G) D]. rewrite (due_same _ bs _ _ C). apply (decode_more _ _ _ _ bs) in C as [C _]. eauto 10.
  Qed.

  Lemma wait_fine ms b f : fine b f -> fine b (wait ms f).
  Proof. unfold fine, wait. destruct f as [l [] hd]; cbn; auto. Qed.
  Lemma hang_fine b f : fine b f -> fine b (hang_up f).
  Proof. unfold fine, hang_up. destruct f as [l [] hd]; cbn; auto. Qed.

  Lemma turn_closed k f : client_closed (wire (daemon_turn unreadable self other answer k f)) = client_closed (wire f).
  Proof.
    unfold daemon_turn. destruct f as [l a hd]. cbn [wire at_d handled]. destruct a as [rest|q|h|[|]|h [|]|e]; try reflexivity.
    - destruct (client_closed l) eqn:E; [exact E|]. destruct (skipn (S k) rest); exact E.
    - destruct (decode_from connect_header (up l)) as [[h r]|]; [reflexivity|]. destruct (_ || _); reflexivity.
    - destruct (check_peer self other); reflexivity.
    - destruct (client_closed l) eqn:E; exact E.
    - destruct (is_attach h); reflexivity.
    - destruct (client_closed l) eqn:E; exact E.
  Qed.

  Lemma met_fine l : fine (sent l) (met l) /\ client_closed (wire (met l)) = hung_up l.
  Proof.
    induction l as [|e l [IH IH']] using rev_ind.
    - split; [|reflexivity]. cbn. repeat split. apply vb_some.
    - rewrite met_snoc, sent_snoc, hung_up_snoc. destruct e as [k|bs|ms|]; cbn [Handshake.meet].
      + rewrite turn_closed, orb_false_r. split; [|exact IH']. destruct (hung_up l); rewrite app_nil_r; apply turn_fine; exact IH.
      + rewrite IH', orb_false_r. destruct (hung_up l); [rewrite app_nil_r; auto|]. split; [apply arrive_fine; exact IH|exact IH'].
      + rewrite orb_false_r. split; [|exact IH']. destruct (hung_up l); rewrite app_nil_r; apply wait_fine; exact IH.
      + split; [destruct (hung_up l); rewrite app_nil_r; apply hang_fine; exact IH|]. rewrite orb_true_r. reflexivity.
  Qed.

  (** Whoever has sent a request is answered. *)
  Definition to_answer (b : list byte) (f : front) : nat :=
    match at_d f with
    | DVersion rest => length rest + (length (due b) - length vb) + 4
    | DRequest _ => length (due b) - length vb + 3
    | DPeer _ => length (due b) - length vb + 2
    | DRefuse rest | DAnswer _ rest => length rest + 1
    | DGone _ => 0
    end.
  Definition answering (f : front) : Prop := match at_d f with DGone Served | DGone Refused => True | DGone _ => False | _ => True end.

  Lemma turn_answers k b h r f : fine b f -> client_closed (wire f) = false -> decode_from connect_header b = Some (h, r) -> answering f ->
    let f' := daemon_turn unreadable self other answer k f in answering f' /\ (to_answer b f' <= to_answer b f - 1)%nat.
  Proof.
    intros F C Dc A. pose proof (turn_fine k b f F) as F'. cbv zeta. unfold answering, to_answer, fine, daemon_turn in *. destruct f as [l at0 hd]. cbn [wire at_d handled] in *. rewrite C in *.
    destruct at0 as [rest|q|h0|rest|h0 rest|e].
    - destruct F as (F1 & F2 & F3 & F4 & F5). assert (Y : (length (skipn (S k) rest) < length rest)%nat) by (rewrite skipn_length; destruct rest; [congruence|cbn; lia]).
      destruct (skipn (S k) rest) as [|x more]; cbn [wire at_d handled]; (split; [trivial|]); cbn [length] in *; lia.
    - destruct F as (F1 & F2 & F3 & F5). rewrite F2 in *. rewrite Dc in *. cbn [wire at_d handled]. split; [trivial|]. lia.
    - destruct F as (F1 & F2 & F3 & F5). destruct (check_peer self other) as [pid|why] eqn:P; cbn [wire at_d handled] in *; (split; [trivial|]).
      + destruct F' as (_ & F' & _). rewrite F1 in F'. rewrite <- F', app_length. lia.
      + destruct F' as (_ & F' & _). rewrite F1 in F'. rewrite <- F', app_length. lia.
    - destruct rest as [|x rest]; cbn [wire at_d handled end_with]; (split; [trivial|]); [lia|]. rewrite skipn_length. cbn [length]. lia.
    - destruct rest as [|x rest]; [destruct (is_attach h0)|]; cbn [wire at_d handled end_with]; (split; [trivial|]); [lia|lia|]. rewrite skipn_length. cbn [length]. lia.
    - cbn [wire at_d handled]. split; [exact A|lia].
  Qed.
  Lemma turns_answer b h r ks : decode_from connect_header b = Some (h, r) -> forall f, fine b f -> client_closed (wire f) = false -> answering f ->
    let f' := fold_left meet (map Turn ks) f in fine b f' /\ answering f' /\ (to_answer b f' <= to_answer b f - length ks)%nat.
  Proof.
    intros Dc. induction ks as [|k ks IH]; intros f F C A; [cbn; split; [exact F|split; [exact A|lia]]|]. cbn [map fold_left Handshake.meet].
    destruct (turn_answers k b h r f F C Dc A) as [A' M]. destruct (IH _ (turn_fine k b f F) (eq_trans (turn_closed k f) C) A') as (X & Y & Z).
    split; [exact X|]. split; [exact Y|]. cbn [length]. lia.
  Qed.
  Lemma answered b f : fine b f -> answering f -> to_answer b f = 0%nat -> at_d f = DGone Served \/ at_d f = DGone Refused.
  Proof. unfold answering, to_answer. destruct (at_d f) as [rest|q|h0|rest|h0 rest|[]]; intros; try lia; try contradiction; auto. Qed.
  Lemma to_answer_bound b f : fine b f -> (to_answer b f <= length (due b) + 4)%nat.
  Proof.
    unfold fine, to_answer. destruct (at_d f) as [rest|q|h0|rest|h0 rest|e]; intros F; try lia.
    - destruct F as (F & _). destruct (due_vb b) as (c & E). rewrite E, <- F, !app_length. lia.
    - destruct F as (_ & F & _). rewrite <- F, app_length. lia.
    - destruct F as (_ & F & _). rewrite <- F, app_length. lia.
  Qed.

  (** Whoever has not is let go. *)
  Lemma turns_wait b ks : decode_from connect_header b = None -> forall f, fine b f ->
    let f' := fold_left meet (map Turn ks) f in fine b f' /\
      ((exists rest rest', at_d f = DVersion rest /\ at_d f' = DVersion rest' /\ (length rest' + length ks <= length rest)%nat) \/ (exists q, at_d f' = DRequest q) \/
       (exists e, at_d f' = DGone e)).
  Proof.
    intros Dn. induction ks as [|k ks IH]; intros f F.
    - cbn. split; [exact F|]. unfold fine in F. destruct (at_d f) as [rest|q|h0|rest|h0 rest|e]; try (exfalso; intuition congruence); eauto.
      + left. exists rest, rest. cbn. repeat split; lia.
      + exfalso. destruct F as (_ & _ & (h & F) & _). congruence.
    - cbn [map fold_left Handshake.meet]. destruct (IH _ (turn_fine k b f F)) as [X [Y|Y]]; split; auto. destruct Y as (rest & rest' & Y1 & Y2 & Y3). left.
      unfold daemon_turn in Y1. unfold fine in F. destruct (at_d f) as [r0|q|h0|r0|h0 r0|e] eqn:A.
      + destruct (client_closed (wire f)); [discriminate|]. exists r0, rest'. split; [reflexivity|]. split; [exact Y2|].
        destruct (skipn (S k) r0) as [|x more] eqn:Sk; [discriminate|]. cbn in Y1. injection Y1 as <-.
        assert (Y : (length (skipn (S k) r0) < length r0)%nat) by (rewrite skipn_length; destruct r0; [destruct F as (_ & _ & _ & F & _); congruence|cbn; lia]).
        rewrite Sk in Y. cbn [length] in *. lia.
      + exfalso. destruct (decode_from connect_header (up (wire f))) as [[? ?]|]; [discriminate|]. destruct (_ || _); [discriminate|]. congruence.
      + exfalso. destruct F as (_ & _ & F & _). congruence.
      + exfalso. destruct F as (_ & _ & (h & F) & _). congruence.
      + exfalso. destruct F as (_ & _ & F & _). congruence.
      + congruence.
  Qed.

  (** Once the thread is done with the connection nothing more is handled or said. *)
  Lemma gone_meet f e x : at_d f = DGone e -> at_d (meet f x) = DGone e /\ handled (meet f x) = handled f /\ down (wire (meet f x)) = down (wire f) /\
    daemon_closed (wire (meet f x)) = daemon_closed (wire f).
  Proof.
    intros G. destruct f as [l a hd]. cbn in G. subst a. destruct x as [k|bs|ms|]; cbn; auto. destruct (client_closed l); cbn; auto.
  Qed.
  Lemma met_app l l' : met (l ++ l') = fold_left meet l' (met l).
  Proof. unfold Handshake.met. apply fold_left_app. Qed.
  Lemma gone_stays l' : forall f e, at_d f = DGone e -> at_d (fold_left meet l' f) = DGone e /\ handled (fold_left meet l' f) = handled f /\
    down (wire (fold_left meet l' f)) = down (wire f) /\ daemon_closed (wire (fold_left meet l' f)) = daemon_closed (wire f).
  Proof.
    induction l' as [|x l' IH]; intros f e G; [auto|]. cbn [fold_left]. destruct (gone_meet f e x G) as (A & B & C & D).
    destruct (IH _ _ A) as (A' & B' & C' & D'). rewrite B', C', D'. auto.
  Qed.

  (** The accept loop. *)
  Notation serve := (serve unreadable version self other answer).
  Lemma own_snoc l x : forall n id, own n id (l ++ [x]) = own n id l ++ match x with At i e => if (i =? id) && (id <=? n + arrivals l) then [e] else [] | _ => [] end.
  Proof.
    induction l as [|y l IH]; intros n id.
    - cbn [app own arrivals]. destruct x as [[]|i e]; cbn; try reflexivity. rewrite N.add_0_r. destruct ((i =? id) && (id <=? n)); reflexivity.
    - cbn [app]. destruct y as [[]|i e]; cbn [own arrivals].
      + rewrite IH, N.add_assoc. reflexivity.
      + apply IH.
      + destruct ((i =? id) && (id <=? n)); rewrite IH; reflexivity.
  Qed.
  Lemma arrivals_snoc l x : arrivals (l ++ [x]) = arrivals l + match x with Accept true => 1 | _ => 0 end.
  Proof. induction l as [|y l IH]; [destruct x as [[]|]; reflexivity|]. cbn [app]. destruct y as [[]|]; cbn [arrivals]; rewrite IH; lia. Qed.
  Lemma own_late l : forall n id, n + arrivals l < id -> own n id l = [].
  Proof.
    induction l as [|y l IH]; intros n id H; [reflexivity|]. destruct y as [[]|i e]; cbn [own arrivals] in *; [apply IH; lia|apply IH; lia|].
    replace (id <=? n) with false by (symmetry; apply N.leb_gt; lia). rewrite andb_false_r. apply IH. exact H.
  Qed.
  Lemma serve_snoc l x : serve (l ++ [x]) = serve_step unreadable version self other answer (serve l) x.
  Proof. unfold Handshake.serve. rewrite fold_left_app. reflexivity. Qed.

  Lemma serve_conns l : counter (serve l) = arrivals l /\
    conns (serve l) = map (fun i => (N.of_nat i, met (own 0 (N.of_nat i) l))) (seq 1 (N.to_nat (arrivals l))).
  Proof.
    induction l as [|x l [IH IH']] using rev_ind; [split; reflexivity|]. rewrite serve_snoc, arrivals_snoc. destruct x as [[]|id e]; cbn [serve_step].
    - cbn [counter conns]. rewrite IH. split; [reflexivity|]. rewrite IH'. replace (N.to_nat (arrivals l + 1)) with (N.to_nat (arrivals l) + 1)%nat by lia.
      rewrite seq_app, map_app. f_equal.
      + apply map_ext. intros i. rewrite own_snoc, app_nil_r. reflexivity.
      + cbn [seq map]. replace (N.of_nat (1 + N.to_nat (arrivals l))) with (arrivals l + 1) by lia. rewrite own_snoc, own_late by lia. reflexivity.
    - rewrite N.add_0_r. split; [exact IH|]. rewrite IH'. apply map_ext. intros i. rewrite own_snoc, app_nil_r. reflexivity.
    - rewrite N.add_0_r. cbn [counter conns]. split; [exact IH|]. rewrite IH', map_map. apply map_ext_in. intros i Hi. cbn [fst snd]. rewrite own_snoc. rewrite (N.eqb_sym (N.of_nat i) id).
      apply in_seq in Hi. replace (N.of_nat i <=? 0 + arrivals l) with true by (symmetry; apply N.leb_le; lia). rewrite andb_true_r.
      destruct (id =? N.of_nat i); [|rewrite app_nil_r; reflexivity]. rewrite met_snoc. reflexivity.
  Qed.
End Front.

Section Talk.
  Variables (unreadable : ty -> list byte -> bool) (version : rstr) (self other : peer) (answer : value -> list byte).
  Variables (own_version : rstr) (silent background : bool) (request : value) (reply_ty : ty).
  Variables (a : value) (frames : list byte) (pid : Z).
  Hypothesis patience : patient unreadable.
  Hypothesis version_ok : has_type version_header (VRec [VStr version]).
  Hypothesis request_ok : has_type connect_header request.
  Hypothesis reply_known : In reply_ty messages.
  Hypothesis reply_ok : has_type reply_ty a.
  Hypothesis answers : answer request = encode_to reply_ty a ++ frames.
  Hypothesis allowed : check_peer self other = Ok pid.

  Notation V := (version_bytes version).
  Notation R := (encode_to connect_header request).
  Notation A := (encode_to reply_ty a ++ frames).
  Notation step := (talk_step unreadable self other answer own_version silent background request reply_ty).
  Notation run := (talk_run unreadable self other answer own_version silent background request reply_ty).

  Lemma V_reads x : decode_from version_header (V ++ x) = Some (VRec [VStr version], x).
  Proof. apply round_trip; [left; reflexivity|exact version_ok]. Qed.
  Lemma R_reads x : decode_from connect_header (R ++ x) = Some (request, x).
  Proof. apply round_trip; [right; left; reflexivity|exact request_ok]. Qed.
  Lemma A_reads : decode_from reply_ty A = Some (a, frames).
  Proof. apply round_trip; assumption. Qed.
  Lemma nothing_reads t : decode_from t [] = None.
  Proof. reflexivity. Qed.
  Lemma R_some : R <> [].
  Proof. intros E. pose proof (R_reads []) as H. rewrite app_nil_r, E, nothing_reads in H. discriminate. Qed.

  Definition dok (S O : list byte) (f : front) : Prop :=
    let l := wire f in
    match at_d f with
    | DVersion rest => O ++ rest = V /\ up l = S /\ handled f = [] /\ rest <> [] /\ daemon_closed l = false
    | DRequest _ => O = V /\ up l = S /\ handled f = [] /\ daemon_closed l = false
    | DPeer h => O = V /\ h = request /\ S = R /\ up l = [] /\ handled f = [] /\ daemon_closed l = false
    | DRefuse _ => False
    | DAnswer h rest => h = request /\ S = R /\ up l = [] /\ handled f = [(pid, request)] /\ (exists x, O = V ++ x /\ x ++ rest = A) /\ daemon_closed l = false
    | DGone Served => handled f = [(pid, request)] /\ S = R /\ O = V ++ A
    | DGone _ => begins O (V ++ A) /\ (handled f = [] \/ handled f = [(pid, request)]) /\ daemon_closed l = true /\
        (client_closed l = true \/ (O = V /\ handled f = [] ))
    end.

  Definition cok (S O r : list byte) (t : talk) : Prop :=
    let l := wire (daemon t) in
    match at_c t with
    | CVersion => S = [] /\ O = down l /\ client_closed l = false
    | CAsk => S = [] /\ O = V ++ down l /\ client_closed l = false
    | CRequest r' => r' = r /\ r <> [] /\ O = V ++ down l /\ client_closed l = false
    | CReply => S = R /\ O = V ++ down l /\ client_closed l = false
    | CDone v => v = a /\ S = R /\ O = V ++ encode_to reply_ty a ++ down l /\ client_closed l = false
    | CFailed => client_closed l = true
    end.

  Definition ok (t : talk) : Prop := exists S O r, S ++ r = R /\ dok S O (daemon t) /\ cok S O r t.

  Lemma dok_begins S O f : dok S O f -> begins O (V ++ A).
  Proof.
    unfold dok. destruct (at_d f) as [rest|q|h|rest|h rest|e].
    - intros (E & _). rewrite <- E, <- !app_assoc. apply begins_app.
    - intros (E & _). rewrite E. apply begins_app.
    - intros (E & _). rewrite E. apply begins_app.
    - intros [].
    - intros (_ & _ & _ & _ & (x & -> & E) & _). rewrite <- E, app_assoc. apply begins_app.
    - destruct e; [tauto|tauto|tauto|]. intros (_ & _ & E). rewrite E. apply begins_refl.
  Qed.

  Lemma same_front S O f l : dok S O f -> up l = up (wire f) -> daemon_closed l = daemon_closed (wire f) ->
    (client_closed (wire f) = true -> client_closed l = true) -> dok S O (mkFront l (at_d f) (handled f)).
  Proof.
    unfold dok. cbn [wire at_d handled]. intros D U C K. destruct (at_d f) as [rest|q|h|rest|h rest|e]; rewrite ?U, ?C; try exact D.
    destruct e; try exact D; (destruct D as (D1 & D2 & D3 & [D4|D4]); repeat split; auto).
  Qed.

  Lemma begins_cancel {X} (p q r : list X) : begins (p ++ q) (p ++ r) -> begins q r.
  Proof. intros (c & E). rewrite <- app_assoc in E. apply app_inv_head in E. exists c. exact E. Qed.

  Lemma version_in S O f : dok S O f -> client_closed (wire f) = false -> (forall rest, at_d f <> DVersion rest) -> exists x, O = V ++ x /\ begins x A.
  Proof.
    intros D C N. pose proof (dok_begins S O f D) as B. assert (G : exists x, O = V ++ x).
    { unfold dok in D. destruct (at_d f) as [rest|q|h|rest|h rest|e].
      - destruct (N rest eq_refl).
      - exists []. rewrite app_nil_r. tauto.
      - exists []. rewrite app_nil_r. tauto.
      - destruct D.
      - destruct D as (_ & _ & _ & _ & (x & E & _) & _). eauto.
      - destruct e; try (destruct D as (_ & _ & _ & [K|[K _]]); [congruence|exists []; rewrite app_nil_r; exact K]). destruct D as (_ & _ & K). eauto. }
    destruct G as (x & ->). exists x. split; [reflexivity|]. exact (begins_cancel _ _ _ B).
  Qed.

  Ltac fld := cbn [wire at_d handled up down client_closed daemon_closed say_down end_with close_daemon daemon at_c hang_up take_down give_up arrive wait].

  Lemma turn_dok k S O r f : S ++ r = R -> dok S O f -> client_closed (wire f) = false ->
    exists w, down (wire (daemon_turn unreadable self other answer k f)) = down (wire f) ++ w /\ dok S (O ++ w) (daemon_turn unreadable self other answer k f).
  Proof.
    intros ES D C. destruct f as [l at0 hd]. unfold daemon_turn. cbn [wire at_d handled] in *. rewrite C. unfold dok in D. cbn [wire at_d handled] in D.
    destruct at0 as [rest|q|h|rest|h rest|e].
    - destruct D as (D1 & D2 & D3 & D4 & D5). exists (firstn (Datatypes.S k) rest). destruct (skipn (Datatypes.S k) rest) as [|x more] eqn:E.
      + split; [reflexivity|]. unfold dok. fld. pose proof (firstn_skipn_app (Datatypes.S k) _ _ _ D1) as G. rewrite E, app_nil_r in G. auto.
      + split; [reflexivity|]. unfold dok. fld. pose proof (firstn_skipn_app (Datatypes.S k) _ _ _ D1) as G. rewrite E in G. repeat split; auto. discriminate.
    - exists []. rewrite !app_nil_r. destruct D as (D1 & D2 & D3 & D4). rewrite D2. destruct (decode_from connect_header S) as [[h rest]|] eqn:E.
      + split; [reflexivity|]. unfold dok. fld. apply (decode_more _ _ _ _ r) in E as [E _]. rewrite ES in E. pose proof (R_reads []) as H.
        rewrite app_nil_r, E in H. injection H as Hh Hr. apply app_eq_nil in Hr as [-> ->]. rewrite app_nil_r in ES. auto 10.
      + destruct (false || unreadable connect_header S || (read_timeout <=? q)).
        * split; [reflexivity|]. unfold dok. fld. rewrite D1. split; [apply begins_app|]. auto.
        * split; [reflexivity|]. unfold dok. fld. auto.
    - exists []. rewrite !app_nil_r. destruct D as (D1 & -> & D3 & D4 & D5 & D6). rewrite allowed. split; [reflexivity|]. unfold dok. fld.
      rewrite D5. cbn [app]. split; [reflexivity|]. split; [exact D3|]. split; [exact D4|]. split; [reflexivity|]. split; [|exact D6]. exists []. rewrite app_nil_r, answers. auto.
    - destruct D.
    - destruct D as (-> & D2 & D3 & D4 & (x & D5 & D6) & D7). destruct rest as [|b rest].
      + exists []. rewrite !app_nil_r in *. subst x. destruct (is_attach request); (split; [reflexivity|]); unfold dok; fld; auto.
      + exists (firstn (Datatypes.S k) (b :: rest)). split; [reflexivity|]. unfold dok. fld. repeat split; auto. exists (x ++ firstn (Datatypes.S k) (b :: rest)).
        rewrite D5, app_assoc. split; [reflexivity|]. apply firstn_skipn_app. exact D6.
    - exists []. rewrite !app_nil_r. split; [reflexivity|]. exact D.
  Qed.

  (** With the client gone: nothing but what is handled matters. *)
  Lemma turn_dok_closed k S O r f : S ++ r = R -> dok S O f -> client_closed (wire f) = true ->
    exists O', dok S O' (daemon_turn unreadable self other answer k f).
  Proof.
    intros ES D C. pose proof (dok_begins _ _ _ D) as B. destruct f as [l at0 hd]. unfold daemon_turn. cbn [wire at_d handled] in *. rewrite C. unfold dok in D. cbn [wire at_d handled] in D.
    destruct at0 as [rest|q|h|rest|h rest|e].
    - exists O. destruct D as (D1 & D2 & D3 & D4 & D5). unfold dok. fld. split; [exact B|]. auto.
    - exists O. destruct D as (D1 & D2 & D3 & D4). rewrite D2. destruct (decode_from connect_header S) as [[h rest]|] eqn:E.
      + unfold dok. fld. apply (decode_more _ _ _ _ r) in E as [E _]. rewrite ES in E. pose proof (R_reads []) as H.
        rewrite app_nil_r, E in H. injection H as Hh Hr. apply app_eq_nil in Hr as [-> ->]. rewrite app_nil_r in ES. auto 10.
      + cbn [orb]. unfold dok. fld. auto.
    - exists O. destruct D as (D1 & -> & D3 & D4 & D5 & D6). rewrite allowed. unfold dok. fld.
      rewrite D5. cbn [app]. split; [reflexivity|]. split; [exact D3|]. split; [exact D4|]. split; [reflexivity|]. split; [|exact D6]. exists []. rewrite app_nil_r, answers. auto.
    - destruct D.
    - exists O. destruct D as (-> & D2 & D3 & D4 & (x & D5 & D6) & D7). destruct rest as [|b rest].
      + rewrite app_nil_r in D6. subst x. destruct (is_attach request); unfold dok; fld; auto.
      + unfold dok. fld. auto.
    - exists O. exact D.
  Qed.

  Lemma ok_daemon k t : ok t -> ok (step t (Daemon k)).
  Proof.
    intros (S & O & r & ES & D & K). cbn [talk_step]. destruct (client_closed (wire (daemon t))) eqn:C.
    - destruct (turn_dok_closed k S O r _ ES D C) as (O' & D'). exists S, O', r. split; [exact ES|]. split; [exact D'|].
      unfold cok in *. cbn [daemon at_c]. destruct (at_c t); try (exfalso; intuition congruence). rewrite turn_closed. exact C.
    - destruct (turn_dok k S O r _ ES D C) as (w & W & D'). exists S, (O ++ w), r. split; [exact ES|]. split; [exact D'|].
      unfold cok in *. cbn [daemon at_c]. rewrite W, turn_closed. destruct (at_c t).
      + destruct K as (K1 & -> & K3). auto.
      + destruct K as (K1 & -> & K3). rewrite app_assoc. auto.
      + destruct K as (K1 & K2 & -> & K3). rewrite app_assoc. auto.
      + destruct K as (K1 & -> & K3). rewrite app_assoc. auto.
      + destruct K as (K1 & K2 & -> & K3). rewrite !app_assoc. auto.
      + congruence.
  Qed.

  Lemma ok_give_up t : ok t -> ok (give_up t).
  Proof.
    intros (S & O & r & ES & D & K). exists S, O, r. split; [exact ES|]. split; [|reflexivity]. unfold give_up, hang_up. fld. apply same_front; auto.
  Qed.
  Lemma ok_ready t : ok t -> at_c t = CAsk -> ok (mkTalk (daemon t) (ready request)).
  Proof.
    intros (S & O & r & ES & D & K) E. unfold cok in K. rewrite E in K. destruct K as (-> & K2 & K3). exists [], O, r. split; [exact ES|]. split; [exact D|].
    unfold cok, ready. fld. cbn [app] in ES. rewrite ES. repeat split; auto. apply R_some.
  Qed.

  (** The client never takes the version for unreadable. *)
  Lemma version_turn k t : ok t -> at_c t = CVersion ->
    ((exists rest, at_d (daemon t) = DVersion rest) /\ client_turn unreadable own_version silent background request reply_ty k t = t) \/
    ((forall rest, at_d (daemon t) <> DVersion rest) /\ exists x, ok (mkTalk (take_down x (daemon t)) CAsk) /\
      client_turn unreadable own_version silent background request reply_ty k t =
      dialled_with silent background request (client_new own_version (Some version)) (mkTalk (take_down x (daemon t)) CVersion)).
  Proof.
    intros (S & O & r & ES & D & K) E. unfold cok in K. rewrite E in K. destruct K as (-> & K2 & K3). unfold client_turn. rewrite E, <- K2.
    assert (T : (exists rest, at_d (daemon t) = DVersion rest) \/ forall rest, at_d (daemon t) <> DVersion rest) by (destruct (at_d (daemon t)); [left; eauto|right; discriminate..]).
    destruct T as [(rest & T)|N].
    - left. split; [eauto|]. unfold dok in D. rewrite T in D. destruct D as (D1 & D2 & D3 & D4 & D5).
      assert (X : decode_from version_header O = None).
      { apply (early _ (VRec [VStr version]) _ rest []). - rewrite D1. pose proof (V_reads []) as H. rewrite app_nil_r in H. exact H. - destruct rest; [congruence|cbn; lia]. }
      rewrite X, D5. destruct (unreadable version_header O) eqn:U; [|reflexivity]. apply (patience _ _ rest) in U. rewrite D1 in U. pose proof (V_reads []) as H. rewrite app_nil_r, U in H. discriminate.
    - right. split; [exact N|]. destruct (version_in _ _ _ D K3 N) as (x & E1 & E2). exists x. rewrite E1, V_reads. split; [|reflexivity].
      exists [], O, r. split; [exact ES|]. split; [unfold take_down; apply same_front; auto|]. unfold cok. fld. auto.
  Qed.

  Lemma ok_dialled r t : ok (mkTalk (daemon t) CAsk) -> ok (dialled_with silent background request r t).
  Proof.
    intros H. unfold dialled_with. pose proof (ok_ready _ H eq_refl) as H1. pose proof (ok_give_up _ H) as H2. cbn [daemon] in *.
    destruct r; try exact H1; try exact H2; destruct (silent || background); assumption.
  Qed.

  Lemma arrive_dok bs S O f : dok S O f -> S <> R -> daemon_closed (wire f) = false -> dok (S ++ bs) O (arrive bs f).
  Proof.
    intros D N C. unfold dok, arrive in *. destruct f as [l at0 hd]. cbn [wire at_d handled] in *. destruct at0 as [rest|q|h|rest|h rest|e].
    - fld. destruct D as (D1 & -> & D). auto.
    - destruct bs; fld; destruct D as (D1 & -> & D); auto.
    - destruct D as (_ & _ & D & _). congruence.
    - destruct D.
    - destruct D as (_ & D & _). congruence.
    - destruct e; try (destruct D as (_ & _ & D & _); congruence). destruct D as (_ & D & _). congruence.
  Qed.

  Lemma reply_prefix x : begins x A -> match decode_from reply_ty x with Some (v, rest) => v = a /\ x = encode_to reply_ty a ++ rest | None => True end /\ unreadable reply_ty x = false.
  Proof.
    intros (c & E). pose proof A_reads as H. split.
    - destruct (decode_from reply_ty x) as [[v rest]|] eqn:X; [|trivial]. apply (decode_more _ _ _ _ c) in X as [X _]. rewrite <- E, H in X. injection X as <- Hf.
      split; [reflexivity|]. rewrite Hf, app_assoc in E. apply app_inv_tail in E. auto.
    - destruct (unreadable reply_ty x) eqn:U; [|reflexivity]. apply (patience _ _ c) in U. rewrite <- E, H in U. discriminate.
  Qed.

  Lemma ok_client k t : ok t -> ok (step t (Client k)).
  Proof.
    intros H. cbn [talk_step]. destruct (at_c t) eqn:E.
    - destruct (version_turn k t H E) as [[_ ->]|(_ & x & X & ->)]; [exact H|]. apply ok_dialled. exact X.
    - unfold client_turn. rewrite E. exact H.
    - unfold client_turn. rewrite E. destruct (daemon_closed (wire (daemon t))) eqn:C; [apply ok_give_up; exact H|].
      destruct H as (S & O & r & ES & D & K). unfold cok in K. rewrite E in K. destruct K as (-> & K1 & K2 & K3).
      assert (N : S <> R) by (intros N; rewrite N in ES; rewrite <- (app_nil_r R) in ES at 2; apply app_inv_head in ES; contradiction).
      pose proof (arrive_dok (firstn (Datatypes.S k) r) S O _ D N C) as D'.
      assert (ES' : (S ++ firstn (Datatypes.S k) r) ++ skipn (Datatypes.S k) r = R) by (apply firstn_skipn_app; exact ES).
      destruct (skipn (Datatypes.S k) r) as [|b more]; eexists (S ++ firstn (Datatypes.S k) r), O, _; (split; [exact ES'|]); (split; [exact D'|]); unfold cok; fld.
      + rewrite app_nil_r in ES'. auto.
      + repeat split; auto. discriminate.
    - unfold client_turn. rewrite E. pose proof H as (S & O & r & ES & D & K). unfold cok in K. rewrite E in K. destruct K as (K1 & K2 & K3).
      pose proof (dok_begins _ _ _ D) as B. rewrite K2 in B. apply begins_cancel in B. destruct (reply_prefix _ B) as [P U].
      destruct (decode_from reply_ty (down (wire (daemon t)))) as [[v rest]|].
      + destruct P as [-> P]. exists S, O, r. split; [exact ES|]. split; [unfold take_down; apply same_front; auto|]. unfold cok. fld. rewrite <- P. auto.
      + rewrite U, orb_false_r. destruct (daemon_closed (wire (daemon t))); [apply ok_give_up|]; exact H.
    - unfold client_turn. rewrite E. exact H.
    - unfold client_turn. rewrite E. exact H.
  Qed.

  Lemma ok_wait ms t : ok t -> ok (mkTalk (wait ms (daemon t)) (at_c t)).
  Proof.
    intros (S & O & r & ES & D & K). exists S, O, r. split; [exact ES|]. split; [|exact K]. unfold dok, wait in *. destruct (daemon t) as [l at0 hd]. cbn [wire at_d handled] in *. destruct at0; exact D.
  Qed.
  Lemma ok_typed k t : ok t -> ok (typed request k t).
  Proof.
    intros H. unfold typed. destruct (at_c t) eqn:E; try exact H. destruct (await_enter [k]) as [[[] rest]|]; [apply ok_ready; assumption|apply ok_give_up; exact H|exact H].
  Qed.
  Lemma ok_step t m : ok t -> ok (step t m).
  Proof. intros H. destruct m; [apply ok_daemon; exact H|apply ok_client; exact H|apply ok_typed; exact H|apply ok_wait; exact H|apply ok_give_up; exact H]. Qed.
  Lemma ok_begun : ok (begun version).
  Proof. exists [], [], R. split; [reflexivity|]. split; [|repeat split; reflexivity]. unfold dok. cbn. repeat split. discriminate. Qed.
  Lemma ok_run l : ok (run (begun version) l).
  Proof. unfold talk_run. induction l as [|m l IH] using rev_ind; [apply ok_begun|]. rewrite fold_left_app. apply ok_step. exact IH. Qed.

  (** What is handled is the request. *)
  Lemma ok_handled t : ok t -> handled (daemon t) = [] \/ handled (daemon t) = [(pid, request)].
  Proof.
    intros (S & O & r & ES & D & K). unfold dok in D. destruct (at_d (daemon t)) as [rest|q|h|rest|h rest|e]; try tauto. destruct e; tauto.
  Qed.
  Lemma ok_done t v : ok t -> at_c t = CDone v -> v = a /\ handled (daemon t) = [(pid, request)] /\ begins (down (wire (daemon t))) frames /\
    (at_d (daemon t) = DGone Served -> down (wire (daemon t)) = frames).
  Proof.
    intros (S & O & r & ES & D & K) E. unfold cok in K. rewrite E in K. destruct K as (-> & K1 & K2 & K3). split; [reflexivity|].
    pose proof (dok_begins _ _ _ D) as B. rewrite K2 in B. apply begins_cancel, begins_cancel in B.
    assert (L : O <> V). { intros X. rewrite X in K2. rewrite <- (app_nil_r V) in K2 at 1. apply app_inv_head in K2. symmetry in K2. apply app_eq_nil in K2 as [K2 _].
      pose proof A_reads as G. rewrite K2 in G. cbn [app] in G. apply (decode_more _ _ _ _ []) in G as [_ G]. lia. }
    unfold dok in D. destruct (at_d (daemon t)) as [rest|q|h|rest|h rest|e].
    - exfalso. destruct D as (D & _). assert (Z : (length O <= length V)%nat) by (rewrite <- D, app_length; lia). rewrite K2, !app_length in Z.
      pose proof A_reads as G. assert (Y : encode_to reply_ty a = []) by (destruct (encode_to reply_ty a); [reflexivity|cbn in Z; lia]). rewrite Y in G. cbn [app] in G.
      apply (decode_more _ _ _ _ []) in G as [_ G]. lia.
    - tauto.
    - tauto.
    - destruct D.
    - split; [tauto|]. split; [exact B|discriminate].
    - destruct e.
      1,2,3: destruct D as (_ & _ & _ & [D|[D _]]); [congruence|contradiction].
      split; [tauto|]. split; [exact B|]. intros _. destruct D as (_ & _ & D). rewrite K2 in D. apply app_inv_head, app_inv_head in D. exact D.
  Qed.

  (** The conversation gets on. *)
  Hypothesis comparable : forall e, client_new own_version (Some version) <> ConnectFails e.

  Open Scope nat_scope.
  Definition md (x : daemon_at) : nat :=
    match x with
    | DVersion rest => length rest + length A + 4 | DRequest _ => length A + 3 | DPeer _ => length A + 2
    | DRefuse rest => 0 | DAnswer _ rest => length rest + 1 | DGone _ => 0
    end.
  Definition mc (x : client_at) : nat :=
    match x with CVersion => length R + 3 | CAsk => length R + 2 | CRequest r => length r + 1 | CReply => 1 | CDone _ | CFailed => 0 end.
  Definition left_to_do (t : talk) : nat := md (at_d (daemon t)) + mc (at_c t).

  Inductive who := TheDaemon | TheClient | TheUser.
  Definition turn_of (t : talk) : who :=
    match at_d (daemon t), at_c t with
    | DVersion _, _ => TheDaemon
    | _, CAsk => TheUser
    | DGone _, _ => TheClient
    | _, CReply => TheDaemon
    | _, _ => TheClient
    end.
  Definition busy (t : talk) : Prop := ok t /\
    match at_c t with CFailed | CDone _ => False | _ => True end /\
    match at_d (daemon t) with DGone Served => True | DGone _ => False | _ => True end.
  Definition finished (t : talk) : Prop := ok t /\ exists v, at_c t = CDone v.

  Lemma busy_open t : busy t -> client_closed (wire (daemon t)) = false.
  Proof. intros ((S & O & r & ES & D & K) & C & _). unfold cok in K. destruct (at_c t); intuition. Qed.

  (** The kind of a state that decides whose turn it is. *)
  Definition alike (t u : talk) : Prop := left_to_do t = left_to_do u /\ turn_of t = turn_of u.

  Lemma skipn_shorter {X} k (l : list X) : l <> [] -> length (skipn (Datatypes.S k) l) < length l.
  Proof. intros H. rewrite skipn_length. destruct l; [congruence|cbn; lia]. Qed.

  Lemma daemon_moves k t : busy t -> ~ waited 200 (daemon t) ->
    let u := step t (Daemon k) in busy u /\ (left_to_do u < left_to_do t \/ (alike u t /\ turn_of t <> TheDaemon)).
  Proof.
    intros B W u. pose proof (busy_open t B) as C. destruct B as (O & BC & BD). pose proof (ok_step t (Daemon k) O) as O'. fold u in O'.
    destruct O as (S & Q & r & ES & D & K). subst u. unfold busy, alike, left_to_do, turn_of. cbn [talk_step daemon at_c] in *.
    unfold dok in D. unfold waited in W. unfold daemon_turn in *. rewrite C in *. destruct (at_d (daemon t)) as [rest|q|h|rest|h rest|e] eqn:E.
    - destruct D as (D1 & D2 & D3 & D4 & D5). destruct (skipn (Datatypes.S k) rest) as [|x more] eqn:X; fld.
      + split; [auto|]. left. cbn [md]. destruct rest; [congruence|cbn; lia].
      + split; [auto|]. left. pose proof (skipn_shorter k rest D4) as Y. rewrite X in Y. cbn [md]. lia.
    - destruct D as (D1 & D2 & D3 & D4). rewrite D2 in *. destruct (decode_from connect_header S) as [[h rest]|] eqn:X; fld.
      + split; [auto|]. left. cbn [md]. lia.
      + assert (T : (read_timeout <=? q)%N = false). { apply N.leb_gt. unfold read_timeout. destruct (N.lt_ge_cases q 200) as [L|L]; [exact L|]. destruct W. eauto. }
        assert (U : unreadable connect_header S = false).
        { destruct (unreadable connect_header S) eqn:U; [|reflexivity]. apply (patience _ _ r) in U. rewrite ES in U. pose proof (R_reads []) as H. rewrite app_nil_r, U in H. discriminate. }
        rewrite T, U in *. cbn [orb] in *. rewrite E. split; [split; [exact O'|auto]|]. right. split; [auto|]. unfold cok in K. destruct (at_c t); try discriminate.
        * (* the client is waiting for the reply, so the request is all there *) destruct K as (K & _). rewrite K in X. pose proof (R_reads []) as H. rewrite app_nil_r, X in H. discriminate.
    - destruct D as (D1 & -> & D3 & D4 & D5 & D6). rewrite allowed in *. fld. split; [auto|]. left. cbn [md]. rewrite answers. lia.
    - destruct D.
    - destruct D as (-> & D2 & D3 & D4 & (x & D5 & D6) & D7). destruct rest as [|b rest].
      + destruct (is_attach request); fld; (split; [auto|]); left; cbn [md]; cbn; lia.
      + fld. split; [auto|]. left. pose proof (skipn_shorter k (b :: rest) ltac:(discriminate)) as Y. cbn [md]. lia.
    - rewrite E. split; [split; [exact O'|auto]|]. right. split; [auto|]. destruct (at_c t); discriminate.
  Qed.

  Lemma dialled_moves t x : ok (mkTalk (take_down x (daemon t)) CAsk) -> at_c t = CVersion ->
    match at_d (daemon t) with DGone Served => True | DGone _ => False | _ => True end ->
    let u := dialled_with silent background request (client_new own_version (Some version)) (mkTalk (take_down x (daemon t)) CVersion) in
    busy u /\ left_to_do u < left_to_do t.
  Proof.
    intros X E BD u. assert (O : ok u) by (apply ok_dialled; exact X). subst u. unfold busy, left_to_do, dialled_with in *. rewrite E.
    destruct (client_new own_version (Some version)) eqn:N; [| | | |destruct (comparable e eq_refl)]; try (destruct (silent || background)); fld; unfold ready; cbn [mc];
      (split; [auto|]); unfold take_down; fld; lia.
  Qed.

  Lemma client_moves k t : busy t -> let u := step t (Client k) in finished u \/ (busy u /\ (left_to_do u < left_to_do t \/ (alike u t /\ turn_of t <> TheClient))).
  Proof.
    intros B u. pose proof (busy_open t B) as C. destruct B as (O & BC & BD). pose proof (ok_step t (Client k) O) as O'. fold u in O'. subst u. cbn [talk_step] in *.
    destruct (at_c t) eqn:E; try contradiction.
    - destruct (version_turn k t O E) as [[(rest & V1) V2]|(N & x & X & V2)]; rewrite V2 in *.
      + right. split; [repeat split; [exact O|rewrite E; trivial|exact BD]|]. right. unfold alike, turn_of. rewrite V1. split; [auto|discriminate].
      + right. destruct (dialled_moves t x X E BD) as [M1 M2]. auto.
    - right. unfold client_turn in *. rewrite E in *. split; [repeat split; [exact O|rewrite E; trivial|exact BD]|]. right. unfold alike, turn_of. rewrite E. split; [auto|]. destruct (at_d (daemon t)); discriminate.
    - right. destruct O as (S & Q & r & ES & D & K). unfold cok in K. rewrite E in K. destruct K as (-> & K1 & K2 & K3).
      assert (N : S <> R) by (intros N; rewrite N in ES; rewrite <- (app_nil_r R) in ES at 2; apply app_inv_head in ES; contradiction).
      unfold client_turn in *. rewrite E in *. assert (DC : daemon_closed (wire (daemon t)) = false).
      { unfold dok in D. destruct (at_d (daemon t)) as [|q|h|rest'|h rest'|[]]; try tauto. }
      rewrite DC in *. unfold busy, left_to_do. rewrite E.
      assert (AD : forall bs, md (at_d (arrive bs (daemon t))) = md (at_d (daemon t)) /\ (match at_d (daemon t) with DGone Served => True | DGone _ => False | _ => True end -> match at_d (arrive bs (daemon t)) with DGone Served => True | DGone _ => False | _ => True end)).
      { intros bs. unfold arrive. fld. destruct (at_d (daemon t)), bs; auto. }
      destruct (skipn (Datatypes.S k) r) as [|b more] eqn:Sk; cbn [daemon at_c mc] in *; rewrite (proj1 (AD _)).
      + split; [split; [exact O'|split; [trivial|exact (proj2 (AD _) BD)]]|]. left. destruct r; [congruence|cbn; lia].
      + split; [split; [exact O'|split; [trivial|exact (proj2 (AD _) BD)]]|]. left. pose proof (skipn_shorter k r K1) as Y. rewrite Sk in Y. lia.
    - unfold client_turn in *. rewrite E in *. pose proof O as (S & Q & r & ES & D & K). unfold cok in K. rewrite E in K. destruct K as (K1 & K2 & K3).
      destruct (decode_from reply_ty (down (wire (daemon t)))) as [[v rest]|] eqn:X; [left; split; [exact O'|eexists; reflexivity]|]. right.
      pose proof (dok_begins _ _ _ D) as B. rewrite K2 in B. apply begins_cancel in B. destruct (reply_prefix _ B) as [_ U]. rewrite U, orb_false_r in *.
      unfold dok in D. destruct (at_d (daemon t)) as [rest|q|h|rest|h rest|e] eqn:AD.
      + destruct D as (_ & _ & _ & _ & D). rewrite D in *. split; [repeat split; [exact O|rewrite E; trivial|rewrite AD; trivial]|]. right. unfold alike, turn_of. rewrite AD. split; [auto|discriminate].
      + destruct D as (_ & _ & _ & D). rewrite D in *. split; [repeat split; [exact O|rewrite E; trivial|rewrite AD; trivial]|]. right. unfold alike, turn_of. rewrite AD, E. split; [auto|discriminate].
      + destruct D as (_ & _ & _ & _ & _ & D). rewrite D in *. split; [repeat split; [exact O|rewrite E; trivial|rewrite AD; trivial]|]. right. unfold alike, turn_of. rewrite AD, E. split; [auto|discriminate].
      + destruct D.
      + destruct D as (_ & _ & _ & _ & _ & D). rewrite D in *. split; [repeat split; [exact O|rewrite E; trivial|rewrite AD; trivial]|]. right. unfold alike, turn_of. rewrite AD, E. split; [auto|discriminate].
      + destruct e; try contradiction. destruct D as (_ & _ & D). rewrite K2 in D. apply app_inv_head in D. rewrite D, A_reads in X. discriminate.
  Qed.

  Lemma key_moves r t : busy t -> r <> ReadError ->
    let u := step t (Key r) in busy u /\ (left_to_do u < left_to_do t \/ (alike u t /\ (r = GotByte 10 -> turn_of t <> TheUser))).
  Proof.
    intros B N u. destruct B as (O & BC & BD). pose proof (ok_step t (Key r) O) as O'. fold u in O'. subst u. cbn [talk_step] in *. unfold typed in *. destruct (at_c t) eqn:E; try contradiction.
    2: { destruct r as [b| | |]; cbn [await_enter] in *; [destruct (b =? 10)%N eqn:B10| | |congruence].
      - split; [split; [exact O'|auto]|]. left. unfold left_to_do. rewrite E. cbn [daemon at_c ready mc]. lia.
      - split; [repeat split; [exact O|rewrite E; trivial|exact BD]|]. right. split; [split; reflexivity|]. intros X. injection X as ->. discriminate.
      - split; [split; [exact O'|auto]|]. left. unfold left_to_do. rewrite E. cbn [daemon at_c ready mc]. lia.
      - split; [repeat split; [exact O|rewrite E; trivial|exact BD]|]. right. split; [split; reflexivity|]. discriminate. }
    all: split; [repeat split; [exact O|rewrite E; trivial|exact BD]|]; right; (split; [split; reflexivity|]); intros _; unfold turn_of; rewrite E; destruct (at_d (daemon t)); discriminate.
  Qed.

  Lemma wait_moves ms t : busy t -> let u := step t (Pass ms) in busy u /\ alike u t.
  Proof.
    intros (O & BC & BD) u. pose proof (ok_step t (Pass ms) O) as O'. fold u in O'. subst u. cbn [talk_step] in *. unfold busy, alike, left_to_do, turn_of, wait in *. fld.
    destruct (at_d (daemon t)); cbn [at_d md]; auto.
  Qed.

  Lemma finished_stays t m : unharmed m -> finished t -> finished (step t m).
  Proof.
    intros [U1 U2] (O & v & E). split; [apply ok_step; exact O|]. exists v. destruct m as [k|k|r|ms|]; cbn [talk_step]; [exact E| | |exact E|congruence].
    - unfold client_turn. rewrite E. exact E.
    - unfold typed. rewrite E. exact E.
  Qed.
  Lemma finished_run l : Forall unharmed l -> forall t, finished t -> finished (run t l).
  Proof. unfold talk_run. induction 1 as [|m l U F IH]; intros t H; [exact H|]. cbn [fold_left]. apply IH. apply finished_stays; assumption. Qed.

  Definition in_time (t : talk) (l : list move) : Prop := forall p q, l = p ++ q -> ~ waited 200 (daemon (run t p)).
  Lemma in_time_cons t m l : in_time t (m :: l) -> ~ waited 200 (daemon t) /\ in_time (step t m) l.
  Proof. intros H. split; [exact (H [] (m :: l) eq_refl)|]. intros p q ->. exact (H (m :: p) q eq_refl). Qed.
  Lemma in_time_app t l l' : in_time t (l ++ l') -> in_time t l /\ in_time (run t l) l'.
  Proof.
    intros H. split; intros p q ->.
    - apply (H p (q ++ l')). rewrite app_assoc. reflexivity.
    - unfold talk_run. rewrite <- fold_left_app. apply (H (l ++ p) q). rewrite app_assoc. reflexivity.
  Qed.

  Lemma any_move t m : busy t -> unharmed m -> ~ waited 200 (daemon t) ->
    finished (step t m) \/ (busy (step t m) /\ (left_to_do (step t m) < left_to_do t \/ (alike (step t m) t /\
      match m with Daemon _ => turn_of t <> TheDaemon | Client _ => turn_of t <> TheClient | Key (GotByte 10%N) => turn_of t <> TheUser | _ => True end))).
  Proof.
    intros B [U1 U2] W. destruct m as [k|k|r|ms|]; [right; apply daemon_moves; assumption|apply client_moves; assumption| |right; destruct (wait_moves ms t B); auto|congruence].
    right. destruct (key_moves r t B ltac:(congruence)) as [K1 K2]. split; [exact K1|]. destruct K2 as [K2|[K2 K3]]; [auto|]. right. split; [exact K2|].
    destruct r as [b| | |]; trivial. destruct b as [|b]; trivial.
    destruct b as [b|b|]; trivial. destruct b as [b|b|]; trivial. destruct b as [b|b|]; trivial. destruct b as [b|b|]; trivial. apply K3. reflexivity.
  Qed.

  Lemma moves_on l : Forall unharmed l -> forall t, busy t -> in_time t l -> finished (run t l) \/ (busy (run t l) /\ left_to_do (run t l) <= left_to_do t).
  Proof.
    induction 1 as [|m l U F IH]; intros t B T; [right; split; [exact B|apply le_n]|]. apply in_time_cons in T as [W T]. change (run t (m :: l)) with (run (step t m) l).
    destruct (any_move t m B U W) as [Q|[P M]]; [left; apply finished_run; assumption|]. destruct (IH _ P T) as [Q|[P' M']]; [auto|]. right. split; [exact P'|].
    destruct M as [M|[[M _] _]]; lia.
  Qed.

  Definition turn_in (w : who) (l : list move) : Prop :=
    match w with TheDaemon => exists k, In (Daemon k) l | TheClient => exists k, In (Client k) l | TheUser => In (Key (GotByte 10%N)) l end.

  Lemma round_on l : Forall unharmed l -> forall t, busy t -> in_time t l -> turn_in (turn_of t) l -> finished (run t l) \/ (busy (run t l) /\ left_to_do (run t l) < left_to_do t).
  Proof.
    induction 1 as [|m l U F IH]; intros t B T I.
    { destruct (turn_of t); cbn in I; [destruct I as (? & [])|destruct I as (? & [])|destruct I]. }
    apply in_time_cons in T as [W T]. change (run t (m :: l)) with (run (step t m) l).
    destruct (any_move t m B U W) as [Q|[P M]]; [left; apply finished_run; assumption|]. destruct M as [M|[[M1 M2] M3]].
    - destruct (moves_on l F _ P T) as [Q|[P' M']]; [auto|]. right. split; [exact P'|lia].
    - rewrite <- M1. apply IH; [exact P|exact T|]. rewrite M2. destruct (turn_of t); cbn [turn_in] in *.
      + destruct I as (k & [->|I]); [congruence|eauto].
      + destruct I as (k & [->|I]); [congruence|eauto].
      + destruct I as [->|I]; [congruence|exact I].
  Qed.

  Lemma completes rounds : forall t, busy t -> Forall round rounds -> Forall unharmed (concat rounds) -> in_time t (concat rounds) -> left_to_do t < length rounds -> finished (run t (concat rounds)).
  Proof.
    induction rounds as [|l rounds IH]; intros t B F C T L; [cbn in L; lia|]. inversion F as [|? ? F1 F2]; subst. cbn [concat] in *.
    apply Forall_app in C as [C1 C2]. apply in_time_app in T as [T1 T2].
    assert (E : run t (l ++ concat rounds) = run (run t l) (concat rounds)) by (unfold talk_run; apply fold_left_app). rewrite E.
    assert (I : turn_in (turn_of t) l) by (destruct F1 as (F1 & F1' & F1''); destruct (turn_of t); assumption).
    destruct (round_on l C1 t B T1 I) as [Q|[P M]]; [apply finished_run; assumption|]. apply IH; auto. cbn in L. lia.
  Qed.

  Lemma busy_begun : busy (begun version).
  Proof. split; [apply ok_begun|]. cbn. auto. Qed.

  (** A daemon that has gone without being asked anything. *)
  Lemma gone_step t m e : at_d (daemon t) = DGone e -> at_d (daemon (step t m)) = DGone e /\ handled (daemon (step t m)) = handled (daemon t).
  Proof.
    intros G. destruct m as [k|k|r|ms|]; cbn [talk_step].
    - cbn [daemon]. unfold daemon_turn. rewrite G. auto.
    - unfold client_turn. destruct (at_c t); auto.
      + assert (X : forall c y, at_d (daemon (dialled_with silent background request c (mkTalk (take_down y (daemon t)) CVersion))) = DGone e /\
          handled (daemon (dialled_with silent background request c (mkTalk (take_down y (daemon t)) CVersion))) = handled (daemon t)).
        { intros c y. unfold dialled_with. destruct c; try destruct (silent || background); fld; auto. }
        destruct (decode_from version_header (down (wire (daemon t)))) as [[[] ?]|]; try destruct l as [|[] [|]]; try apply X; destruct (_ || _); auto.
      + destruct (daemon_closed (wire (daemon t))); [fld; auto|]. destruct (skipn (Datatypes.S k) rest); fld; rewrite G; auto.
      + destruct (decode_from reply_ty (down (wire (daemon t)))) as [[v rest]|]; [fld; auto|]. destruct (_ || _); fld; auto.
    - unfold typed. destruct (at_c t); auto. destruct (await_enter [r]) as [[[] ?]|]; fld; auto.
    - fld. rewrite G. auto.
    - fld. auto.
  Qed.
  Lemma gone_run l : forall t e, at_d (daemon t) = DGone e -> at_d (daemon (run t l)) = DGone e /\ handled (daemon (run t l)) = handled (daemon t).
  Proof.
    unfold talk_run. induction l as [|m l IH]; intros t e G; [auto|]. cbn [fold_left]. destruct (gone_step t m e G) as [A1 B1]. destruct (IH _ _ A1) as [A2 B2]. rewrite B2. auto.
  Qed.

  Lemma asked_late t k : ok t -> at_c t = CAsk -> waited 200 (daemon t) -> at_d (daemon (step t (Daemon k))) = DGone Failed /\ handled (daemon (step t (Daemon k))) = [].
  Proof.
    intros (S & O & r & ES & D & K) E (q & Q & L). unfold cok in K. rewrite E in K. destruct K as (-> & _). cbn [talk_step daemon]. unfold daemon_turn. rewrite Q.
    unfold dok in D. rewrite Q in D. destruct D as (D1 & D2 & D3 & D4). rewrite D2, nothing_reads. replace (read_timeout <=? q)%N with true by (symmetry; apply N.leb_le; exact L).
    rewrite orb_true_r. fld. auto.
  Qed.

  (** The question: [w] says that the versions differ. *)
  Definition differ : Prop := client_new own_version (Some version) = WarnClientOlder \/ client_new own_version (Some version) = WarnClientNewer.
  Definition asking (t : talk) : Prop := at_c t = CAsk -> silent = false /\ background = false /\ differ.
  Definition unasked (t : talk) : Prop := at_c t = CVersion \/ at_c t = CAsk \/ at_c t = CFailed.
  Lemma client_new_some o v : client_new o (Some v) <> WarnUnknownVersion.
  Proof. unfold client_new. destruct (version_ord o v) as [[]|]; discriminate. Qed.
  Lemma asking_dialled t : asking (dialled_with silent background request (client_new own_version (Some version)) t).
  Proof.
    clear comparable. unfold asking, dialled_with, differ, ready, give_up. pose proof (client_new_some own_version version) as N. destruct (client_new own_version (Some version)); cbn [at_c]; try discriminate; try (destruct N; reflexivity);
      destruct silent, background; cbn [orb at_c]; try discriminate; auto.
  Qed.
  Lemma unasked_dialled t : silent = false -> background = false -> differ -> unasked (dialled_with silent background request (client_new own_version (Some version)) t).
  Proof. intros -> -> [D|D]; unfold dialled_with; rewrite D; cbn [orb]; right; left; reflexivity. Qed.
  Lemma asked_run l : asking (run (begun version) l) /\
    (silent = false -> background = false -> differ -> (forall r, ~ In (Key r) l) -> unasked (run (begun version) l)).
  Proof.
    induction l as [|m l IH] using rev_ind; [split; [discriminate|left; reflexivity]|]. pose proof (ok_run l) as H. set (t := run (begun version) l) in *.
    assert (E : run (begun version) (l ++ [m]) = step t m) by (unfold t, talk_run; rewrite fold_left_app; reflexivity). rewrite E. destruct IH as [IH1 IH2].
    assert (NK : (forall r, ~ In (Key r) (l ++ [m])) -> forall r, ~ In (Key r) l) by (intros Q r I; apply (Q r), in_or_app; auto).
    destruct m as [k|k|r|ms|].
    - split; [exact IH1|]. intros A1 A2 A3 A4. exact (IH2 A1 A2 A3 (NK A4)).
    - cbn [talk_step]. destruct (at_c t) eqn:C.
      + destruct (version_turn k t H C) as [[_ ->]|(_ & x & X & ->)].
        * split; [exact IH1|]. intros A1 A2 A3 A4. exact (IH2 A1 A2 A3 (NK A4)).
        * split; [apply asking_dialled|]. intros A1 A2 A3 _. apply unasked_dialled; assumption.
      + assert (T : client_turn unreadable own_version silent background request reply_ty k t = t) by (unfold client_turn; rewrite C; reflexivity). rewrite T.
        split; [exact IH1|]. intros A1 A2 A3 A4. exact (IH2 A1 A2 A3 (NK A4)).
      + split; [|intros A1 A2 A3 A4; destruct (IH2 A1 A2 A3 (NK A4)) as [U|[U|U]]; congruence]. unfold asking, client_turn. rewrite C.
        destruct (daemon_closed (wire (daemon t))); [discriminate|]. destruct (skipn (Datatypes.S k) rest); discriminate.
      + split; [|intros A1 A2 A3 A4; destruct (IH2 A1 A2 A3 (NK A4)) as [U|[U|U]]; congruence]. unfold asking, client_turn. rewrite C.
        destruct (decode_from reply_ty (down (wire (daemon t)))) as [[v rest]|]; [discriminate|]. destruct (_ || _); [discriminate|]. congruence.
      + assert (T : client_turn unreadable own_version silent background request reply_ty k t = t) by (unfold client_turn; rewrite C; reflexivity). rewrite T.
        split; [exact IH1|]. intros A1 A2 A3 A4. exact (IH2 A1 A2 A3 (NK A4)).
      + assert (T : client_turn unreadable own_version silent background request reply_ty k t = t) by (unfold client_turn; rewrite C; reflexivity). rewrite T.
        split; [exact IH1|]. intros A1 A2 A3 A4. exact (IH2 A1 A2 A3 (NK A4)).
    - split; [|intros _ _ _ A4; destruct (A4 r); apply in_or_app; right; left; reflexivity]. cbn [talk_step]. unfold typed. destruct (at_c t) eqn:C; try exact IH1.
      destruct (await_enter [r]) as [[[] rest]|]; [discriminate|discriminate|exact IH1].
    - split; [exact IH1|]. intros A1 A2 A3 A4. exact (IH2 A1 A2 A3 (NK A4)).
    - split; [discriminate|]. intros _ _ _ _. right; right; reflexivity.
  Qed.
End Talk.
