From Coq Require Import List NArith ZArith Bool Lia.
From Verif Require Import Model.Base Model.Protocol Model.Chunk Model.Pipe Spec.PipeSpec Proofs.ChunkProofs.
Import ListNotations.
Open Scope N_scope.

Lemma displayed_app a b : displayed (a ++ b) = displayed a ++ displayed b.
Proof. induction a as [|[| | | |] a IH]; cbn; rewrite ?IH; try reflexivity. rewrite app_assoc. reflexivity. Qed.

Lemma harmless_not_decides follow f r : harmless follow f -> ~ decides follow f r.
Proof. intros H D. destruct H; inversion D. congruence. Qed.

Definition late (m : main_phase) : Prop := match m with Watching | Grace1 | Filling => False | _ => True end.

(** The slot holds nothing, or the fallback put there by the main thread. *)
Definition undecided (p : pipe) : Prop := slot p = None \/ (slot p = Some (Exit 1) /\ late (main p)).

Inductive inv (follow : var_list -> bool) (fs : list frame_in) (p : pipe) : Prop :=
| inv_open done : fs = done ++ frames p -> Forall (harmless follow) done -> undecided p ->
    (slot p = None -> sock_thread p <> Finished) -> shown p = displayed done -> inv follow fs p
| inv_broken done f : fs = (done ++ [f]) ++ frames p -> Forall (harmless follow) done -> f = FBroken \/ (exists b, f = FShow b) ->
    undecided p -> sock_thread p = Finished -> shown p = displayed done -> inv follow fs p
| inv_decided done f r : fs = (done ++ [f]) ++ frames p -> Forall (harmless follow) done -> decides follow f r ->
    slot p = Some r -> sock_thread p <> Past -> shown p = displayed done -> inv follow fs p.

Definition ended_ok (p : pipe) : Prop :=
  match main p with
  | Returned r => slot p = Some r /\ stdin_thread p = Finished /\ sock_thread p = Finished
  | Died c => exists r, slot p = Some r /\ c = match r with Exit s => s | Switch _ => 1%Z end
  | Grace2 => slot p <> None
  | _ => True
  end.

Lemma inv_start follow fs : inv follow fs (pipe_start fs) /\ ended_ok (pipe_start fs).
Proof.
  split; [|exact I]. apply inv_open with (done := []); cbn; auto. left. reflexivity. intros _. discriminate.
Qed.

Lemma undecided_mono p q : undecided p -> slot q = slot p -> (late (main p) -> late (main q)) -> undecided q.
Proof. unfold undecided. intros [H|(H & L)] E M; rewrite E; [left|right]; auto. Qed.

Lemma inv_irrelevant follow fs p q : inv follow fs p -> slot q = slot p -> frames q = frames p -> shown q = shown p ->
  (late (main p) -> late (main q)) ->
  (sock_thread q = sock_thread p \/ (sock_thread p = Past /\ sock_thread q = AtTop)
   \/ (sock_thread p = AtTop /\ ((slot p = None /\ sock_thread q = Past) \/ (slot p <> None /\ sock_thread q = Finished)))) ->
  inv follow fs q.
Proof.
  intros H Es Ef Eh M T. destruct H as [done A B C D E|done f A B C D E F|done f r A B C D E F].
  - apply inv_open with (done := done); try congruence.
    + eapply undecided_mono; eassumption.
    + rewrite Es. intros N. specialize (D N). destruct T as [T|[(T & T')|(T & [(_ & T')|(X & _)])]]; congruence.
  - apply inv_broken with (done := done) (f := f); try congruence.
    + eapply undecided_mono; eassumption.
    + destruct T as [T|[(T & T')|(T & T')]]; congruence.
  - apply inv_decided with (done := done) (f := f) (r := r); try congruence.
    destruct T as [T|[(T & T')|(T & [(X & T')|(X & T')])]]; congruence.
Qed.

Lemma harmless_snoc follow done f : Forall (harmless follow) done -> harmless follow f -> Forall (harmless follow) (done ++ [f]).
Proof. intros H F. apply Forall_app. auto. Qed.

Ltac same p := match goal with |- inv _ _ ?q => apply (inv_irrelevant _ _ p q); cbn; auto end;
  try (match goal with E : main p = _ |- _ => rewrite E end; cbn; tauto).

Lemma pipe_step_inv follow fs p e : inv follow fs p -> ended_ok p ->
  inv follow fs (pipe_step follow p e) /\ ended_ok (pipe_step follow p e).
Proof.
  intros H G. unfold pipe_step.
  assert (Hm : forall q, (match main p with Returned _ | Died _ => p | _ => q end) = p \/
     (match main p with Returned _ | Died _ => p | _ => q end = q /\ (forall r, main p <> Returned r) /\ (forall c, main p <> Died c))).
  { intros q. destruct (main p); (left; reflexivity) || (right; split; [reflexivity|split; discriminate]). }
  match goal with |- context [match main p with _ => _ end] => idtac end.
  specialize (Hm (match e with
        | SockGo ok => sock_step follow ok p
        | SockIdle => match sock_thread p with
                      | Past => mkPipe (slot p) (stdin_thread p) AtTop (frames p) (shown p) (main p)
                      | _ => p
                      end
        | StdinGo ends => stdin_step ends p
        | StdinIdle => match stdin_thread p with
                       | Past => mkPipe (slot p) AtTop (sock_thread p) (frames p) (shown p) (main p)
                       | _ => p
                       end
        | MainGo t => main_step t p
        end)).
  destruct Hm as [Hm|(Hm & Hr & Hd)]; rewrite Hm; [split; assumption|]. clear Hm.
  assert (Gq : forall q, main q = main p -> (slot p <> None -> slot q <> None) -> ended_ok q).
  { intros q E S. unfold ended_ok in *. rewrite E. destruct (main p) eqn:Em; try exact I.
    - apply S. assumption.
    - exfalso. eapply Hr. reflexivity.
    - exfalso. eapply Hd. reflexivity. }
  destruct e as [ok| |ends| |t].
  - (* SockGo *)
    unfold sock_step. destruct (sock_thread p) eqn:Es; [| |split; assumption].
    + split; [|apply Gq; auto]. same p. right. right. split; [assumption|].
      destruct (slot p); [right|left]; split; congruence || reflexivity.
    + destruct H as [done A B C D E|done f A B C D E F|done f r A B C D E F]; [|congruence|congruence].
      destruct (frames p) as [|f fs'] eqn:Ef.
      { split; [|assumption]. apply inv_open with (done := done); auto; congruence. }
      assert (A' : fs = (done ++ [f]) ++ fs') by (rewrite <- app_assoc; exact A).
      destruct f as [|b|s|v|].
      * split; [|apply Gq; auto]. apply inv_open with (done := done ++ [FIdle]); cbn; auto; try discriminate.
        -- apply harmless_snoc; [assumption|constructor].
        -- rewrite displayed_app. cbn. rewrite app_nil_r. assumption.
      * destruct ok.
        -- split; [|apply Gq; auto]. apply inv_open with (done := done ++ [FShow b]); cbn; auto; try discriminate.
           ++ apply harmless_snoc; [assumption|constructor].
           ++ rewrite displayed_app. cbn. rewrite app_nil_r. congruence.
        -- split; [|apply Gq; auto]. apply inv_broken with (done := done) (f := FShow b); cbn; auto. right. exists b. reflexivity.
      * split; [|apply Gq; cbn; auto; discriminate]. apply inv_decided with (done := done) (f := FExit s) (r := Exit s); cbn; auto; try discriminate; constructor.
      * split; [|apply Gq; cbn; auto; intros; destruct (follow v); congruence].
        destruct (follow v) eqn:Ev.
        -- apply inv_decided with (done := done) (f := FSwitch v) (r := Switch v); cbn; auto; try discriminate; constructor; assumption.
        -- apply inv_open with (done := done ++ [FSwitch v]); cbn; auto; try discriminate.
           ++ apply harmless_snoc; [assumption|constructor; assumption].
           ++ rewrite displayed_app. cbn. rewrite app_nil_r. assumption.
      * split; [|apply Gq; auto]. apply inv_broken with (done := done) (f := FBroken); cbn; auto.
  - (* SockIdle *)
    destruct (sock_thread p) eqn:Es; [split; assumption| |split; assumption].
    split; [|apply Gq; auto]. same p.
  - (* StdinGo *)
    unfold stdin_step. destruct (stdin_thread p) eqn:Ei; [| |split; assumption]; (split; [|apply Gq; auto]); same p.
  - destruct (stdin_thread p) eqn:Ei; [split; assumption| |split; assumption]. split; [|apply Gq; auto]. same p.
  - (* MainGo *)
    unfold main_step. destruct (main p) as [| | | |r|c] eqn:Em.
    + destruct (is_finished (stdin_thread p) && negb (is_finished (sock_thread p))).
      { split; [|exact I]. same p. }
      destruct (is_finished (sock_thread p)); [|split; assumption]. split; [|exact I]. same p.
    + destruct (is_finished (sock_thread p) || is_some (slot p) || t); [|split; assumption]. split; [|exact I]. same p.
    + destruct (slot p) as [r|] eqn:Es.
      * split; [|cbn; discriminate]. same p.
      * split; [|cbn; discriminate].
        destruct H as [done A B C D E|done f A B C D E F|done f r A B C D E F]; [| |congruence].
        -- apply inv_open with (done := done); cbn; auto; try discriminate. right. split; [reflexivity|exact I].
        -- apply inv_broken with (done := done) (f := f); cbn; auto. right. split; [reflexivity|exact I].
    + unfold ended_ok in G. rewrite Em in G.
      destruct (is_finished (stdin_thread p) && is_finished (sock_thread p)) eqn:Eb.
      * split; [same p|]. cbn. apply andb_true_iff in Eb. destruct Eb as (E1 & E2).
        destruct (slot p) as [r|]; [|congruence]. destruct (stdin_thread p), (sock_thread p); try discriminate. auto.
      * destruct t; [|split; [assumption|unfold ended_ok; rewrite Em; assumption]].
        split; [same p|]. cbn. destruct (slot p) as [r|]; [|congruence]. exists r. split; [reflexivity|]. destruct r; reflexivity.
    + exfalso. eapply Hr. reflexivity.
    + exfalso. eapply Hd. reflexivity.
Qed.

Lemma pipe_run_inv follow fs es p : inv follow fs p -> ended_ok p -> inv follow fs (pipe_run follow es p) /\ ended_ok (pipe_run follow es p).
Proof.
  revert p. induction es as [|e es IH]; intros p H G; [split; assumption|]. cbn.
  destruct (pipe_step_inv follow fs p e H G). apply IH; assumption.
Qed.

Lemma inv_concludes follow fs p r : inv follow fs p -> slot p = Some r ->
  exists received unread, fs = received ++ unread /\ concludes follow received r.
Proof.
  intros H Hs. destruct H as [done A B [C|(C & _)] D E|done f A B C [D|(D & _)] E F|done f r' A B C D E F]; try congruence.
  - exists done, (frames p). split; [assumption|]. rewrite Hs in C. injection C as ->. apply conc_default.
    intros f r Hf. rewrite Forall_forall in B. apply harmless_not_decides. auto.
  - exists (done ++ [f]), (frames p). split; [assumption|]. rewrite Hs in D. injection D as ->. apply conc_default.
    intros g r Hg. apply in_app_or in Hg. destruct Hg as [Hg|[<-|[]]].
    + rewrite Forall_forall in B. apply harmless_not_decides. auto.
    + destruct C as [-> |(b & ->)]; intros X; inversion X.
  - exists (done ++ [f]), (frames p). split; [assumption|]. rewrite Hs in D. injection D as <-. eapply conc_frame; eauto.
Qed.

(** *** A deciding frame wins unless a grace period cuts it off *)

Definition pending (follow : var_list -> bool) (t : frame_in) (r : pipe_result) (p : pipe) : Prop :=
  (slot p = None /\ (main p = Watching \/ main p = Grace1) /\ sock_thread p <> Finished /\
   exists before rest, frames p = before ++ t :: rest /\ Forall (harmless follow) before)
  \/ (slot p = Some r /\ sock_thread p <> Past).

Lemma pending_step follow t r p e : decides follow t r -> pending follow t r p -> kind_event p e -> pending follow t r (pipe_step follow p e).
Proof.
  intros Dt H K. destruct H as [(Hs & Hm & Hk & before & rest & Hf & Hb)|(Hs & Hk)].
  - unfold pipe_step.
    assert (Ex : forall q : pipe, (match main p with Returned _ | Died _ => p | _ => q end) = q)
      by (intros q; destruct Hm as [-> | ->]; reflexivity).
    rewrite Ex. clear Ex. destruct e as [ok| |ends| |to].
    + destruct ok; [|contradiction]. unfold sock_step. destruct (sock_thread p) eqn:Es; [| |congruence].
      * left. cbn. rewrite Hs. cbn. split; [reflexivity|]. split; [assumption|]. split; [discriminate|]. exists before, rest. auto.
      * rewrite Hf. destruct before as [|f before]; cbn [app].
        -- destruct Dt as [s|v Hv].
           ++ right. cbn. split; [reflexivity|discriminate].
           ++ right. cbn. rewrite Hv. split; [reflexivity|discriminate].
        -- pose proof (Forall_inv Hb) as Hh. apply Forall_inv_tail in Hb.
           destruct Hh as [|b|v Hv].
           ++ left. cbn. split; [assumption|]. split; [assumption|]. split; [discriminate|]. exists before, rest. auto.
           ++ left. cbn. split; [assumption|]. split; [assumption|]. split; [discriminate|]. exists before, rest. auto.
           ++ left. cbn. rewrite Hv. split; [assumption|]. split; [assumption|]. split; [discriminate|]. exists before, rest. auto.
    + destruct (sock_thread p) eqn:Es; left; cbn; rewrite ?Es; (split; [assumption|]); (split; [assumption|]);
        (split; [congruence|]); exists before, rest; auto.
    + unfold stdin_step. destruct (stdin_thread p); left; cbn; (split; [assumption|]); (split; [assumption|]);
        (split; [congruence|]); exists before, rest; auto.
    + destruct (stdin_thread p); left; cbn; (split; [assumption|]); (split; [assumption|]);
        (split; [congruence|]); exists before, rest; auto.
    + unfold main_step. assert (En : is_finished (sock_thread p) = false) by (destruct (sock_thread p); congruence || reflexivity).
      destruct Hm as [Em|Em]; rewrite Em.
      * rewrite En. destruct (is_finished (stdin_thread p)); cbn [andb negb].
        -- left. cbn. split; [assumption|]. split; [auto|]. split; [assumption|]. exists before, rest. auto.
        -- left. split; [assumption|]. split; [auto|]. split; [assumption|]. exists before, rest. auto.
      * rewrite En, Hs. cbn [is_some orb]. destruct to; [contradiction|].
        left. split; [assumption|]. split; [auto|]. split; [assumption|]. exists before, rest. auto.
  - right. unfold pipe_step. destruct (main p) eqn:Em; try (split; assumption);
    (destruct e as [ok| |ends| |to];
     [ unfold sock_step; destruct (sock_thread p) eqn:Es;
         [rewrite Hs; cbn; split; [assumption || reflexivity|discriminate]|congruence|rewrite Es; split; [assumption|congruence]]
     | destruct (sock_thread p) eqn:Es; [rewrite Es; split; [assumption|congruence]|congruence|rewrite Es; split; [assumption|congruence]]
     | unfold stdin_step; destruct (stdin_thread p); cbn; split; assumption
     | destruct (stdin_thread p); cbn; split; assumption
     | unfold main_step; rewrite Em; rewrite ?Hs ]).
    + destruct (_ && _); cbn; [split; assumption || reflexivity|]. destruct (is_finished _); cbn; split; assumption || reflexivity.
    + cbn [is_some]. rewrite orb_true_r. cbn [orb]. cbn. split; assumption || reflexivity.
    + cbn. split; [reflexivity|assumption].
    + destruct (_ && _); cbn; [split; assumption || reflexivity|]. destruct to; cbn; split; assumption || reflexivity.
Qed.

Lemma pending_run follow t r es p : decides follow t r -> pending follow t r p -> kind_run follow es p ->
  pending follow t r (pipe_run follow es p).
Proof.
  intros D. revert p. induction es as [|e es IH]; intros p H K; [assumption|]. cbn. destruct K as (K1 & K2).
  apply IH; [|assumption]. eapply pending_step; eassumption.
Qed.

(** Exit status bytes. *)
Lemma read_i32_bytes s : (-2147483648 <= s < 2147483648)%Z -> read_i32 (i32_bytes s) = Some s.
Proof.
  intros H. unfold i32_bytes, le32, read_i32. f_equal.
  set (n := Z.to_N (s mod 4294967296)).
  assert (Hn : n < u32_mod).
  { subst n. change u32_mod with 4294967296%N. pose proof (Z.mod_pos_bound s 4294967296 ltac:(lia)). lia. }
  assert (En : of_le32 (n mod 256) (n / 256 mod 256) (n / 65536 mod 256) (n / 16777216 mod 256) = n).
  { destruct (le32_bytes n Hn) as (a & b & c & d & E & _ & _ & _ & _ & N). unfold le32 in E. injection E as -> -> -> ->.
    unfold of_le32. symmetry. exact N. }
  rewrite En. subst n.
  destruct (Z.to_N (s mod 4294967296) <? 2147483648) eqn:E.
  - apply N.ltb_lt in E. rewrite Z2N.id by (apply Z.mod_pos_bound; lia).
    assert (0 <= s)%Z. { destruct (Z.leb_spec 0 s); [assumption|]. exfalso.
      rewrite <- (Z_mod_plus_full s 1 4294967296), Z.mod_small in E by lia. lia. }
    apply Z.mod_small. lia.
  - apply N.ltb_ge in E. rewrite Z2N.id by (apply Z.mod_pos_bound; lia).
    destruct (Z.leb_spec 0 s).
    + rewrite Z.mod_small in E by lia. lia.
    + rewrite <- (Z_mod_plus_full s 1 4294967296), Z.mod_small by lia. lia.
Qed.
