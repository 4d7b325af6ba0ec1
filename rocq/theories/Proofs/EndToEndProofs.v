From Coq Require Import List NArith ZArith Bool Arith Lia.
From Verif Require Import Model.Base Model.Protocol Model.Chunk Model.Pipe Model.EndToEnd Model.ShellToClient Spec.PipeSpec Spec.Wire
  Spec.OutputSpec Spec.EndToEndSpec Proofs.ChunkProofs Proofs.PipeProofs Proofs.FrameProofs.
Import ListNotations.
Open Scope nat_scope.

Lemma starts_refl {A} (l : list A) : starts l l.
Proof. exists []. symmetry. apply app_nil_r. Qed.
Lemma starts_trans {A} (a b c : list A) : starts a b -> starts b c -> starts a c.
Proof. intros (x & ->) (y & ->). exists (x ++ y). symmetry. apply app_assoc. Qed.
Lemma starts_app {A} (a b : list A) : starts a (a ++ b).
Proof. exists b. reflexivity. Qed.

Lemma written_frames cs : Forall representable cs -> exists bs, written cs = Some bs /\ frames cs bs.
Proof.
  induction 1 as [|c cs Hc Hcs (bs & W & F)]; [exists []; split; [reflexivity|constructor]|].
  destruct (write_is_frame c Hc) as (b & Wb & Fb). exists (b ++ bs). cbn. rewrite Wb, W. split; [reflexivity|]. constructor; assumption.
Qed.

Lemma displayed_classify decode cs : displayed (map (classify decode) cs) = data_of_frames cs.
Proof.
  induction cs as [|c cs IH]; [reflexivity|]. cbn [map data_of_frames flat_map]. unfold data_of_frames in IH. rewrite <- IH.
  destruct c as [k buf]. unfold classify. cbn [c_kind c_buf].
  destruct k; try reflexivity; [destruct (read_i32 buf)|destruct (decode buf)]; reflexivity.
Qed.

Lemma data_of_frames_app a b : data_of_frames (a ++ b) = data_of_frames a ++ data_of_frames b.
Proof. apply flat_map_app. Qed.

(** The frames read off any initial part of the stream: the first few of those
    written, then possibly a failure. *)
Lemma frames_read_cut decode cs bs k ended : frames cs bs -> Forall (fun c => (size c <= BUF_SIZE)%N) cs ->
  exists n last, frames_read decode (firstn k bs) ended = map (classify decode) (firstn n cs) ++ last /\
    (last = [] \/ last = [FBroken]).
Proof.
  intros F S. rewrite <- (firstn_all bs). rewrite firstn_firstn. set (j := Nat.min k (length bs)).
  destruct (read_cut BUF_SIZE cs bs j F S ltac:(unfold j; lia)) as (n & pre & _ & _ & _ & _ & E).
  unfold frames_read. rewrite E. exists n. eexists. split; [reflexivity|]. destruct ended; auto.
Qed.

Lemma frames_read_all decode cs bs : frames cs bs -> Forall (fun c => (size c <= BUF_SIZE)%N) cs -> forall ended,
  frames_read decode bs ended = map (classify decode) cs ++ (if ended then [FBroken] else []).
Proof. intros F S ended. unfold frames_read. rewrite (read_all_frames BUF_SIZE cs bs F S). reflexivity. Qed.

(** Running the socket thread until nothing is left. *)
Definition budget (p : pipe) : nat := 2 * length (Pipe.frames p) + match sock_thread p with AtTop => 1 | _ => 0 end.
Lemma drain follow n : forall p, Forall (harmless follow) (Pipe.frames p) ->
  main p = Watching -> slot p = None -> sock_thread p <> Finished -> budget p <= n ->
  let q := pipe_run follow (repeat (SockGo true) n) p in
  Pipe.frames q = [] /\ shown q = shown p ++ displayed (Pipe.frames p).
Proof.
  induction n as [|n IH]; intros p Hf Hm Hs Hk Hn.
  - unfold budget in Hn. destruct (Pipe.frames p) as [|f fs] eqn:E; [|cbn in Hn; lia]. cbn. rewrite E, app_nil_r. auto.
  - cbv zeta. change (pipe_run follow (repeat (SockGo true) (S n)) p) with (pipe_run follow (repeat (SockGo true) n) (pipe_step follow p (SockGo true))).
    destruct p as [sl st so fr sh m]. cbn [Pipe.frames main slot sock_thread shown] in *. subst m sl. unfold pipe_step. cbn [main]. unfold sock_step. cbn [sock_thread slot stdin_thread Pipe.frames shown main].
    destruct so; [| |contradiction].
    + apply IH; cbn; auto; try discriminate. unfold budget in *. cbn in *. lia.
    + destruct fr as [|f fs].
      * destruct (IH (mkPipe None st Past [] sh Watching)) as (A & B); cbn; auto; try discriminate. { unfold budget in *. cbn in *. lia. }
      * inversion Hf as [|? ? H1 H2]; subst. unfold budget in Hn. cbn [Pipe.frames length sock_thread] in Hn.
        destruct H1 as [|b|v Hv]; cbn [displayed]; try rewrite Hv.
        -- destruct (IH (mkPipe None st AtTop fs sh Watching)) as (A & B); cbn; auto; try discriminate. unfold budget. cbn. lia.
        -- destruct (IH (mkPipe None st AtTop fs (sh ++ b) Watching)) as (A & B); cbn; auto; try discriminate. { unfold budget. cbn. lia. }
           split; [exact A|]. rewrite B. cbn. symmetry. apply app_assoc.
        -- destruct (IH (mkPipe None st AtTop fs sh Watching)) as (A & B); cbn; auto; try discriminate. unfold budget. cbn. lia.
Qed.

(** While all goes well nothing is lost. *)
Lemma healthy_run follow es : Forall (fun e => e <> SockGo false /\ e <> StdinGo true) es -> forall p,
  Forall (harmless follow) (Pipe.frames p) -> main p = Watching -> slot p = None -> sock_thread p <> Finished -> stdin_thread p <> Finished ->
  let q := pipe_run follow es p in
  main q = Watching /\ slot q = None /\ sock_thread q <> Finished /\ stdin_thread q <> Finished /\
  Forall (harmless follow) (Pipe.frames q) /\ length (Pipe.frames q) <= length (Pipe.frames p) /\
  shown q ++ displayed (Pipe.frames q) = shown p ++ displayed (Pipe.frames p).
Proof.
  induction 1 as [|e es (E1 & E2) He IH]; intros p Hf Hm Hs Hk Hi; [cbn; auto 10|].
  cbv zeta. change (pipe_run follow (e :: es) p) with (pipe_run follow es (pipe_step follow p e)).
  assert (G : let q := pipe_step follow p e in
    main q = Watching /\ slot q = None /\ sock_thread q <> Finished /\ stdin_thread q <> Finished /\
    Forall (harmless follow) (Pipe.frames q) /\ length (Pipe.frames q) <= length (Pipe.frames p) /\
    shown q ++ displayed (Pipe.frames q) = shown p ++ displayed (Pipe.frames p)).
  { destruct p as [sl st so fr sh m]. cbn [Pipe.frames main slot sock_thread shown stdin_thread] in *. subst m sl.
    unfold pipe_step. cbn [main]. destruct e as [ok| |ends| |t].
    - destruct ok; [|congruence]. unfold sock_step. cbn [sock_thread slot stdin_thread Pipe.frames shown main].
      destruct so; [| |contradiction]; [cbn; repeat split; auto; discriminate|].
      destruct fr as [|f fs]; [cbn; repeat split; auto; discriminate|]. inversion Hf as [|? ? H1 H2]; subst.
      destruct H1 as [|b|v Hv]; try rewrite Hv; cbn; repeat split; auto; try discriminate. symmetry. apply app_assoc.
    - cbn [sock_thread]. destruct so; cbn; repeat split; auto; discriminate.
    - destruct ends; [congruence|]. unfold stdin_step. cbn [stdin_thread]. destruct st; [| |contradiction]; cbn; repeat split; auto; discriminate.
    - cbn [stdin_thread]. destruct st; cbn; repeat split; auto; discriminate.
    - unfold main_step. cbn [main stdin_thread sock_thread]. destruct st; [| |contradiction]; (destruct so; [| |contradiction]); cbn; repeat split; auto. }
  cbv zeta in G. destruct G as (G1 & G2 & G3 & G4 & G5 & G6 & G7). destruct (IH _ G5 G1 G2 G3 G4) as (A1 & A2 & A3 & A4 & A5 & A6 & A7).
  repeat split; auto; [lia|congruence].
Qed.

(** *** The other direction *)

Lemma forward_starts ts : starts (forward ts) (typed_by_user ts).
Proof.
  induction ts as [|t ts IH]; [apply starts_refl|]. cbn [forward typed_by_user flat_map]. fold (typed_by_user ts).
  destruct (told_to_stop t); [eexists; reflexivity|].
  destruct (polled t) as [| |[[|x bs]|e]]; try (eexists; reflexivity); [exact IH|].
  destruct (accepted t <? length (x :: bs)).
  - eapply starts_trans; [|apply starts_app]. exists (skipn (accepted t) (x :: bs)). symmetry. apply firstn_skipn.
  - destruct (flush_ok t); [|apply starts_app]. destruct IH as (r & ->). exists r. apply app_assoc.
Qed.

Lemma forward_all ts : Forall good_turn ts -> forward ts = typed_by_user ts.
Proof.
  induction 1 as [|t ts (H1 & H2) Hts IH]; [reflexivity|]. cbn [forward typed_by_user flat_map]. fold (typed_by_user ts). rewrite H1.
  destruct (polled t) as [| |[bs|e]]; try contradiction; [exact IH|]. destruct H2 as (H2 & H3 & H4).
  destruct bs as [|x bs]; [congruence|]. apply Nat.ltb_ge in H3. rewrite H3, H4, IH. reflexivity.
Qed.

Lemma all_shown follow fs schedule n : Forall (harmless follow) fs ->
  Forall (fun ev => ev <> SockGo false /\ ev <> StdinGo true) schedule -> 2 * length fs < n ->
  shown (pipe_run follow (schedule ++ repeat (SockGo true) n) (pipe_start fs)) = displayed fs /\
  main (pipe_run follow (schedule ++ repeat (SockGo true) n) (pipe_start fs)) = Watching /\
  slot (pipe_run follow (schedule ++ repeat (SockGo true) n) (pipe_start fs)) = None.
Proof.
  intros Hh Hsch Hlen.
  assert (R : pipe_run follow (schedule ++ repeat (SockGo true) n) (pipe_start fs) =
    pipe_run follow (repeat (SockGo true) n) (pipe_run follow schedule (pipe_start fs))) by (unfold pipe_run; apply fold_left_app).
  assert (Hall : Forall (fun ev => ev <> SockGo false /\ ev <> StdinGo true) (schedule ++ repeat (SockGo true) n)).
  { apply Forall_app. split; [exact Hsch|]. apply Forall_forall. intros x Hx. apply repeat_spec in Hx. subst x. split; discriminate. }
  assert (Z : sock_thread (pipe_start fs) <> Finished /\ stdin_thread (pipe_start fs) <> Finished) by (split; discriminate).
  destruct (healthy_run follow _ Hall (pipe_start fs) Hh eq_refl eq_refl (proj1 Z) (proj2 Z)) as (B1 & B2 & _).
  split; [|split; assumption]. rewrite R.
  destruct (healthy_run follow _ Hsch (pipe_start fs) Hh eq_refl eq_refl (proj1 Z) (proj2 Z)) as (A1 & A2 & A3 & A4 & A5 & A6 & A7).
  set (q := pipe_run follow schedule (pipe_start fs)) in *.
  assert (Bq : budget q <= n).
  { change (Pipe.frames (pipe_start fs)) with fs in A6. unfold budget. destruct (sock_thread q); lia. }
  destruct (drain follow n q A5 A1 A2 A3 Bq) as (_ & D). rewrite D, A7. reflexivity.
Qed.
