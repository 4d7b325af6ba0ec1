(** C49: attach request contents. *)
From Coq Require Import List NArith ZArith Bool Lia.
From Verif Require Import Model.Base Model.Protocol Model.Config Model.Duration Model.Template Model.Names Model.Chunk Model.Pipe Model.AttachClient
  Spec.TemplateSpec Spec.UnicodeSpec Spec.ShellEnvSpec Spec.PathSpec Spec.PipeSpec Spec.ClientSpec
  Proofs.BaseLemmas Proofs.TemplateProofs Proofs.ShellEnvProofs Proofs.NamesProofs Proofs.PipeProofs Proofs.AttachClientProofs.
Import ListNotations.
Open Scope nat_scope.

(** The variables sent: exactly those that are configured to be forwarded (or among
    the four always considered) and set; in that order. *)
Theorem C49_environment : forall k w r h, attach_request k w r = Some h -> forall var value,
  (In (var, value) (h_env h) <->
   c_env w var = Some value /\
   (In var [lit "TERM"; lit "DISPLAY"; lit "LANG"; lit "SSH_AUTH_SOCK"] \/
    exists l, forward_env (c_config w) = Some l /\ In var l)) /\
  lookup var (h_env h) =
    (if existsb (str_eqb var) ([lit "TERM"; lit "DISPLAY"; lit "LANG"; lit "SSH_AUTH_SOCK"] ++
          match forward_env (c_config w) with Some l => l | None => [] end)
     then c_env w var else None).
Proof.
  intros k w r h H var value. unfold attach_request in H. destruct (c_cwd w); [|discriminate]. injection H as <-. cbn [h_env].
  unfold request_env, forwarded_keys. set (always := [lit "TERM"; lit "DISPLAY"; lit "LANG"; lit "SSH_AUTH_SOCK"]).
  split.
  - rewrite in_flat_map. split.
    + intros (x & Hx & Hi). destruct (c_env w x) as [v|] eqn:E; [|contradiction]. destruct Hi as [Hi|[]]. injection Hi as -> ->.
      split; [assumption|]. apply in_app_or in Hx. destruct Hx as [Hx|Hx]; [left; assumption|right].
      destruct (forward_env (c_config w)) as [l|]; [|contradiction]. exists l. auto.
    + intros (E & Hx). exists var. split; [|rewrite E; left; reflexivity]. apply in_or_app. destruct Hx as [Hx|(l & El & Hx)]; [left; assumption|right].
      rewrite El. assumption.
  - generalize (always ++ match forward_env (c_config w) with Some l => l | None => [] end). intros keys.
    induction keys as [|x keys IH]; [reflexivity|]. cbn [flat_map existsb].
    destruct (str_eqb var x) eqn:E.
    + apply str_eqb_eq in E. subst x. cbn [orb]. destruct (c_env w var) as [v|] eqn:Ev; cbn [app lookup].
      * rewrite str_eqb_refl. reflexivity.
      * rewrite IH. destruct (existsb (str_eqb var) keys); reflexivity.
    + cbn [orb]. rewrite <- IH. destruct (c_env w x); cbn [app lookup]; rewrite ?E; reflexivity.
Qed.
Print Assumptions C49_environment.

(** The start directory rule, in terms of --dir and the default_dir setting. *)
Theorem C49_directory : forall k w r h cwd, c_cwd w = Some cwd -> attach_request k w r = Some h ->
  match r_dir r with
  | Some d => h_dir h = Some (if str_eqb d (lit ".") then cwd else d)
  | None => match default_dir (c_config w) with
            | None => h_dir h = None
            | Some d => (d = lit "." -> h_dir h = Some cwd) /\ (d = lit "$HOME" -> h_dir h = None) /\
                        (d <> lit "." -> d <> lit "$HOME" -> h_dir h = Some d)
            end
  end.
Proof.
  intros k w r h cwd Hc H. unfold attach_request in H. rewrite Hc in H. injection H as <-. cbn [h_dir]. unfold start_dir.
  destruct (r_dir r) as [d|]; [destruct (str_eqb d (lit ".")); reflexivity|].
  destruct (default_dir (c_config w)) as [d|]; [|reflexivity]. split; [|split].
  - intros ->. reflexivity.
  - intros ->. reflexivity.
  - intros A B. apply str_eqb_neq in A, B. rewrite A, B. reflexivity.
Qed.
Print Assumptions C49_directory.

(** From the command line to the request: the name, command, start command and
    directory are the templates given, filled with the shared variables (the last
    value of each counts); the template itself, the TTL in seconds and the window
    size are sent along. *)
Theorem C49_request : forall u b a k w vars h, attach_setup u b a = Ready k ->
  attach_request k w (apply_templates (k_tmpls k) vars) = Some h ->
  (exists ps, template_text (numeric u) (alphanumeric u) (a_name a) ps /\ h_name h = denoted ps vars) /\
  h_name_template h = a_name a /\
  match a_cmd a, h_cmd h with
  | None, None => True
  | Some src, Some c => exists ps, template_text (numeric u) (alphanumeric u) src ps /\ c = denoted ps vars
  | _, _ => False
  end /\
  match a_start_cmd a, h_start_cmd h with
  | None, None => True
  | Some src, Some c => exists ps, template_text (numeric u) (alphanumeric u) src ps /\ c = denoted ps vars
  | _, _ => False
  end /\
  match a_dir a, r_dir (apply_templates (k_tmpls k) vars) with
  | None, None => True
  | Some src, Some c => exists ps, template_text (numeric u) (alphanumeric u) src ps /\ c = denoted ps vars
  | _, _ => False
  end /\
  match a_ttl a with None => h_ttl_secs h = None | Some src => exists t, parse u b src = Secs t /\ h_ttl_secs h = Some t end /\
  h_tty h = match c_tty w with Some s => s | None => mkSize 24 80 0 0 end /\
  k_force k = a_force a /\ k_background k = a_background a.
Proof.
  intros u b a k w vars h Hs Hr. unfold attach_setup in Hs.
  destruct (template_new u (a_name a)) as [n|] eqn:En; [|discriminate].
  destruct (opt_template u (a_dir a)) as [d|] eqn:Ed; [|discriminate].
  destruct (opt_template u (a_cmd a)) as [c|] eqn:Ec; [|discriminate].
  destruct (opt_template u (a_start_cmd a)) as [st|] eqn:Est; [|discriminate].
  assert (Happ : forall src t, template_new u src = Ok t -> exists ps, template_text (numeric u) (alphanumeric u) src ps /\
     template_apply t (var_map vars) = denoted ps vars).
  { intros src t E. apply template_new_iff in E. destruct E as (_ & ps & P1 & P2). exists ps. split; [assumption|].
    rewrite P2. unfold denoted. apply fill_same. intros v. apply var_map_lookup. }
  assert (Hopt : forall o t, opt_template u o = Some t -> match o, option_map (fun x => template_apply x (var_map vars)) t with
     | None, None => True
     | Some src, Some c => exists ps, template_text (numeric u) (alphanumeric u) src ps /\ c = denoted ps vars
     | _, _ => False end).
  { intros [src|] t E; cbn in E.
    - destruct (template_new u src) as [x|] eqn:Ex; [|discriminate]. injection E as <-. cbn. apply Happ. assumption.
    - injection E as <-. exact I. }
  assert (Hk : exists ttl, k = mkClient (mkTemplates n c d st) (a_force a) (a_background a) ttl /\
     match a_ttl a with None => ttl = None | Some src => exists t, parse u b src = Secs t /\ ttl = Some t end).
  { destruct (a_ttl a) as [src|].
    - destruct (parse u b src) as [t| |] eqn:Ep; try discriminate. injection Hs as <-. exists (Some t). split; [reflexivity|]. exists t. auto.
    - injection Hs as <-. exists None. auto. }
  destruct Hk as (ttl & -> & Httl). unfold attach_request in Hr. destruct (c_cwd w) as [cwd|]; [|discriminate]. injection Hr as <-.
  cbn [h_name h_name_template h_cmd h_start_cmd h_ttl_secs h_tty r_name r_cmd r_dir r_start apply_templates k_tmpls tm_name tm_cmd tm_dir tm_start k_ttl k_force k_background].
  split; [apply Happ; assumption|]. split; [exact (proj1 (template_new_iff _ _ _ En))|].
  split; [apply Hopt; assumption|]. split; [apply Hopt; assumption|]. split; [apply Hopt; assumption|].
  split; [assumption|]. repeat split.
Qed.
Print Assumptions C49_request.

(** Bad templates and bad durations are reported before anything is sent. *)
Theorem C49_rejected_early : forall u b a, attach_setup u b a = Refused ->
  (exists src e, In (Some src) [Some (a_name a); a_cmd a; a_dir a; a_start_cmd a] /\ template_new u src = Err e) \/
  (exists src, a_ttl a = Some src /\ parse u b src = Rejected).
Proof.
  intros u b a H. unfold attach_setup in H.
  assert (Ho : forall o, opt_template u o = None -> exists src e, o = Some src /\ template_new u src = Err e).
  { intros [src|] E; [|discriminate]. cbn in E. destruct (template_new u src) as [|e] eqn:X; [discriminate|]. eauto. }
  destruct (template_new u (a_name a)) as [n|e] eqn:En; [|left; exists (a_name a), e; cbn; auto].
  destruct (opt_template u (a_dir a)) as [d|] eqn:Ed; [|destruct (Ho _ Ed) as (src & e & E & F); left; exists src, e; rewrite E; split; [cbn; tauto|assumption]].
  destruct (opt_template u (a_cmd a)) as [c|] eqn:Ec; [|destruct (Ho _ Ec) as (src & e & E & F); left; exists src, e; rewrite E; split; [cbn; tauto|assumption]].
  destruct (opt_template u (a_start_cmd a)) as [st|] eqn:Est; [|destruct (Ho _ Est) as (src & e & E & F); left; exists src, e; rewrite E; split; [cbn; tauto|assumption]].
  destruct (a_ttl a) as [src|]; [|discriminate]. right. exists src. split; [reflexivity|].
  destruct (parse u b src); try discriminate. reflexivity.
Qed.
Print Assumptions C49_rejected_early.

Definition home_world : client_world :=
  {| c_tty := None; c_env := fun v => if str_eqb v (lit "TERM") then Some (lit "xterm") else if str_eqb v (lit "EDITOR") then Some (lit "ed") else None;
     c_cwd := Some (lit "/tmp");
     c_config := mkConfig None None None None None None None None None (Some [lit "EDITOR"; lit "PAGER"]) None None None None None None None None None None |}.

Example C49_nonvacuous : exists k h,
  attach_setup ascii_only Release (mkArgs (lit "{ws}-edit") false false (Some (lit "10m")) None (Some (lit ".")) None) = Ready k /\
  attach_request k home_world (apply_templates (k_tmpls k) [(lit "ws", lit "a"); (lit "ws", lit "b")]) = Some h /\
  h_name h = lit "b-edit" /\ h_ttl_secs h = Some 600%N /\ h_dir h = Some (lit "/tmp") /\
  h_env h = [(lit "TERM", lit "xterm"); (lit "EDITOR", lit "ed")].
Proof. eexists _, _. split; [vm_compute; reflexivity|]. split; [vm_compute; reflexivity|]. repeat split; vm_compute; reflexivity. Qed.
