(** What the two programs say to each other, as they see it, and the same as a message.
    Strings are their UTF-8 bytes. *)
From Coq Require Import String List NArith ZArith Bool Arith.
From Verif Require Import Model.Base Model.Msgpack Model.Messages.
Import ListNotations.
Open Scope N_scope.

Definition text (s : list byte) : Prop := utf8 s = true /\ N.of_nat (length s) < 2 ^ 32.
Definition maybe {A} (P : A -> Prop) (o : option A) : Prop := match o with Some x => P x | None => True end.
Definition many {A} (P : A -> Prop) (l : list A) : Prop := Forall P l /\ N.of_nat (length l) < 2 ^ 32.

Record window := { w_rows : Z; w_cols : Z; w_xpixel : Z; w_ypixel : Z }.
Definition u16 (z : Z) : Prop := (0 <= z < 65536)%Z.
Definition window_ok (w : window) : Prop := u16 (w_rows w) /\ u16 (w_cols w) /\ u16 (w_xpixel w) /\ u16 (w_ypixel w).

Record attach_wish := {
  a_name : list byte; a_template : list byte; a_window : window; a_env : list (list byte * list byte);
  a_ttl : option Z; a_cmd : option (list byte); a_dir : option (list byte); a_start_cmd : option (list byte) }.
Inductive level := LOff | LError | LWarn | LInfo | LDebug | LTrace.
Inductive request :=
| Attach (a : attach_wish) | ListSessions | Resize (name : list byte) (w : window) | DetachOne (name : list byte)
| Detach (names : list (list byte)) | Kill (names : list (list byte)) | SetLogLevel (l : level)
| GetVars | SetVar (var val : list byte) | UnsetVar (var : list byte).

Definition two (P : list byte -> Prop) (p : list byte * list byte) : Prop := P (fst p) /\ P (snd p).
Definition request_ok (r : request) : Prop :=
  match r with
  | Attach a =>
      text (a_name a) /\ text (a_template a) /\ window_ok (a_window a) /\ many (two text) (a_env a) /\
      maybe (fun z => 0 <= z < 2 ^ 64)%Z (a_ttl a) /\ maybe text (a_cmd a) /\ maybe text (a_dir a) /\ maybe text (a_start_cmd a)
  | Resize n w => text n /\ window_ok w
  | DetachOne n => text n
  | Detach l | Kill l => many text l
  | SetVar n v => text n /\ text v
  | UnsetVar n => text n
  | ListSessions | SetLogLevel _ | GetVars => True
  end.

Record session_line := {
  l_name : list byte; l_started : Z; l_connected : option Z; l_disconnected : option Z; l_attached : bool;
  l_attachments : list (list byte * Z) }.
Definition i64 (z : Z) : Prop := (- 2 ^ 63 <= z < 2 ^ 63)%Z.
Definition line_ok (l : session_line) : Prop :=
  text (l_name l) /\ i64 (l_started l) /\ maybe i64 (l_connected l) /\ maybe i64 (l_disconnected l) /\
  many (fun a => text (fst a) /\ (- 2 ^ 31 <= snd a < 2 ^ 31)%Z) (l_attachments l).

(** ** The same as messages *)
Definition vopt {A} (f : A -> value) (o : option A) : value := match o with Some x => VSome (f x) | None => VNone end.
Definition vwindow (w : window) : value := VRec [VInt (w_rows w); VInt (w_cols w); VInt (w_xpixel w); VInt (w_ypixel w)].
Definition vpair (p : list byte * list byte) : value := VPair (VStr (fst p)) (VStr (snd p)).
Definition level_name (l : level) : list byte :=
  match l with LOff => lit "Off" | LError => lit "Error" | LWarn => lit "Warn" | LInfo => lit "Info" | LDebug => lit "Debug" | LTrace => lit "Trace" end.
Definition request_message (r : request) : value :=
  match r with
  | Attach a => VVar (lit "Attach") (Some (VRec [VStr (a_name a); VStr (a_template a); vwindow (a_window a); VVec (map vpair (a_env a));
      vopt VInt (a_ttl a); vopt VStr (a_cmd a); vopt VStr (a_dir a); vopt VStr (a_start_cmd a)]))
  | ListSessions => VVar (lit "List") None
  | Resize n w => VVar (lit "SessionMessage") (Some (VRec [VStr n; VVar (lit "Resize") (Some (VRec [vwindow w]))]))
  | DetachOne n => VVar (lit "SessionMessage") (Some (VRec [VStr n; VVar (lit "Detach") None]))
  | Detach l => VVar (lit "Detach") (Some (VRec [VVec (map VStr l)]))
  | Kill l => VVar (lit "Kill") (Some (VRec [VVec (map VStr l)]))
  | SetLogLevel l => VVar (lit "SetLogLevel") (Some (VRec [VVar (level_name l) None]))
  | GetVars => VVar (lit "GetVars") None
  | SetVar n v => VVar (lit "ModifyVar") (Some (VRec [VStr n; VSome (VStr v)]))
  | UnsetVar n => VVar (lit "ModifyVar") (Some (VRec [VStr n; VNone]))
  end.

Definition line_message (l : session_line) : value :=
  VRec [VStr (l_name l); VInt (l_started l); vopt VInt (l_connected l); vopt VInt (l_disconnected l);
        VVar (if l_attached l then lit "Attached" else lit "Disconnected") None;
        VVec (map (fun a => VRec [VStr (fst a); VInt (snd a)]) (l_attachments l))].

(** Replies, each with its type. *)
Inductive reply :=
| VersionIs (v : list byte)
| Attached (warnings : list (list byte)) | Created (warnings : list (list byte)) | Busy | Forbidden (why : list byte) | Unexpected (why : list byte)
| Sessions (l : list session_line)
| NotFound | NotAttached | Resized | DetachedOne
| DetachFailed (not_found not_attached : list (list byte))
| KillFailed (not_found : list (list byte))
| LevelSet | VarSet
| Switch (target : option (list byte)) (vars : list (list byte * list byte)).
Definition reply_ok (r : reply) : Prop :=
  match r with
  | VersionIs v => text v
  | Attached l | Created l => many text l
  | Forbidden w | Unexpected w => text w
  | Sessions l => many line_ok l
  | DetachFailed a b => many text a /\ many text b
  | KillFailed a => many text a
  | Switch t vs => maybe text t /\ many (two text) vs
  | _ => True
  end.
Definition reply_type (r : reply) : ty :=
  match r with
  | VersionIs _ => version_header
  | Attached _ | Created _ | Busy | Forbidden _ | Unexpected _ => attach_reply_header
  | Sessions _ => list_reply
  | NotFound | NotAttached | Resized | DetachedOne => session_message_reply
  | DetachFailed _ _ => detach_reply
  | KillFailed _ => kill_reply
  | LevelSet => set_log_level_reply
  | VarSet => modify_var_reply
  | Switch _ _ => maybe_switch
  end.
Definition warned (n : list byte) (l : list (list byte)) : value := VRec [VVar n (Some (VRec [VVec (map VStr l)]))].
Definition reply_message (r : reply) : value :=
  match r with
  | VersionIs v => VRec [VStr v]
  | Attached l => warned (lit "Attached") l
  | Created l => warned (lit "Created") l
  | Busy => VRec [VVar (lit "Busy") None]
  | Forbidden w => VRec [VVar (lit "Forbidden") (Some (VStr w))]
  | Unexpected w => VRec [VVar (lit "UnexpectedError") (Some (VStr w))]
  | Sessions l => VRec [VVec (map line_message l)]
  | NotFound => VVar (lit "NotFound") None
  | NotAttached => VVar (lit "NotAttached") None
  | Resized => VVar (lit "Resize") (Some (VVar (lit "Ok") None))
  | DetachedOne => VVar (lit "Detach") (Some (VVar (lit "Ok") None))
  | DetachFailed a b => VRec [VVec (map VStr a); VVec (map VStr b)]
  | KillFailed a => VRec [VVec (map VStr a)]
  | LevelSet | VarSet => VRec []
  | Switch t vs => VRec [vopt VStr t; VVec (map vpair vs)]
  end.
