(** A command, from its start to its exit, and the daemon it talks to: list.rs, kill.rs,
    detach.rs and var.rs over protocol.rs, and server.rs 166-239 with the handlers.

    The two programs are those of Server.v and Handshake.v; here they meet.  Everything the
    daemon does for others, before and meanwhile, is [Others].  Simplification: of stderr only
    the line about sessions that are not found or not attached is here (not the warning
    about versions, nor the error a command ends with), and --json is left out (Json.v). *)
From Coq Require Import String List NArith ZArith Bool Arith.
From Verif Require Import Model.Base Model.Protocol Model.Msgpack Model.Messages Model.UserInfo Model.AttachClient Model.Commands.
From Verif Require Model.Server Model.Handshake.
Import ListNotations.
Open Scope N_scope.

(** lib.rs 165-310 (the subcommands); a command line that is refused starts nothing. *)
Inductive command := ListCmd | KillCmd (named : list rstr) | DetachCmd (named : list rstr) | VarCmd (v : var_command).

(** What is written: shpool-protocol/src/lib.rs 41-138; list.rs 39, kill.rs 42-44, detach.rs
    42-44, var.rs 26-62.  Strings are written in UTF-8. *)
Definition vstr (s : rstr) : value := VStr (str_bytes s).
(** shpool-protocol/src/lib.rs 41-138; list.rs 39; kill.rs 42-44; detach.rs 42-44; var.rs 26-62. *)
Definition vpair (p : rstr * rstr) : value := VPair (vstr (fst p)) (vstr (snd p)).
(** shpool-protocol/src/lib.rs 41-138; list.rs 39; kill.rs 42-44; detach.rs 42-44; var.rs 26-62. *)
Definition vopt {A} (f : A -> value) (o : option A) : value := match o with Some x => VSome (f x) | None => VNone end.
(** shpool-protocol/src/lib.rs 41-138; list.rs 39; kill.rs 42-44; detach.rs 42-44; var.rs 26-62. *)
Definition wish (current : option rstr) (c : command) : option value :=
  match c with
  | ListCmd => Some (VVar (lit "List") None)
  | KillCmd named => option_map (fun l => VVar (lit "Kill") (Some (VRec [VVec (map vstr l)]))) (resolve_sessions named current)
  | DetachCmd named => option_map (fun l => VVar (lit "Detach") (Some (VRec [VVec (map vstr l)]))) (resolve_sessions named current)
  | VarCmd (VarList | VarGet _) => Some (VVar (lit "GetVars") None)
  | VarCmd (VarSet var val) => Some (VVar (lit "ModifyVar") (Some (VRec [vstr var; VSome (vstr val)])))
  | VarCmd (VarUnset var) => Some (VVar (lit "ModifyVar") (Some (VRec [vstr var; VNone])))
  end.
(** The type read_reply is used at: list.rs 40, kill.rs 46, detach.rs 46, var.rs 27, 43, 57, 63. *)
Definition answer_type (c : command) : ty :=
  match c with
  | ListCmd => list_reply
  | KillCmd _ => kill_reply
  | DetachCmd _ => detach_reply
  | VarCmd (VarList | VarGet _) => maybe_switch
  | VarCmd (VarSet _ _ | VarUnset _) => modify_var_reply
  end.

(** The strings of a list of them. *)
Definition strings (l : list value) : option (list rstr) := collect (fun v => match v with VStr s => Some (lossy s) | _ => None end) l.

(** server.rs 231-238: which handler.  Simplification: the requests of other commands are
    not told apart. *)
Definition request_of (v : value) : option Server.request :=
  match v with
  | VVar n None =>
      if str_eqb n (lit "List") then Some Server.QList
      else if str_eqb n (lit "GetVars") then Some Server.QGetVars
      else None
  | VVar n (Some (VRec [VVec l])) =>
      if str_eqb n (lit "Kill") then option_map Server.QKill (strings l)
      else if str_eqb n (lit "Detach") then option_map Server.QDetach (strings l)
      else None
  | VVar n (Some (VRec [VStr var; val])) =>
      if str_eqb n (lit "ModifyVar") then
        match val with
        | VNone => Some (Server.QModify (lossy var) None)
        | VSome (VStr s) => Some (Server.QModify (lossy var) (Some (lossy s)))
        | _ => None
        end
      else None
  | _ => None
  end.

(** server.rs 648-656, 690-696, 731-733, 762-766, 772-806: what the handlers write.
    Simplification: replies to other commands are left out. *)
Definition session_value (i : Server.session_info) : value :=
  VRec [vstr (Server.i_name i); VInt (Server.i_started i); vopt VInt (Server.i_connected i); vopt VInt (Server.i_disconnected i);
        VVar (if Server.i_attached i then lit "Attached" else lit "Disconnected") None;
        VVec (map (fun a => VRec [vstr (fst a); VInt (snd a)]) (Server.i_attachments i))].
(** server.rs 648-656, 690-696, 731-733, 762-766, 772-806. *)
Definition reply_value (r : Server.reply) : option (ty * value) :=
  match r with
  | Server.RList l => Some (list_reply, VRec [VVec (map session_value l)])
  | Server.RKill nf => Some (kill_reply, VRec [VVec (map vstr nf)])
  | Server.RDetach nf na => Some (detach_reply, VRec [VVec (map vstr nf); VVec (map vstr na)])
  | Server.RVars vs => Some (maybe_switch, VRec [VNone; VVec (map vpair vs)])
  | Server.RModify => Some (modify_var_reply, VRec [])
  | _ => None
  end.
(** server.rs 648-656, 690-696, 731-733, 762-766, 772-806. *)
Definition reply_bytes (r : Server.reply) : list byte :=
  match reply_value r with Some (t, v) => encode_to t v | None => [] end.

(** What a command makes of the answer: list.rs 40-56, kill.rs 46-53, detach.rs 46-57, var.rs
    26-64. *)
Definition line_of (v : value) : option (rstr * bool) :=
  match v with
  | VRec (VStr n :: _ :: _ :: _ :: VVar s None :: _) => Some (lossy n, str_eqb s (lit "Attached"))
  | _ => None
  end.
(** list.rs 40-56; kill.rs 46-53; detach.rs 46-57; var.rs 26-64. *)
Definition pair_of (v : value) : option (rstr * rstr) :=
  match v with VPair (VStr a) (VStr b) => Some (lossy a, lossy b) | _ => None end.
(** list.rs 40-56; kill.rs 46-53; detach.rs 46-57; var.rs 26-64. *)
Record result := mkResult { out : rstr; err : rstr; status : Z }.
(** [<[String]>::join(" ")]. *)
Fixpoint join (l : list rstr) : rstr :=
  match l with
  | [] => []
  | s :: r => match r with [] => s | _ => s ++ 32 :: join r end
  end.
(** kill.rs 46-53 and detach.rs 46-57. *)
Definition said (what : rstr) (l : list rstr) : rstr := match l with [] => [] | _ => what ++ join l ++ [10] end.
(** list.rs 40-56, kill.rs 46-53, detach.rs 46-57, var.rs 26-64. *)
Definition finish (current : option rstr) (c : command) (answer : option value) : result :=
  let of_outcome o := mkResult (printed o) [] (code o) in
  match c with
  | ListCmd =>
      of_outcome (list_command true
        match answer with Some (VRec [VVec l]) => collect line_of l | _ => None end)
  | KillCmd named =>
      match answer with
      | Some (VRec [VVec nf]) =>
          match strings nf with
          | Some nf => mkResult [] (said (lit "not found: ") nf) (snd (run_verb KillVerb true current (Some (nf, [])) named))
          | None => mkResult [] [] 1
          end
      | _ => mkResult [] [] 1
      end
  | DetachCmd named =>
      match answer with
      | Some (VRec [VVec nf; VVec na]) =>
          match strings nf, strings na with
          | Some nf, Some na => mkResult [] (match nf with [] => said (lit "not attached: ") na | _ => said (lit "not found: ") nf end)
                                  (snd (run_verb DetachVerb true current (Some (nf, na)) named))
          | _, _ => mkResult [] [] 1
          end
      | _ => mkResult [] [] 1
      end
  | VarCmd v =>
      of_outcome (var_run true
        match answer with
        | Some (VRec [_; VVec l]) => option_map GotVars (collect pair_of l)
        | Some (VRec []) => Some GotModified
        | _ => None
        end v)
  end.

Section Command.
  (** The deserializer, the daemon's version and process and the client's process, as in
      Handshake.v; the client's version; the number of the connection; the session the
      command is run in and the command. *)
  Variable unreadable : ty -> list byte -> bool.
  Variable version : rstr.
  Variables self other : Server.peer.
  Variable own_version : rstr.
  Variable c : Server.conn.
  Variable current : option rstr.
  Variable cmd : command.

  (** The daemon, the connection with its two ends, and whether the handler has been
      called.  [killed]: the command was. server.rs 166-239, kill.rs 22-56. *)
  Record world := mkWorld { srv : Server.server; talk : Handshake.talk; asked : bool; killed : bool }.
  (** The connection is made with a daemon that has just been started; whatever it did
      before comes first. *)
  Definition at_first (defaults : list (rstr * rstr)) : world := mkWorld (Server.server_new defaults) (Handshake.begun version) false false.

  (** What was written for the connection. server.rs 1317-1331. *)
  Definition reply_to (st : Server.server) : option Server.reply :=
    option_map snd (find (fun p => Nat.eqb (fst p) c) (Server.replies st)).

  (** The connection's thread: [Handshake.daemon_turn], with the handler in between, which
      is called once the peer has been checked; its reply is written when it is there,
      and the connection closed if the handler ends without one. server.rs 166-239. *)
  Definition daemon_move (k : nat) (w : world) : world :=
    let t := talk w in
    let f := Handshake.daemon t in
    let go answer := mkWorld (srv w) (Handshake.mkTalk (Handshake.daemon_turn unreadable self other (fun _ => answer) k f) (Handshake.at_c t)) (asked w) (killed w) in
    match Handshake.at_d f with
    | Handshake.DPeer h =>
        if negb (asked w) then mkWorld (Server.step (srv w) (Server.AConnect c self other (request_of h))) t true (killed w)
        else match Server.check_peer self other, reply_to (srv w) with
             | Err _, _ => go []
             | Ok _, Some r => go (reply_bytes r)
             | Ok _, None =>
                 match Server.handlers (srv w) c with
                 | Server.HDone => mkWorld (srv w) (Handshake.mkTalk (Handshake.end_with Handshake.Failed f) (Handshake.at_c t)) true (killed w)
                 | _ => w
                 end
             end
    | _ => go []
    end.

  (** The command: [Handshake.client_turn], which does not ask about versions (list.rs
      26-28, kill.rs 28-31, detach.rs 28-31, var.rs 13-16).  With no session to name it
      stops there (kill.rs 40, detach.rs 40). *)
  Definition client_move (k : nat) (w : world) : world :=
    let t := talk w in
    let t' :=
      match Handshake.at_c t, wish current cmd with
      | Handshake.CRequest _, None => Handshake.give_up t
      | _, Some v => Handshake.client_turn unreadable own_version true false v (answer_type cmd) k t
      | _, None => Handshake.client_turn unreadable own_version true false VNone (answer_type cmd) k t
      end in
    mkWorld (srv w) t' (asked w) (killed w).

  (** What may happen; nothing of the code by itself. *)
  Inductive deed := Others (a : Server.action) | Daemon (k : nat) | Client (k : nat) | Pass (ms : N) | Dies.
  (** server.rs 142-163: connections have numbers of their own. *)
  Definition mine (a : Server.action) : bool := match a with Server.AConnect c' _ _ _ => Nat.eqb c' c | _ => false end.
  Definition act (w : world) (d : deed) : world :=
    match d with
    | Others a => if mine a then w else mkWorld (Server.step (srv w) a) (talk w) (asked w) (killed w)
    | Daemon k => daemon_move k w
    | Client k => client_move k w
    | Pass ms => mkWorld (srv w) (Handshake.mkTalk (Handshake.wait ms (Handshake.daemon (talk w))) (Handshake.at_c (talk w))) (asked w) (killed w)
    | Dies => match Handshake.at_c (talk w) with
              | Handshake.CDone _ | Handshake.CFailed => w     (* it has exited before *)
              | _ => mkWorld (srv w) (Handshake.give_up (talk w)) (asked w) true
              end
    end.
  (** Any number of steps, one after the other. *)
  Definition acts (defaults : list (rstr * rstr)) (l : list deed) : world := fold_left act l (at_first defaults).

  (** The end of the command, once it has come. lib.rs 483-488. *)
  Definition ended (w : world) : option result :=
    if killed w then None
    else match Handshake.at_c (talk w) with
         | Handshake.CDone v => Some (finish current cmd (Some v))
         | Handshake.CFailed => Some (finish current cmd None)
         | _ => None
         end.
End Command.
