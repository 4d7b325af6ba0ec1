(** The messages of shpool-protocol/src/lib.rs as serde sees them, and encode_to and
    decode_from, libshpool/src/protocol.rs 43-69.

    A message type is described by its fields in the order of the declaration, each
    with the value it takes when missing; [encode] and [decode] are what the derived
    Serialize and Deserialize do with rmp_serde 1.3 (with_struct_map).  A string is
    the list of its UTF-8 bytes here.

    Simplified: a struct is read from a map only (rmp_serde would also take an array
    of its fields in order), a string from a string only (not from bytes), an enum variant is known by its name only (rmp_serde
    would also take its number, and a map to nil for a unit variant). *)
From Coq Require Import List NArith ZArith Bool Arith.
From Verif Require Import Model.Base Model.Msgpack.
Import ListNotations.
Open Scope N_scope.

(** A value of one of the types of shpool-protocol/src/lib.rs. *)
Inductive value :=
| VStr (s : list byte)
| VInt (z : Z)
| VNone
| VSome (v : value)
| VVec (l : list value)
| VPair (a b : value)
| VRec (l : list value)                              (* in the order of the fields *)
| VVar (name : list byte) (payload : option value).  (* a variant *)

(** A type of shpool-protocol/src/lib.rs, as serde_derive sees it. *)
Inductive ty :=
| TStr
| TInt (lo hi : Z)
| TOpt (t : ty)
| TVec (t : ty)
| TPair (a b : ty)
| TStruct (fields : list (list byte * ty * option value))   (* name, type, #[serde(default)] *)
| TEnum (variants : list (list byte * option ty)).

(** core::str::from_utf8. *)
Definition cont (b : byte) : bool := (0x80 <=? b) && (b <=? 0xbf).
(** core::str::from_utf8. *)
Fixpoint utf8 (s : list byte) : bool :=
  match s with
  | [] => true
  | a :: r =>
    if a <=? 0x7f then utf8 r
    else if (0xc2 <=? a) && (a <=? 0xdf) then match r with b :: r1 => cont b && utf8 r1 | _ => false end
    else if (0xe0 <=? a) && (a <=? 0xef) then
      match r with
      | b :: c :: r2 => (if a =? 0xe0 then 0xa0 <=? b else true) && (if a =? 0xed then b <=? 0x9f else true) && cont b && cont c && utf8 r2
      | _ => false
      end
    else if (0xf0 <=? a) && (a <=? 0xf4) then
      match r with
      | b :: c :: d :: r3 => (if a =? 0xf0 then 0x90 <=? b else true) && (if a =? 0xf4 then b <=? 0x8f else true) && cont b && cont c && cont d && utf8 r3
      | _ => false
      end
    else false
  end.

(** The derived Serialize.  (A value that is not of the type: nil.) protocol.rs 54-55 calls
    it. *)
Definition entries_of (rec : ty -> value -> mval) : list (list byte * ty * option value) -> list value -> list (mval * mval) :=
  fix go fs l :=
    match fs, l with
    | (n, t, _) :: fs', v :: l' => (MStr n, rec t v) :: go fs' l'
    | _, _ => []
    end.
(** The variant of an enum with a given name: serde_derive. *)
Definition variant_of {A} (rec : ty -> A) (n : list byte) : list (list byte * option ty) -> option A :=
  fix go vs :=
    match vs with
    | (m, Some t) :: r => if str_eqb m n then Some (rec t) else go r
    | (m, None) :: r => go r
    | [] => None
    end.
(** protocol.rs 54-55. *)
Fixpoint encode (t : ty) (v : value) : mval :=
  match t, v with
  | TStr, VStr s => MStr s
  | TInt _ _, VInt z => MInt z
  | TOpt _, VNone => MNil
  | TOpt t, VSome v => encode t v
  | TVec t, VVec l => MArr (map (encode t) l)
  | TPair a b, VPair x y => MArr [encode a x; encode b y]
  | TStruct fs, VRec l => MMap (entries_of encode fs l)
  | TEnum vs, VVar n None => MStr n
  | TEnum vs, VVar n (Some v) => MMap [(MStr n, match variant_of (fun t => encode t v) n vs with Some m => m | None => MNil end)]
  | _, _ => MNil
  end.

(** The field a map key stands for: serde_derive's field visitor takes a name, as a
    string or as bytes, or a number; anything it does not know is ignored. protocol.rs 66-67
    gets there. *)
Definition key_ok (k : mval) : bool :=
  match k with MStr _ | MBin _ => true | MInt z => (0 <=? z)%Z | _ => false end.
(** serde_derive, as above. *)
Definition is_field (i : nat) (n : list byte) (k : mval) : bool :=
  match k with MStr s | MBin s => str_eqb s n | MInt z => (z =? Z.of_nat i)%Z | _ => false end.

(** Bookkeeping: all of the results, if there are. *)
Definition collect {A B} (f : A -> option B) : list A -> option (list B) :=
  fix go l := match l with
              | [] => Some []
              | x :: r => match f x, go r with Some y, Some ys => Some (y :: ys) | _, _ => None end
              end.

(** A missing field: its default, or nothing for an Option (serde's missing_field), or
    an error. protocol.rs 66-67 gets there. *)
Definition missing (t : ty) (d : option value) : option value :=
  match d, t with Some v, _ => Some v | None, TOpt _ => Some VNone | None, _ => None end.

(** The derived Deserialize. protocol.rs 66-67 calls it. *)
Definition fields_of (rec : ty -> mval -> option value) (es : list (mval * mval)) : nat -> list (list byte * ty * option value) -> option (list value) :=
  fix go i fs :=
    match fs with
    | [] => Some []
    | (n, t, d) :: fs' =>
      match match filter (fun e => is_field i n (fst e)) es with
            | [] => missing t d
            | [e] => rec t (snd e)
            | _ => None                                  (* a duplicate field *)
            end, go (S i) fs' with
      | Some v, Some vs => Some (v :: vs)
      | _, _ => None
      end
    end.
(** protocol.rs 66-67. *)
Fixpoint decode (t : ty) (m : mval) : option value :=
  match t with
  | TStr => match m with MStr s => if utf8 s then Some (VStr s) else None | _ => None end
  | TInt lo hi => match m with MInt z => if (lo <=? z)%Z && (z <=? hi)%Z then Some (VInt z) else None | _ => None end
  | TOpt t' => match m with MNil => Some VNone | _ => option_map VSome (decode t' m) end
  | TVec t' => match m with MArr l => option_map VVec (collect (decode t') l) | _ => None end
  | TPair a b =>
    match m with
    | MArr [x; y] => match decode a x, decode b y with Some v, Some w => Some (VPair v w) | _, _ => None end
    | _ => None
    end
  | TStruct fs =>
    match m with
    | MMap es => if forallb (fun e => key_ok (fst e)) es then option_map VRec (fields_of decode es 0 fs) else None
    | _ => None
    end
  | TEnum vs =>
    match m with
    | MStr n => if existsb (fun v => match v with (k, None) => str_eqb k n | _ => false end) vs then Some (VVar n None) else None
    | MMap [(MStr n, x)] => match variant_of (fun t' => decode t' x) n vs with Some (Some v) => Some (VVar n (Some v)) | _ => None end
    | _ => None
    end
  end.

(** protocol.rs 43-58: [encode_to], what is written; 62-69: [decode_from], the message
    and the rest of the stream. *)
Definition encode_to (t : ty) (v : value) : list byte := enc (encode t v).
(** protocol.rs 62-69. *)
Definition decode_from (t : ty) (bs : list byte) : option (value * list byte) :=
  match read_value bs with
  | Some (m, r) => match decode t m with Some v => Some (v, r) | None => None end
  | None => None
  end.

(** The types.  A field with [None] has no #[serde(default)]. shpool-protocol/src/lib.rs
    31-380. *)
Definition req (n : rstr) (t : ty) : list byte * ty * option value := (n, t, None).
(** shpool-protocol/src/lib.rs 31-380. *)
Definition opt (n : rstr) (t : ty) (d : value) : list byte * ty * option value := (n, t, Some d).
(** shpool-protocol/src/lib.rs 31-380. *)
Definition TU16 := TInt 0 65535.
(** shpool-protocol/src/lib.rs 31-380. *)
Definition TU64 := TInt 0 18446744073709551615.
(** shpool-protocol/src/lib.rs 31-380. *)
Definition TI64 := TInt (-9223372036854775808) 9223372036854775807.
(** shpool-protocol/src/lib.rs 31-380. *)
Definition TI32 := TInt (-2147483648) 2147483647.
(** shpool-protocol/src/lib.rs 31-380. *)
Definition empty_str := VStr [].

(** lib.rs 30-33: [VersionHeader] *)
Definition version_header : ty := TStruct [req (lit "version") TStr].
(** lib.rs 74-85: [KillRequest], [KillReply] *)
Definition kill_request : ty := TStruct [opt (lit "sessions") (TVec TStr) (VVec [])].
(** lib.rs 74-85. *)
Definition kill_reply : ty := TStruct [opt (lit "not_found_sessions") (TVec TStr) (VVec [])].
(** lib.rs 89-105: [DetachRequest], [DetachReply] *)
Definition detach_request : ty := TStruct [opt (lit "sessions") (TVec TStr) (VVec [])].
(** lib.rs 89-105. *)
Definition detach_reply : ty := TStruct [opt (lit "not_found_sessions") (TVec TStr) (VVec []); opt (lit "not_attached_sessions") (TVec TStr) (VVec [])].
(** lib.rs 107-116: [LogLevel] *)
Definition log_level : ty := TEnum [(lit "Off", None); (lit "Error", None); (lit "Warn", None); (lit "Info", None); (lit "Debug", None); (lit "Trace", None)].
(** lib.rs 120-127: [SetLogLevelRequest], [SetLogLevelReply] *)
Definition set_log_level_request : ty := TStruct [opt (lit "level") log_level (VVar (lit "Off") None)].
(** lib.rs 120-127. *)
Definition set_log_level_reply : ty := TStruct [].
(** lib.rs 129-138: [ModifyVarRequest], [ModifyVarReply] *)
Definition modify_var_request : ty := TStruct [req (lit "var") TStr; req (lit "val") (TOpt TStr)].
(** lib.rs 129-138. *)
Definition modify_var_reply : ty := TStruct [].
(** lib.rs 355-361: [TtySize]; the struct derives Default, its fields have no default. *)
Definition tty_size : ty := TStruct [req (lit "rows") TU16; req (lit "cols") TU16; req (lit "xpixel") TU16; req (lit "ypixel") TU16].
(** lib.rs 355-361. *)
Definition tty_zero : value := VRec [VInt 0; VInt 0; VInt 0; VInt 0].
(** lib.rs 171-176: [ResizeRequest] *)
Definition resize_request : ty := TStruct [opt (lit "tty_size") tty_size tty_zero].
(** lib.rs 155-164: [SessionMessageRequestPayload] *)
Definition payload : ty := TEnum [(lit "Resize", Some resize_request); (lit "Detach", None)].
(** lib.rs 143-151: [SessionMessageRequest] *)
Definition session_message_request : ty := TStruct [opt (lit "session_name") TStr empty_str; opt (lit "payload") payload (VVar (lit "Detach") None)].
(** lib.rs 178-201: [SessionMessageReply], [SessionMessageDetachReply], [ResizeReply] *)
Definition ok_reply : ty := TEnum [(lit "Ok", None)].
(** lib.rs 178-201. *)
Definition session_message_reply : ty :=
  TEnum [(lit "NotFound", None); (lit "NotAttached", None); (lit "Resize", Some ok_reply); (lit "Detach", Some ok_reply)].
(** lib.rs 206-250: [AttachHeader] *)
Definition attach_header : ty := TStruct [
  opt (lit "name") TStr empty_str; opt (lit "name_template") TStr empty_str; opt (lit "local_tty_size") tty_size tty_zero;
  opt (lit "local_env") (TVec (TPair TStr TStr)) (VVec []); opt (lit "ttl_secs") (TOpt TU64) VNone; opt (lit "cmd") (TOpt TStr) VNone;
  opt (lit "dir") (TOpt TStr) VNone; opt (lit "start_cmd") (TOpt TStr) VNone].
(** lib.rs 324-353: [AttachStatus] *)
Definition warnings : ty := TStruct [req (lit "warnings") (TVec TStr)].
(** lib.rs 324-353. *)
Definition attach_status : ty :=
  TEnum [(lit "Attached", Some warnings); (lit "Created", Some warnings); (lit "Busy", None); (lit "Forbidden", Some TStr); (lit "UnexpectedError", Some TStr)].
(** lib.rs 261-265: [AttachReplyHeader] *)
Definition attach_reply_header : ty := TStruct [opt (lit "status") attach_status (VVar (lit "UnexpectedError") (Some (VStr (lit "default"))))].
(** lib.rs 275-313: [Session], [Attachment], [SessionStatus] *)
Definition attachment : ty := TStruct [opt (lit "session_name_template") TStr empty_str; opt (lit "pid") TI32 (VInt 0)].
(** lib.rs 275-313. *)
Definition session_status : ty := TEnum [(lit "Attached", None); (lit "Disconnected", None)].
(** lib.rs 275-313. *)
Definition session : ty := TStruct [
  opt (lit "name") TStr empty_str; opt (lit "started_at_unix_ms") TI64 (VInt 0);
  opt (lit "last_connected_at_unix_ms") (TOpt TI64) VNone; opt (lit "last_disconnected_at_unix_ms") (TOpt TI64) VNone;
  opt (lit "status") session_status (VVar (lit "Attached") None); opt (lit "attachments") (TVec attachment) (VVec [])].
(** lib.rs 268-272: [ListReply] *)
Definition list_reply : ty := TStruct [opt (lit "sessions") (TVec session) (VVec [])].
(** lib.rs 365-379: [MaybeSwitch] *)
Definition maybe_switch : ty := TStruct [req (lit "switch_to") (TOpt TStr); req (lit "vars") (TVec (TPair TStr TStr))].
(** lib.rs 41-70: [ConnectHeader] *)
Definition connect_header : ty :=
  TEnum [(lit "Attach", Some attach_header); (lit "List", None); (lit "SessionMessage", Some session_message_request); (lit "Detach", Some detach_request);
         (lit "Kill", Some kill_request); (lit "SetLogLevel", Some set_log_level_request); (lit "GetVars", None); (lit "ModifyVar", Some modify_var_request)].

(** What goes over the socket. shpool-protocol/src/lib.rs 31-380, but for the chunks. *)
Definition messages : list ty :=
  [version_header; connect_header; attach_reply_header; list_reply; session_message_reply; detach_reply; kill_reply; set_log_level_reply; modify_var_reply; maybe_switch].
