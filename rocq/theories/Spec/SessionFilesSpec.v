(** The places of a session's files, and who may get at a file. *)
From Coq Require Import List NArith.
From Verif Require Import Model.Base Model.Protocol Spec.PathSpec Model.SessionFiles.
Import ListNotations.
Open Scope N_scope.

(** <runtime dir>/sessions/<name>/forward.env and ssh-auth-sock.socket, last first. *)
Definition sessions_of (rd : rstr) : path := Entry (lit "sessions") :: rev (components rd).
Definition dir_of (rd n : rstr) : path := Entry n :: sessions_of rd.
Definition env_of (rd n : rstr) : path := Entry (lit "forward.env") :: dir_of rd n.
Definition link_of (rd n : rstr) : path := Entry (lit "ssh-auth-sock.socket") :: dir_of rd n.

(** Somebody who is not the owner: in the owner's group, or not.  The bits for them. *)
Inductive stranger := Group | Other.
Definition r_bit (s : stranger) : N := match s with Group => 5 | Other => 2 end.
Definition w_bit (s : stranger) : N := match s with Group => 4 | Other => 1 end.
Definition x_bit (s : stranger) : N := match s with Group => 3 | Other => 0 end.

(** [above d p]: the directory [d] is on the way to [p]. *)
Definition above (d p : path) : Prop := d <> [] /\ exists l, l <> [] /\ p = l ++ d.

(** They can get to it, and read or change it. *)
Definition reaches (s : stranger) (f : fs) (p : path) : Prop :=
  forall d, above d p -> exists m, f d = Some (Dir m) /\ N.testbit m (x_bit s) = true.
Definition may_read (s : stranger) (f : fs) (p : path) : Prop :=
  reaches s f p /\ exists m t, f p = Some (File m t) /\ N.testbit m (r_bit s) = true.
Definition may_change (s : stranger) (f : fs) (p : path) : Prop :=
  reaches s f p /\ exists m t, f p = Some (File m t) /\ N.testbit m (w_bit s) = true.

(** A directory nobody else can pass. *)
Definition shut (f : fs) (d : path) : Prop :=
  exists m, f d = Some (Dir m) /\ N.testbit m 3 = false /\ N.testbit m 0 = false.

(** Nothing is in the way of a session's files: what is on the way to them is a
    directory, or not there yet, and so is the file. *)
Definition unobstructed (f : fs) (rd n : rstr) : Prop :=
  (forall d, above d (env_of rd n) -> f d = None \/ exists m, f d = Some (Dir m)) /\
  (f (env_of rd n) = None \/ exists m t, f (env_of rd n) = Some (File m t)) /\
  (forall m, f (link_of rd n) <> Some (Dir m)).

(** A tree as it can be: whatever there is, is in a directory; a mode is twelve bits. *)
Definition tidy (f : fs) : Prop :=
  (forall x up, f (x :: up) <> None -> up = [] \/ exists m, f up = Some (Dir m)) /\
  (forall p m, f p = Some (Dir m) -> m < 4096).

(** The mode of a file after it has been written: its own, or 0666 without the umask. *)
Definition mode_after (umask : N) (before : option node) : N :=
  match before with Some (File m _) => m | _ => N.ldiff 438 umask end.

(** A umask that takes reading and writing from everybody else. *)
Definition covers (umask : N) : Prop := forall s, N.testbit umask (r_bit s) = true /\ N.testbit umask (w_bit s) = true.

(** The socket an attach brings, unless links are switched off. *)
Definition brings (nosymlink : option bool) (h : attach_header) : option rstr :=
  match nosymlink with
  | Some true => None
  | _ => match find (fun kv => str_eqb (lit "SSH_AUTH_SOCK") (fst kv)) (h_env h) with
         | Some (_, sock) => Some sock
         | None => None
         end
  end.

(** The attaches under way. *)
Definition finished (p : prog) : Prop := exists ok, p = Ret ok.
Definition no_attach_of (n : rstr) (st : tree) : Prop :=
  forall t h p, jobs st t = Some (h, p) -> h_name h = n -> finished p.
Definition none_begins (n : rstr) (es : list event) : Prop :=
  forall t cfg h, In (Begin t cfg h) es -> h_name h <> n.

(** The daemon at its start. *)
Definition idle (f : fs) : tree := mkTree f (fun _ => None).

(** How often a thread got on, if the system refused it nothing. *)
Definition refused (t : nat) (e : event) : Prop := exists n, e = Step t (Refused n).
Fixpoint turns (t : nat) (es : list event) : nat :=
  match es with
  | [] => 0
  | Step u _ :: r => if Nat.eqb u t then S (turns t r) else turns t r
  | _ :: r => turns t r
  end.

(** A line NAME=value for each variable, separated by newlines. *)
Fixpoint forwarded (vars : list (rstr * rstr)) : rstr :=
  match vars with
  | [] => []
  | [(k, v)] => k ++ lit "=" ++ v
  | (k, v) :: rest => k ++ lit "=" ++ v ++ [10] ++ forwarded rest
  end.

(** What may have become of a place that is none of the sessions' files: it is as it was;
    or there was nothing and there is a directory on the way to the files of one of the
    sessions; or it is the directory of sessions (or what is there in its stead), and only
    its mode is another. *)
Definition become (um : N) (rd : rstr) (names : rstr -> Prop) (q : path) (a b : option node) : Prop :=
  b = a \/
  (a = None /\ exists n m, names n /\ above q (env_of rd n) /\ b = Some (Dir m) /\ (m = N.ldiff 511 um \/ (q = sessions_of rd /\ m = 448))) \/
  (q = sessions_of rd /\ ((exists m, a = Some (Dir m)) /\ b = Some (Dir 448) \/ exists m t, a = Some (File m t) /\ b = Some (File 448 t))).
