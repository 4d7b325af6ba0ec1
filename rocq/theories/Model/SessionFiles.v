(** The files kept for a session, system call by system call:
    libshpool/src/daemon/server.rs 574-622.

    A path is the list of its components, the last one first; [[]] is the daemon's
    working directory.  A component that is a link or ".." is not followed.  Several
    attaches do this at the same time, so a program is what it
    asks of the system next and how it goes on with the answer. *)
From Coq Require Import List NArith Bool.
From Verif Require Import Model.Base Model.Protocol Model.Names Spec.PathSpec.
Import ListNotations.
Open Scope N_scope.

(** A path as the kernel walks it, innermost component first. Paths as server.rs 574-622
    makes them. *)
Definition path := list component.
(** A path string as a path: std::path::Path::components. *)
Definition at_ (s : rstr) : path := rev (components s).

(** What is at a path, as server.rs 574-622 sees it. *)
Inductive node := Dir (mode : N) | File (mode : N) (text : rstr) | Link (target : rstr).
(** The file tree. *)
Definition fs := path -> option node.

(** Bookkeeping: equality of paths, and changing a tree at one of them. *)
Definition component_eqb (a b : component) : bool :=
  match a, b with
  | Root, Root | Here, Here | Up, Up => true
  | Entry x, Entry y => str_eqb x y
  | _, _ => false
  end.
(** Bookkeeping. *)
Fixpoint path_eqb (a b : path) : bool :=
  match a, b with
  | [], [] => true
  | x :: a', y :: b' => component_eqb x y && path_eqb a' b'
  | _, _ => false
  end.
(** Bookkeeping. *)
Definition put (f : fs) (p : path) (n : option node) : fs := fun q => if path_eqb q p then n else f q.

(** The system calls of server.rs 574-622, with those of std::fs::create_dir_all. *)
Inductive call :=
| Mkdir (p : path)
| Stat (p : path)
| Chmod (p : path) (mode : N)
| Unlink (p : path)
| Symlink (target : rstr) (p : path)
| Create (p : path)                 (* O_WRONLY|O_CREAT|O_TRUNC, 0666 *)
| Write (p : path) (text : rstr).

(** What they answer. *)
Inductive answer := AOk | ANotFound | AError | AMode (st_mode : N).

(** What the system makes of a call apart from what the tree says: it may refuse, and
    stop in the middle of writing. Failures server.rs 574-622 cannot foresee. *)
Inductive outcome := Fine | Refused (written : nat).

(** Whether the kernel would go into a directory. *)
Definition is_dir (f : fs) (p : path) : bool :=
  match p with [] => true | _ => match f p with Some (Dir _) => true | _ => false end end.

(** What is in a file after somebody who opened it earlier has written its beginning:
    fs::write (server.rs 615-618) writes from the start of the file, and what others
    have put behind that stays. *)
Definition over (text old : rstr) : rstr := text ++ skipn (length text) old.

(** The kernel, for the owner of the tree. The calls of server.rs 574-622. *)
Definition exec (umask : N) (f : fs) (c : call) (o : outcome) : fs * answer :=
  match o, c with
  | Refused n, Write p t =>
      (match f p with Some (File m old) => put f p (Some (File m (over (firstn n t) old))) | _ => f end, AError)
  | Refused _, _ => (f, AError)
  | Fine, Mkdir p =>
      match f p, p with
      | Some _, _ => (f, AError)
      | None, [] => (f, AError)
      | None, _ :: up =>
          if is_dir f up then (put f p (Some (Dir (N.ldiff 511 umask))), AOk)
          else match f up with None => (f, ANotFound) | Some _ => (f, AError) end
      end
  | Fine, Stat p =>
      match f p with
      | None => (f, ANotFound)
      | Some (Dir m) => (f, AMode (16384 + m))
      | Some (File m _) => (f, AMode (32768 + m))
      | Some (Link _) => (f, AError)
      end
  | Fine, Chmod p m =>
      match f p with
      | None => (f, ANotFound)
      | Some (Dir _) => (put f p (Some (Dir m)), AOk)
      | Some (File _ t) => (put f p (Some (File m t)), AOk)
      | Some (Link _) => (f, AError)
      end
  | Fine, Unlink p =>
      match f p with
      | None => (f, ANotFound)
      | Some (Dir _) => (f, AError)
      | Some _ => (put f p None, AOk)
      end
  | Fine, Symlink t p =>
      match f p with
      | Some _ => (f, AError)
      | None => if is_dir f (tl p) then (put f p (Some (Link t)), AOk) else (f, ANotFound)
      end
  | Fine, Create p =>
      match f p with
      | Some (File m _) => (put f p (Some (File m [])), AOk)
      | Some _ => (f, AError)
      | None => if is_dir f (tl p) then (put f p (Some (File (N.ldiff 438 umask) [])), AOk) else (f, ANotFound)
      end
  | Fine, Write p t =>
      match f p with
      | Some (File m old) => (put f p (Some (File m (over t old))), AOk)
      | _ => (f, AError)
      end
  end.

(** A function that makes system calls: its next one, and how it goes on with the answer. *)
Inductive prog := Ret (ok : bool) | Call (c : call) (k : answer -> prog).

(** Path::is_dir. As create_dir_all uses it (server.rs 581, 610). *)
Definition says_dir (a : answer) : bool :=
  match a with AMode m => (16384 <=? m) && (m <? 32768) | _ => false end.

(** std::fs::create_dir_all. As used in server.rs 581 and 610. *)
Fixpoint create_dir_all (p : path) (k : bool -> prog) : prog :=
  match p with
  | [] => k true
  | _ :: up =>
      let or_is_dir := Call (Stat p) (fun s => k (says_dir s)) in
      Call (Mkdir p) (fun a =>
        match a with
        | AOk => k true
        | ANotFound =>
            create_dir_all up (fun ok =>
              if ok then Call (Mkdir p) (fun a => match a with AOk => k true | _ => or_is_dir end) else k false)
        | _ => or_is_dir
        end)
  end.

(** server.rs 574-605 (link_ssh_auth_sock).  [Permissions::mode] gives the type bits
    too, so the directory's is never 0o700. *)
Definition link_prog (nosymlink : option bool) (rd : rstr) (h : attach_header) (k : prog) : prog :=
  if match nosymlink with Some b => b | None => false end then k else
  match local_env_get h (lit "SSH_AUTH_SOCK") with
  | None => k
  | Some sock =>
      let link := at_ (ssh_auth_sock_symlink rd (h_name h)) in
      let sessions := tl (tl link) in
      let rest :=
        Call (Unlink link) (fun _ =>
        Call (Symlink sock link) (fun a => match a with AOk => k | _ => Ret false end)) in
      create_dir_all (tl link) (fun ok =>
        if negb ok then Ret false else
        Call (Stat sessions) (fun a =>
          match a with
          | AMode m => if m =? 448 then rest
                       else Call (Chmod sessions 448) (fun a => match a with AOk => rest | _ => Ret false end)
          | _ => Ret false
          end))
  end.

(** server.rs 608-622 (populate_session_env_file); fs::write opens and then writes. *)
Definition env_prog (rd : rstr) (h : attach_header) : prog :=
  create_dir_all (at_ (session_dir rd (h_name h))) (fun ok =>
    if negb ok then Ret false else
    let file := at_ (session_env_file rd (h_name h)) in
    Call (Create file) (fun a =>
      match a with
      | AOk => Call (Write file (env_file_text h)) (fun a => match a with AOk => Ret true | _ => Ret false end)
      | _ => Ret false
      end)).

(** server.rs 285-286. *)
Definition files_prog (nosymlink : option bool) (rd : rstr) (h : attach_header) : prog :=
  link_prog nosymlink rd h (env_prog rd h).

(** The daemon's handler threads: which attach each is at, and how far. server.rs 140-163:
    one thread for each connection. *)
Record tree := mkTree { files : fs; jobs : nat -> option (attach_header * prog) }.
(** What happens next: a thread gets to server.rs 574, or makes its next call. *)
Inductive event := Begin (t : nat) (nosymlink : option bool) (h : attach_header) | Step (t : nat) (o : outcome).

Section Run.
  Variables (umask : N) (rd : rstr).
  (** server.rs 574-622 by any number of threads at once. *)
  Definition happen (st : tree) (e : event) : tree :=
    match e with
    | Begin t cfg h =>
        match jobs st t with
        | Some _ => st
        | None => if daemon_rejects (h_name h) then st else
                  mkTree (files st) (fun u => if Nat.eqb u t then Some (h, files_prog cfg rd h) else jobs st u)
        end
    | Step t o =>
        match jobs st t with
        | Some (h, Call c k) =>
            let (f, a) := exec umask (files st) c o in
            mkTree f (fun u => if Nat.eqb u t then Some (h, k a) else jobs st u)
        | _ => st
        end
    end.
  (** Any history of it. *)
  Definition run (st : tree) (es : list event) : tree := fold_left happen es st.
End Run.
