(** The size of a window from the terminal to the shell: the client's SIGWINCH thread
    (attach.rs 420-507, Winch.v), the attach that hands a client to a session
    (daemon/server.rs 242-345, daemon/shell.rs 680-699), the pager it may show first
    (daemon/pager.rs 100-310), the daemon's side of a size report (server.rs 825-869) and
    the thread that owns the shell's pty (shell.rs 268-633, ShellToClient.v).

    One client; the session may have had others before.  Simplified: of the pager only
    who receives its size reports; following a template to another session is left out. *)
From Coq Require Import List NArith Bool.
From Verif Require Import Model.Base Model.Protocol Model.ShellToClient Model.Winch.
Import ListNotations.

(** The slot a session keeps for a pager: empty; taken by a pager that is shown (its size
    is the one it will return); taken by one whose size has been returned and whose
    process is being ended (pager.rs 225-228 and 75-90: the guards run in the reverse
    order of their declaration, so the slot is emptied last). *)
Inductive pager_at := NoPager | Showing | Closing.

(** attach.rs 421-502, server.rs 306-336 and 825-869, shell.rs 268-633 together. *)
Record journey := mkJourney {
  user : winch;                    (* the client *)
  held : option tty_size;          (* the size an attach request carries that is not handed over yet *)
  pager : pager_at;
  life : list s2c_event            (* all that happened to the session's output thread *)
}.

(** Bookkeeping: a turn with another select. *)
Definition with_sel (it : iter) (c : select_case) : iter :=
  {| sel := c; t_sel := t_sel it; t_due := t_due it; oversize_ok := oversize_ok it; shutdown_ok := shutdown_ok it; ack_ok := ack_ok it;
     conf := conf it; w_sel := w_sel it; w_restore := w_restore it; w_motd := w_motd it; w_data := w_data it; w_exit := w_exit it;
     cr := cr it; motd_text := motd_text it; poll := poll it |}.

(** What happens next on the way of a size. *)
Inductive happening :=
| Client (e : winch_event)                          (* the terminal or the SIGWINCH thread, up to sending *)
| Request                                           (* the attach request is sent, with the size of now *)
| PagerUp | PagerDone | PagerOff
| HandOver (id : nat) (now : N) (ok : bool) (it : iter)
| Report (it : iter) (heard : bool)                 (* the daemon takes up a report; is the client told in time? *)
| NoSession                                         (* the daemon finds no such session *)
| Fails                                             (* a report comes to nothing: time-outs, a broken connection *)
| Turn (it : iter).                                 (* anything else the output thread does *)

(** attach.rs 246-252: the size is looked at and the request sent.
    server.rs 311-318, show_motd.rs 84-126: the pager starts with the size of the request.
    shell.rs 684-699: the first client of a session is what its output thread waits for.
    server.rs 828-867: a report goes to a registered pager, whose thread takes it on (pager.rs
    193-211) even after the size has been returned; otherwise to the output thread, which
    takes none before its first client (shell.rs 301). *)
Definition happens (j : journey) (h : happening) : journey :=
  match h with
  | Client e =>
      match e with
      | SizeChange _ | Take | Dial _ | Measure _ | Send _ => mkJourney (winch_step (user j) e) (held j) (pager j) (life j)
      | Rename _ | AttachSent | Reply _ => j
      end
  | Request =>
      match held j, attach_sent (user j) with
      | None, false => mkJourney (winch_step (user j) AttachSent) (Some (size_now (user j))) (pager j) (life j)
      | _, _ => j
      end
  | PagerUp => match held j, pager j with Some _, NoPager => mkJourney (user j) (held j) Showing (life j) | _, _ => j end
  | PagerDone => match pager j with Showing => mkJourney (user j) (held j) Closing (life j) | _ => j end
  | PagerOff => match pager j with Closing => mkJourney (user j) (held j) NoPager (life j) | _ => j end
  | HandOver id now ok it =>
      match held j, pager j with
      | Some z, NoPager =>
          mkJourney (user j) None NoPager
            (life j ++ [match life j with
                        | [] => First (Some (NewConn id z)) now ok
                        | _ => Iter (with_sel it (SelConn (NewConn id z)))
                        end])
      | _, _ => j
      end
  | Report it heard =>
      match at_ (user j) with
      | Asked _ z =>
          let told := winch_step (user j) (Reply (if heard then Some ReportOk else None)) in
          match pager j with
          | Showing => mkJourney told (option_map (fun _ => z) (held j)) Showing (life j)
          | Closing => mkJourney told (held j) Closing (life j)
          | NoPager =>
              match life j with
              | [] => j
              | _ => mkJourney told (held j) NoPager (life j ++ [Iter (with_sel it (SelSize z))])
              end
          end
      | _ => j
      end
  | NoSession => mkJourney (winch_step (user j) (Reply (Some ReportNotFound))) (held j) (pager j) (life j)
  | Fails => mkJourney (winch_step (user j) (Reply None)) (held j) (pager j) (life j)
  | Turn it => match life j with [] => j | _ => mkJourney (user j) (held j) (pager j) (life j ++ [Iter it]) end
  end.

(** Any history of it. *)
Definition travel (j : journey) (l : list happening) : journey := fold_left happens l j.

(** A client is started, at a terminal of size [z], for a session with [past] behind it.
    attach.rs 101-117. *)
Definition set_out (z : tty_size) (name : rstr) (past : list s2c_event) : journey :=
  mkJourney (winch_start z name) None NoPager past.
