(** Concrete data for the examples beside the output theorems: emulators that just
    remember what they were fed, and turns of the thread. *)
From Coq Require Import List NArith ZArith Bool.
From Verif Require Import Model.Base Model.Chunk Model.Protocol Model.Config Model.Restore Model.Pager Model.ShellToClient.
Import ListNotations.
Open Scope N_scope.

Definition recorder : engines :=
  {| vt100 := list N; vt100_new := fun _ _ _ => []; vt100_set_size := fun p _ _ => p; vt100_process := fun p bs => p ++ bs;
     contents_formatted := fun p => p; last_n_rows_contents_formatted := fun p n => firstn (N.to_nat n) p;
     input_mode_formatted := fun _ => [];
     vterm := (N * N * list N); vterm_new := fun _ h w => (h, w, []); vterm_resize := fun t h w => (h, w, snd t);
     vterm_process := fun t bs => (fst t, snd t ++ bs); vterm_screen := fun t => snd t; vterm_bottom_lines := fun t _ => snd t |}.

(** Everything works; the clock stands still. *)
Definition quiet (s : select_case) (p : poll_case) : iter :=
  {| sel := s; t_sel := 0; t_due := 0; oversize_ok := true; shutdown_ok := true; ack_ok := true; conf := default_config;
     w_sel := WroteAll; w_restore := fun _ => WroteAll; w_motd := WroteAll; w_data := WroteAll; w_exit := WroteAll;
     cr := Some [13]; motd_text := Err tt; poll := p |}.

Definition shell_prints (s : String.string) : iter := quiet SelNothing (PollRead (Ok (lit s))).
Definition z80 : tty_size := mkSize 24 80 0 0.
Definition z100 : tty_size := mkSize 40 100 0 0.
