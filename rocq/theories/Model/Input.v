(** Keystrokes on their way from the client to the shell: the scanning loop of
    [spawn_client_to_shell] and [snip_buf], libshpool/src/daemon/shell.rs. *)
From Coq Require Import List NArith Bool Arith.
From Verif Require Import Model.Base Model.Trie Model.Keybindings.
Import ListNotations.
Open Scope nat_scope.

(** shell.rs 1141-1151: the sections to keep.  [None]: the subtraction on line
    1145 underflows. *)
Fixpoint keep_sections (snips : list (nat * nat)) (cur_start : nat) (len : nat)
    : option (list (nat * nat)) :=
  match snips with
  | [] => Some [(cur_start, len)]
  | (slen, end_offset) :: snips' =>
      let end_open := end_offset + 1 in
      if end_open <? slen then None
      else
        let snip_start := end_open - slen in
        match keep_sections snips' end_open len with
        | None => None
        | Some ks => Some (if cur_start <? snip_start then (cur_start, snip_start) :: ks else ks)
        end
  end.

(** [std::ptr::copy(&buf[src], &mut buf[dst], n)] when both ranges are inside. shell.rs
    1171. *)
Definition mem_move (buf : list N) (src dst n : nat) : list N :=
  firstn dst buf ++ firstn n (skipn src buf) ++ skipn (dst + n) buf.

(** shell.rs 1153-1174: compaction.  [None]: an assertion or a subtraction fails. *)
Fixpoint compact (buf : list N) (keep : list (nat * nat)) (last_end : nat) : option (list N * nat) :=
  match keep with
  | [] => Some (buf, last_end)
  | (start, stop) :: keep' =>
      if start =? stop then compact buf keep' last_end
      else if start =? last_end then compact buf keep' stop
      else if stop <? start then None
      else
        let section_len := stop - start in
        if negb (last_end + section_len <? length buf) then None
        else if negb (start + section_len - 1 <? length buf) then None
        else compact (mem_move buf start last_end section_len) keep' (last_end + section_len)
  end.

(** shell.rs 1130-1177: [fn snip_buf]. *)
Definition snip_buf (buf : list N) (len : nat) (snips : list (nat * nat)) : option (list N * nat) :=
  match snips with
  | [] => Some (buf, len)
  | _ => match keep_sections snips 0 len with
         | None => None
         | Some keep => compact buf keep 0
         end
  end.

(** What became of the scan of one read. shell.rs 869-926. *)
Inductive scan_result :=
| Scanned (b : bindings) (partial : list N) (snips : list (nat * nat)) (writes : list N)
| ScanDetached (writes : list N).

(** shell.rs 870-926: the loop over the bytes of one read.  [writes] collects what
    is written to the pty on line 884-886.  [None]: a panic. *)
Fixpoint scan (b : bindings) (partial : list N) (i : nat) (bytes : list N)
    (snips : list (nat * nat)) (writes : list N) : option scan_result :=
  match bytes with
  | [] => Some (Scanned b partial snips writes)
  | x :: bytes' =>
      match transition b x with
      | None => None
      | Some (b', r) =>
          match r with
          | BNoMatch =>
              if negb (length partial =? 0) && (i <? length partial) then
                scan b' [] (S i) bytes'
                  (if 0 <? i then snips ++ [(i, i - 1)] else snips) (writes ++ partial)
              else scan b' [] (S i) bytes' snips writes
          | BPartial => scan b' (partial ++ [x]) (S i) bytes' snips writes
          | BMatch a =>
              let keybinding_len := length partial + 1 in
              let snips' := snips ++ [if keybinding_len <? i then (keybinding_len, i) else (i + 1, i)] in
              match a with
              | Detach => Some (ScanDetached writes)
              | NoOp => scan b' [] (S i) bytes' snips' writes
              end
          end
      end
  end.

(** The state of the thread between two reads. shell.rs 833-840. *)
Record c2s := mkC2s { c_bind : bindings; c_partial : list N; c_buf : list N }.

(** What one read leads to: bytes written to the pty, and the next state or the
    end of the thread (a fired detach). shell.rs 842-951. *)
Inductive read_result :=
| Continue (s : c2s) (written : list N)
| Detached (written : list N).

(** shell.rs 842-950: one iteration, for a read that returned [bytes]
    (1 <= length <= the size of the buffer). *)
Definition read_once (s : c2s) (bytes : list N) : option read_result :=
  let len := length bytes in
  let buf := bytes ++ skipn len (c_buf s) in
  match scan (c_bind s) (c_partial s) 0 bytes [] [] with
  | None => None
  | Some (ScanDetached w) => Some (Detached w)
  | Some (Scanned b partial snips w) =>
      let snips' :=
        if length partial =? 0 then snips
        else snips ++ [((if len <? length partial then len else length partial), len - 1)] in
      match snip_buf buf len snips' with
      | None => None
      | Some (buf', len') =>
          (* line 945 indexes buf[0..len'] *)
          if length buf' <? len' then None
          else Some (Continue (mkC2s b partial buf') (w ++ firstn len' buf'))
      end
  end.

(** The thread over a whole history of reads, up to end of file or a detach. shell.rs
    842-951. *)
Fixpoint read_all_input (s : c2s) (reads : list (list N)) : option read_result :=
  match reads with
  | [] => Some (Continue s [])
  | r :: reads' =>
      match read_once s r with
      | None => None
      | Some (Detached w) => Some (Detached w)
      | Some (Continue s' w) =>
          match read_all_input s' reads' with
          | None => None
          | Some (Detached w') => Some (Detached (w ++ w'))
          | Some (Continue s'' w') => Some (Continue s'' (w ++ w'))
          end
      end
  end.

(** shell.rs 833-840: the state in which the thread starts. *)
Definition c2s_start (b : bindings) (buf_size : nat) : c2s := mkC2s b [] (repeat 0%N buf_size).
