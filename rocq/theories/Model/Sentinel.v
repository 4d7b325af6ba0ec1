(** The sentinel scanner of libshpool/src/daemon/shell_inject.rs, the wait for the
    shell to start, and the gate in libshpool/src/daemon/shell.rs that hides the
    shell's output until the prompt sentinel. *)
From Coq Require Import List NArith Bool Arith.
From Verif Require Import Model.Base Model.Trie.
Import ListNotations.
Open Scope N_scope.

(** libshpool/src/consts.rs 29, 33. *)
Definition STARTUP_SENTINEL : list N := lit "SHPOOL_STARTUP_SENTINEL".
(** libshpool/src/consts.rs 29, 33. *)
Definition PROMPT_SENTINEL : list N := lit "SHPOOL_PROMPT_SETUP_SENTINEL".

(** shell_inject.rs 221-225: [struct SentinelScanner].  The counter is unbounded
    here. *)
Record scanner := mkScanner {
  sc_trie : trie unit (list (option nat));
  sc_cursor : cursor;
  sc_matches : N
}.

(** shell_inject.rs 229-234: [SentinelScanner::new]. *)
Definition scanner_new (sentinel : list N) : option scanner :=
  match trie_insert vec_tab (trie_new vec_tab) sentinel tt with
  | None => None
  | Some t => Some (mkScanner t Start 0)
  end.

(** shell_inject.rs 238-253: [SentinelScanner::transition]. *)
Definition scanner_step (s : scanner) (x : N) : option (scanner * bool) :=
  match trie_advance vec_tab (sc_trie s) (sc_cursor s) x with
  | None => None
  | Some NoMatch => Some (mkScanner (sc_trie s) Start (sc_matches s), false)
  | Some (Match _ false) =>
      let n := sc_matches s + 1 in
      Some (mkScanner (sc_trie s) Start n, n =? 1)
  | Some c => Some (mkScanner (sc_trie s) c (sc_matches s), false)
  end.

(** shell.rs 582-592: the scan of one read.  [orig] is what the iterator still has
    to give, [buf] the slice variable. *)
Fixpoint gate_scan (s : scanner) (i : nat) (orig buf : list N) (seen : bool)
    : option (scanner * list N * bool) :=
  match orig with
  | [] => Some (s, buf, seen)
  | x :: orig' =>
      match scanner_step s x with
      | None => None
      | Some (s', true) =>
          if (length buf <? i + 1)%nat then None
          else gate_scan s' (S i) orig' (skipn (i + 1) buf) true
      | Some (s', false) => gate_scan s' (S i) orig' buf seen
      end
  end.

(** The gate: the scanner and [has_seen_prompt_sentinel]. shell.rs 278, 581-593. *)
Record gate := mkGate { g_scanner : scanner; g_seen : bool }.

(** shell.rs 273-278. *)
Definition gate_new (supports_sentinels : bool) : option gate :=
  match scanner_new PROMPT_SENTINEL with
  | None => None
  | Some s => Some (mkGate s (negb supports_sentinels))
  end.

(** shell.rs 578-604: what of one read goes to the spool and to the client; [None]
    inside: nothing does. *)
Definition gate_read (g : gate) (bytes : list N) : option (gate * option (list N)) :=
  if g_seen g then Some (g, Some bytes)
  else
    match gate_scan (g_scanner g) 0 bytes bytes false with
    | None => None
    | Some (s, buf, seen) => Some (mkGate s seen, if seen then Some buf else None)
    end.

(** All the reads of a session; the output is the list of what was shown. shell.rs 581-603. *)
Fixpoint gate_reads (g : gate) (reads : list (list N)) : option (gate * list (list N)) :=
  match reads with
  | [] => Some (g, [])
  | r :: reads' =>
      match gate_read g r with
      | None => None
      | Some (g', o) =>
          match gate_reads g' reads' with
          | None => None
          | Some (g'', os) => Some (g'', match o with Some x => x :: os | None => os end)
          end
      end
  end.

(** shell_inject.rs 163-198: what one turn of the loop of [wait_for_startup]
    sees: the clock, and what poll and read gave. *)
Inductive startup_event :=
| StTimeout
| StPollError
| StRead (bytes : list N)
| StReadError.

(** What shell_inject.rs 145-200 returns. *)
Inductive startup_result := Started | StartFailed | StillWaiting.

(** shell_inject.rs 187-196: [for byte in buf.iter() { if transition ... }]. *)
Fixpoint startup_scan (s : scanner) (bytes : list N) : option (scanner * bool) :=
  match bytes with
  | [] => Some (s, false)
  | x :: bytes' =>
      match scanner_step s x with
      | None => None
      | Some (s', true) => Some (s', true)
      | Some (s', false) => startup_scan s' bytes'
      end
  end.

(** shell_inject.rs 160-198: the loop; [deadline] was fixed on line 160.  The list
    gives the clock and the outcome of each turn. *)
Fixpoint wait_for_startup (s : scanner) (deadline : N) (turns : list (N * startup_event)) : option startup_result :=
  match turns with
  | [] => Some StillWaiting
  | (now, ev) :: turns' =>
      if deadline <? now then Some StartFailed
      else
        match ev with
        | StTimeout => wait_for_startup s deadline turns'
        | StPollError | StReadError => Some StartFailed
        | StRead bytes =>
            if (length bytes =? 0)%nat then Some StartFailed
            else
              match startup_scan s bytes with
              | None => None
              | Some (_, true) => Some Started
              | Some (s', false) => wait_for_startup s' deadline turns'
              end
        end
  end.
