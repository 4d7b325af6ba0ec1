# A Rocq model of shpool

Source: `/repo` (shell-pool/shpool, pinned).  Everything in `rocq/theories` is
written from reading that source as text; nothing was built or run.

## 1. Layout

| where | what |
|-------|------|
| `properties.jsonl` | the properties in English (generated by `tools/gen_properties.py`) |
| `rocq/theories/Model/*.v` | the model: total, executable Gallina functions, one file per area; every definition cites the file and lines it models and says where it simplifies |
| `rocq/theories/Spec/*.v` | small specifications: grammars, reference semantics, vocabulary for histories. They do not use the model's helper functions; where a specification speaks about states or outputs it uses only the model's data types |
| `rocq/theories/Proofs/*.v` | lemmas |
| `rocq/theories/Properties/Cnn_*.v` | the property theorems, the examples that show their hypotheses can be met, and `Print Assumptions` after each |
| `MANIFEST.json` | which theorems belong to which property, and what is missing (generated by `tools/gen_manifest.py` from the theorem names and `tools/status.json`) |
| `seeded/LOG.jsonl` | the wrong programs the theorems were tested against |

Names of theorems: `Cnn_...` belongs to property Cnn.  `..._refuted` exhibits a
concrete execution of the model of the code *as it is* on which the English
property fails: these are findings about the code.  `..._partial` proves a part of
the property and says in its comment what is missing.

## 2. How the code is turned into a model

* A byte is an `N` below 256, a Rust `char` is its Unicode scalar value, a `String`
  is a list of chars (a list of UTF-8 bytes in `Messages.v`).
* `Result` and `Option` stay data; a panic is an explicit outcome; `&mut` returns
  the new value.  Machine arithmetic is explicit: overflow panics in a debug build
  and wraps in a release build, and where both matter the theorem is about both
  (`build` argument).
* A `HashMap` is an association list.  Results that depend on iteration order are
  stated for every order.
* Everything the operating system or a library decides (results of system calls,
  clock readings, how many bytes a read returns, whether a thread answered before a
  time-out, which thread moves next, when a shell exits) is an argument of the step
  it influences, so that a theorem for all arguments is a theorem for everything the
  outside can do.  Terminal emulators are arbitrary types with arbitrary operations.
* Concurrency is interleaving.  A thread is a program counter; an action is one
  stretch of one thread in which it holds a lock or touches state no other thread
  can touch; a schedule is an arbitrary list of actions; an action that is not
  enabled changes nothing.  A blocked thread is one whose actions never become
  enabled.  A crash or a hang-up is an action like any other.

The proofs are inductions over lists of reads, frames, actions or turns, with
inductive invariants over all reachable states, or simulations between the code's
data structure and a reference.  No theorem about the code carries a bound on
sizes, depths or steps.  Concrete executions appear only in `_refuted` theorems,
where a witness is what is to be proved, and in the examples beside the theorems.

## 3. Which code is modelled

Paths are relative to `/repo/libshpool/src` unless they start with `shpool`.

| code | model | left out or simplified |
|------|-------|------------------------|
| `shpool-protocol/src/lib.rs` | `Chunk`, `Protocol`, `Messages` | – |
| `protocol.rs` encode_to, decode_from; rmp | `Msgpack`, `Messages` | rmp is a library: the published format is modelled, with rmp's choice of the shortest form; not its depth limit, nor the alternative readings rmp_serde also accepts (a struct as an array, a variant by number) |
| `protocol.rs` chunks, Client::new, version comparison | `Chunk`, `Version` | connecting itself |
| `protocol.rs` pipe_bytes | `Pipe`, `EndToEnd` | a socket delivers bytes in order and unchanged |
| `attach.rs`, `kill.rs`, `detach.rs`, `common.rs` | `AttachClient`, `Names`, `Sleep` | printing |
| `list.rs`, `var.rs`, `set_log_level.rs`, `events.rs` | `Commands` for what they print, `EventBus` for the events command, `Logging` for what a level does | |
| `duration.rs`, `template.rs` | `Duration`, `Template` | – |
| `config.rs` | `Config` | the TOML parser: a file is unreadable, malformed or a configuration |
| `config_watcher.rs` | `ConfigWatcher` | the notify crate and the file system: what they answer is an argument |
| `tty.rs` | `Tty` | ioctl itself; termios words are bit vectors |
| `session_restore.rs` | `Restore` | the vt100 emulators: arbitrary |
| `daemonize.rs`, `daemon/mod.rs`, `daemon/signals.rs` | `Daemonize`, `Forks` | `daemonize.rs` 1-140: `PidFileGuard`'s own errors |
| `daemon/ttl_reaper.rs` | `Server`, `Reaper` | std's heap exchanges elements instead of moving a hole |
| `daemon/systemd.rs`, `daemon/mod.rs` 76-104 | `Activation` | descriptors are a table of mode words; the environment is text |
| `attach.rs` 420-507 | `Winch` | signals arriving while one is pending are one signal; looking at the size and sending the attach request are one step |
| a size on its way: `attach.rs`, `daemon/server.rs` 306-336, `daemon/pager.rs`, `daemon/shell.rs` | `Window` | what else the threads do |
| `attach.rs` 333-375, `exe.rs` | `Dial` | the texts of the warnings; paths that are not UTF-8 |
| `lib.rs` run, `daemonize.rs`, `daemon/mod.rs`: paths, options, umask, working directory | `Launch` | symbolic links; socket paths that do not end in a file name |
| `daemon/server.rs` handlers, `daemon/ttl_reaper.rs`, session table | `Server` | logging |
| `hooks.rs` and its calls in `daemon/server.rs` | `Hooks` | what callbacks do, blocking or panicking ones |
| `daemon/server.rs` spawn_subshell, build_shell_env | `Spawn`, `ShellEnv`, `ExitLatch` | fork and exec; what the child does up to exec is the list of its steps |
| `daemon/server.rs`, `daemon/shell.rs`: channels, acknowledgements, time-outs, locks | `Control` | what the messages carry |
| `daemon/shell.rs` shell->client thread | `ShellToClient` | epoll: a turn says what was ready |
| `daemon/shell.rs` client->shell thread | `Input` | the pty's own buffering |
| `daemon/shell.rs` bidi_stream: its threads, flags and joins | `Streaming` | time: a sleep or time-out is over when the schedule says so |
| `daemon/server.rs` serve, handle_conn; `protocol.rs` Client::new, write_connect_header, read_reply | `Handshake` | socket buffers are unbounded; when the deserializer gives up on bytes it cannot read is an argument |
| `list.rs`, `var.rs` with --json | `Json` | serde_json is a dependency: its printer is modelled from its documented behaviour |
| `daemon/shell.rs` kill, `daemon/exit_notify.rs` | `ExitLatch` | – |
| `daemon/keybindings.rs`, `daemon/trie.rs` | `Keybindings`, `Trie` | – |
| `daemon/shell_inject.rs`, lib.rs 374-385 | `Sentinel`, `Spawn` | reading /proc to recognise the shell is an argument; that a shell runs a typed line with its leading assignment in the environment is not modelled |
| `daemon/pager.rs`, `daemon/show_motd.rs` | `Pager`, `Motd` | the pager program |
| `daemon/events.rs` | `EventBus`, `EventsEnd` for its start and end | poll's own behaviour is an argument; panics of the thread |
| `daemon/etc_environment.rs` | `EtcEnvironment` | – |
| `daemon/server.rs` 574-622, 1290-1300 | `SessionFiles` | links and `..` inside a path are not followed; the owner may do everything |
| `daemon/mod.rs` 69-100, `daemon/events.rs` 87-91, who can connect | `Doors` | the modes above the sockets do not change; ACLs |
| the programs together: a subscriber that lists; a command, its connection and the daemon | `Following`, `WholeCommand` | of stderr only the line about sessions; --json |
| lib.rs 60-80, 236-246, 300-359, 386-417, 482-488, `set_log_level.rs`, server.rs 664-684 | `Logging` | the form of an entry, entries for spans, failed writes, a file renamed or removed while open |
| `shpool/src/main.rs`, lib.rs 298-303, 370-489 | `Main` | the syntax of the command line, backtraces, test hooks; what each step does is in other models |
| `user.rs` | `UserInfo` | a user database that cannot be asked |
| Rust's byte strings, integers and Result, used by all | `Base` | – |

Not modelled at all: the syntax of the clap command line,
`test_hooks.rs`, what is logged when (but not where it goes: `Logging`), and the macOS branches.  They either decide nothing a
property speaks of or are inputs of the model.

## 4. Property by property

| id | what is modelled | how it is proved |
|----|------------------|------------------|
| C01 | chunk framing | round trip and induction over chunk lists against a relational wire format; cut points by prefix analysis |
| C02 | every source of frames | bound per source; `_refuted` for dumped motds and variable maps |
| C03 | version comparison | order laws against an independent key |
| C04 | duration parser, u64 arithmetic | both directions against a grammar; `_refuted` for junk and overflow |
| C05 | templates | equality with substitution on a relational parse |
| C06 | trie as a node vector | invariant and simulation with a finite map |
| C07 | keybinding lexer and parser | equivalence with a grammar, key codes against ASCII; `_refuted` for Ctrl-x/y and truncated words |
| C08 | binding engine | simulation with a reference automaton over key sequences |
| C09 | client->shell loop | invariant over all histories of reads; `_refuted` for the off-by-one and for Detach |
| C10 | buffer snipping | loop invariant |
| C11 | sentinel scanner and gate, the program printing a sentinel (lib.rs 374-385) | equality with a reference search by induction; the typed command opens the gate and its echo does not; `_refuted` for a self-overlapping prefix |
| C12–C14, C44 | shell->client thread over arbitrary emulators | inductive invariants over all turns |
| C15–C24, C26, C46, C50 | the daemon's handlers, interleaved | inductive invariants over all schedules; `_refuted` schedules for the races |
| C22 | reaper with heap, generations and mailbox | inductive invariants over all schedules; which TTLs are taken |
| C25 | control channels, acknowledgements, time-outs, locks, for any number of threads and sessions | invariants; a decreasing measure for progress; stuck states are closed under every action |
| C27, C35–C37, C49 | the client commands | for all answers and frame sequences |
| C28 | event sink, publishers, subscribers | per-subscriber invariant over all interleavings and all write results |
| C29 | names and paths | against the meaning of Unix paths; white space against Unicode's list |
| C30, C31, C48, C51 | environment, command line and injected text of a new shell | functional, against a list of sources in order of priority |
| C32, C33 | configuration layers, watcher | functional; invariants over all histories of events |
| C34, C47 | motd debouncer and conversion, pager slot | functional and over all schedules |
| C38, C39, C53 | the runtime directory with any number of clients and daemons | invariants over all schedules; `_refuted` schedules |
| C40, C41, C45 | kill escalation, sleeping, the exit latch | for all clocks, wake-ups and histories |
| C42 | termios words | bit vector lemmas |
| C43 | MessagePack and the serde schemas | round trip and skew by induction on values and types |
| C52 | forward.env | reading back what was written |
| C54, C55 | where files are, what launching changes | equality of path components, for any hash |
| C59 | thread of the SIGWINCH handler against window changes and attach requests | invariant over schedules; sources of every logged message |
| C60 | reading LISTEN_FDS and descriptor 3 | exact characterisation against inode types |
| C61 | one-byte reads, dial outcomes, /proc/self/exe suffix | induction on the reads and dials |
| C62 | the output thread, the wire, the client's threads composed | prefix order; the theorems of C01, C02, C09, C12, C13 and C36 put together |
| C63 | the output thread, turn by turn | exact equations for how a turn ends, what it answers, whose socket it closes and who is attached afterwards; the gate invariant shows that scanning never fails; exactly when it panics and how its first message starts it |
| C64, C65 | the four threads that serve an attached client, the flags they share, the joins at the end | invariant over schedules; a measure that every full round decreases; witnesses for what keeps a session busy; an attachment only half of whose threads could be started ends at once |
| C67 | accept loop, front end of a connection, the client's side of it, bytes in both directions, a clock for the read time-out | invariant over arbitrary events of an arbitrary peer; invariant and measure for a client and a daemon of this code; a client that writes in time is never let go |
| C68 | daemonize step by step, any number of processes; fork, sessions, terminals, descriptors, flock as the kernel has them | invariant over arbitrary schedules and failures; measure; who holds the pid file's lock, and that a killed process loses it |
| C69 | the same, with the watching thread and the locks fork copies | by hand: potential argument; launched: refuted for every continuation |
| C70 | the reaper's loop and ordering, with std's heap on a vector | heap order except at one place; invariant that the current entries are the pending deadlines |
| C71 | `user::info` on a user database of byte strings, lossy decoding and encoding, chdir | the decoder is the one reading by longest possible beginnings; identity exactly on UTF-8 |
| C72 | the two file routines system call by system call, on a tree with modes, in any number of threads | per-session weakest preconditions under interference; a directory once shut stays shut |
| C73 | both sockets with the modes of what is above them, any callers; Handshake and EventBus behind them | corollary of C67 for the control socket; permission bits characterised exactly for the events socket |
| C74 | the way of a size: Winch's client, the attach's hand-over, the pager's slot, ShellToClient's thread, interleaved in any way | invariant over all interleavings (what is on its way or has arrived is the terminal's size), then C14; witnesses for a report that overtakes the hand-over or reaches a closing pager |
| C75 | messages asking a session to let its client go | the message is followed through every schedule to its answer; exact frame of what it changes |
| C76 | the daemon's account and the output thread | a simulation: every event of the detailed output thread (`ShellToClient`) is matched by actions of the daemon (`Server`) that keep the account of the session in agreement; the answers match; composed with C63 for what the client saw |
| C77 | the daemon and its reaper thread | a simulation between the daemon's account of deadlines (`Server`) and the detailed thread (`Reaper`): an inductive joint run, agreement as its invariant, then which sessions are listed after enough wake-ups |
| C78 | the attachment's threads, the handler and the output thread | C64 (every schedule of the threads of `Streaming`) composed with C76: whatever the threads told the output thread is matched by actions of the daemon |
| C79 | the daemon with its event bus (`Model/Following.v`), a subscriber that lists the sessions | every step of the daemon that publishes nothing leaves the table alone (C20), and what a subscriber was sent is what was published (C28); so no line, no change. The status is refuted at three moments (an event precedes the change it announces, or a client leaves in the pager), and so is counting on having connected |
| C80 | the commands, the connection and the daemon together (`Model/WholeCommand.v` joins `Commands.v`, `Handshake.v`, `Messages.v` and `Server.v`) | two invariants over all schedules: the bytes on the wire are those of the one request and of the reply the handler has given, and a command that failed without being killed was never answered; the handler's history (`Proofs/WholeServer.v`) then gives the moment, and C18, C19, C26 and C46 say what happened at it. That the command ends is shown (`Proofs/WholeEnds.v`) by following C67's measure through the joined model, or, for a handler that ends without a reply, by the closing of the connection; that the daemon is done with a request it gets to (`Proofs/WholeServes.v`) is shown for each kind; for a detach, that is, if every session named answers. That a kill which fails silently has harmed nothing is refuted |
| C81 | the log level, the log file and standard error of any number of programs (`Model/Logging.v`) | what a program writes in a step is a function of its state, and each file changes by its writers' steps only; by induction over the history the file of a lone user is the record (`Spec/LoggingSpec.v`), which exists and is unique. That a shared file, or a file given to another command by mistake, keeps the record is refuted, and so is that a confirmed change of level was made |
| C82 | a program's steps from `main` to its exit status (`Model/Main.v`) | the steps are those of the list the specification gives, done in order up to the first that fails (`Spec/MainSpec.v`), by cases; the rest follows from that. That a program which fails has changed nothing is refuted: it empties its log file before it reads its configuration |
| C83 | the events thread with its two pipes, its file and its owner (`Model/EventsEnd.v`) | an invariant of every history (the file, the pipes and the connections against where the thread and its owner are); that stopping does not hang, by following the call through the thread's next three steps with anything in between. That what was published before the stop still arrives, and that only the daemon's own file is removed, is refuted |
| C66 | the pretty printer of serde_json, the serialised replies, sorted maps | a JSON reader written from RFC 8259 reads every printed text back |
| C58 | calls made by each step of the daemon model | invariant over handler positions; equality with replies and events |
| C56, C57 | what list, var and set-log-level ask and print | reading back what was printed; C57 for every history of the daemon |

## 5. Findings

Each has a theorem ending in `_refuted` (the name says where to look); the notes in
`MANIFEST.json` summarise them.  The most consequential:

* an acknowledgement wait that times out leaves a session's output thread blocked
  for good; a later detach of that session then blocks the whole daemon (C25);
* two overlapping creations of one name start two shells, and the first becomes
  unreachable (C24); cleanup of a finished session goes by name and removes a newer
  session of the same name (C23); the reaper may do the same (C22);
* a session whose output thread ended with an error can never be attached again
  while its shell lives (C17), and a detach of it is never answered (C46);
* a key binding completed at the second byte of a read eats the byte before it, and
  a detach drops the rest of the read (C09); Ctrl-x and Ctrl-y are exchanged (C07);
* frames larger than the reader's buffer (dumped motd, variable maps) break the
  client (C02);
* a change of variables that takes more than 16 KiB throws attached users out (C62);
* output still in the pty when the shell hangs up is lost (C12), and an exit frame
  that comes late is missed by the client (C36); refused attaches exit 0 (C36);
* two clients that find the same stale socket may both launch (C38); a second
  daemon removes the running daemon's events socket (C39);
* a launched daemon moves to `/` before it binds, so a relative `--socket` is never
  reached; it clears its umask, which all its shells inherit; and it keeps session
  directories in another place than a daemon started by hand (C55); daemons with
  sockets in one directory share events socket and pid file (C54);
* the question about a version mismatch promises that enter goes on, but the daemon
  stops waiting for the request after 200 ms (C61); a client whose daemon accepts but
  does not speak waits for ever (C67_no_daemon);
* a directory whose path is not UTF-8 cannot be started in: `--dir .` there means
  another directory, the same for different names; a relative `--dir` is taken from
  the daemon's working directory, not the client's; a user whose database entry takes
  more than 4 KiB gets no session (C71);
* a launched daemon writes the forwarded variables to a file everybody can read and write,
  in a directory that is made private only for clients with an SSH agent; without
  XDG_RUNTIME_DIR others can get at it if they can enter the home directory (C72);
* two attaches of one name at once both write forward.env from its start: what is left
  may be a mixture of the two that neither client sent (C72);
* forward.env is never removed: it is there after the session has ended (C72);
* the events socket has no check of who connects: other users hear the events of a
  launched daemon (empty umask) if they can get to the socket (C73);
* a change of the window's size reported between an attach request and the hand-over to
  an existing session, or to a pager that is closing, is undone: the shell keeps the old
  size until the next change (C74);
* a launched daemon never follows its configuration files: the watching thread is
  started before the forks and is lost in them; if it holds the log or the configuration
  at that moment, the launched daemon is stuck for ever (C69); the pid file's lock is
  released as soon as the daemon has become one (C68, model of `PUnlock`);
* a TTL beyond the clock's range makes the attach fail after the shell has been started
  (C22);
* a message that asks a session to let its client go gets the same answer whether there
  was a client or not, and none if the session's output thread has ended (C75);
* a rescan of the configuration directory drops watches (C33);
* a command given the daemon's log file with `--log-file` empties it, and the daemon goes on
  after a gap of zeros; two launched daemons with sockets in one directory have one log file
  and write over each other's entries (C81, C55);
* a program that cannot read its configuration has emptied its log file by then; one with
  an empty argv fails also where no daemon would be launched (C82);
* events published just before the events thread is stopped are never sent, and the thread
  removes the socket file of its name whoever put it there (C83);
* a clock set back, an unreadable message or a huge interval make attaching fail
  because of the motd (C34).

## 6. Trusted base

* The kernel of Coq 8.16.1 (and `coqchk`, which `vcheck` runs over the compiled
  files), with its standard flags; `vm_compute` is used for concrete witnesses and
  examples, so the kernel's virtual machine is included.
* `Print Assumptions` follows every theorem in `rocq/theories/Properties`.  For
  each of them the answer is `Closed under the global context`: no axiom is used,
  neither our own nor one of the standard library.  (`vcheck` lists
  `Coq.ssr.ssrunder.Under_rel.*`: these are the opaque module fields of the standard
  library's `ssrunder`, present in the loaded libraries; no theorem here depends on
  them.)
* Only the standard library of Coq is used (`List`, `Arith`, `NArith`, `ZArith`, `Bool`,
  `String`, `Ascii`, `Lia` and the `Zify` instances).
* That the model says what the Rust text says.  Every definition cites its lines so
  that this can be checked definition by definition.  The granularity of the
  interleavings is part of this: an action is a stretch during which the code holds
  the lock that protects what it touches.
* That the specifications in `Spec` and the statements in `Properties` say what the
  English properties say.
