#!/usr/bin/env python3
"""Regenerates ../properties.jsonl.  One call of P(...) per property."""
import json, os
out = []
def P(title, statement, quantifier, why, anchors):
    out.append(dict(id="C%02d" % (len(out) + 1), title=title, statement=statement,
                    quantifier=quantifier, why_tests_cant=why, anchors=anchors))

L = "libshpool/src/"
P("Frame stream round trip",
  "Whatever sequence of chunks one end of an attach connection writes, the other end reads back exactly that sequence, chunk by chunk and with the stream left positioned at the first byte after each chunk; if the stream is cut anywhere, the reader gets a prefix of the chunks and then an error, never an invented chunk.",
  "every list of chunks with any payloads, every cut point, every trailing byte string",
  "payloads and cut points are unbounded; tests use a few literals",
  [L+"protocol.rs: Chunk::write_to, Chunk::read_into", "shpool-protocol/src/lib.rs: ChunkKind, TryFrom<u8>"])
P("Every frame the daemon sends fits the client",
  "Every chunk the daemon writes to an attached client can be read by that client's fixed size buffer, so no daemon behaviour makes the client fail with 'chunk exceeds size limit'.",
  "every shell output, restore buffer, motd text and variable set",
  "requires all sizes of motd and variable maps", [L+"protocol.rs: pipe_bytes, read_into", L+"daemon/shell.rs: spawn_shell_to_client", L+"daemon/show_motd.rs: dump", L+"consts.rs: BUF_SIZE"])
P("Version compatibility check",
  "The client warns about a version mismatch exactly when the client and daemon versions differ in their first non-zero-compatible component (major, or minor when both majors are 0); the patch level never matters, the direction of the warning is right, swapping the two sides swaps the direction, and the comparison is a total preorder on well formed versions; malformed versions are reported as errors.",
  "every pair/triple of version strings", "infinitely many version strings; order laws relate three at a time", [L+"protocol.rs: Client::new, version_ord"])
P("TTL / duration strings mean what they say",
  "A duration written as N with suffix s/m/h/d or as colon separated groups denotes exactly that number of seconds, and every other string is rejected.",
  "every string", "infinitely many strings, arithmetic overflow", [L+"duration.rs: parse, parse_colon_duration, parse_suffix_duration"])
P("Session name templates",
  "Applying a template replaces each {var} with the variable's current value (empty if unset) and copies all other text verbatim; values are never re-expanded; the result depends only on the variables mentioned; templates are rejected exactly when a variable is unterminated, empty, starts with a digit, or contains a character other than alphanumerics and underscore.",
  "every template string and every variable assignment", "unbounded strings and maps", [L+"template.rs: Template::new, apply"])
P("Byte/chord trie is a finite map",
  "After any sequence of insertions, walking a symbol string through the trie reports a complete match with the most recently inserted value for exactly that string, a partial match exactly when the string is a proper prefix of some inserted string and has no value itself, and no match otherwise; no walk ever indexes out of range.",
  "every insertion history and every walked string", "unbounded histories", [L+"daemon/trie.rs: Trie"])
P("Keybinding configuration language",
  "An accepted binding string denotes the sequence of bytes a terminal sends for the keys written in it; a binding string that is not a well formed list of chords is rejected.",
  "every binding string", "infinitely many strings", [L+"daemon/keybindings.rs: Lexer, parse, Chord::check_valid, Chord::key_code, CONTROL_CODES"])
P("Keybinding recognition",
  "The recogniser fires a binding when and only when the bytes just typed are the key sequence of that binding, whatever was typed before; it never panics on any byte, and whether it fires does not depend on how the input is split into reads.",
  "every accepted set of bindings and every byte stream", "unbounded streams, all binding sets", [L+"daemon/keybindings.rs: Bindings::new, Bindings::transition"])
P("Keystrokes reach the shell unchanged",
  "Every byte the client sends that is not part of a fired keybinding reaches the shell exactly once and in order, however the bytes are split into reads; bytes of a fired NoOp binding are removed and nothing else is.",
  "every byte stream and every way of splitting it into reads", "all splittings of all streams", [L+"daemon/shell.rs: spawn_client_to_shell"])
P("Buffer snipping",
  "Removing a sorted list of disjoint sections from a buffer leaves exactly the bytes outside the sections in order, reports the right length and never trips an assertion or goes out of range.",
  "every buffer and every section list", "unbounded", [L+"daemon/shell.rs: snip_buf"])
P("Prompt sentinel gating",
  "Bytes the shell prints before the setup sentinel are never shown; everything after it is; the split of the output into reads does not matter; the sentinel is recognised wherever it appears in the output.",
  "every shell output and every way of splitting it into reads", "all outputs, all splittings", [L+"daemon/shell_inject.rs: SentinelScanner", L+"daemon/shell.rs: spawn_shell_to_client (sentinel scan)"])
P("Shell output reaches the attached client",
  "While a client is attached, the data frames it receives concatenate to the restore buffer (on reattach) followed by exactly the bytes the shell printed since, in order, none lost or duplicated; output is also fed to the scrollback whether or not a client is attached.",
  "every schedule of client connects/disconnects, resizes, heartbeats and shell output", "schedules are unbounded", [L+"daemon/shell.rs: spawn_shell_to_client"])
P("Exit frame is final and carries the right status",
  "On each client connection at most one exit frame is sent and nothing is sent after it; its status is 0 on detach or takeover and the shell's own exit status when the shell is done.",
  "every schedule", "schedules are unbounded", [L+"daemon/shell.rs: spawn_shell_to_client, bidi_stream"])
P("Window size settles to the last request",
  "After every attach or resize request has been processed and the delayed resize has run, the pty has the size most recently requested; and a size of any value can be requested without failure.",
  "every sequence of attach/resize requests and every timing of the delayed resize", "timing and sequence unbounded", [L+"daemon/shell.rs: spawn_shell_to_client, ResizeCmd"])
P("One client per session",
  "At no time are two client connections attached to the same session; an attach request for a session that has a client gets Busy.",
  "every interleaving of any number of concurrent requests", "needs all interleavings", [L+"daemon/server.rs: select_shell_desc, handle_attach"])
P("A refused attach changes nothing",
  "An attach answered Busy, an attach with an invalid name and a request by another user change neither the session table, nor any session, nor the event stream.",
  "every daemon state and request", "all states", [L+"daemon/server.rs: handle_conn, handle_attach, select_shell_desc, check_peer"])
P("Sessions outlive their clients",
  "When a client detaches, is detached or dies, its session stays in the table with its shell running, and a later attach connects to that same shell.",
  "every history", "unbounded histories", [L+"daemon/server.rs: handle_attach, handle_detach"])
P("Kill removes exactly what was asked",
  "After a kill request is answered, none of the named sessions is in the table, every other session is untouched, and the reply lists exactly the requested names that did not exist.",
  "every daemon state and every list of names, duplicates included", "all states and lists", [L+"daemon/server.rs: handle_kill", L+"daemon/shell.rs: Session::kill"])
P("List is exact",
  "A list reply contains exactly one entry per session in the table, with that session's name, start time, status and attachments, and nothing else.",
  "every daemon state", "all states", [L+"daemon/server.rs: handle_list", L+"daemon/shell.rs: SessionLifecycle::snapshot"])
P("Events describe the table",
  "Every change of the session table is announced by an event in the same critical section and no created/removed event is published without a change, so at every moment created minus removed equals the number of sessions.",
  "every interleaving of requests, exits and reaper actions", "all interleavings", [L+"daemon/server.rs: select_shell_desc, handle_attach, handle_kill", L+"daemon/ttl_reaper.rs", L+"daemon/events.rs", "EVENTS.md"])
P("Attach and detach events pair up",
  "Every session.attached is matched by exactly one later session.detached or session.removed for that session.",
  "every interleaving", "all interleavings", [L+"daemon/server.rs: handle_attach", "EVENTS.md"])
P("TTL reaping",
  "A session is reaped only if it was created with a TTL, never before its own deadline, and once its deadline has passed the reaper removes it; a newer session of the same name is never reaped on behalf of an older one.",
  "every history of creations, removals and clock advances", "unbounded histories", [L+"daemon/ttl_reaper.rs: run", L+"daemon/server.rs: spawn_subshell"])
P("Cleanup only removes the session that ended",
  "When a shell exits and its attach handler cleans up, only that session's table entry is removed; a newer session that reuses the name is left alone.",
  "every interleaving", "needs specific races", [L+"daemon/server.rs: handle_attach (child_done branch)"])
P("Concurrent creation of one name",
  "However many clients concurrently attach to one fresh name, at most one live shell is created for it, and the daemon never gets stuck.",
  "every interleaving", "needs specific races", [L+"daemon/server.rs: select_shell_desc"])
P("Control channel never wedges",
  "Whatever the timing of slow clients and timeouts, the threads serving a session are never left waiting for each other for ever, and an acknowledgement is always received by the request it answers.",
  "every schedule of the rendezvous channels and every timeout", "all schedules", [L+"daemon/shell.rs: spawn_shell_to_client, bidi_stream, spawn_heartbeat", L+"daemon/server.rs: handle_detach, dispath_session_message"])
P("Shared variables",
  "var set/unset update exactly the named variable; a following get returns the last value set; every set is broadcast to every session with the full new variable map; and a session whose shell has exited does not make it fail.",
  "every history of var commands and every set of sessions", "unbounded histories", [L+"daemon/server.rs: handle_modify_var, handle_get_vars, Server::new"])
P("Template switching",
  "A client attached through a template follows variable changes: it switches to a new session exactly when the name its template denotes changes, and ends up attached to the name denoted by the last variable map it received.",
  "every template and every sequence of variable broadcasts", "unbounded sequences", [L+"attach.rs: run, Attach::run, attach_resolved", L+"protocol.rs: pipe_bytes"])
P("Event subscriber stream",
  "What a subscriber reads is always a prefix of the newline terminated events published since it was accepted, in order, with no gap and no duplicate; at most 64 events are queued for it; a slow, stuck or dead subscriber affects no other subscriber.",
  "every sequence of events, accepts and socket write outcomes", "unbounded, all partial writes", [L+"daemon/events.rs: SubscriberWriter, drive_pending, Sink::run, serialize_line"])
P("Session names are confined",
  "Exactly the names without '/', without whitespace and other than '', '.' and '..' are accepted, the client and the daemon agree on this, and the per-session directory of an accepted name is a direct child of the sessions directory, different for different names.",
  "every name", "infinitely many names", [L+"daemon/server.rs: handle_attach, session_dir", L+"attach.rs: attach_resolved"])
P("Shell environment precedence",
  "Each variable in a new shell's environment has the value given by the highest priority source that sets it; TERM follows the documented rules; SSH_AUTH_SOCK points at the per-session symlink.",
  "every configuration, client environment and /etc/environment", "all combinations", [L+"daemon/server.rs: build_shell_env, spawn_subshell"])
P("/etc/environment parsing",
  "The file is read line by line: comments and malformed lines contribute nothing, and each well formed KEY=VALUE line contributes exactly one pair, with quotes, comments and surrounding whitespace stripped as documented.",
  "every file content", "unbounded content", [L+"daemon/etc_environment.rs"])
P("Configuration layering",
  "For every setting the effective value is that of the highest priority file that sets it; unreadable files are skipped, a file that does not parse rejects the load, and a rejected reload leaves the running configuration as it was.",
  "every set of files and every field", "all combinations", [L+"config.rs: Config::merge, Manager::new, Manager::reload"])
P("Configuration watching",
  "Every configured path stays watched whatever filesystem events arrive, every relevant change leads to a reload no later than the debounce interval after it, and bursts are coalesced.",
  "every sequence of events, timings and filesystem states", "unbounded sequences", [L+"config_watcher.rs"])
P("Message of the day",
  "The motd is shown on the first attach and then at most once per configured interval; its text is converted for raw terminals without loss; showing it never prevents an attach.",
  "every motd text, interval and clock behaviour", "all clocks", [L+"daemon/show_motd.rs"])
P("Forced attach terminates",
  "attach --force sends at most one detach request and gives up with an error after a bounded number of attempts; without --force exactly one attempt is made and nobody is detached.",
  "every sequence of daemon replies", "all reply sequences", [L+"attach.rs: attach_resolved"])
P("Client exit code",
  "shpool attach exits with the status in the exit frame if it received one, switches if it received a switch request it must follow, and exits 1 in every other case.",
  "every frame sequence and every interleaving of the client's threads", "all interleavings", [L+"protocol.rs: pipe_bytes", L+"attach.rs"])
P("Command line targets",
  "kill and detach without arguments act on the current session, fail when there is none, and exit 1 exactly when the daemon reported a problem.",
  "every argument list and reply", "all inputs", [L+"common.rs: resolve_sessions", L+"kill.rs", L+"detach.rs"])
P("One daemon per socket",
  "Automatic daemon launch leaves exactly one daemon reachable on the socket, whatever the number of concurrent clients and stale sockets.",
  "every interleaving of launching clients", "needs races", [L+"daemonize.rs: maybe_launch_daemon", L+"daemon/mod.rs: run"])
P("Starting a second daemon is harmless",
  "Starting a daemon while one is already serving the socket fails without disturbing the running one, its control socket or its events socket.",
  "every state of the runtime directory", "state dependent", [L+"daemon/mod.rs: run", L+"daemon/events.rs: EventBus::start, ListenerGuard"])
P("Kill escalation",
  "A kill sends SIGHUP first, sends SIGKILL only if the shell has not been seen to exit within the grace period, treats an already dead shell as success, and only ever signals the session's own process.",
  "every process behaviour and timing", "timing", [L+"daemon/shell.rs: Session::kill", L+"daemon/exit_notify.rs"])
P("Interruptible sleep",
  "sleep_unless returns true only if the stop condition was observed, false only once the full time has elapsed, checks the condition at every poll and terminates.",
  "every clock and stop flag behaviour", "all clocks", [L+"common.rs: sleep_unless"])
P("Terminal restored",
  "While attached, the terminal is raw in exactly the documented flags and nothing else is altered; when the attach ends its original attributes are restored.",
  "every initial terminal attribute word", "all bit patterns", [L+"tty.rs"])
P("Protocol version skew",
  "A message written by a newer peer with extra fields, or by an older peer lacking optional fields, is decoded with the unknown fields ignored and the missing ones defaulted; every message round trips.",
  "every message value and every set of extra fields", "unbounded values", ["shpool-protocol/src/lib.rs", L+"protocol.rs: encode_to, decode_from"])
P("Restore buffer delivery",
  "On reattach the restore buffer is delivered as frames that concatenate to it, each non-empty and within the client's buffer; the restore mode and number of lines follow the configuration.",
  "every buffer length and configuration", "all lengths", [L+"session_restore.rs", L+"daemon/shell.rs", L+"daemon/server.rs: spawn_subshell (scrollback_lines)"])
P("Exit status latch",
  "Once a shell's exit has been recorded every waiter sees that same status for ever after, and no waiter sees a status before.",
  "every interleaving of waiters, timeouts and the notifier", "all interleavings", [L+"daemon/exit_notify.rs"])
P("Detach reply is exact",
  "A detach request detaches every named attached session, reports as not found exactly the names without a session and as not attached exactly the sessions that had no client, and always replies.",
  "every daemon state and name list", "all states", [L+"daemon/server.rs: handle_detach"])
P("Pager ownership",
  "While the motd pager runs, resize and detach requests reach it and nothing else; afterwards the pager slot is always empty again and the session gets the last size reported.",
  "every pager outcome and message sequence", "all outcomes", [L+"daemon/pager.rs", L+"daemon/server.rs: dispath_session_message"])
P("Spawned command line",
  "The shell is a login shell unless a command was given, rc files are suppressed exactly when configured, and prompt sentinels are awaited exactly when something will print them.",
  "every attach header and configuration", "all combinations", [L+"daemon/server.rs: spawn_subshell", L+"daemon/shell_inject.rs: maybe_setup"])
P("Attach request contents",
  "The attach request carries the requested name, command, directory, TTL and exactly the environment variables that are to be forwarded and set.",
  "every command line, environment and configuration", "all combinations", [L+"attach.rs: dial_attach"])
P("Old events, new sessions: record keeping of attachments",
  "The attachment record shown by list is set when a client attaches, cleared when it leaves, and a cleared record carries the time of the last disconnect; a handler never alters the record of a session it is not attached to.",
  "every interleaving", "all interleavings", [L+"daemon/shell.rs: SessionLifecycle", L+"daemon/server.rs"])
P("The prompt prefix is inert",
  "The text injected into a new shell shows the configured prompt prefix with the session name in it and runs nothing the session name contains; the start command is typed verbatim.",
  "every accepted session name, prefix and start command", "all strings", [L+"daemon/shell_inject.rs: maybe_setup"])
P("Forwarded environment file is exact",
  "The forward.env file of a session, read line by line, gives back exactly the variables the client forwarded.",
  "every set of forwarded variables", "all strings", [L+"daemon/server.rs: handle_attach (session_env_file)"])
P("Stopping the daemon",
  "A daemon told to stop removes its own control socket, events socket and pid file and exits; after a stop or a crash the next client brings up a new daemon.",
  "every directory state and schedule", "all schedules and crash points", [L+"daemon/signals.rs", L+"daemon/mod.rs: run", L+"daemonize.rs"])
P("Separate sockets are separate instances",
  "Instances of shpool given different --socket arguments share no file: neither control socket, events socket, pid file or log, nor session directories; the files of one instance are different files.",
  "every pair of socket arguments, environments and session names", "all pairs of paths", [L+"lib.rs: run", L+"daemon/events.rs: socket_path", L+"daemon/mod.rs: run", L+"daemonize.rs: maybe_launch_daemon"])
P("Launched daemons are like started ones",
  "A daemon launched by a client listens where that client looks for it, and its sessions have the same files, start directory and umask as under a daemon started by hand with the same options.",
  "every set of options, environment, working directory and umask", "all combinations", [L+"lib.rs: run", L+"daemonize.rs: maybe_launch_daemon, daemonize", L+"daemon/mod.rs: run"])
P("What list prints",
  "shpool list prints a header and exactly one row per session, in columns, from which every session's name and state can be read; it fails exactly if the daemon did not answer.",
  "every reply of the daemon", "all lists of names", [L+"list.rs: run", "shpool-protocol/src/lib.rs: SessionStatus"])
P("What the var commands do",
  "var get prints exactly the current value of a set variable and nothing for an unset one, var list prints text from which all variables can be read, set and unset request exactly the change asked for, and each fails exactly if the daemon did not confirm.",
  "every history of requests, every variable and value", "all histories and strings", [L+"var.rs: run", L+"set_log_level.rs: run", L+"daemon/server.rs: handle_get_vars, handle_modify_var"])
P("Callbacks of the wrapping binary",
  "A binary that wraps the library is told exactly once of every new session, every reattachment, every client turned away because the session is busy, every client that hangs up and every session whose shell ends, in an order in which each connection opens before it closes, with the session's name.",
  "every interleaving of requests, clients and shells", "all interleavings", [L+"hooks.rs: Hooks", L+"daemon/server.rs: handle_attach, select_shell_desc"])
P("Window size reports",
  "Whenever the client has nothing left to report and its reports were heard, the session it attached to last knows the size the window has now; no report carries a size the window never had or goes to a session the client was not with.",
  "every interleaving of window changes, session switches, attach requests and the steps of the reporting thread", "all schedules", [L+"attach.rs: SignalHandler"])
P("Socket activation",
  "A daemon started by the service manager listens on the one socket it was handed and never removes it; any other daemon listens where it was told to and removes its socket when stopped; no other descriptor is touched.",
  "every environment and table of open descriptors", "all environments", [L+"daemon/systemd.rs: activation_socket", L+"daemon/mod.rs: run"])
P("The question about mismatched versions",
  "An attach command asks the user to confirm a version mismatch exactly once, only in the foreground, reads no input beyond the answer, and goes on; the path used to start the program again is that of the program.",
  "every sequence of dials, daemon versions and keyboard inputs; every path", "all inputs", [L+"attach.rs: dial_client", L+"exe.rs: current"])
P("From the shell to the terminal and back",
  "At every moment the user's terminal shows an initial part of what the shell printed (after the restored screen and the message of the day), nothing invented, reordered, repeated or dropped in between, and finally all of it; the client's process ends with the shell's own status when the shell ends, and with 0 when the client is detached or another takes the session over, not before all that was sent to it is shown; the shell receives the bytes the user typed, in order.",
  "every way the output and input are cut into reads, writes and frames, every point up to which the stream has arrived, every schedule of the daemon's and the client's threads", "all cuts and schedules of five threads and a socket", [L+"daemon/shell.rs: spawn_shell_to_client, client_to_shell", L+"protocol.rs: pipe_bytes", "shpool-protocol/src/lib.rs: Chunk"])
P("The thread that carries a session's output",
  "The daemon's answers about a session's client are truthful: an attach reports whether somebody was replaced, a detach whether somebody was detached, a heartbeat whether the client is there; the connection of the replaced or detached client is closed and no other; and carrying output goes on until the shell ends or the daemon says so, whatever clients do.",
  "every history of requests, client failures and shell output", "all histories and failures", [L+"daemon/shell.rs: spawn_shell_to_client"])
P("The life of an attachment",
  "An attachment goes on while the shell runs, the client is connected and no thread fails; meanwhile every keystroke that reaches the daemon is passed to the shell, in order, and eventually, as long as the shell reads. It ends, with all its threads, within a bounded number of rounds of its threads after the shell exits, the client hangs up, the user types the detach binding or a thread fails, provided what its threads wait for is not withheld. It reports that the shell has ended only if it has, and without failures it neither panics nor returns an error.",
  "every interleaving of the four threads, the shell, the client and the daemon's other requests, with every failure", "all schedules of four threads", [L+"daemon/shell.rs: bidi_stream, spawn_client_to_shell, spawn_heartbeat, spawn_supervisor, action_detach"])
P("A session is free again after its client has gone",
  "Once the client of a session has gone the session can be attached again, and once the shell has exited the attachment says so, so that the session is removed.",
  "every interleaving of the four threads, the shell, the client and the daemon's other requests, with every failure", "all schedules of four threads", [L+"daemon/shell.rs: bidi_stream, spawn_client_to_shell, spawn_heartbeat", L+"daemon/server.rs: handle_attach"])
P("Output for programs",
  "list --json and var list --json print one JSON text and a line break, which any JSON reader reads, in only one way, as what the daemon answered: every session with all its fields, every variable with its value, whatever characters names and values contain; every line of the events socket is a JSON object with the type of the event. The commands print nothing and fail exactly if the daemon did not answer.",
  "every reply of the daemon, every name and value", "all strings", [L+"list.rs: run", L+"var.rs: run", L+"daemon/events.rs: serialize_line", "shpool-protocol/src/lib.rs: ListReply, Session, Attachment, SessionStatus"])
P("The start of a conversation",
  "Whoever connects is sent the daemon's version. The request is taken exactly as it was sent, however its bytes are cut up; it is carried out once, only if its sender is the same user, and answered; the client takes the daemon's reply for its own and leaves what follows in the stream. Neither waits for the other for ever. Somebody who sends something else, nothing, or hangs up gets nothing done, is let go, and keeps nobody else from being served.",
  "every sequence of bytes, cuts, delays and disconnections of any number of peers; every schedule of client and daemon", "all byte streams, cuts and schedules", [L+"daemon/server.rs: serve, handle_conn, parse_connect_header, write_reply, check_peer", L+"protocol.rs: Client::new, write_connect_header, read_reply", L+"attach.rs: dial_client"])
P("A launched daemon is cut off",
  "A daemon launched by a client is cut off from where the client was started: it is in a session and group of its own, without a terminal and unable to get one, its standard descriptors are /dev/null, the directory is / and nothing but it is left in its session; at most one daemon comes of a launch; the launch ends with 0 only if the daemon has been forked off, and otherwise with 1; while it becomes a daemon the pid file is its own and says its number; nothing in it fails or waits unless the kernel refuses or another launch has the pid file. A daemon started by hand is as it was started.",
  "every interleaving of any number of launches and daemons, every system call failure, kill, short write and left-over pid file", "all interleavings and failures", [L+"daemonize.rs: daemonize, redirect_std_fds_to_null, become_child", L+"daemon/mod.rs: run"])
P("Daemons go on answering and follow their configuration",
  "However a daemon was started, it goes on answering requests, and when its configuration files are edited it goes on with what they say.",
  "every moment of an edit, every interleaving of the daemon's threads with the forks of its start", "all interleavings with fork", [L+"lib.rs: run", L+"config.rs: Manager::new", L+"daemonize.rs: become_child", L+"config_watcher.rs"])
P("Deadlines",
  "The reaper notes every deadline it is told of and acts on the latest one of each name: never before it is over, never later than its first turn after it, earliest first, once, whatever the order in which deadlines come and replace each other; it ends when nobody can tell it of sessions any more.",
  "every sequence of deadlines, replacements and wake-ups", "all sequences, and all shapes of the heap", [L+"daemon/ttl_reaper.rs: run, Reapable"])
P("Where sessions start, and for whom",
  "A new session starts in the directory the user said: their home directory as the user database has it, the directory the attach command was run in, or the directory given; and with the shell and name the database has for the user the daemon runs as. This holds for every name the file system and the database may contain.",
  "every byte sequence as a path, every user database, every directory of client and daemon", "all byte strings", [L+"user.rs: info", L+"attach.rs: dial_attach", L+"daemon/server.rs: spawn_subshell"])
P("The files kept for a session",
  "After every attach that gets through, the session's forward.env holds exactly the variables the client forwarded, and its socket link leads to the client's agent if the client has one and is as it was if not; meanwhile there is the old file or the beginning of the new one. This holds whatever other attaches do at the same time and whatever the system refuses; the files of other sessions are never touched, and nothing else in the file system but the directories the files are in; an attach gets through, in a bounded number of steps, if nothing is in the way. Nobody but the user can read or change what was forwarded.",
  "every file tree, umask, interleaving of attaches of any number of sessions and failure of a system call", "all trees, interleavings and failures", [L+"daemon/server.rs: link_ssh_auth_sock, populate_session_env_file, session_dir, session_env_file, ssh_auth_sock_symlink", L+"daemonize.rs: become_child"])
P("Other users of the machine",
  "Other users get nothing out of a daemon. On the control socket, whatever they send, nothing is done for them and they are told nothing but the version and that they may not attach. On the events socket they hear nothing.",
  "every caller, every sequence of connections, bytes and events, every umask and all modes of the directories above the sockets", "all callers, byte streams and modes", [L+"daemon/server.rs: check_peer, handle_conn", L+"daemon/events.rs: EventBus::start, Sink::run", L+"daemon/mod.rs: run"])
P("The shell's window is the terminal's",
  "While a user is attached the shell's window has the size of the user's terminal, from the attach on and after every change, as soon as what was sent has been dealt with; also if the window was changed while the attach was under way or a message was shown in a pager.",
  "every sequence of size changes, every interleaving of the attach, the pager, the client's report thread and the output thread, new sessions and old ones", "all interleavings", [L+"attach.rs: SignalHandler, dial_attach", L+"daemon/server.rs: handle_attach, handle_session_message", L+"daemon/shell.rs: spawn_shell_to_client", L+"daemon/pager.rs: display"])

P("Asking a session to let its client go",
  "A message that asks a session to let its client go is answered: there is no such session exactly if none is listed under the name at that moment; otherwise the session's client is let go, nobody gets the session's output any more, the shell runs on, and nothing else in the daemon changes; if nobody takes the message in time nothing changes and there is no answer. The answer says so if nobody was attached.",
  "every state of the daemon, every interleaving of any number of requests between the message and its answer", "all schedules", [L+"daemon/server.rs: handle_session_message, dispath_session_message", L+"daemon/shell.rs: spawn_shell_to_client"])

P("What the daemon believes is what the session does",
  "Whenever a session's output has been dealt with, the daemon's account of the session agrees with it: whether it is running, and which client gets the output. An attach goes on exactly if the session took the client; a detach says a session was not attached exactly if the session had no client, and otherwise its client has been sent the end and its connection closed; a message is answered exactly if the session answered; after an exit the session's output ends. Nothing else the daemon does changes who gets the output.",
  "every life of an output thread, every state of the daemon, every failure of a socket, the pty or an answer", "all combinations of two concurrent components and their failures", [L+"daemon/shell.rs: spawn_shell_to_client, bidi_stream", L+"daemon/server.rs: handle_attach, handle_detach, handle_session_message"])

P("The sessions that end are those whose time is over",
  "The daemon's deadlines are its reaper thread's. When the thread wakes up it ends the session listed under the name whose deadline it acts on, and no other, or does nothing anybody could notice. When it has woken up as often as it was told of deadlines, the sessions still listed are those without a deadline or whose latest one is still to come; all others are gone and their shells have been sent the hangup.",
  "every life of the daemon and its reaper thread together, every moment of every wake-up", "all interleavings of the thread with everything else the daemon does", [L+"daemon/ttl_reaper.rs: run", L+"daemon/server.rs: handle_attach, spawn_subshell, Server::new"])

P("What becomes of an attachment",
  "However the threads that serve an attachment come to its end, and whatever they have told the session's output thread: the daemon's account then agrees with what the output thread does, and the daemon goes on treating the session as over exactly if the threads say so, which they do only if the shell has exited. A detach the user types lets the client go without ending the attachment's handler or the session.",
  "every schedule of the attachment's threads, every input and failure, every state of the daemon and the output thread", "all combinations of three concurrent components", [L+"daemon/shell.rs: bidi_stream, spawn_client_to_shell, spawn_heartbeat, spawn_supervisor, action_detach", L+"daemon/server.rs: handle_attach"])

P("Following the sessions",
  "A program that is subscribed to the events and lists the sessions whenever a line has come knows the sessions: as long as nothing more has come and nothing is to come, the sessions there are, since when, and whether somebody is attached to them, are as in its last list. If it reads what it is sent, a turn of the daemon's event thread is enough for it to be sent everything.",
  "every schedule of the daemon's requests together with its event thread and its subscribers, every moment of the listing", "all interleavings of two concurrent components and their clients", ["EVENTS.md", L+"daemon/events.rs: EventBus, publish, Sink::run", L+"daemon/server.rs: handle_attach, handle_list, handle_kill, select_shell_desc", L+"daemon/ttl_reaper.rs: run"])

P("What a command reports is what the daemon did",
  "From the command line to the exit status: the daemon is asked what the command is for, at most once, whatever becomes of the connection. What list and var print is how things were at one moment between the asking and the end of the command. A kill that is answered has removed, at one such moment, exactly the sessions it is about and complains of exactly the names that had none; one that is not answered has removed nothing. A detach reports of every name what became of it. A var set that succeeds has changed that variable and nothing else and has sent it to every session. A command with no session to name asks nothing and fails. And a command comes to its end: its request arrives, and once the daemon is done with it the answer, or the failure when there is none, after a number of turns of both programs that the length of the messages bounds. When nobody holds the table's lock and the daemon gets to a request it has taken, it is done with it then, and such a list prints what the table held at that moment.",
  "every command, every schedule of the two programs and of everything else the daemon does, every cut of the messages on the wire, a command killed at any moment", "all interleavings of client, connection and daemon", [L+"kill.rs: run", L+"detach.rs: run", L+"list.rs: run", L+"var.rs: run", L+"protocol.rs: Client", L+"daemon/server.rs: handle_conn, handle_kill, handle_list, handle_detach, handle_get_vars, handle_modify_var"])

P("What is logged, and where",
  "A program logs exactly the entries its level shows, in the order they were made: it begins at info, debug or trace as -v is given never, once or more often, and a daemon goes on at the level set-log-level last asked of it, whichever of the six words that was. The entries go to the log file if one is given, to the daemon's standard error stream if none is, and nowhere for other commands, whose errors only their exit status tells then. A log file that no other program uses holds that record and nothing else; one that is used by several is emptied by each that starts and written over at the place each has come to.",
  "every history of programs starting, logging, being set to levels and ending, every disk, file name, text and number of -v",
  "all histories of several programs with one disk, of any length",
  [L+"lib.rs: Args.log_file, Args.verbose, LogWriterBuilder::make_writer, MutexGuardWriter, run", L+"set_log_level.rs: run", L+"daemon/server.rs: handle_set_log_level", "shpool-protocol/src/lib.rs: LogLevel"])

P("A program from its start to its end",
  "Asked for its version a program prints it and does nothing else. Otherwise it empties the log file it is given, makes its directory, reads its configuration, looks for a daemon (and launches one) if it is not the daemon, -D is not given and the configuration does not say no or -d is given, and does its command: in this order and each only if all before it went well. It succeeds if all of it does. A failure before the command is said on the standard error stream, one of the command goes to the log. The command is done at most once, at the socket a daemon was looked for at. Without XDG_RUNTIME_DIR and HOME nothing is touched but the log file.",
  "every command line, environment, configuration, and every way each step can go", "all combinations of options, variables and failures",
  ["shpool/src/main.rs: main", L+"lib.rs: Args::version, run"])

P("The end of the events socket",
  "As long as the daemon goes on, the events socket is served: whoever connects is taken, and what is published is sent to all who have connected by then. When the daemon stops by itself, because it cannot go on or could not start, the thread that serves the socket has returned before the daemon has: every connection has been closed, and the socket file is gone if nobody else has put one there. Stopping never hangs, whatever else happens meanwhile, and the thread returns for no other reason than that, or that nobody is left to publish. From then on nothing is sent and nobody is taken.",
  "every history of publishers coming, going and publishing, of subscribers and other programs, with the daemon stopping at any moment", "all interleavings of the daemon's main thread, its publishers and the thread that serves the socket",
  [L+"daemon/events.rs: EventBus::start, EventBus::publish, EventBusHandle::drop, ListenerGuard::drop, Sink::run", L+"daemon/mod.rs: run"])

with open(os.path.join(os.path.dirname(os.path.abspath(__file__)), "..", "properties.jsonl"), "w") as f:
    for o in out:
        f.write(json.dumps(o) + "\n")
print(len(out))
