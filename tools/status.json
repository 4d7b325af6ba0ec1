{
"C01": ["proved", "Payloads of 2^32 bytes or more are outside [representable]; C01_length_prefix_truncates_refuted shows what happens there."],
"C02": ["partial", "Every frame of the output thread and the pager fits, restore buffers of any size included; refuted for variable messages and dumped motds longer than the buffer."],
"C03": ["proved", "Versions are strings of Unicode scalar values; the i64 parser is modelled with its overflow check."],
"C04": ["partial", "Documented forms are proved; 'every other string is rejected' is false of the code: C04_junk_is_ignored_refuted and C04_overflow_refuted; C04_exact_behaviour gives the behaviour on every string."],
"C05": ["proved", ""],
"C06": ["proved", "Symbols are numbers; the vector table is proved for symbols below 256, which is all a u8 can be."],
"C07": ["partial", "The documented language is accepted and every accepted text is characterised; the property as stated is false of the code: Ctrl-x/Ctrl-y are exchanged, and dangling dashes, cut words and the empty text are accepted (_refuted theorems)."],
"C08": ["partial", "Exact reference semantics on every stream and soundness are proved in full; completeness needs no aliases, no prefix bindings and no half typed sequence, and is false otherwise (_refuted theorems)."],
"C09": ["partial", "Every history of reads is characterised exactly (C09_every_history, C09_detach) and nothing panics. The property as stated is false of the code: a binding completed from the second byte of a read eats the first byte, and a detach drops the rest of its read (_refuted theorems)."],
"C10": ["proved", ""],
"C11": ["partial", "Soundness, exact reference search, independence of chunking and the startup wait are proved; 'recognised wherever it appears' holds only if the byte before the sentinel is none of its letters (refuted otherwise)."],
"C12": ["partial", "Output, restore buffer and scrollback proved for every life of the output thread; refuted: bytes still in the pty at hangup are lost."],
"C13": ["partial", "At most one exit frame and nothing after it, statuses truthful, attached client told; refuted: unknown status is not told, and the first message is acknowledged as new whatever it is."],
"C14": ["partial", "Settles at the last request; refuted: 65535 rows or columns panic a debug build."],
"C15": ["proved", "All schedules of the daemon's handlers at lock granularity: at most one handler and one client per session, Busy exactly when attached."],
"C16": ["proved", "Every refusing step changes nothing but the handler that refused; other users never get past the peer check."],
"C17": ["partial", "Sessions survive every client step, and reattaching connects to the same shell; refuted when the output thread ended with an error while the shell lives (session can never be attached again)."],
"C18": ["proved", "Kill removes exactly the named sessions and reports exactly the others; a kill whose signal fails changes no table entry and gets no reply."],
"C19": ["proved", "The reply is the table at one instant, with the state each session then has."],
"C20": ["partial", "Replaying the events gives the table in every schedule; the count holds unless a kill request repeats a name, which publishes session.removed twice (refuted)."],
"C21": ["partial", "At most one attach and one detach event per attachment, and they pair unless the client hangs up in the pager or the stream cannot start: both exceptions are refuted with witnesses."],
"C22": ["partial", "Reaping acts for the newest TTL session of the name the reaper knows of, never before that one's deadline, and always catches up; refuted where the name was reused without a TTL, where the new registration is unread, where the deadline passes before the session is in the table, and where the TTL is beyond the range of the clock (C22_too_long_refuted; C22_ttl_taken says which TTLs are taken)."],
"C23": ["partial", "Cleanup removes only its own session while no other session has taken the name; refuted for the case where the name was reused."],
"C24": ["partial", "One shell per name when creations do not overlap; overlapping creations are refuted (two shells, deadlock of a shared wait)."],
"C25": ["partial", "acknowledgements are never misdelivered (C25_acks) and, unless somebody gives up waiting for one, the threads never wait for each other for ever (C25_moves_partial, C25_finite, C25_live_partial). In full the property is false of the code: an acknowledgement wait that times out leaves the session's thread blocked for good (C25_orphan, C25_deaf_refuted), and a detach of that session then blocks the whole daemon (C25_wedged_refuted, C25_slow_client_refuted)"],
"C26": ["partial", "Exact updates, last value and full broadcast on success proved; refuted: a session whose shell exited makes set fail, broadcasts overtake, a detached session drops the map."],
"C27": ["partial", "client side: exact; refuted: of two maps in flight the second is lost"],
"C28": ["partial", "Exact stream of each subscriber proved for every interleaving of publishers, connections, kernel results and the sink; isolation of subscribers, no lost wakeup, delivery in one round. The statement holds from the moment of acceptance except that events still in the channel at that moment are sent too (C28_since_accepted_refuted), an event is lost for all when the channel of 4096 is full (C28_full_refuted) and a subscriber dropped in mid line ends with part of a line (C28_whole_lines_refuted)."],
"C29": ["proved", ""],
"C30": ["partial", "layering characterised exactly; refuted: SHPOOL_SESSION_NAME overridable, terminfo and TERM may differ, SSH_AUTH_SOCK may name a missing link"],
"C31": ["proved", "A file that is not UTF-8 is rejected as a whole (C31_not_utf8_rejected_refuted)."],
"C32": ["proved", "The TOML parser is an input (each file is unreadable, malformed or a parsed configuration)."],
"C33": ["partial", "Exact triggers, deadline, in-time reload and coalescing proved for every history, provided something above each target can be watched and no symbolic link is on the way. Staying watched is proved for a single file and for turns that set up one target anew; with more it is refuted (a rescan drops the files after the first, two missing files in one directory, two names of one file). In a launched daemon nothing is watched at all: see C69."],
"C34": ["partial", "Debounce, mode selection, raw conversion, dump and a daemon's whole life of attaches proved; refuted: clock set back or unreadable motd fail the attach, dump after a reload panics, huge interval panics, a reloaded interval is not followed."],
"C35": ["proved", ""],
"C36": ["partial", "result characterised for every frame sequence and schedule; refuted: refusals exit 0, a switch with a stuck IO thread exits 1, a late exit frame is missed"],
"C37": ["proved", ""],
"C38": ["partial", "A client alone (any left-over files), any sequence of launches, kills and stops, and any number of concurrent clients and daemons as long as no probe is refused and no daemon is taken down: exactly one daemon, and it is the one reached. The full claim is false: refuted for two clients finding the same stale socket, for a probe between bind and listen, and the pid-file lock is shown to be released before serving."],
"C39": ["partial", "Proved for the running daemon and its control socket under every schedule. The full claim is false: the second daemon removes the events socket (shown for every quiet state), and an automatically launched one also the pid file."],
"C40": ["partial", "exact characterisation of the signals; refuted: a reaped shell's pid may have been reused"],
"C41": ["proved", "for every strategy with non-zero pauses; zero-cap backoff spins (refuted)"],
"C42": ["partial", "raw exactly; restored on every way out of pipe_bytes; flag bits unknown to the library are lost (refuted); death by signal is outside the model"],
"C43": ["proved", "byte-level model of the MessagePack encoding and of the derived serde code for every protocol struct and enum; round trip, cross-version skew at any depth, exactness of decoding and stream independence are proved for all values; C43_required lists the fields that have no default and C43_nested_refuted shows what leaving one out of a nested struct does. Not modelled: the alternative forms rmp_serde would also accept (structs as arrays, numbered variants)"],
"C44": ["partial", "Restore buffer selection and delivery proved; refuted: documented default of 10000 lines is 500, first attach size misses the scrollback emulator."],
"C45": ["partial", "all histories; a timed-out waiter can miss a just recorded status (refuted)"],
"C46": ["partial", "Not found exact; every name meets a deserved fate and the reply says which; answered unless a named session has lost its output thread (refuted: no reply); refuted for sessions whose client is still being set up."],
"C47": ["partial", "Ownership, size and release proved; refuted: a detach does not reach the pager and a resize while the pager is killed is lost."],
"C48": ["partial", "exact characterisation; refuted: sentinel awaited although nothing will print it when injection fails, start command dropped for nu, norc ignored for other shells, only descriptor 3 closed"],
"C49": ["proved", ""],
"C50": ["partial", "Record changes characterised exactly, times proved; clearing goes by name (refuted for a reused name) and a client lost in the pager leaves its record (refuted)."],
"C51": ["partial", "substitution exact and inert for names without shell metacharacters; refuted for accepted names with quotes"],
"C52": ["partial", "exact for values without line breaks; refuted otherwise"],
"C53": ["partial", "Stop, double signal, and relaunch after stop or crash are proved for a daemon by itself. 'Its own' is false: the files are removed by name, and a daemon cut off from its socket removes another daemon's."],
"C54": ["partial", "Session directories are apart for sockets with different hashes (the hash is an argument) and from the default instance; the other files are shared exactly if the sockets lie in one directory (C54_files_apart_partial, refuted: C54_one_directory_refuted), and the same relative path used in two directories shares session directories (C54_relative_refuted)."],
"C55": ["partial", "Same sockets, configuration and start directory for absolute paths. Refuted: with a relative socket the daemon listens elsewhere, its shells run with umask 0, and the session directories are elsewhere than under a daemon started by hand. The log file and verbosity given to the launching command do not reach the launched daemon (C55_log_options_refuted)."],
"C56": ["partial", "Rows, faithfulness and exit code proved; the columns are straight for ASCII names only (C56_aligned_refuted). --json is C66."],
"C57": ["partial", "get, set, unset and exit codes proved for every history of the daemon; the text of var list is ambiguous when a value has a line break (C57_list_refuted). --json is C66."],
"C58": ["partial", "Order per connection, busy, reattach and closing calls proved for every schedule. Refuted: a new-session call although the shell could not be started, a client lost in the pager and a session that ends while nobody is attached are never reported, and an exit met by a stream error is reported as a hangup."],
"C59": ["partial", "Exact if reports are heard; refuted for a change during the attach handshake (report answered NotFound and dropped) and for an unanswered report, which silences all later ones."],
"C60": ["partial", "Exact characterisation; refuted: LISTEN_PID is not checked, so stale variables take over or close descriptor 3."],
"C61": ["partial", "Exact characterisation; refuted for a program whose own file name ends in ' (deleted)', and for the promise that enter goes on anyway, which fails unless it is given within 200 ms."],
"C62": ["partial", "Prefix, completeness, exit status (of the shell, of a detached client, of one cut off from its daemon) and keystrokes (with bindings) proved across daemon, wire and client; the client's process ends only after what it got is shown. False where output is left in the pty at hang-up (C62_last_words_refuted), the status is not known in time (C62_status_refuted), or the variables take more than 16 KiB (C62_thrown_out_refuted)."],
"C63": ["partial", "Refuted for a heartbeat or switch write failing other than by the client being gone, which ends the thread; a due dump whose mode was reloaded is excluded (C34)."],
"C64": ["proved", "For every schedule of the threads, the shell, the client and other requests. Rounds: every thread moves once and what it waits for is not withheld; what happens when it is, is C65."],
"C65": ["partial", "Missing: C65_unread_input_refuted (a shell that does not read pasted input keeps the session busy after its client left), C65_exit_unnoticed_refuted and C65_exit_forgotten_refuted (an exit racing with the end of the attachment, or with a lost heartbeat answer, is not reported), C65_half_started_refuted (a thread that cannot be started leaves the handler waiting for the client)."],
"C66": ["proved", "serde_json's printer is modelled from its source's documented behaviour (the crate is not in /repo); the reader in Spec/JsonSpec.v is independent of it."],
"C67": ["proved", "All schedules, cuts and delays; patience of the deserializer is a hypothesis that any deserializer reading a stream meets."],
"C68": ["proved", "Every schedule of any number of launches, with every failure, kill, short write and left-over pid file. Process numbers are not reused; the kernel's fork, setsid, flock and terminal rules are those of the manual pages."],
"C69": ["partial", "Proved for daemons started by hand. Refuted for launched ones: the thread that watches the files is lost in the fork, so the configuration stays what it was (C69_launched, for every continuation), and a lock it held at the fork is held for ever (C69_stuck)."],
"C70": ["proved", "Every sequence of messages and wake-ups, with the heap of the standard library written out. What ending a session does is C22."],
"C71": ["partial", "Exact for text: home, '.', absolute directories, user, shell; how other bytes are read. Refuted: directories that are not UTF-8, relative directories, entries beyond 4 KiB."],
"C72": ["partial", "Proved for every interleaving of attaches of different names: what the two files hold after an attach, meanwhile and after a failure; other sessions' files untouched; success in a bounded number of steps; what is below a shut directory stays private; the directory is shut for clients with an agent; private under a covering umask. Refuted: a daemon launched by a client has an empty umask, and for a client without an agent nothing else keeps others from reading and changing the forwarded variables; two attaches of one name at once (C72_two_at_once) can mix the file or get in each other's way (C72_mixed_refuted, C72_in_the_way_refuted)."],
"C73": ["partial", "The control socket is proved for every caller, the superuser included; who can get to a socket is characterised exactly, and the events socket is private below a shut directory or with a umask that takes writing. Refuted: a launched daemon has no umask and the events socket has no check of its own."],
"C74": ["partial", "Proved: once the client has been handed over and every change reported and answered, the window is the terminal's or will be within the 50 ms delay (C74_follows_partial, C74_agrees), the way there is open (C74_can_settle), new sessions without a pager need no condition (C74_new_session), and after the attach the next change puts anything right (C74_next_change). Refuted: a report answered before the hand-over, or by a closing pager, is undone by the older size of the request."],
"C75": ["partial", "Exactly when each answer comes and exactly what changes (C75_found_or_not, C75_let_go_partial); false where the answer is the same although nobody was attached, the session has gone, or its client is only being set up."],
"C76": ["proved", "The detailed model of the output thread (C12, C63) and the daemon's interleaving model (C15 to C26, C46, C75) simulate each other in step: C76_from_the_start, C76_otherwise_untouched, C76_by_itself, C76_attach, C76_detach, C76_message, C76_end, C76_exit; C76_detached_was_told says what the detached client got. A thread blocked for good by an answer nobody takes (C25) deals with nothing any more and is not covered."],
"C77": ["proved", "a simulation between the daemon's account of deadlines and the detailed reaper thread; what is refuted about time-outs (clamping at startup, attached sessions) is under C22 and C70"],
"C78": ["proved", "C64 and C76 composed: any schedule of the attachment's threads, any state of the daemon and of the output thread"],
"C79": ["partial", "Which sessions there are, and since when, is proved for every schedule of the daemon and its event thread; so is whether they are attached, if no attach is being set up or let go at the moment of the listing. Refuted: the status when the listing falls between an event and the change it announces, or when a client is lost in the pager; and that connecting to the socket is enough."],
"C80": ["proved", "Client, connection and daemon in one model, every schedule. The refuted theorem says only that a kill that fails without a word may have ended a shell (C18); the claim does not deny it."],
"C81": ["proved", "The record, where it goes, the level and the six words hold in full; C81_shared_refuted and C81_confirmed_refuted show what a shared file and a filter that cannot be changed do. Span entries, failed writes and the form of an entry are not modelled."],
"C82": ["proved", "proved for every environment, command line and outcome of each step; what the steps do is in other models"],
"C83": ["proved", "proved for every history; events published just before the stop are not promised (C83_last_words_refuted), nor that only the daemon's own file is removed (C83_own_file_refuted)"]
}
