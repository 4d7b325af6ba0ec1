{
 "claims": [
  {
   "property": "C01",
   "status": "proved",
   "theorems": [
    "C01_writer_follows_wire_format",
    "C01_reader_inverts_writer",
    "C01_reader_invents_nothing",
    "C01_frames_are_canonical",
    "C01_stream_round_trip",
    "C01_cut_stream_yields_complete_prefix",
    "C01_oversize_frame_rejected",
    "C01_unknown_kind_rejected",
    "C01_errors_exactly",
    "C01_reader_terminates",
    "C01_length_prefix_truncates_refuted"
   ],
   "note": "Payloads of 2^32 bytes or more are outside [representable]; C01_length_prefix_truncates_refuted shows what happens there."
  },
  {
   "property": "C02",
   "status": "partial",
   "theorems": [
    "C02_every_frame_can_be_read_partial",
    "C02_pager_frames_can_be_read",
    "C02_big_variables_break_the_client_refuted",
    "C02_big_motd_breaks_the_client_refuted"
   ],
   "note": "Every frame of the output thread and the pager fits, restore buffers of any size included; refuted for variable messages and dumped motds longer than the buffer."
  },
  {
   "property": "C03",
   "status": "proved",
   "theorems": [
    "C03_warning_matches_semver",
    "C03_version_unambiguous",
    "C03_malformed_versions_reported",
    "C03_swapping_sides_swaps_direction",
    "C03_ordering_transitive"
   ],
   "note": "Versions are strings of Unicode scalar values; the i64 parser is modelled with its overflow check."
  },
  {
   "property": "C04",
   "status": "partial",
   "theorems": [
    "C04_documented_forms_parse_partial",
    "C04_exact_behaviour",
    "C04_only_listed_forms_accepted",
    "C04_junk_is_ignored_refuted",
    "C04_overflow_refuted"
   ],
   "note": "Documented forms are proved; 'every other string is rejected' is false of the code: C04_junk_is_ignored_refuted and C04_overflow_refuted; C04_exact_behaviour gives the behaviour on every string."
  },
  {
   "property": "C05",
   "status": "proved",
   "theorems": [
    "C05_well_formed_templates_substitute",
    "C05_only_well_formed_accepted",
    "C05_errors_are_truthful",
    "C05_depends_only_on_mentioned_variables",
    "C05_plain_names_are_themselves"
   ],
   "note": ""
  },
  {
   "property": "C06",
   "status": "proved",
   "theorems": [
    "C06_search_is_exact_for_hash_tables",
    "C06_search_is_exact_for_byte_tables",
    "C06_no_match_is_final"
   ],
   "note": "Symbols are numbers; the vector table is proved for symbols below 256, which is all a u8 can be."
  },
  {
   "property": "C07",
   "status": "partial",
   "theorems": [
    "C07_accepted_iff_readable",
    "C07_documented_language_is_readable",
    "C07_chords_separated_by_spaces",
    "C07_reading_is_unique",
    "C07_bytes_partial",
    "C07_ctrl_x_and_y_swapped_refuted",
    "C07_malformed_text_accepted_refuted",
    "C07_accepted_text_partial",
    "C07_errors_are_about_the_text",
    "C07_errors_say_why"
   ],
   "note": "The documented language is accepted and every accepted text is characterised; the property as stated is false of the code: Ctrl-x/Ctrl-y are exchanged, and dangling dashes, cut words and the empty text are accepted (_refuted theorems)."
  },
  {
   "property": "C08",
   "status": "partial",
   "theorems": [
    "C08_engine_follows_the_keymap",
    "C08_fires_only_when_typed",
    "C08_fires_when_typed_partial",
    "C08_splitting_is_invisible",
    "C08_broken_match_not_restarted_refuted",
    "C08_aliased_chord_refuted",
    "C08_shadowed_binding_refuted"
   ],
   "note": "Exact reference semantics on every stream and soundness are proved in full; completeness needs no aliases, no prefix bindings and no half typed sequence, and is false otherwise (_refuted theorems)."
  },
  {
   "property": "C09",
   "status": "partial",
   "theorems": [
    "C09_every_history",
    "C09_input_is_exact_partial",
    "C09_lossless_without_bindings",
    "C09_detach",
    "C09_never_panics",
    "C09_second_byte_binding_loses_a_byte_refuted",
    "C09_detach_drops_pending_input_refuted"
   ],
   "note": "Every history of reads is characterised exactly (C09_every_history, C09_detach) and nothing panics. The property as stated is false of the code: a binding completed from the second byte of a read eats the first byte, and a detach drops the rest of its read (_refuted theorems)."
  },
  {
   "property": "C10",
   "status": "proved",
   "theorems": [
    "C10_snip_keeps_the_rest",
    "C10_snip_length"
   ],
   "note": ""
  },
  {
   "property": "C11",
   "status": "partial",
   "theorems": [
    "C11_gate_follows_the_search",
    "C11_nothing_before_the_sentinel_is_shown",
    "C11_sentinel_is_recognised_partial",
    "C11_first_sentinel_partial",
    "C11_splitting_is_invisible",
    "C11_no_gate",
    "C11_sentinel_after_S_is_missed_refuted",
    "C11_startup_wait",
    "C11_startup_wait_is_bounded",
    "C11_printed_exactly_when",
    "C11_typed_command_opens_the_gate",
    "C11_typed_command_ends_the_startup_wait",
    "C11_echo_is_no_sentinel"
   ],
   "note": "Soundness, exact reference search, independence of chunking and the startup wait are proved; 'recognised wherever it appears' holds only if the byte before the sentinel is none of its letters (refuted otherwise)."
  },
  {
   "property": "C12",
   "status": "partial",
   "theorems": [
    "C12_reattached_client_gets_all_output_partial",
    "C12_first_client_gets_all_output_partial",
    "C12_nothing_is_hidden_after_the_prompt",
    "C12_who_stays_attached",
    "C12_delivery",
    "C12_scrollback_is_fed_everything",
    "C12_output_pending_at_hangup_is_lost_refuted"
   ],
   "note": "Output, restore buffer and scrollback proved for every life of the output thread; refuted: bytes still in the pty at hangup are lost."
  },
  {
   "property": "C13",
   "status": "partial",
   "theorems": [
    "C13_exit_frame_is_last",
    "C13_exit_status_is_truthful",
    "C13_status_round_trips",
    "C13_exit_is_told_partial",
    "C13_unknown_status_is_not_told_refuted",
    "C13_first_message_misread_refuted"
   ],
   "note": "At most one exit frame and nothing after it, statuses truthful, attached client told; refuted: unknown status is not told, and the first message is acknowledged as new whatever it is."
  },
  {
   "property": "C14",
   "status": "partial",
   "theorems": [
    "C14_settles_at_the_last_request",
    "C14_due_resize_is_carried_out",
    "C14_delay",
    "C14_any_size_can_be_asked_for_partial",
    "C14_largest_size_panics_refuted",
    "C14_largest_size_wraps"
   ],
   "note": "Settles at the last request; refuted: 65535 rows or columns panic a debug build."
  },
  {
   "property": "C15",
   "status": "proved",
   "theorems": [
    "C15_one_handler",
    "C15_one_client",
    "C15_busy",
    "C15_busy_only_if",
    "C15_attached_alone"
   ],
   "note": "All schedules of the daemon's handlers at lock granularity: at most one handler and one client per session, Busy exactly when attached."
  },
  {
   "property": "C16",
   "status": "proved",
   "theorems": [
    "C16_refusal_changes_nothing",
    "C16_invalid_name",
    "C16_other_user",
    "C16_other_user_changes_nothing",
    "C16_same_user"
   ],
   "note": "Every refusing step changes nothing but the handler that refused; other users never get past the peer check."
  },
  {
   "property": "C17",
   "status": "partial",
   "theorems": [
    "C17_stays_listed",
    "C17_stays_running",
    "C17_history",
    "C17_thread_stays",
    "C17_reattach_partial",
    "C17_reattach_refuted"
   ],
   "note": "Sessions survive every client step, and reattaching connects to the same shell; refuted when the output thread ended with an error while the shell lives (session can never be attached again)."
  },
  {
   "property": "C18",
   "status": "proved",
   "theorems": [
    "C18_kill_exact",
    "C18_kill_answered",
    "C18_kill_failed"
   ],
   "note": "Kill removes exactly the named sessions and reports exactly the others; a kill whose signal fails changes no table entry and gets no reply."
  },
  {
   "property": "C19",
   "status": "proved",
   "theorems": [
    "C19_list_exact",
    "C19_list_answered"
   ],
   "note": "The reply is the table at one instant, with the state each session then has."
  },
  {
   "property": "C20",
   "status": "partial",
   "theorems": [
    "C20_replay",
    "C20_no_silent_change",
    "C20_count_partial",
    "C20_count_refuted",
    "C20_announced"
   ],
   "note": "Replaying the events gives the table in every schedule; the count holds unless a kill request repeats a name, which publishes session.removed twice (refuted)."
  },
  {
   "property": "C21",
   "status": "partial",
   "theorems": [
    "C21_at_most_once",
    "C21_paired_partial",
    "C21_not_early",
    "C21_paired_refuted",
    "C21_no_stream_refuted"
   ],
   "note": "At most one attach and one detach event per attachment, and they pair unless the client hangs up in the pager or the stream cannot start: both exceptions are refuted with witnesses."
  },
  {
   "property": "C22",
   "status": "partial",
   "theorems": [
    "C22_reaped_partial",
    "C22_no_ttl_partial",
    "C22_not_early_partial",
    "C22_told",
    "C22_kept",
    "C22_ttl_taken",
    "C22_catches_up_partial",
    "C22_without_ttl_refuted",
    "C22_early_refuted",
    "C22_never_refuted",
    "C22_too_long_refuted"
   ],
   "note": "Reaping acts for the newest TTL session of the name the reaper knows of, never before that one's deadline, and always catches up; refuted where the name was reused without a TTL, where the new registration is unread, where the deadline passes before the session is in the table, and where the TTL is beyond the range of the clock (C22_too_long_refuted; C22_ttl_taken says which TTLs are taken)."
  },
  {
   "property": "C23",
   "status": "partial",
   "theorems": [
    "C23_cleanup_partial",
    "C23_cleanup_refuted"
   ],
   "note": "Cleanup removes only its own session while no other session has taken the name; refuted for the case where the name was reused."
  },
  {
   "property": "C24",
   "status": "partial",
   "theorems": [
    "C24_create_only_if_needed",
    "C24_alone_partial",
    "C24_one_shell_refuted",
    "C24_never_stuck_refuted",
    "C24_quick_second_refuted"
   ],
   "note": "One shell per name when creations do not overlap; overlapping creations are refuted (two shells, deadlock of a shared wait)."
  },
  {
   "property": "C25",
   "status": "partial",
   "theorems": [
    "C25_acks",
    "C25_one_at_a_time",
    "C25_moves_partial",
    "C25_finite",
    "C25_live_partial",
    "C25_answered",
    "C25_orphan",
    "C25_deaf_refuted",
    "C25_wedged_refuted",
    "C25_slow_client_refuted",
    "C25_variables_refuted",
    "C25_kill"
   ],
   "note": "acknowledgements are never misdelivered (C25_acks) and, unless somebody gives up waiting for one, the threads never wait for each other for ever (C25_moves_partial, C25_finite, C25_live_partial). In full the property is false of the code: an acknowledgement wait that times out leaves the session's thread blocked for good (C25_orphan, C25_deaf_refuted), and a detach of that session then blocks the whole daemon (C25_wedged_refuted, C25_slow_client_refuted)"
  },
  {
   "property": "C26",
   "status": "partial",
   "theorems": [
    "C26_exact_update",
    "C26_updates",
    "C26_get",
    "C26_defaults",
    "C26_last_value",
    "C26_broadcast_partial",
    "C26_exited_session_refuted",
    "C26_overtaken_refuted",
    "C26_dropped_refuted"
   ],
   "note": "Exact updates, last value and full broadcast on success proved; refuted: a session whose shell exited makes set fail, broadcasts overtake, a detached session drops the map."
  },
  {
   "property": "C27",
   "status": "partial",
   "theorems": [
    "C27_follows_exactly_changes",
    "C27_switch_is_first_change",
    "C27_switch_attaches_to_denoted",
    "C27_always_at_denoted_partial",
    "C27_second_change_lost_refuted"
   ],
   "note": "client side: exact; refuted: of two maps in flight the second is lost"
  },
  {
   "property": "C28",
   "status": "partial",
   "theorems": [
    "C28_lines",
    "C28_prefix",
    "C28_no_gap",
    "C28_from_acceptance_partial",
    "C28_isolated",
    "C28_no_lost_wakeup",
    "C28_delivers",
    "C28_command",
    "C28_lost_exactly",
    "C28_broken_goes",
    "C28_kept",
    "C28_command_lines",
    "C28_since_accepted_refuted",
    "C28_full_refuted",
    "C28_whole_lines_refuted"
   ],
   "note": "Exact stream of each subscriber proved for every interleaving of publishers, connections, kernel results and the sink; isolation of subscribers, no lost wakeup, delivery in one round. The statement holds from the moment of acceptance except that events still in the channel at that moment are sent too (C28_since_accepted_refuted), an event is lost for all when the channel of 4096 is full (C28_full_refuted) and a subscriber dropped in mid line ends with part of a line (C28_whole_lines_refuted)."
  },
  {
   "property": "C29",
   "status": "proved",
   "theorems": [
    "C29_client_accepts_exactly",
    "C29_daemon_accepts_exactly",
    "C29_client_complaint_is_true",
    "C29_whitespace",
    "C29_join",
    "C29_session_dir_is_direct_child",
    "C29_session_files_inside",
    "C29_directories_distinct",
    "C29_agent_link"
   ],
   "note": ""
  },
  {
   "property": "C30",
   "status": "partial",
   "theorems": [
    "C30_highest_priority_source_wins",
    "C30_only_etc_environment_can_fail",
    "C30_term_rules",
    "C30_agent_is_the_link_partial",
    "C30_session_name_can_be_overridden_refuted",
    "C30_terminfo_matches_shell_refuted",
    "C30_agent_link_missing_refuted"
   ],
   "note": "layering characterised exactly; refuted: SHPOOL_SESSION_NAME overridable, terminfo and TERM may differ, SSH_AUTH_SOCK may name a missing link"
  },
  {
   "property": "C31",
   "status": "proved",
   "theorems": [
    "C31_every_line_counts",
    "C31_one_line",
    "C31_comments_and_blanks",
    "C31_not_utf8_rejected_refuted"
   ],
   "note": "A file that is not UTF-8 is rejected as a whole (C31_not_utf8_rejected_refuted)."
  },
  {
   "property": "C32",
   "status": "proved",
   "theorems": [
    "C32_last_file_wins",
    "C32_malformed_rejects",
    "C32_unreadable_skipped",
    "C32_rejected_reload_changes_nothing",
    "C32_files",
    "C32_documented_directory_refuted"
   ],
   "note": "The TOML parser is an input (each file is unreadable, malformed or a parsed configuration)."
  },
  {
   "property": "C33",
   "status": "partial",
   "theorems": [
    "C33_canonical",
    "C33_add",
    "C33_add_fails",
    "C33_triggers",
    "C33_deadline",
    "C33_in_time",
    "C33_shutdown",
    "C33_coalesced",
    "C33_stays_partial",
    "C33_single_partial",
    "C33_rescan_refuted",
    "C33_shared_refuted",
    "C33_alias_refuted"
   ],
   "note": "Exact triggers, deadline, in-time reload and coalescing proved for every history, provided something above each target can be watched and no symbolic link is on the way. Staying watched is proved for a single file and for turns that set up one target anew; with more it is refuted (a rescan drops the files after the first, two missing files in one directory, two names of one file). In a launched daemon nothing is watched at all: see C69."
  },
  {
   "property": "C34",
   "status": "partial",
   "theorems": [
    "C34_first_attach_then_at_most_once_per_interval",
    "C34_messenger_from_configuration",
    "C34_interval_range",
    "C34_raw_text",
    "C34_raw_text_is_injective",
    "C34_resolver_arguments",
    "C34_dump",
    "C34_attach_goes_on_partial",
    "C34_clock_set_back_refuted",
    "C34_unreadable_message_refuted",
    "C34_dump_after_reload_refuted",
    "C34_huge_interval_refuted",
    "C34_life",
    "C34_reloaded_interval_refuted",
    "C34_dump_comes_before_the_first_output"
   ],
   "note": "Debounce, mode selection, raw conversion, dump and a daemon's whole life of attaches proved; refuted: clock set back or unreadable motd fail the attach, dump after a reload panics, huge interval panics, a reloaded interval is not followed."
  },
  {
   "property": "C35",
   "status": "proved",
   "theorems": [
    "C35_bounded_attempts",
    "C35_without_force",
    "C35_gives_up",
    "C35_only_that_session"
   ],
   "note": ""
  },
  {
   "property": "C36",
   "status": "partial",
   "theorems": [
    "C36_streaming_result",
    "C36_exit_frame_wins",
    "C36_shown_by_then",
    "C36_ends",
    "C36_cut_off",
    "C36_output_shown",
    "C36_no_hang",
    "C36_status_encoding",
    "C36_frames",
    "C36_keeps_running",
    "C36_threads_notice",
    "C36_exits_once",
    "C36_exit_code_partial",
    "C36_refusal_exits_zero_refuted",
    "C36_switch_dropped_refuted",
    "C36_late_exit_frame_refuted"
   ],
   "note": "result characterised for every frame sequence and schedule; refuted: refusals exit 0, a switch with a stuck IO thread exits 1, a late exit frame is missed"
  },
  {
   "property": "C37",
   "status": "proved",
   "theorems": [
    "C37_targets",
    "C37_exit_code"
   ],
   "note": ""
  },
  {
   "property": "C38",
   "status": "partial",
   "theorems": [
    "C38_client_done",
    "C38_waits",
    "C38_alone_partial",
    "C38_by_hand",
    "C38_sequential_partial",
    "C38_concurrent_partial",
    "C38_stale_refuted",
    "C38_window_refuted",
    "C38_lock_refuted"
   ],
   "note": "A client alone (any left-over files), any sequence of launches, kills and stops, and any number of concurrent clients and daemons as long as no probe is refused and no daemon is taken down: exactly one daemon, and it is the one reached. The full claim is false: refuted for two clients finding the same stale socket, for a probe between bind and listen, and the pid-file lock is shown to be released before serving."
  },
  {
   "property": "C39",
   "status": "partial",
   "theorems": [
    "C39_control",
    "C39_by_hand_partial",
    "C39_events_refuted",
    "C39_locked_partial",
    "C39_pid_refuted"
   ],
   "note": "Proved for the running daemon and its control socket under every schedule. The full claim is false: the second daemon removes the events socket (shown for every quiet state), and an automatically launched one also the pid file."
  },
  {
   "property": "C40",
   "status": "partial",
   "theorems": [
    "C40_hangup_first",
    "C40_sigkill_exactly_when_still_running",
    "C40_success",
    "C40_only_own_process_partial",
    "C40_reused_pid_refuted"
   ],
   "note": "exact characterisation of the signals; refuted: a reaped shell's pid may have been reused"
  },
  {
   "property": "C41",
   "status": "proved",
   "theorems": [
    "C41_answer_is_last_observation",
    "C41_false_only_after_full_time",
    "C41_sleeps_follow_the_strategy",
    "C41_terminates",
    "C41_which_strategies_pause",
    "C41_zero_cap_spins_refuted"
   ],
   "note": "for every strategy with non-zero pauses; zero-cap backoff spins (refuted)"
  },
  {
   "property": "C42",
   "status": "partial",
   "theorems": [
    "C42_raw_exactly",
    "C42_restored_partial",
    "C42_restored_up_to_unknown_bits",
    "C42_restored_after_switches",
    "C42_unknown_bits_lost_refuted",
    "C42_noecho_only_echo"
   ],
   "note": "raw exactly; restored on every way out of pipe_bytes; flag bits unknown to the library are lost (refuted); death by signal is outside the model"
  },
  {
   "property": "C43",
   "status": "proved",
   "theorems": [
    "C43_round_trip",
    "C43_every_request",
    "C43_every_reply",
    "C43_skew",
    "C43_ours",
    "C43_reads",
    "C43_text",
    "C43_numbers",
    "C43_names",
    "C43_ignored",
    "C43_stream",
    "C43_defaults",
    "C43_required",
    "C43_refuses",
    "C43_nested_refuted",
    "C43_unknown_variant"
   ],
   "note": "byte-level model of the MessagePack encoding and of the derived serde code for every protocol struct and enum; round trip, cross-version skew at any depth, exactness of decoding and stream independence are proved for all values; C43_required lists the fields that have no default and C43_nested_refuted shows what leaving one out of a nested struct does. Not modelled: the alternative forms rmp_serde would also accept (structs as arrays, numbered variants)"
  },
  {
   "property": "C44",
   "status": "partial",
   "theorems": [
    "C44_buffer_is_delivered_in_frames",
    "C44_reattach_sends_the_restore_buffer",
    "C44_restore_follows_the_configuration_partial",
    "C44_restore_buffer_of_a_session",
    "C44_documented_default_refuted",
    "C44_first_size_misses_the_scrollback_refuted"
   ],
   "note": "Restore buffer selection and delivery proved; refuted: documented default of 10000 lines is 500, first attach size misses the scrollback emulator."
  },
  {
   "property": "C45",
   "status": "partial",
   "theorems": [
    "C45_no_status_before_it_is_recorded",
    "C45_later_calls_see_it",
    "C45_sleepers_are_woken",
    "C45_nobody_sleeps_after",
    "C45_none_only_after_timeout_partial",
    "C45_timeout_can_miss_recorded_exit_refuted",
    "C45_recorded_status",
    "C45_session_status_is_final"
   ],
   "note": "all histories; a timed-out waiter can miss a just recorded status (refuted)"
  },
  {
   "property": "C46",
   "status": "partial",
   "theorems": [
    "C46_reply_partial",
    "C46_not_found_exact",
    "C46_goes_on",
    "C46_answered",
    "C46_no_reply_refuted",
    "C46_starting_refuted",
    "C46_paging_refuted"
   ],
   "note": "Not found exact; every name meets a deserved fate and the reply says which; answered unless a named session has lost its output thread (refuted: no reply); refuted for sessions whose client is still being set up."
  },
  {
   "property": "C47",
   "status": "partial",
   "theorems": [
    "C47_running_pager_owns_the_client_partial",
    "C47_final_size_partial",
    "C47_slot_is_released",
    "C47_failed_start",
    "C47_heartbeat",
    "C47_how_the_pager_ends",
    "C47_pager_killed",
    "C47_output_turn",
    "C47_input_turn",
    "C47_exit_turn",
    "C47_detaches_go_to_the_shell",
    "C47_detach_does_not_reach_the_pager_refuted",
    "C47_resize_while_pager_is_killed_is_lost_refuted"
   ],
   "note": "Ownership, size and release proved; refuted: a detach does not reach the pager and a resize while the pager is killed is lost."
  },
  {
   "property": "C48",
   "status": "partial",
   "theorems": [
    "C48_login_shell",
    "C48_command",
    "C48_refused_exactly_when",
    "C48_norc_partial",
    "C48_sentinel_awaited_exactly_when_partial",
    "C48_injected_text",
    "C48_setup_outcome",
    "C48_nothing_injected",
    "C48_awaited_but_never_printed_refuted",
    "C48_start_command_dropped_refuted",
    "C48_norc_ignored_refuted",
    "C48_echo",
    "C48_descriptors_leak_refuted"
   ],
   "note": "exact characterisation; refuted: sentinel awaited although nothing will print it when injection fails, start command dropped for nu, norc ignored for other shells, only descriptor 3 closed"
  },
  {
   "property": "C49",
   "status": "proved",
   "theorems": [
    "C49_environment",
    "C49_directory",
    "C49_request",
    "C49_rejected_early"
   ],
   "note": ""
  },
  {
   "property": "C50",
   "status": "partial",
   "theorems": [
    "C50_record_changes",
    "C50_new_record",
    "C50_set_when_attaching",
    "C50_cleared_when_leaving_partial",
    "C50_cleared_has_time",
    "C50_other_session_refuted",
    "C50_left_behind_refuted"
   ],
   "note": "Record changes characterised exactly, times proved; clearing goes by name (refuted for a reused name) and a client lost in the pager leaves its record (refuted)."
  },
  {
   "property": "C51",
   "status": "partial",
   "theorems": [
    "C51_prefix_is_substituted_partial",
    "C51_typed_text",
    "C51_prefix_survives_prompt_command",
    "C51_default_prefix",
    "C51_name_is_code_refuted"
   ],
   "note": "substitution exact and inert for names without shell metacharacters; refuted for accepted names with quotes"
  },
  {
   "property": "C52",
   "status": "partial",
   "theorems": [
    "C52_file_reads_back_partial",
    "C52_reading_unique",
    "C52_newline_refuted"
   ],
   "note": "exact for values without line breaks; refuted otherwise"
  },
  {
   "property": "C53",
   "status": "partial",
   "theorems": [
    "C53_stopped_partial",
    "C53_twice",
    "C53_again",
    "C53_other_refuted"
   ],
   "note": "Stop, double signal, and relaunch after stop or crash are proved for a daemon by itself. 'Its own' is false: the files are removed by name, and a daemon cut off from its socket removes another daemon's."
  },
  {
   "property": "C54",
   "status": "partial",
   "theorems": [
    "C54_default_place",
    "C54_sessions_apart",
    "C54_default_apart",
    "C54_files_apart_partial",
    "C54_own_files",
    "C54_one_directory_refuted",
    "C54_relative_refuted"
   ],
   "note": "Session directories are apart for sockets with different hashes (the hash is an argument) and from the default instance; the other files are shared exactly if the sockets lie in one directory (C54_files_apart_partial, refuted: C54_one_directory_refuted), and the same relative path used in two directories shares session directories (C54_relative_refuted)."
  },
  {
   "property": "C55",
   "status": "partial",
   "theorems": [
    "C55_when",
    "C55_same_partial",
    "C55_default_is_absolute",
    "C55_relative_socket_refuted",
    "C55_umask_refuted",
    "C55_start_directory",
    "C55_relative_start_refuted",
    "C55_session_directories_refuted",
    "C55_log",
    "C55_log_options_refuted"
   ],
   "note": "Same sockets, configuration and start directory for absolute paths. Refuted: with a relative socket the daemon listens elsewhere, its shells run with umask 0, and the session directories are elsewhere than under a daemon started by hand. The log file and verbosity given to the launching command do not reach the launched daemon (C55_log_options_refuted)."
  },
  {
   "property": "C56",
   "status": "partial",
   "theorems": [
    "C56_rows",
    "C56_faithful",
    "C56_aligned_partial",
    "C56_aligned_refuted",
    "C56_exit"
   ],
   "note": "Rows, faithfulness and exit code proved; the columns are straight for ASCII names only (C56_aligned_refuted). --json is C66."
  },
  {
   "property": "C57",
   "status": "partial",
   "theorems": [
    "C57_one_value",
    "C57_get",
    "C57_set",
    "C57_list_partial",
    "C57_list_refuted",
    "C57_unset_exits_zero",
    "C57_log_level"
   ],
   "note": "get, set, unset and exit codes proved for every history of the daemon; the text of var list is ambiguous when a value has a line break (C57_list_refuted). --json is C66."
  },
  {
   "property": "C58",
   "status": "partial",
   "theorems": [
    "C58_per_connection",
    "C58_closing",
    "C58_busy",
    "C58_reattach",
    "C58_new_partial",
    "C58_shell_gone",
    "C58_client_gone",
    "C58_new_without_session_refuted",
    "C58_lost_in_pager_refuted",
    "C58_silent_end_refuted",
    "C58_exit_called_hangup_refuted"
   ],
   "note": "Order per connection, busy, reattach and closing calls proved for every schedule. Refuted: a new-session call although the shell could not be started, a client lost in the pager and a session that ends while nobody is attached are never reported, and an exit met by a stream error is reported as a hangup."
  },
  {
   "property": "C59",
   "status": "partial",
   "theorems": [
    "C59_up_to_date_partial",
    "C59_a_signal_is_reported",
    "C59_quiet_is_reachable",
    "C59_reports_are_true",
    "C59_no_change_no_report",
    "C59_change_while_attaching_refuted",
    "C59_unanswered_report_silences_the_rest_refuted"
   ],
   "note": "Exact if reports are heard; refuted for a change during the attach handshake (report answered NotFound and dropped) and for an unanswered report, which silences all later ones."
  },
  {
   "property": "C60",
   "status": "partial",
   "theorems": [
    "C60_inherited_exactly_when",
    "C60_why_not",
    "C60_the_listener_and_what_is_removed_partial",
    "C60_descriptors_kept",
    "C60_meant_for_another_refuted"
   ],
   "note": "Exact characterisation; refuted: LISTEN_PID is not checked, so stale variables take over or close descriptor 3."
  },
  {
   "property": "C61",
   "status": "partial",
   "theorems": [
    "C61_asked_exactly_when",
    "C61_the_answer",
    "C61_other_dials",
    "C61_asked_at_most_once",
    "C61_whole_command",
    "C61_own_path_partial",
    "C61_own_path_refuted",
    "C61_told_exactly",
    "C61_asked_too_late",
    "C61_continue_anyway_refuted"
   ],
   "note": "Exact characterisation; refuted for a program whose own file name ends in ' (deleted)', and for the promise that enter goes on anyway, which fails unless it is given within 200 ms."
  },
  {
   "property": "C62",
   "status": "partial",
   "theorems": [
    "C62_terminal_shows_the_output_partial",
    "C62_terminal_shows_the_shell",
    "C62_reattached_terminal_partial",
    "C62_everything_is_shown",
    "C62_exit_code_is_not_made_up_partial",
    "C62_exit_status_reaches_the_user",
    "C62_detached_user_leaves",
    "C62_daemon_gone",
    "C62_broken_stream",
    "C62_client_forwards_what_is_typed",
    "C62_keystrokes_reach_the_shell_partial",
    "C62_keystrokes_with_bindings",
    "C62_last_words_refuted",
    "C62_status_refuted",
    "C62_thrown_out_refuted"
   ],
   "note": "Prefix, completeness, exit status (of the shell, of a detached client, of one cut off from its daemon) and keystrokes (with bindings) proved across daemon, wire and client; the client's process ends only after what it got is shown. False where output is left in the pty at hang-up (C62_last_words_refuted), the status is not known in time (C62_status_refuted), or the variables take more than 16 KiB (C62_thrown_out_refuted)."
  },
  {
   "property": "C63",
   "status": "partial",
   "theorems": [
    "C63_goes_on_exactly_when_partial",
    "C63_ends_well_exactly_when",
    "C63_answers_are_truthful",
    "C63_closes_only_the_old_client",
    "C63_who_is_attached",
    "C63_client_cannot_stop_it",
    "C63_panics_exactly_when",
    "C63_first_message",
    "C63_heartbeat_error_stops_it_refuted"
   ],
   "note": "Refuted for a heartbeat or switch write failing other than by the client being gone, which ends the thread; a due dump whose mode was reloaded is excluded (C34)."
  },
  {
   "property": "C64",
   "status": "proved",
   "theorems": [
    "C64_goes_on",
    "C64_keystrokes",
    "C64_keystrokes_arrive",
    "C64_ends_with_the_shell",
    "C64_ends_with_the_client",
    "C64_ends_with_a_detach",
    "C64_ends_with_the_heartbeat",
    "C64_ends_with_a_thread",
    "C64_ends_completely",
    "C64_truthful",
    "C64_no_panic",
    "C64_no_error",
    "C64_errors_reported",
    "C64_detach_request",
    "C64_bad_bindings",
    "C64_exit_reported"
   ],
   "note": "For every schedule of the threads, the shell, the client and other requests. Rounds: every thread moves once and what it waits for is not withheld; what happens when it is, is C65."
  },
  {
   "property": "C65",
   "status": "partial",
   "theorems": [
    "C65_freed_partial",
    "C65_unread_input_refuted",
    "C65_exit_unnoticed_refuted",
    "C65_exit_forgotten_refuted",
    "C65_half_started_refuted",
    "C65_half_started_ends"
   ],
   "note": "Missing: C65_unread_input_refuted (a shell that does not read pasted input keeps the session busy after its client left), C65_exit_unnoticed_refuted and C65_exit_forgotten_refuted (an exit racing with the end of the attachment, or with a lost heartbeat answer, is not reported), C65_half_started_refuted (a thread that cannot be started leaves the handler waiting for the client)."
  },
  {
   "property": "C66",
   "status": "proved",
   "theorems": [
    "C66_one_reading",
    "C66_list",
    "C66_list_faithful",
    "C66_vars",
    "C66_exit",
    "C66_events"
   ],
   "note": "serde_json's printer is modelled from its source's documented behaviour (the crate is not in /repo); the reader in Spec/JsonSpec.v is independent of it."
  },
  {
   "property": "C67",
   "status": "proved",
   "theorems": [
    "C67_any_peer",
    "C67_answered",
    "C67_silent",
    "C67_quiet",
    "C67_in_time",
    "C67_final",
    "C67_probe",
    "C67_each_alone",
    "C67_exact",
    "C67_completes",
    "C67_no_daemon",
    "C67_asked"
   ],
   "note": "All schedules, cuts and delays; patience of the deserializer is a hypothesis that any deserializer reading a stream meets."
  },
  {
   "property": "C68",
   "status": "proved",
   "theorems": [
    "C68_cut_off",
    "C68_no_terminal",
    "C68_one",
    "C68_one_start",
    "C68_status",
    "C68_waits",
    "C68_pid_file",
    "C68_alone",
    "C68_goes_on",
    "C68_fails_only",
    "C68_lock_held",
    "C68_killed"
   ],
   "note": "Every schedule of any number of launches, with every failure, kill, short write and left-over pid file. Process numbers are not reused; the kernel's fork, setsid, flock and terminal rules are those of the manual pages."
  },
  {
   "property": "C69",
   "status": "partial",
   "theorems": [
    "C69_by_hand_partial",
    "C69_locks_by_hand",
    "C69_launched",
    "C69_launched_refuted",
    "C69_stuck",
    "C69_stuck_refuted"
   ],
   "note": "Proved for daemons started by hand. Refuted for launched ones: the thread that watches the files is lost in the fork, so the configuration stays what it was (C69_launched, for every continuation), and a lock it held at the fork is held for ever (C69_stuck)."
  },
  {
   "property": "C70",
   "status": "proved",
   "theorems": [
    "C70_only_due",
    "C70_noted",
    "C70_wakes",
    "C70_in_time",
    "C70_once",
    "C70_heap",
    "C70_ends"
   ],
   "note": "Every sequence of messages and wake-ups, with the heap of the standard library written out. What ending a session does is C22."
  },
  {
   "property": "C71",
   "status": "partial",
   "theorems": [
    "C71_user",
    "C71_reading",
    "C71_text",
    "C71_names",
    "C71_home",
    "C71_here",
    "C71_given_partial",
    "C71_relative",
    "C71_not_text_refuted",
    "C71_relative_refuted",
    "C71_long_entry_refuted"
   ],
   "note": "Exact for text: home, '.', absolute directories, user, shell; how other bytes are read. Refuted: directories that are not UTF-8, relative directories, entries beyond 4 KiB."
  },
  {
   "property": "C72",
   "status": "partial",
   "theorems": [
    "C72_written",
    "C72_meanwhile",
    "C72_gets_through",
    "C72_locked",
    "C72_own_files",
    "C72_nothing_else",
    "C72_kept",
    "C72_private",
    "C72_umask_partial",
    "C72_private_refuted",
    "C72_two_at_once",
    "C72_mixed_refuted",
    "C72_in_the_way_refuted"
   ],
   "note": "Proved for every interleaving of attaches of different names: what the two files hold after an attach, meanwhile and after a failure; other sessions' files untouched; success in a bounded number of steps; what is below a shut directory stays private; the directory is shut for clients with an agent; private under a covering umask. Refuted: a daemon launched by a client has an empty umask, and for a client without an agent nothing else keeps others from reading and changing the forwarded variables; two attaches of one name at once (C72_two_at_once) can mix the file or get in each other's way (C72_mixed_refuted, C72_in_the_way_refuted)."
  },
  {
   "property": "C73",
   "status": "partial",
   "theorems": [
    "C73_nothing_done",
    "C73_who_gets_through",
    "C73_owner",
    "C73_events_private_partial",
    "C73_numbers",
    "C73_conversations",
    "C73_events_refuted"
   ],
   "note": "The control socket is proved for every caller, the superuser included; who can get to a socket is characterised exactly, and the events socket is private below a shut directory or with a umask that takes writing. Refuted: a launched daemon has no umask and the events socket has no check of its own."
  },
  {
   "property": "C74",
   "status": "partial",
   "theorems": [
    "C74_follows_partial",
    "C74_agrees",
    "C74_can_settle",
    "C74_under_the_pager",
    "C74_new_session",
    "C74_next_change",
    "C74_overtaken_refuted",
    "C74_closing_pager_refuted"
   ],
   "note": "Proved: once the client has been handed over and every change reported and answered, the window is the terminal's or will be within the 50 ms delay (C74_follows_partial, C74_agrees), the way there is open (C74_can_settle), new sessions without a pager need no condition (C74_new_session), and after the attach the next change puts anything right (C74_next_change). Refuted: a report answered before the hand-over, or by a closing pager, is undone by the older size of the request."
  },
  {
   "property": "C75",
   "status": "partial",
   "theorems": [
    "C75_found_or_not",
    "C75_let_go_partial",
    "C75_nobody_refuted",
    "C75_gone_refuted",
    "C75_starting_refuted"
   ],
   "note": "Exactly when each answer comes and exactly what changes (C75_found_or_not, C75_let_go_partial); false where the answer is the same although nobody was attached, the session has gone, or its client is only being set up."
  },
  {
   "property": "C76",
   "status": "proved",
   "theorems": [
    "C76_from_the_start",
    "C76_otherwise_untouched",
    "C76_by_itself",
    "C76_attach",
    "C76_detach",
    "C76_message",
    "C76_end",
    "C76_exit",
    "C76_detached_was_told"
   ],
   "note": "The detailed model of the output thread (C12, C63) and the daemon's interleaving model (C15 to C26, C46, C75) simulate each other in step: C76_from_the_start, C76_otherwise_untouched, C76_by_itself, C76_attach, C76_detach, C76_message, C76_end, C76_exit; C76_detached_was_told says what the detached client got. A thread blocked for good by an answer nobody takes (C25) deals with nothing any more and is not covered."
  },
  {
   "property": "C77",
   "status": "proved",
   "theorems": [
    "C77_agree",
    "C77_takes_messages",
    "C77_acts",
    "C77_in_time"
   ],
   "note": "a simulation between the daemon's account of deadlines and the detailed reaper thread; what is refuted about time-outs (clamping at startup, attached sessions) is under C22 and C70"
  },
  {
   "property": "C78",
   "status": "proved",
   "theorems": [
    "C78_typed_detach",
    "C78_whole_end"
   ],
   "note": "C64 and C76 composed: any schedule of the attachment's threads, any state of the daemon and of the output thread"
  },
  {
   "property": "C79",
   "status": "partial",
   "theorems": [
    "C79_sessions",
    "C79_status_partial",
    "C79_catches_up",
    "C79_status_left_refuted",
    "C79_status_came_refuted",
    "C79_status_pager_refuted",
    "C79_connected_refuted"
   ],
   "note": "Which sessions there are, and since when, is proved for every schedule of the daemon and its event thread; so is whether they are attached, if no attach is being set up or let go at the moment of the listing. Refuted: the status when the listing falls between an event and the change it announces, or when a client is lost in the pager; and that connecting to the socket is enough."
  },
  {
   "property": "C80",
   "status": "proved",
   "theorems": [
    "C80_asked_once",
    "C80_no_target",
    "C80_list",
    "C80_kill",
    "C80_detach",
    "C80_var_list",
    "C80_var_get",
    "C80_var_set",
    "C80_arrives",
    "C80_ends",
    "C80_no_target_ends",
    "C80_served",
    "C80_list_served",
    "C80_failed_kill_harmless_refuted"
   ],
   "note": "Client, connection and daemon in one model, every schedule. The refuted theorem says only that a kill that fails without a word may have ended a shell (C18); the claim does not deny it."
  },
  {
   "property": "C81",
   "status": "proved",
   "theorems": [
    "C81_words",
    "C81_sent",
    "C81_record",
    "C81_program",
    "C81_file",
    "C81_starts",
    "C81_writes",
    "C81_silent",
    "C81_status",
    "C81_level",
    "C81_shared_refuted",
    "C81_confirmed_refuted"
   ],
   "note": "The record, where it goes, the level and the six words hold in full; C81_shared_refuted and C81_confirmed_refuted show what a shared file and a filter that cannot be changed do. Span entries, failed writes and the form of an entry are not modelled."
  },
  {
   "property": "C82",
   "status": "proved",
   "theorems": [
    "C82_version",
    "C82_word",
    "C82_in_order",
    "C82_no_home",
    "C82_command_last",
    "C82_launched",
    "C82_no_name",
    "C82_failing_changes_nothing_refuted"
   ],
   "note": "proved for every environment, command line and outcome of each step; what the steps do is in other models"
  },
  {
   "property": "C83",
   "status": "proved",
   "theorems": [
    "C83_served",
    "C83_clean",
    "C83_why",
    "C83_ends",
    "C83_told",
    "C83_nothing_else",
    "C83_taken",
    "C83_idle",
    "C83_silent",
    "C83_last_words_refuted",
    "C83_own_file_refuted"
   ],
   "note": "proved for every history; events published just before the stop are not promised (C83_last_words_refuted), nor that only the daemon's own file is removed (C83_own_file_refuted)"
  }
 ]
}