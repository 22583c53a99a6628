{"claims": [
{"property": "C01", "status": "proved", "theorems": ["C01_split_safe"], "note": "None outcome of the model = back() on an empty vector."},
{"property": "C02", "status": "proved", "theorems": ["C02_quoting_round_trip", "C02_quoting_any"], "note": "Empty arguments are dropped by the code: C02_quoting_any states exactly what happens."},
{"property": "C03", "status": "proved", "theorems": ["C03_split_grammar", "C03_reading_exists", "C03_reading_unique"], "note": ""},
{"property": "C04", "status": "proved", "theorems": ["C04_blank_feed", "C04_blank_line", "C04_leading_blanks", "C04_trailing_blanks", "C04_separator"], "note": ""},
{"property": "C05", "status": "proved", "theorems": ["C05_unsigned_exact", "C05_nonascii_ub"], "note": "For ASCII tokens, or any token where char is unsigned; C05_nonascii_ub shows the undefined behaviour outside that domain."},
{"property": "C06", "status": "proved", "theorems": ["C06_signed_exact", "C06_strict_ub", "C06_all_types"], "note": "Wrapping overflow (or types narrower than int); C06_strict_ub shows that under strict C++ rules every negative int/long/long long is undefined behaviour."},
{"property": "C07", "status": "proved", "theorems": ["C07_unsigned_round_trip", "C07_signed_round_trip"], "note": "Printer: the standard library's decimal printer."},
{"property": "C08", "status": "proved", "theorems": ["C08_bool_exact", "C08_char_exact", "C08_string_exact"], "note": ""},
{"property": "C09", "status": "proved", "theorems": ["C09_float_exact", "C09_custom_exact", "C09_custom_no_ub"], "note": "stof/stod/stold and the user's operator>> are oracles."},
{"property": "C10", "status": "proved", "theorems": ["C10_history_bounded"], "note": ""},
{"property": "C11", "status": "proved", "theorems": ["C11_listing", "C11_found_by_id", "C11_unlisted_id", "C11_empty_lookup_ub", "C11_numbers", "C11_ids_stable", "C11_ids_stable_browsing", "C11_new_id_larger"], "note": "C11_empty_lookup_ub: looking an id up in an empty history is undefined behaviour in some cases."},
{"property": "C12", "status": "proved", "theorems": ["C12_navigation", "C12_edit_kept", "C12_down_refuted", "C12_evicts_refuted"], "note": ""},
{"property": "C13", "status": "proved", "theorems": ["C13_newest_is_last_entered", "C13_no_repeats", "C13_edited_refuted"], "note": "C13_edited_refuted: editing recalled entries can create adjacent equal entries."},
{"property": "C14", "status": "proved", "theorems": ["C14_stored", "C14_plain_session", "C14_exact_refuted"], "note": "C14_exact_refuted: with repeats the newest entries are not exactly the commands of the session."},
{"property": "C15", "status": "proved", "theorems": ["C15_no_out_of_bounds", "C15_size_zero_refuted"], "note": "C15_size_zero_refuted: history size 0 is undefined behaviour."},
{"property": "C16", "status": "proved", "theorems": ["C16_recall", "C16_recall_view", "C16_oldest_refuted", "C16_first_refuted"], "note": "C16_oldest_refuted: the oldest entry of a full history is listed but evicted by the recall line; C16_first_refuted: a recall as first command is undefined behaviour."},
{"property": "C17", "status": "proved", "theorems": ["C17_volatile_recent"], "note": ""},
{"property": "C18", "status": "proved", "theorems": ["C18_file_ideal", "C18_file_recent", "C18_line_feed_refuted", "C18_limit_refuted"], "note": "C18_line_feed_refuted: commands containing a line feed are split."},
{"property": "C19", "status": "proved", "theorems": ["C19_crash_prefix", "C19_no_crash", "C19_atomic_refuted"], "note": "The first disjunct is false (C19_atomic_refuted); the prefix guarantee is proved. No I/O errors, bytes reach the file in order."},
{"property": "C20", "status": "proved", "theorems": ["C20_line_editor", "C20_line_editor_step"], "note": ""},
{"property": "C21", "status": "proved", "theorems": ["C21_no_out_of_range"], "note": ""},
{"property": "C22", "status": "proved", "theorems": ["C22_session", "C22_eof_refuted", "C22_display", "C22_display_step", "C22_return", "C22_clear"], "note": "C22_session covers whole interactive sessions but end of file; C22_eof_refuted: Ctrl-D does not move to a new row, so what exit actions print follows the edited text."},
{"property": "C23", "status": "proved", "theorems": ["C23_common_prefix", "C23_empty_ub"], "note": ""},
{"property": "C24", "status": "proved", "theorems": ["C24_increasing", "C24_no_duplicates"], "note": ""},
{"property": "C25", "status": "proved", "theorems": ["C25_exact", "C25_paths", "C25_extends", "C25_invocable"], "note": "Texts like 'submenufoo' (no blank) complete to 'submenu foo'. C25_invocable needs all menus enabled and plain names."},
{"property": "C26", "status": "proved", "theorems": ["C26_terminates", "C26_total", "C26_empty_names_refuted", "C26_nonascii_refuted"], "note": "C26_empty_names_refuted: nested menus with empty names recurse for ever; C26_nonascii_refuted: isspace of a negative char is undefined behaviour."},
{"property": "C27", "status": "proved", "theorems": ["C27_hidden_from_completion", "C27_completion_enabled", "C27_contents_refuted", "C27_hidden_from_resolution", "C27_hidden_from_execution", "C27_hidden_from_help"], "note": "The last part, for contents of a disabled submenu, is refuted (C27_contents_refuted)."},
{"property": "C28", "status": "proved", "theorems": ["C28_resolution", "C28_resolution_unique", "C28_run", "C28_free", "C28_goto", "C28_history"], "note": "User-defined Command subclasses: see C80."},
{"property": "C29", "status": "proved", "theorems": ["C29_one_call", "C29_one_call_all", "C29_bad_cast_refuted"], "note": "C29_bad_cast_refuted: a handler throwing std::bad_cast makes the next match run as well."},
{"property": "C30", "status": "proved", "theorems": ["C30_unmatched"], "note": ""},
{"property": "C31", "status": "proved", "theorems": ["C31_no_escape", "C31_reported_once"], "note": ""},
{"property": "C32", "status": "proved", "theorems": ["C32_listing_faithful", "C32_operations", "C32_insert_fresh", "C32_removed_for_good", "C32_gone_no_effect", "C32_enable_restores"], "note": "Handlers are used while their menu tree is alive; inserting into a destroyed menu is not modelled."},
{"property": "C33", "status": "proved", "theorems": ["C33_current_menu_live", "C33_sound", "C33_removed_refuted"], "note": "C33_removed_refuted: removing the menu the session is in leaves it dangling."},
{"property": "C34", "status": "proved", "theorems": ["C34_terminates", "C34_recall_terminates", "C34_no_recalls", "C34_loop_refuted"], "note": "C34_loop_refuted: a stored entry recalling itself makes Feed recurse for ever."},
{"property": "C35", "status": "proved", "theorems": ["C35_path", "C35_path_or_steps", "C35_disabled_refuted"], "note": "The words of the path name only the menus meant (nav_step) and no global command."},
{"property": "C36", "status": "proved", "theorems": ["C36_prompt", "C36_text", "C36_prompt_screen", "C36_no_prompt"], "note": ""},
{"property": "C37", "status": "proved", "theorems": ["C37_exit", "C37_enter", "C37_exit_command", "C37_stays_exited", "C37_exited_by_action", "C37_empty_action_refuted", "C37_again_refuted"], "note": "C37_empty_action_refuted: when the exit action was set to an empty function, exit throws bad_function_call and the session goes on."},
{"property": "C38", "status": "proved", "theorems": ["C38_script", "C38_lines", "C38_exit_once", "C38_last_line_refuted", "C38_eof_twice_refuted", "C38_replaced_action_refuted"], "note": "For a stream that is good at Start and the constructor's own exit action; otherwise see the refutations: end of file already reached (actions twice), exit action replaced (endless loop), unterminated last line."},
{"property": "C39", "status": "proved", "theorems": ["C39_broadcast", "C39_defined", "C39_formatted", "C39_shared_refuted", "C39_format_refuted"], "note": "Single characters (std::endl) are written with formatted output: C39_format_refuted for streams with a pending width or an error; C39_shared_refuted for two sessions on one stream; C39_formatted gives the text received in all these cases."},
{"property": "C40", "status": "proved", "theorems": ["C40_segmentation"], "note": "Key events and replies; what the session does with the keys of one chunk after an exit is in C55."},
{"property": "C41", "status": "proved", "theorems": ["C41_data", "C41_keys", "C41_interrupted", "C41_nop_refuted"], "note": "Beyond well-formed streams: C41_interrupted; C41_nop_refuted: a command such as NOP inside a negotiation or sub-negotiation ends it, and what follows is taken as typed."},
{"property": "C42", "status": "proved", "theorems": ["C42_replies", "C42_table", "C42_option10_refuted", "C42_loop_refuted"], "note": "C42_option10_refuted: the reply about option 10 is passed through the newline encoder. C42_loop_refuted: DO ECHO is answered by DO ECHO."},
{"property": "C43", "status": "proved", "theorems": ["C43_output", "C43_cutting", "C43_bytes", "C43_ff_refuted"], "note": "C43_ff_refuted: byte 255 is not doubled."},
{"property": "C44", "status": "proved", "theorems": ["C44_keys", "C44_resync", "C44_total", "C44_sequences", "C44_other_refuted"], "note": "C44_other_refuted: data byte 255 acts as Ctrl-D, ESC [ x ~ as Delete for other x. C44_total and C44_sequences describe the decoding of all byte sequences."},
{"property": "C45", "status": "proved", "theorems": ["C45_keys", "C45_telnet", "C45_typed", "C45_finite", "C45_total", "C45_sequences", "C45_other_refuted", "C45_ended_refuted", "C45_signal_refuted"], "note": "KeyboardModel: keyboard thread, main thread, typing, other readers and signals as a transition system. Refuted beyond the stated conditions: other escape sequences (C45_other_refuted; all of them are described by C45_total and C45_sequences), end of input (C45_ended_refuted), a signal (C45_signal_refuted)."},
{"property": "C46", "status": "proved", "theorems": ["C46_fifo", "C46_posted", "C46_once", "C46_order", "C46_overtaken_refuted"], "note": "SchedulerModel: any number of threads, any interleaving of atomic accesses, nested executions and throwing tasks. C46_overtaken_refuted: with two executing threads a task can be started before an earlier one."},
{"property": "C47", "status": "proved", "theorems": ["C47_wakes", "C47_quiescent", "C47_finite"], "note": "Condition variable with notify_all and spurious wake-ups; invariant plus a decreasing measure."},
{"property": "C48", "status": "proved", "theorems": ["C48_final", "C48_false", "C48_stop", "C48_only", "C48_returns_false", "C48_returns", "C48_run", "C48_in_flight_refuted"], "note": "C48_in_flight_refuted: a task taken before Stop can be started after Stop has returned."},
{"property": "C49", "status": "proved", "theorems": ["C49_at_most_one", "C49_conserved", "C49_constructor", "C49_none_refuted"], "note": "C49_none_refuted: the first key typed for a running command is taken by the keyboard thread."},
{"property": "C50", "status": "proved", "theorems": ["C50_bounded", "C50_ends", "C50_deactivated_refuted", "C50_escape_refuted", "C50_signal_refuted"], "note": "Refuted without the conditions: C50_deactivated_refuted, C50_escape_refuted, C50_signal_refuted."},
{"property": "C51", "status": "proved", "theorems": ["C51_help"], "note": ""},
{"property": "C52", "status": "proved", "theorems": ["C52_results", "C52_kept", "C52_refuted"], "note": "C52_refuted: without the condition on names, TAB turns 'abcd' into 'a b c'."},
{"property": "C53", "status": "proved", "theorems": ["C53_reenabled", "C53_off_during_commands", "C53_bracket", "C53_handler_throws_refuted"], "note": "C53_handler_throws_refuted: when the user's exception handler throws, input stays off."},
{"property": "C54", "status": "proved", "theorems": ["C54_opened", "C54_stored", "C54_across_sessions"], "note": ""},
{"property": "C55", "status": "proved", "theorems": ["C55_session", "C55_eof", "C55_exit", "C55_no_action_refuted", "C55_twice_refuted", "C55_reset_refuted", "C55_after_refuted"], "note": "When the application set the server's exit action (and the socket can be shut down); otherwise see C55_no_action_refuted, C55_reset_refuted. C55_twice_refuted: two Ctrl-D in one read make Run throw; C55_after_refuted: lines after exit in the same read are executed."},
{"property": "C56", "status": "proved", "theorems": ["C56_same", "C56_same_on", "C56_screen", "C56_off", "C56_again_refuted", "C56_escape_refuted"], "note": "C56_same/C56_same_on: relational proof over the whole session model (feed, completion, editor). C56_screen: equal screens. C56_off: no codes before colours are ever on. Refuted variants: codes still written after switching off (C56_again_refuted); a line with an escape character looks different (C56_escape_refuted)."},
{"property": "C57", "status": "proved", "theorems": ["C57_feed_defined", "C57_feeds_defined", "C57_open_healthy"], "note": ""},
{"property": "C59", "status": "proved", "theorems": ["C59_editing", "C59_line_fed"], "note": ""},
{"property": "C58", "status": "proved", "theorems": ["C58_keys_defined", "C58_up_refuted", "C58_loop_refuted"], "note": "C58_up_refuted, C58_loop_refuted: pressing Up on an edited '!n' saves it in the history, after which recalls read an empty history (undefined behaviour) or recurse for ever."},
{"property": "C60", "status": "proved", "theorems": ["C60_alive", "C60_gone"], "note": ""},
{"property": "C61", "status": "proved", "theorems": ["C61_order", "C61_replies", "C61_complete"], "note": ""},
{"property": "C62", "status": "proved", "theorems": ["C62_modes", "C62_restored", "C62_twice_refuted", "C62_lost_refuted"], "note": "C62_twice_refuted: activated twice the mode is lost. C62_lost_refuted: a mode set by a command that ends the session is lost."},
{"property": "C63", "status": "proved", "theorems": ["C63_alone", "C63_same", "C63_menus_refuted", "C63_removed_refuted"], "note": "C63_alone: every session of every run of the server is simulated by the same session alone (relational proof over the session model, SimulationProofs). C63_same: equal keys give equal output. Refuted without fixed menus: C63_menus_refuted; C63_removed_refuted (undefined behaviour in a session whose menu another session removes)."},
{"property": "C64", "status": "proved", "theorems": ["C64_lines", "C64_chunks", "C64_end", "C64_alive", "C64_gone", "C64_unterminated_refuted", "C64_enter_refuted", "C64_exit_refuted", "C64_destroyed_refuted", "C64_throws_refuted"], "note": "AsyncModel: the pending async_read_until, the stream buffer and the handlers as environment steps. Refuted expectations: a last line without newline is dropped and end of input runs no exit action (C64_unterminated_refuted), enter actions never run (C64_enter_refuted), lines after exit are run (C64_exit_refuted), destruction while waiting is a use after free (C64_destroyed_refuted), an exception leaving Feed stops the session (C64_throws_refuted)."},
{"property": "C65", "status": "proved", "theorems": ["C65_keys", "C65_reading", "C65_shutdown", "C65_other_refuted", "C65_function_refuted", "C65_symbol_refuted"], "note": "WinKeyboardModel: two threads and the console as one transition system; Windows calls as stated there. Refuted expectations: a key release or mouse record makes the thread wait in _getch, and the destructor until another key (C65_other_refuted); function keys type two characters, the second late (C65_function_refuted); character 224 swallows a key (C65_symbol_refuted)."},
{"property": "C66", "status": "proved", "theorems": ["C66_fifo", "C66_once", "C66_order", "C66_runs", "C66_external", "C66_final", "C66_stop", "C66_quiescent", "C66_finite", "C66_exceptions", "C66_work", "C66_ends", "C66_idle_refuted", "C66_empty_refuted", "C66_race_refuted"], "note": "AsioSchedModel: the scheduler's functions over asio's documented state (ready handlers, stopped flag, outstanding work), which is trusted. Refuted expectations: calling PollOne, ExecOne or Run while the application's context is idle stops it for good (C66_idle_refuted); an empty task makes Run throw (C66_empty_refuted); Stop from two threads races on the work guard (C66_race_refuted)."},
{"property": "C67", "status": "proved", "theorems": ["C67_order", "C67_state", "C67_typed", "C67_finite", "C67_gone", "C67_ub", "C67_input", "C67_lines", "C67_eof_refuted", "C67_destroyed_refuted", "C67_exception_refuted"], "note": "LocalModel: keyboard (C45), scheduler queue and command processor (C53) together. Refuted expectations: the session destroyed while keys are queued is used by the scheduler afterwards (C67_destroyed_refuted); an exception leaving a command leaves input off, at most one more key is handled and the session cannot be destroyed (C67_exception_refuted); exit actions run by Ctrl-D run with input active and no echo (C67_eof_refuted)."},
{"property": "C68", "status": "proved", "theorems": ["C68_begin", "C68_accepting", "C68_connect", "C68_enter_action_refuted", "C68_throw_refuted"], "note": "Refuted expectations: the action given to EnterAction of a telnet server is never called (C68_enter_action_refuted); if the global enter action throws for one client, the server never accepts another (C68_throw_refuted)."},
{"property": "C69", "status": "proved", "theorems": ["C69_destroyed", "C69_sessions", "C69_running_refuted"], "note": "Refuted expectation: a server may be destroyed while its scheduler runs (C69_running_refuted: not even one nobody connected to). asio documents that destroying an acceptor makes the handlers of pending accepts run with operation_aborted."},
{"property": "C70", "status": "proved", "theorems": ["C70_fits", "C70_any", "C70_full_row", "C70_wrapped_refuted"], "note": "Refuted expectation: lines longer than the row can be edited (C70_wrapped_refuted: the user sees '> abcd' above an empty row while the line is 'abc')."},
{"property": "C71", "status": "proved", "theorems": ["C71_marks", "C71_model", "C71_format", "C71_once", "C71_redirect_refuted", "C71_term_refuted", "C71_hex_refuted"], "note": "Refuted expectations: redirecting std::cout before the first output (C71_redirect_refuted), setting TERM later (C71_term_refuted), a command leaving std::hex set (C71_hex_refuted). C71_model shows that the functions of TerminalModel.v used for sessions are these."},
{"property": "C72", "status": "proved", "theorems": ["C72_serial", "C72_last", "C72_bytes", "C72_lost_refuted", "C72_mixed_refuted", "C72_clear_refuted"], "note": "Refuted without the conditions: two processes ending together lose commands (C72_lost_refuted), commands nobody entered appear (C72_mixed_refuted, C72_clear_refuted)."},
{"property": "C73", "status": "proved", "theorems": ["C73_real_exact", "C73_unique", "C73_integers", "C73_limits", "C73_formats", "C73_every", "C73_tiny_refuted", "C73_words_refuted"], "note": "Library functions stof/stod/stold as in libstdc++/glibc on x86-64 (C locale, round to nearest). Refuted expectations: small numbers are refused (C73_tiny_refuted), words such as nan are accepted (C73_words_refuted). C09 states the same code for an arbitrary library function."},
{"property": "C74", "status": "proved", "theorems": ["C74_conservative", "C74_conservative_calls", "C74_fuel", "C74_later", "C74_exit", "C74_prompt", "C74_escape", "C74_run", "C74_macro", "C74_safe", "C74_loop_refuted", "C74_record_refuted", "C74_empty_refuted"], "note": "User code is a program of operations and calls that sees all answers. Without calls the model is that of SessionModel.v (C74_conservative). Refuted expectations: a command feeding its own line and an exit action calling Exit never end (C74_loop_refuted); a command calling ExecFromHistory deletes its own line from the history (C74_record_refuted), and on an empty history it is undefined behaviour (C74_empty_refuted). Prompt from user code: C74_prompt; setting actions: C94. Not covered: GetCompletions and OutStream from user code, which are constant."},
{"property": "C75", "status": "proved", "theorems": ["C75_salvaged", "C75_recent", "C75_unwritable", "C75_conservative", "C75_unnoticed", "C75_kept_refuted", "C75_command_refuted"], "note": "Assumes that what reaches the file is a prefix of what was written, and that streams do not throw (their default). Refuted expectations: commands in the file survive as long as there is room and writing succeeds (C75_kept_refuted: the file could not be opened for reading); every line in the file is a command that was entered (C75_command_refuted: half a command after a full disk)."},
{"property": "C76", "status": "proved", "theorems": ["C76_built", "C76_exact", "C76_released", "C76_gone", "C76_commands", "C76_texts", "C76_completions", "C76_cycle_refuted"], "note": "Addresses are never used again in the model (weak pointers do not compare addresses). Sessions that stay in a menu that is destroyed: see C33. Refuted expectation: what nobody owns is freed, whatever the program does (C76_cycle_refuted: a menu moved into itself)."},
{"property": "C77", "status": "proved", "theorems": ["C77_insertions", "C77_texts", "C77_history", "C77_codes", "C77_usable", "C77_default", "C77_hex_refuted"], "note": "Streams in a good state with the classic locale; strings and numbers are inserted as the C++ standard says. Refuted expectation: the numbers shown by 'history' are those that '!' takes (C77_hex_refuted: after a command that leaves std::hex, 10 is shown for entry 16, and '! 10' runs entry 10)."},
{"property": "C78", "status": "proved", "theorems": ["C78_rules", "C78_faults", "C78_move", "C78_parts", "C78_functions", "C78_moved_while_open_refuted", "C78_handlers_lost_refuted", "C78_outlived_refuted", "C78_menus_gone", "C78_orphaned_refuted", "C78_open_moved_from_refuted"], "note": "Operations happen between calls: user code that moves or destroys objects while a session runs is not modelled. Moved-from std::function objects are empty, as in libstdc++. Broadcasts are not part of what a session prints (C39): they reach the sessions of all Cli objects. Refuted: a Cli may be moved while sessions are open (C78_moved_while_open_refuted: exit dereferences a null pointer; C78_handlers_lost_refuted), destroyed or replaced (C78_outlived_refuted), or used after it was moved from (C78_open_moved_from_refuted)."},
{"property": "C79", "status": "proved", "theorems": ["C79_stream", "C79_order", "C79_before", "C79_shut", "C79_protocol", "C79_goodbye_refuted"], "note": "Bytes written to an open socket count as sent; they may be lost when the connection breaks. The stream has no pending width and no error state. Refuted: the client sees what the global exit action prints (C79_goodbye_refuted): the session's own action has closed the socket before. Enter is echoed as CR LF and so sent as CR CR LF (in C79_nonvacuous)."},
{"property": "C80", "status": "proved", "theorems": ["C80_offers", "C80_offers_unique", "C80_completions", "C80_inert", "C80_orphan", "C80_leave_refuted", "C80_library"], "note": "User commands run arbitrary code; if they change menus while declining the line, iterators of the loops are invalid, which counts as undefined behaviour of the command. Help and completions of a command are taken as constants while one line is handled. Refuted: a menu that can be entered can be left (C80_leave_refuted), for a menu inserted as a Command. Menus never ask IsEnabled of a command: a user class must look at it itself (nothing in C80_offers depends on it)."},
{"property": "C81", "status": "proved", "theorems": ["C81_session", "C81_unique", "C81_text", "C81_recall_refuted", "C81_answer_refuted"], "note": "The theorem takes signed overflow as wrapping; refuted otherwise for 'answer -2147483648' (C81_answer_refuted). Refuted: '! n' as the first command is undefined behaviour (C81_recall_refuted), since it is removed from the history first and the lookup in the empty history reads out of bounds; later ones are always answered by the message, since the history of a file session keeps one command only. pluginmanager.cpp as a whole is C91, complete.cpp C86 and C87, asyncsession.cpp C88, the two examples with an io_context C92."},
{"property": "C82", "status": "proved", "theorems": ["C82_linearizable", "C82_observed", "C82_stopped_true", "C82_stopped_false", "C82_stop_returned", "C82_run_returns", "C82_exec_false"], "note": "The ideal scheduler is LinearSpec.v; returns are seen when the mutex is released, the earliest moment, which makes the statement strongest. That calls return at all is C47 and C48."},
{"property": "C83", "status": "proved", "theorems": ["C83_members", "C83_publish", "C83_numbers", "C83_traced", "C83_tasks_refuted"], "note": "Happens-before is defined in RaceSpec.v on executions, independently of the model. With no race in any interleaving, the C++ standard allows no other executions, which is what SchedulerModel.v and all properties over it (C46 to C48, C82) assume. C83_tasks_refuted: two threads running the scheduler let tasks race."},
{"property": "C84", "status": "proved", "theorems": ["C84_session", "C84_traced", "C84_freed", "C84_queue", "C84_elsewhere_refuted"], "note": "The order of the members matters (servant is the last, so it finds a constructed mutex and condition variable, and is joined before they go), and Register comes after the thread was started: harmless only because keys wait for the scheduler, run by the same thread. C84_elsewhere_refuted has the race with a scheduler run elsewhere. User code that starts threads of its own is outside."},
{"property": "C85", "status": "proved", "theorems": ["C85_refines", "C85_order", "C85_state", "C85_typed", "C85_finite", "C85_stop", "C85_gone", "C85_stopped_first", "C85_ub", "C85_input", "C85_after_stop_refuted", "C85_stop_late_refuted"], "note": "C67 is about the session with a queue seen from outside; here the queue is the scheduler itself (SchedulerModel.v), and C85_refines is the refinement between them. C85_after_stop_refuted: a key is handled after Stop returned to another thread. C85_stop_late_refuted: stopping the scheduler after the session was destroyed, and a key was taken, does not prevent the use of the destroyed session."},
{"property": "C86", "status": "proved", "theorems": ["C86_refines", "C86_unique", "C86_toggle", "C86_sum_refuted", "C86_saved_refuted", "C86_endless_refuted"], "note": "Lines are given whole (keys: C85 and the properties of the command processor; network: ServerModel.v). C86_sum_refuted: add 2147483647 1 is undefined behaviour. C86_saved_refuted: when the local user exits, the lines of the other sessions are not saved. C86_endless_refuted: a saved line can recall itself, then a recall never returns."},
{"property": "C87", "status": "proved", "theorems": ["C87_refines", "C87_keys", "C87_starts", "C87_unique", "C87_late_refuted", "C87_crash_refuted", "C87_endless_refuted"], "note": "The local keyboard's thread only posts keys here (C67, C84, C85 have the rest). C87_endless_refuted: a client makes the program recurse for ever by rewriting a remembered line with Up so that it recalls itself. C87_late_refuted: lines sent together with exit are still done after it. C87_crash_refuted: a client ends the whole program by sending Ctrl-D together with exit."},
{"property": "C88", "status": "proved", "theorems": ["C88_program", "C88_unique", "C88_exits", "C88_same", "C88_hangs", "C88_end_refuted", "C88_recall_refuted"], "note": "Refuted: the program ends at the end of its input (C88_end_refuted, C88_hangs): the work guard keeps Run waiting; a recall as the first line is undefined behaviour (C88_recall_refuted), as in C81."},
{"property": "C89", "status": "proved", "theorems": ["C89_same", "C89_attribute", "C89_names", "C89_dialogue", "C89_control", "C89_undefined", "C89_defined", "C89_clear", "C89_reset_refuted", "C89_restore_refuted", "C89_nocolor_refuted", "C89_clear_refuted"], "note": "The console has the attribute 7 (white on black) before the program starts; otherwise refuted: a reset does not restore the console's own colours (C89_restore_refuted), even with colours off (C89_nocolor_refuted). Refuted too: fg::reset is defined (C89_reset_refuted, reads behind rev[8]); a cleared screen has one colour (C89_clear_refuted). Texts have no escape characters of their own."},
{"property": "C90", "status": "proved", "theorems": ["C90_one", "C90_conserved", "C90_keys", "C90_deactivated", "C90_modes", "C90_order_refuted", "C90_waiting_refuted", "C90_command_refuted", "C90_split_refuted", "C90_hang_refuted"], "note": "Refuted for calls that are not nested: closing the first session first leaves the terminal without echo for ever (C90_order_refuted); a command of the first turns echo on while the second waits (C90_waiting_refuted); commands of the second run without echo (C90_command_refuted). A key's bytes can be divided among sessions (C90_split_refuted), and a keyboard woken by a byte another one takes makes its destructor wait (C90_hang_refuted)."},
{"property": "C91", "status": "proved", "theorems": ["C91_prints", "C91_unique", "C91_safe", "C91_unload_refuted", "C91_overflow_refuted"], "note": "Signed overflow inside the library's conversion of numbers is taken as wrapping. Refuted: unloading the plugin in whose menu the session stands (C91_unload_refuted) and sums that do not fit an int (C91_overflow_refuted) are undefined behaviour; both are outcomes of the description."},
{"property": "C92", "status": "proved", "theorems": ["C92_prints", "C92_unique", "C92_settles", "C92_exits", "C92_recall_refuted"], "note": "A line stands for the keys that make it, so that the timer's message does not appear inside the echo of a line. Refuted: a recall as the first line is undefined behaviour (C92_recall_refuted); it is an outcome of the description."},
{"property": "C93", "status": "proved", "theorems": ["C93_calls", "C93_flags", "C93_agrees", "C93_broken", "C93_unharmed", "C93_remove_refuted", "C93_insert_refuted", "C93_menu_refuted"], "note": "Refuted without the condition: removing or inserting a command of a menu whose loop is running, or removing the menu, followed by a std::bad_cast, is undefined behaviour (C93_remove_refuted, C93_insert_refuted, C93_menu_refuted). The functions do not feed further lines (C74 has that)."},
{"property": "C94", "status": "proved", "theorems": ["C94_in_use", "C94_one", "C94_same_line", "C94_wrong", "C94_no_exit_action"], "note": "One session. An action that replaces itself must not use its captures afterwards (the user's code). The exit action a telnet server gives its sessions is fixed, in ServerModel.v."},
{"property": "C95", "status": "proved", "theorems": ["C95_which", "C95_trapped", "C95_inside", "C95_from_outside", "C95_up_refuted"], "note": "User functions that call session.Current (ReentModel.v) can still lead out. C95_inside and C95_from_outside are for menus with no other such menu below; C95_which and C95_trapped for all."},
{"property": "C96", "status": "proved", "theorems": ["C96_function", "C96_free", "C96_menu", "C96_only", "C96_never_empty", "C96_unnamed", "C96_empty_string_refuted"], "note": "Floating point and user-defined types: the values the extraction reads from some non-empty text. Assumes that signed overflow wraps (`strict = false`, see C06)."},
{"property": "C97", "status": "proved", "theorems": ["C97_notified", "C97_safe", "C97_unsafe", "C97_called", "C97_usable", "C97_nobody", "C97_dropped", "C97_waiting_refuted", "C97_own_task_refuted", "C97_posting_refuted"], "note": "Other threads may call the scheduler until its members are destroyed."},
{"property": "C98", "status": "proved", "theorems": ["C98_begin", "C98_delete", "C98_beginner", "C98_meanwhile", "C98_guard", "C98_dropped", "C98_called", "C98_borrowed", "C98_running_refuted", "C98_own_task_refuted"], "note": "Calls of the scheduler by other threads during the destructor count as undefined behaviour."},
{"property": "C99", "status": "proved", "theorems": ["C99_unsigned", "C99_signed", "C99_types", "C99_bool", "C99_float", "C99_defined"], "note": "Removes the hypotheses of C05, C06, C08 and C09 about the text and the platform."},
{"property": "C100", "status": "proved", "theorems": ["C100_undefined", "C100_only", "C100_recall", "C100_every_number"], "note": "Removes the hypothesis of C13 that the words of the line are readable: what is undefined is characterised instead."},
{"property": "C101", "status": "proved", "theorems": ["C101_salvaged", "C101_serial", "C101_last", "C101_bytes", "C101_conservative", "C101_killed_refuted"], "note": "Combines C72 (sharing) and C75 (failures), with kills at any point."},
{"property": "C102", "status": "proved", "theorems": ["C102_conservative", "C102_keys", "C102_debug", "C102_shutdown", "C102_over", "C102_ends", "C102_unstopped_refuted", "C102_flood_refuted"], "note": "Post throwing something not derived from std::exception (std::terminate, since Read is noexcept) is not modelled."},
{"property": "C103", "status": "proved", "theorems": ["C103_conservative", "C103_bytes", "C103_keys", "C103_shutdown", "C103_killed", "C103_over", "C103_ends", "C103_modes", "C103_blind", "C103_post_refuted", "C103_junk_refuted", "C103_restore_refuted", "C103_pipe_refuted"], "note": "Refuted: after an exception of Post input goes on (C103_post_refuted); the terminal never gets an indeterminate mode (C103_junk_refuted) and is always restored (C103_restore_refuted); a keyboard can be constructed and destroyed when pipe fails or more than a thousand files are open (C103_pipe_refuted: undefined behaviour). Exceptions of the mutex are not modelled."},
{"property": "C104", "status": "proved", "theorems": ["C104_ideal", "C104_same", "C104_bytes", "C104_ctrl_z", "C104_from_unix", "C104_to_unix", "C104_crash", "C104_ctrl_z_refuted", "C104_from_unix_refuted", "C104_crash_refuted"], "note": "Refuted: single-line commands are read back (C104_ctrl_z_refuted: a Ctrl-Z loses all the commands after it); so are those ending in a carriage return in a file of another system (C104_from_unix_refuted); after a crash the last command is whole or shortened (C104_crash_refuted). The translation by the runtime library is assumed to be as documented."},
{"property": "C105", "status": "proved", "theorems": ["C105_serial", "C105_fresh", "C105_last", "C105_conservative", "C105_back_refuted", "C105_lost_refuted"], "note": "Refuted: what was removed stays removed (C105_back_refuted: a Store that began before writes the old commands again); a Store that returns after a removal has stored its commands (C105_lost_refuted). Assumes files and names of POSIX systems, and no errors."},
{"property": "C106", "status": "proved", "theorems": ["C106_typed", "C106_untyped", "C106_undefined", "C106_rejected", "C106_called", "C106_called_words", "C106_listed", "C106_help_refuted", "C106_pointer_refuted", "C106_braces_refuted"], "note": "Refuted: a function that can be inserted with a help text can be inserted without (C106_help_refuted); plain functions work wherever lambdas do (C106_pointer_refuted); what compiles is defined (C106_braces_refuted: a help text forgotten before two descriptions in braces). The rules of overload resolution and deduction are those of C++14, as modelled in InsertModel.v."},
{"property": "C107", "status": "proved", "theorems": ["C107_completion", "C107_key", "C107_keys", "C107_plain", "C107_server", "C107_local", "C107_disabled_refuted", "C107_unknown_refuted"], "note": "Refuted: only menus one may use are looked at (C107_disabled_refuted: disabled ones are walked through as well); a line of unknown words is harmless (C107_unknown_refuted: the name of a menu is matched as a prefix, so 'sub\u00e9' trims in front of \u00e9)."},
{"property": "C108", "status": "proved", "theorems": ["C108_reals", "C108_others", "C108_completion", "C108_classic", "C108_point_refuted", "C108_space_refuted"], "note": "Refuted: numbers written as in C++ are accepted in all locales (C108_point_refuted: 1.5 with a decimal comma); completion ignores the locale (C108_space_refuted). Decimal points of several characters are not modelled."},
{"property": "C109", "status": "proved", "theorems": ["C109_safe", "C109_enough", "C109_refines", "C109_new", "C109_up", "C109_up_exact", "C109_load_exact", "C109_down", "C109_load", "C109_stored", "C109_stored_refuted", "C109_strong_refuted"], "note": "Refuted: only commands of the session are stored (C109_stored_refuted: the counter is increased before the allocation that fails); an operation that throws has no effect (C109_strong_refuted). Failures elsewhere (split, the parsing of parameters, the vector of GetCommands, the storage) are not modelled."},
{"property": "C110", "status": "proved", "theorems": ["C110_nothing", "C110_lines", "C110_counted", "C110_enough", "C110_storage_refuted"], "note": "Refuted: the storage ends up the same (C110_storage_refuted). Allocations inside the try block of Feed are not made to fail: user code throwing there is in SessionModel.v."},
{"property": "C111", "status": "proved", "theorems": ["C111_as_if", "C111_cases", "C111_told", "C111_dangling", "C111_cleaned", "C111_only", "C111_defined_refuted"], "note": "Refuted: programs in which every stream outlives the sessions on it are defined (C111_defined_refuted: a telnet session, which owns its stream, fails to be constructed)."},
{"property": "C112", "status": "proved", "theorems": ["C112_line", "C112_line_step", "C112_enough", "C112_fresh", "C112_written", "C112_shown_refuted", "C112_lost_refuted", "C112_hidden_refuted"], "note": "Refuted: the screen shows the line after a failure (C112_shown_refuted); no line is lost (C112_lost_refuted); only lines shown are run (C112_hidden_refuted)."},
{"property": "C113", "status": "proved", "theorems": ["C113_defined", "C113_up", "C113_down", "C113_kept", "C113_kept_refuted"], "note": "Refuted: Up and Down alone keep all entries (C113_kept_refuted: after a failure the next Up overwrites an entry)."},
{"property": "C114", "status": "proved", "theorems": ["C114_defined", "C114_tab", "C114_clear", "C114_cursor_refuted"], "note": "Refuted: a Clear that fails leaves the cursor (C114_cursor_refuted)."},
{"property": "C115", "status": "proved", "theorems": ["C115_input", "C115_line", "C115_which", "C115_ran", "C115_enough", "C115_typing", "C115_goes_on", "C115_survives_refuted", "C115_nothing_refuted"], "note": "Refuted: a session accepts input after a Return that failed (C115_survives_refuted); a Return that fails has run nothing (C115_nothing_refuted)."},
{"property": "C116", "status": "proved", "theorems": ["C116_threw", "C116_seen", "C116_retried", "C116_ran", "C116_enough", "C116_action", "C116_once_refuted", "C116_stored_refuted", "C116_command_refuted"], "note": "Refuted: exit actions run once per session (C116_once_refuted); commands are stored once, also if Store failed after it inserted them (C116_stored_refuted). For the rest of the model this is an exit action that throws (C116_action): end of file on a terminal lets the exception leave the handling of the key; after the command `exit`, `Feed` reports it and the session goes on (C116_command_refuted)."},
{"property": "C117", "status": "proved", "theorems": ["C117_threw", "C117_done", "C117_commands", "C117_enough", "C117_as_fault", "C117_sessions", "C117_kept_refuted"], "note": "Refuted: a Store that returns keeps what was in the file if there is room (C117_kept_refuted)."},
{"property": "C118", "status": "proved", "theorems": ["C118_script", "C118_exit_once", "C118_whole_refuted"], "note": "Refuted: only lines of the file are run (C118_whole_refuted): a command cut off by the failure is run, while one cut off by the end of the file is not (C38)."}
]}
