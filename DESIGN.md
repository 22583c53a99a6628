# Formal model of daniele77/cli in Rocq (Coq 8.16.1)

## 1. Layout

`rocq/theories/` (logical name `Verif`), standard library only:

| files | contents |
|---|---|
| `Base.v` | bytes and strings (`str` is `list ascii`) |
| `*Model.v` | executable Gallina transcription of the C++ code, function by function; each definition cites file and lines of `/repo/include/cli` and states its simplifications. No proofs. |
| `*Spec.v` | small specifications, written without the helpers of the model where possible |
| `*Proofs.v` | lemmas and proofs |
| `Prop*.v` | the property theorems (`Cnn_...`), each followed by `Print Assumptions`; beside them `Cnn_nonvacuous`, a concrete case meeting the hypotheses; `Cnn_..._refuted`: a variant or part of the property that is false, with a witness |
| `Demo.v` | a small application used in the examples |
| `RepoTests.v` | the unit tests of `/repo/test` (all but the schedulers'), run in the model: the inputs and expected results of the C++ tests. Tests, not proofs |

`seeded/LOG.jsonl`: wrong programs (edits of the model) the theorems were tried against.

## 2. Conventions

* Undefined behaviour of the C++ program (`back()` on an empty vector, out of range `operator[]`, use of a freed
  menu, `isdigit`/`isspace` on a negative `char`, signed overflow) is a distinct outcome of the model (`None`,
  `CUB`, `AtUB`, `HUB`, `EUB`, `FUB`, `GUB`, `PUB`, ...), never a default value. Exceptions are another one.
* User code (command functions, hooks, conversions of user types) is an oracle of the environment record `env`:
  an arbitrary function of its arguments and of everything that happened before, which prints, changes menus and
  returns or throws. Every theorem quantifies over it.
* Recursion that the C++ program does not bound (`!n` recalls, completion through nested menus, the loop of file
  sessions) has a fuel argument with its own outcome. Theorems quantify over the fuel, or show that enough fuel
  exists and how much.
* Concurrent code (scheduler, keyboard) is a labelled transition system, one step per critical section or per
  access to shared state; theorems are invariants over all reachable states, or terminations by measures.

## 3. Trusted base

* The kernel of Coq 8.16.1, including the VM behind `vm_compute` (used in examples and refutations).
* Axioms: none. `Print Assumptions` says *Closed under the global context* for every theorem of section 4. (The
  files loaded from the standard library declare 7 parameters in `Coq.ssr.ssrunder.Under_rel`, a module type
  interface of the ssreflect plugin; no theorem depends on them.)
* The reading of the C++ source and of the C++ standard library functions it calls, recorded in the comments of
  the model files. The code was read, not executed: there is no mechanical link between `/repo` and the model
  (`RepoTests.v` checks that the model gives the results the unit tests of the repository expect).
* The behaviour assumed of code outside the repository: the C++ standard library, glibc's `strtod` (`FloatModel.v`),
  POSIX terminals, pipes and files (`KeyboardModel.v`, `ShareModel.v`), the Windows console (`WinKeyboardModel.v`), asio's
  documented behaviour (`AsioSchedModel.v`, `ServerModel.v`, `AsyncModel.v`). Each file states what it assumes.
* The specifications (`*Spec.v`): what is proved is only as meaningful as they are.

Section 5 lists which parts of the code are modelled.


## 4. Properties, one by one

For each property: what is modelled, how it is proved, the theorems (all in `rocq/theories/Prop*.v`), and
what is refuted or missing. `Print Assumptions` answers *Closed under the global context* for **every** theorem
and example listed here: no axiom is used, neither of Coq's library nor of our own.

### C01 Tokenising a command line is safe for every byte string

*Status*: proved. *File*: `PropSplit.v`.
*Modelled*: `detail/split.h` whole: the `Text` state machine; `back()` of an empty vector is undefined behaviour (`None`).
*Proof*: invariant of the state machine over the characters of the line.
*Theorems*: `C01_split_safe`.
*Remarks*: None outcome of the model = back() on an empty vector.

### C02 Quoting round-trip

*Status*: proved. *File*: `PropSplit.v`.
*Modelled*: as C01.
*Proof*: the quoted form of arguments is read back item by item; induction on the list of arguments and on each argument.
*Theorems*: `C02_quoting_round_trip`, `C02_quoting_any`.
*Remarks*: Empty arguments are dropped by the code: C02_quoting_any states exactly what happens.

### C03 The tokeniser implements the documented lexical grammar

*Status*: proved. *File*: `PropSplit.v`.
*Modelled*: as C01.
*Proof*: a grammar of lines (`SplitSpec.v`); soundness by induction on the items, existence of a reading for every string by strong induction, uniqueness because `split` is a function of the string.
*Theorems*: `C03_split_grammar`, `C03_reading_exists`, `C03_reading_unique`.

### C04 Blank lines are inert and surrounding blanks are insignificant

*Status*: proved. *File*: `PropSession.v`, `PropSplit.v`.
*Modelled*: as C01, and `Feed` (cli.h:912-941).
*Proof*: from the grammar; blank lines leave the whole session state unchanged.
*Theorems*: `C04_blank_feed`, `C04_blank_line`, `C04_leading_blanks`, `C04_trailing_blanks`, `C04_separator`.

### C05 Unsigned integer parameters are converted exactly

*Status*: proved. *File*: `PropFromString.v`.
*Modelled*: `detail/fromstring.h`: digit loop with C++ promotions and wrap-around on `Z`; `isdigit` with its domain.
*Proof*: loop invariant relating the wrapped accumulator and the exact decimal value.
*Theorems*: `C05_unsigned_exact`, `C05_nonascii_ub`.
*Remarks*: For ASCII tokens, or any token where char is unsigned; C05_nonascii_ub shows the undefined behaviour outside that domain.

### C06 Signed integer parameters are converted exactly

*Status*: proved. *File*: `PropFromString.v`.
*Modelled*: as C05, signed types; signed overflow wraps or is undefined behaviour depending on a platform parameter.
*Proof*: as C05, with the sign and the asymmetric range.
*Theorems*: `C06_signed_exact`, `C06_strict_ub`, `C06_all_types`.
*Remarks*: Wrapping overflow (or types narrower than int); C06_strict_ub shows that under strict C++ rules every negative int/long/long long is undefined behaviour.

### C07 Printed integers are read back

*Status*: proved. *File*: `PropFromString.v`.
*Modelled*: as C05/C06.
*Proof*: round trip through the decimal printer of the standard library of Coq (`Decimal`).
*Theorems*: `C07_unsigned_round_trip`, `C07_signed_round_trip`.
*Remarks*: Printer: the standard library's decimal printer.

### C08 bool, char and string parameters

*Status*: proved. *File*: `PropFromString.v`.
*Modelled*: `from_string` for bool, char, string.
*Proof*: case analysis.
*Theorems*: `C08_bool_exact`, `C08_char_exact`, `C08_string_exact`.

### C09 Floating-point and stream-extracted parameters must consume the whole token

*Status*: proved. *File*: `PropFromString.v`.
*Modelled*: `from_string` for floating types and user types; `stof`.. and `operator>>` are oracles.
*Proof*: case analysis on what the oracle returns.
*Theorems*: `C09_float_exact`, `C09_custom_exact`, `C09_custom_no_ub`.
*Remarks*: stof/stod/stold and the user's operator>> are oracles.

### C10 History is bounded

*Status*: proved. *File*: `PropHistory.v`.
*Modelled*: `detail/history.h` whole, with explicit undefined behaviour and the `size_t` arithmetic of ids.
*Proof*: invariant `reachable` over arbitrary operation lists.
*Theorems*: `C10_history_bounded`.

### C11 History identifiers are stable and consistent with the listing

*Status*: proved. *File*: `PropHistory.v`.
*Modelled*: as C10.
*Proof*: the list of (id, entry) pairs as specification; induction on the operations.
*Theorems*: `C11_listing`, `C11_found_by_id`, `C11_unlisted_id`, `C11_empty_lookup_ub`, `C11_numbers`, `C11_ids_stable`, `C11_ids_stable_browsing`, `C11_new_id_larger`.
*Remarks*: C11_empty_lookup_ub: looking an id up in an empty history is undefined behaviour in some cases.

### C12 Arrow-key navigation of the history

*Status*: proved. *File*: `PropHistory.v`.
*Modelled*: as C10 (`Previous`, `Next`).
*Proof*: induction on the number of key presses, a zipper as specification.
*Theorems*: `C12_navigation`, `C12_edit_kept`.
*Refuted variants*: `C12_down_refuted`, `C12_evicts_refuted`.

### C13 Repeated commands are stored once

*Status*: proved. *File*: `PropHistory.v`.
*Modelled*: as C10 (`NewCommand`).
*Proof*: invariant; the exception (edited recalled entries) is refuted by a witness.
*Theorems*: `C13_newest_is_last_entered`, `C13_no_repeats`.
*Refuted variants*: `C13_edited_refuted`.
*Remarks*: C13_edited_refuted: editing recalled entries can create adjacent equal entries.

### C14 What a session hands over to the history storage

*Status*: proved. *File*: `PropHistory.v`.
*Modelled*: as C10 (`GetCommands`) and storages.
*Proof*: invariant counting the commands of this session; refutation of exactness with repeats.
*Theorems*: `C14_stored`, `C14_plain_session`.
*Refuted variants*: `C14_exact_refuted`.
*Remarks*: C14_exact_refuted: with repeats the newest entries are not exactly the commands of the session.

### C15 History operations never go out of bounds

*Status*: proved. *File*: `PropHistory.v`.
*Modelled*: as C10.
*Proof*: every partial operation is shown defined in reachable states of positive size.
*Theorems*: `C15_no_out_of_bounds`.
*Refuted variants*: `C15_size_zero_refuted`.
*Remarks*: C15_size_zero_refuted: history size 0 is undefined behaviour.

### C16 '!id' re-executes the entry listed with that id

*Status*: proved. *File*: `PropSession.v`.
*Modelled*: `ExecFromHistory`, `Forget`, `At` in a session.
*Proof*: case analysis over the view; refutations by computation.
*Theorems*: `C16_recall`, `C16_recall_view`.
*Refuted variants*: `C16_oldest_refuted`, `C16_first_refuted`.
*Remarks*: C16_oldest_refuted: the oldest entry of a full history is listed but evicted by the recall line; C16_first_refuted: a recall as first command is undefined behaviour.

### C17 Volatile history storage keeps the most recent commands

*Status*: proved. *File*: `PropStorage.v`.
*Modelled*: `volatilehistorystorage.h`.
*Proof*: induction on the stores.
*Theorems*: `C17_volatile_recent`.

### C18 File history storage keeps the most recent commands across restarts

*Status*: proved. *File*: `PropStorage.v`.
*Modelled*: `filehistorystorage.h`: the file as bytes, `getline`, rewriting.
*Proof*: induction on the stores, lines against bytes.
*Theorems*: `C18_file_ideal`, `C18_file_recent`.
*Refuted variants*: `C18_line_feed_refuted`, `C18_limit_refuted`.
*Remarks*: C18_line_feed_refuted: commands containing a line feed are split.

### C19 Crash during a history save

*Status*: proved. *File*: `PropStorage.v`.
*Modelled*: as C18, byte-wise rewriting with a crash point.
*Proof*: every prefix of the written bytes parses to a prefix of the commands (last one possibly cut).
*Theorems*: `C19_crash_prefix`, `C19_no_crash`.
*Refuted variants*: `C19_atomic_refuted`.
*Remarks*: The first disjunct is false (C19_atomic_refuted); the prefix guarantee is proved. No I/O errors, bytes reach the file in order.

### C20 Line editing behaves as an ideal line editor

*Status*: proved. *File*: `PropTerminal.v`.
*Modelled*: `detail/terminal.h` whole with its output bytes.
*Proof*: refinement to an editor with two lists (text before and after the cursor).
*Theorems*: `C20_line_editor`, `C20_line_editor_step`.

### C21 Line editing never goes out of bounds

*Status*: proved. *File*: `PropTerminal.v`.
*Modelled*: as C20; iterators out of range are undefined behaviour.
*Proof*: invariant position <= length.
*Theorems*: `C21_no_out_of_range`.

### C22 What is displayed is what is edited

*Status*: proved. *File*: `PropProcessor.v`, `PropTerminal.v`.
*Modelled*: as C20, `CommandProcessor` and the prompt; the specification is a terminal emulator.
*Proof*: simulation between editor, output bytes and emulator; for sessions an invariant over all keys and the output of user code.
*Theorems*: `C22_session`, `C22_display`, `C22_display_step`, `C22_return`, `C22_clear`.
*Refuted variants*: `C22_eof_refuted`.
*Remarks*: C22_session covers whole interactive sessions but end of file; C22_eof_refuted: Ctrl-D does not move to a new row, so what exit actions print follows the edited text.

### C23 Longest common prefix

*Status*: proved. *File*: `PropPrefix.v`.
*Modelled*: `detail/commonprefix.h`.
*Proof*: loop invariant.
*Theorems*: `C23_common_prefix`, `C23_empty_ub`.

### C24 Completion lists are sorted and free of duplicates

*Status*: proved. *File*: `PropCompletion.v`.
*Modelled*: cli.h:960-974 `GetCompletions`: sort, unique.
*Proof*: sorting and duplicate removal on any list.
*Theorems*: `C24_increasing`, `C24_no_duplicates`.

### C25 Completions are exactly the reachable names that extend the line

*Status*: proved. *File*: `PropCompletion.v`.
*Modelled*: cli.h:264-303, 544-629 completion functions over menu trees.
*Proof*: inductive relation `offers`, both directions, by induction on fuel and tree.
*Theorems*: `C25_exact`, `C25_paths`, `C25_extends`, `C25_invocable`.
*Remarks*: Texts like 'submenufoo' (no blank) complete to 'submenu foo'. C25_invocable needs all menus enabled and plain names.

### C26 Completion terminates

*Status*: proved. *File*: `PropCompletion.v`.
*Modelled*: as C25, recursion with fuel.
*Proof*: a bound on the fuel from the length of the line, under the condition that submenus have non-empty names; refutation otherwise.
*Theorems*: `C26_terminates`, `C26_total`.
*Refuted variants*: `C26_empty_names_refuted`, `C26_nonascii_refuted`.
*Remarks*: C26_empty_names_refuted: nested menus with empty names recurse for ever; C26_nonascii_refuted: isspace of a negative char is undefined behaviour.

### C27 Disabled entries are hidden

*Status*: proved. *File*: `PropCompletion.v`, `PropSession.v`.
*Modelled*: as C25, `Exec` and `Help`.
*Proof*: from the exactness theorems of completion, resolution and help.
*Theorems*: `C27_hidden_from_completion`, `C27_completion_enabled`, `C27_hidden_from_resolution`, `C27_hidden_from_execution`, `C27_hidden_from_help`.
*Refuted variants*: `C27_contents_refuted`.
*Remarks*: The last part, for contents of a disabled submenu, is refuted (C27_contents_refuted).

### C28 Command resolution

*Status*: proved. *File*: `PropSession.v`.
*Modelled*: `ScanCmds`, `Exec`, `HandleCommand`, `Feed` over menu trees with ancestor chains.
*Proof*: a resolution relation (readings of a line), equivalence with the executable search.
*Theorems*: `C28_resolution`, `C28_resolution_unique`, `C28_run`, `C28_free`, `C28_goto`, `C28_history`.
*Remarks*: User-defined Command subclasses: see C80.

### C29 At most one handler runs per line

*Status*: proved. *File*: `PropSession.v`.
*Modelled*: as C28.
*Proof*: the events of a line contain one call; refutation when a handler throws `bad_cast`.
*Theorems*: `C29_one_call`, `C29_one_call_all`.
*Refuted variants*: `C29_bad_cast_refuted`.
*Remarks*: C29_bad_cast_refuted: a handler throwing std::bad_cast makes the next match run as well.

### C30 Unmatched lines

*Status*: proved. *File*: `PropSession.v`.
*Modelled*: as C28, `WrongCommandHandler`.
*Proof*: no reading of the line implies the wrong-command path.
*Theorems*: `C30_unmatched`.

### C31 Exceptions thrown by handlers do not escape Feed

*Status*: proved. *File*: `PropSession.v`.
*Modelled*: `Feed`'s try block.
*Proof*: case analysis of outcomes; user exception handlers included.
*Theorems*: `C31_no_escape`, `C31_reported_once`.

### C32 Enabling, disabling and removing commands

*Status*: proved. *File*: `PropTree.v`.
*Modelled*: `CmdHandler` operations: enable, disable, remove, insert, on trees with unique ids.
*Proof*: invariants (unique ids, freshness) over arbitrary operations.
*Theorems*: `C32_listing_faithful`, `C32_operations`, `C32_insert_fresh`, `C32_removed_for_good`, `C32_gone_no_effect`, `C32_enable_restores`.
*Remarks*: Handlers are used while their menu tree is alive; inserting into a destroyed menu is not modelled.

### C33 The current menu is always a live menu

*Status*: proved. *File*: `PropTree.v`.
*Modelled*: as C32 and the current menu pointer.
*Proof*: invariant over lines that the current menu is in the tree unless removed; refutation when removed.
*Theorems*: `C33_current_menu_live`, `C33_sound`.
*Refuted variants*: `C33_removed_refuted`.
*Remarks*: C33_removed_refuted: removing the menu the session is in leaves it dangling.

### C34 Feeding a line terminates

*Status*: proved. *File*: `PropTree.v`.
*Modelled*: `Feed` with fuel for recalls.
*Proof*: the nesting of recalls is bounded by ids referring to older entries; refutation by a self-recalling entry.
*Theorems*: `C34_terminates`, `C34_recall_terminates`, `C34_no_recalls`.
*Refuted variants*: `C34_loop_refuted`.
*Remarks*: C34_loop_refuted: a stored entry recalling itself makes Feed recurse for ever.

### C35 Menu navigation

*Status*: proved. *File*: `PropTree.v`.
*Modelled*: navigation by menu names and `..`.
*Proof*: induction on the path.
*Theorems*: `C35_path`, `C35_path_or_steps`.
*Refuted variants*: `C35_disabled_refuted`.
*Remarks*: The words of the path name only the menus meant (nav_step) and no global command.

### C36 Prompt

*Status*: proved. *File*: `PropTree.v`.
*Modelled*: `Prompt`, `Menu` constructor's default prompt, colours.
*Proof*: computation, emulator for what is seen.
*Theorems*: `C36_prompt`, `C36_text`, `C36_prompt_screen`, `C36_no_prompt`.

### C37 Enter and exit actions

*Status*: proved. *File*: `PropTree.v`.
*Modelled*: `Exit`, `Enter`, the `exit` command.
*Proof*: computation; invariant that an exited session stays exited.
*Theorems*: `C37_exit`, `C37_enter`, `C37_exit_command`, `C37_stays_exited`, `C37_exited_by_action`.
*Refuted variants*: `C37_empty_action_refuted`, `C37_again_refuted`.
*Remarks*: C37_empty_action_refuted: when the exit action was set to an empty function, exit throws bad_function_call and the session goes on.

### C38 File sessions process the whole script

*Status*: proved. *File*: `PropFile.v`.
*Modelled*: `clifilesession.h`: the istream with flags, `getline`, the loop.
*Proof*: induction on the lines of the stream.
*Theorems*: `C38_script`, `C38_lines`, `C38_exit_once`.
*Refuted variants*: `C38_last_line_refuted`, `C38_eof_twice_refuted`, `C38_replaced_action_refuted`.
*Remarks*: For a stream that is good at Start and the constructor's own exit action; otherwise see the refutations: end of file already reached (actions twice), exit action replaced (endless loop), unterminated last line.

### C39 Broadcast output

*Status*: proved. *File*: `PropOutStream.v`.
*Modelled*: `OutStream` and `Cli::cout` registration (cli.h:76-109, 115-245).
*Proof*: induction on traces of registrations and writes.
*Theorems*: `C39_broadcast`, `C39_defined`, `C39_formatted`.
*Refuted variants*: `C39_shared_refuted`, `C39_format_refuted`.
*Remarks*: Single characters (std::endl) are written with formatted output: C39_format_refuted for streams with a pending width or an error; C39_shared_refuted for two sessions on one stream; C39_formatted gives the text received in all these cases.

### C40 Telnet input does not depend on TCP segmentation

*Status*: proved. *File*: `PropTelnet.v`.
*Modelled*: `TelnetSession::OnDataReceived`, key decoding (genericasioremotecli.h).
*Proof*: the decoder is a fold over bytes; chunks compose.
*Theorems*: `C40_segmentation`.
*Remarks*: Key events and replies; what the session does with the keys of one chunk after an exit is in C55.

### C41 Telnet negotiation never leaks into the command line

*Status*: proved. *File*: `PropTelnet.v`.
*Modelled*: as C40.
*Proof*: grammar of telnet streams; induction on items.
*Theorems*: `C41_data`, `C41_keys`, `C41_interrupted`.
*Refuted variants*: `C41_nop_refuted`.
*Remarks*: Beyond well-formed streams: C41_interrupted; C41_nop_refuted: a command such as NOP inside a negotiation or sub-negotiation ends it, and what follows is taken as typed.

### C42 Telnet negotiation replies

*Status*: proved. *File*: `PropTelnet.v`.
*Modelled*: negotiation replies.
*Proof*: table over all options, induction over streams.
*Theorems*: `C42_replies`, `C42_table`.
*Refuted variants*: `C42_option10_refuted`, `C42_loop_refuted`.
*Remarks*: C42_option10_refuted: the reply about option 10 is passed through the newline encoder. C42_loop_refuted: DO ECHO is answered by DO ECHO.

### C43 Telnet output encoding

*Status*: proved. *File*: `PropTelnet.v`.
*Modelled*: `Encode`/`OutputConverter`.
*Proof*: fold over bytes; cutting into writes.
*Theorems*: `C43_output`, `C43_cutting`, `C43_bytes`.
*Refuted variants*: `C43_ff_refuted`.
*Remarks*: C43_ff_refuted: byte 255 is not doubled.

### C44 Telnet key decoding

*Status*: proved. *File*: `PropTelnet.v`.
*Modelled*: `InputChar` escape sequences of the telnet session.
*Proof*: table of keys, induction on key lists, resynchronisation from any state.
*Theorems*: `C44_keys`, `C44_resync`, `C44_total`, `C44_sequences`.
*Refuted variants*: `C44_other_refuted`.
*Remarks*: C44_other_refuted: data byte 255 acts as Ctrl-D, ESC [ x ~ as Delete for other x. C44_total and C44_sequences describe the decoding of all byte sequences.

### C45 Local keyboard decoding

*Status*: proved. *File*: `PropKeyboard.v`.
*Modelled*: `detail/linuxkeyboard.h` as a transition system: keyboard thread, main thread, typing, other readers, signals.
*Proof*: refinement of the thread to a parser on the bytes; invariants over all schedules.
*Theorems*: `C45_keys`, `C45_telnet`, `C45_typed`, `C45_finite`, `C45_total`, `C45_sequences`.
*Refuted variants*: `C45_other_refuted`, `C45_ended_refuted`, `C45_signal_refuted`.
*Remarks*: KeyboardModel: keyboard thread, main thread, typing, other readers and signals as a transition system. Refuted beyond the stated conditions: other escape sequences (C45_other_refuted; all of them are described by C45_total and C45_sequences), end of input (C45_ended_refuted), a signal (C45_signal_refuted).

### C46 Scheduler takes every posted task once, in order

*Status*: proved. *File*: `PropScheduler.v`.
*Modelled*: `loopscheduler.h`, any number of threads, one step per critical section, tasks that post, execute nested or throw.
*Proof*: invariants over reachable states (queue = posted minus started).
*Theorems*: `C46_fifo`, `C46_posted`, `C46_once`, `C46_order`.
*Refuted variants*: `C46_overtaken_refuted`.
*Remarks*: SchedulerModel: any number of threads, any interleaving of atomic accesses, nested executions and throwing tasks. C46_overtaken_refuted: with two executing threads a task can be started before an earlier one.

### C47 No lost wake-ups in the scheduler

*Status*: proved. *File*: `PropScheduler.v`.
*Modelled*: as C46 with condition variable, notifications and spurious wake-ups.
*Proof*: invariant plus a decreasing measure.
*Theorems*: `C47_wakes`, `C47_quiescent`, `C47_finite`.
*Remarks*: Condition variable with notify_all and spurious wake-ups; invariant plus a decreasing measure.

### C48 Stop is final

*Status*: proved. *File*: `PropScheduler.v`.
*Modelled*: as C46 with `Stop`.
*Proof*: invariants over reachable states.
*Theorems*: `C48_final`, `C48_false`, `C48_stop`, `C48_only`, `C48_returns_false`, `C48_returns`, `C48_run`.
*Refuted variants*: `C48_in_flight_refuted`.
*Remarks*: C48_in_flight_refuted: a task taken before Stop can be started after Stop has returned.

### C49 Keyboard deactivation while a command runs

*Status*: proved. *File*: `PropKeyboard.v`.
*Modelled*: as C45 with activation and deactivation.
*Proof*: invariant; conservation of typed bytes.
*Theorems*: `C49_at_most_one`, `C49_conserved`, `C49_constructor`.
*Refuted variants*: `C49_none_refuted`.
*Remarks*: C49_none_refuted: the first key typed for a running command is taken by the keyboard thread.

### C50 Keyboard shutdown

*Status*: proved. *File*: `PropKeyboard.v`.
*Modelled*: as C45 with the destructor.
*Proof*: decreasing measure bounding the steps to the end; refutations by schedules.
*Theorems*: `C50_bounded`, `C50_ends`.
*Refuted variants*: `C50_deactivated_refuted`, `C50_escape_refuted`, `C50_signal_refuted`.
*Remarks*: Refuted without the conditions: C50_deactivated_refuted, C50_escape_refuted, C50_signal_refuted.

### C51 Help lists exactly the available commands

*Status*: proved. *File*: `PropTree.v`.
*Modelled*: `Help` of commands and menus, parameter descriptions.
*Proof*: equality with an independently written specification of the text.
*Theorems*: `C51_help`.

### C52 TAB keeps what was typed

*Status*: proved. *File*: `PropProcessor.v`.
*Modelled*: `CommandProcessor` on TAB.
*Proof*: case analysis using exactness of completion and the common prefix.
*Theorems*: `C52_results`, `C52_kept`.
*Refuted variants*: `C52_refuted`.
*Remarks*: C52_refuted: without the condition on names, TAB turns 'abcd' into 'a b c'.

### C53 Input is re-enabled after each command

*Status*: proved. *File*: `PropProcessor.v`.
*Modelled*: `CommandProcessor` on Return: input device switched off and on.
*Proof*: invariant over events, including user code.
*Theorems*: `C53_reenabled`, `C53_off_during_commands`, `C53_bracket`.
*Refuted variants*: `C53_handler_throws_refuted`.
*Remarks*: C53_handler_throws_refuted: when the user's exception handler throws, input stays off.

### C54 History survives across sessions

*Status*: proved. *File*: `PropTree.v`.
*Modelled*: constructor, `Exit`, storages across sessions.
*Proof*: composition of C14, C17, C18.
*Theorems*: `C54_opened`, `C54_stored`, `C54_across_sessions`.

### C55 Remote exit

*Status*: proved. *File*: `PropServer.v`.
*Modelled*: telnet sessions within the server: socket, actions, exceptions.
*Proof*: case analysis of outcomes of a read; refutations by computation.
*Theorems*: `C55_session`, `C55_eof`, `C55_exit`.
*Refuted variants*: `C55_no_action_refuted`, `C55_twice_refuted`, `C55_reset_refuted`, `C55_after_refuted`.
*Remarks*: When the application set the server's exit action (and the socket can be shut down); otherwise see C55_no_action_refuted, C55_reset_refuted. C55_twice_refuted: two Ctrl-D in one read make Run throw; C55_after_refuted: lines after exit in the same read are executed.

### C56 Colour codes do not disturb the text

*Status*: proved. *File*: `PropColor.v`.
*Modelled*: colour flags and the stream's hidden colour state in editor and prompt (`colorprofile.h`, `detail/rang.h`).
*Proof*: a relation between two runs preserved by every function of the session model; emulator for the screens; character classes for absence of codes.
*Theorems*: `C56_same`, `C56_same_on`, `C56_screen`, `C56_off`.
*Refuted variants*: `C56_again_refuted`, `C56_escape_refuted`.
*Remarks*: C56_same/C56_same_on: relational proof over the whole session model (feed, completion, editor). C56_screen: equal screens. C56_off: no codes before colours are ever on. Refuted variants: codes still written after switching off (C56_again_refuted); a line with an escape character looks different (C56_escape_refuted).

### C57 Feeding lines is free of undefined behaviour

*Status*: proved. *File*: `PropTree.v`.
*Modelled*: the whole session model.
*Proof*: healthiness invariant implies no undefined behaviour of `Feed`, for all lines and user code within the stated conditions.
*Theorems*: `C57_feed_defined`, `C57_feeds_defined`, `C57_open_healthy`.

### C59 The line run is the line edited

*Status*: proved. *File*: `PropProcessor.v`.
*Modelled*: editor inside the session.
*Proof*: composition of C20 and the command processor.
*Theorems*: `C59_editing`, `C59_line_fed`.

### C58 No key sequence crashes an interactive session

*Status*: proved. *File*: `PropProcessor.v`.
*Modelled*: session plus editor plus completion.
*Proof*: as C57 for all keys; refutations by computation.
*Theorems*: `C58_keys_defined`.
*Refuted variants*: `C58_up_refuted`, `C58_loop_refuted`.
*Remarks*: C58_up_refuted, C58_loop_refuted: pressing Up on an edited '!n' saves it in the history, after which recalls read an empty history (undefined behaviour) or recurse for ever.

### C60 No use of destroyed remote sessions

*Status*: proved. *File*: `PropServer.v`.
*Modelled*: server and sessions as objects.
*Proof*: invariant over server steps.
*Theorems*: `C60_alive`, `C60_gone`.

### C61 Remote keys are handled once and in order

*Status*: proved. *File*: `PropServer.v`.
*Modelled*: keys posted through the scheduler to the session.
*Proof*: invariant over server steps, order of key events.
*Theorems*: `C61_order`, `C61_replies`, `C61_complete`.

### C62 Terminal mode is restored

*Status*: proved. *File*: `PropKeyboard.v`.
*Modelled*: termios modes of the Linux keyboard.
*Proof*: invariant over the mode transitions; refutations by schedules.
*Theorems*: `C62_modes`, `C62_restored`.
*Refuted variants*: `C62_twice_refuted`, `C62_lost_refuted`.
*Remarks*: C62_twice_refuted: activated twice the mode is lost. C62_lost_refuted: a mode set by a command that ends the session is lost.

### C63 Remote sessions do not interfere

*Status*: proved. *File*: `PropIsolation.v`.
*Modelled*: server steps of all sessions over the shared menus, storage and events.
*Proof*: a simulation relation between the session in the server and the session alone, preserved by every function of the session model and every server step; refutations by computation.
*Theorems*: `C63_alone`, `C63_same`.
*Refuted variants*: `C63_menus_refuted`, `C63_removed_refuted`.
*Remarks*: C63_alone: every session of every run of the server is simulated by the same session alone (relational proof over the session model, SimulationProofs). C63_same: equal keys give equal output. Refuted without fixed menus: C63_menus_refuted; C63_removed_refuted (undefined behaviour in a session whose menu another session removes).

### C64 Asynchronous sessions run the complete lines of their input

*Status*: proved. *File*: `PropAsync.v`.
*Modelled*: `genericcliasyncsession.h`: constructor, `Read`, `NewLine`, destructor; `async_read_until` with its buffer.
*Proof*: invariant over all runs relating buffer, bytes arrived and a reference conversation; uniqueness of the division into lines; refutations by computation.
*Theorems*: `C64_lines`, `C64_chunks`, `C64_end`, `C64_alive`, `C64_gone`.
*Refuted variants*: `C64_unterminated_refuted`, `C64_enter_refuted`, `C64_exit_refuted`, `C64_destroyed_refuted`, `C64_throws_refuted`.
*Remarks*: AsyncModel: the pending async_read_until, the stream buffer and the handlers as environment steps. Refuted expectations: a last line without newline is dropped and end of input runs no exit action (C64_unterminated_refuted), enter actions never run (C64_enter_refuted), lines after exit are run (C64_exit_refuted), destruction while waiting is a use after free (C64_destroyed_refuted), an exception leaving Feed stops the session (C64_throws_refuted).

### C65 Keys typed at the Windows console arrive in order, and the keyboard stops

*Status*: proved. *File*: `PropWinKeyboard.v`.
*Modelled*: `winkeyboard.h`: `WaitKbHit`, `Stop`, `Read`, `Get`, destructor; console records, `_getch`, the auto-reset event.
*Proof*: invariant relating records, pending code and keys over all interleavings; a measure of the remaining steps of the thread; refutations by computation and an invariant (blocked for ever).
*Theorems*: `C65_keys`, `C65_reading`, `C65_shutdown`.
*Refuted variants*: `C65_other_refuted`, `C65_function_refuted`, `C65_symbol_refuted`.
*Remarks*: WinKeyboardModel: two threads and the console as one transition system; Windows calls as stated there. Refuted expectations: a key release or mouse record makes the thread wait in _getch, and the destructor until another key (C65_other_refuted); function keys type two characters, the second late (C65_function_refuted); character 224 swallows a key (C65_symbol_refuted).

### C66 Schedulers based on asio run every posted task once, in order, until stopped

*Status*: proved. *File*: `PropAsioSched.v`.
*Modelled*: `genericasioscheduler.h` and the asio wrappers; asio's context by its documented behaviour.
*Proof*: invariants over all interleavings (queue, tasks in flight, count of outstanding work); a measure of the steps inside the scheduler; refutations by computation and the invariant of stopped contexts.
*Theorems*: `C66_fifo`, `C66_once`, `C66_order`, `C66_runs`, `C66_external`, `C66_final`, `C66_stop`, `C66_quiescent`, `C66_finite`, `C66_exceptions`, `C66_work`, `C66_ends`.
*Refuted variants*: `C66_idle_refuted`, `C66_empty_refuted`, `C66_race_refuted`.
*Remarks*: AsioSchedModel: the scheduler's functions over asio's documented state (ready handlers, stopped flag, outstanding work), which is trusted. Refuted expectations: calling PollOne, ExecOne or Run while the application's context is idle stops it for good (C66_idle_refuted); an empty task makes Run throw (C66_empty_refuted); Stop from two threads races on the work guard (C66_race_refuted).

### C67 A local session handles what is typed as if there were no threads

*Status*: proved. *File*: `PropLocal.v`.
*Modelled*: `LocalModel.v`: the keyboard's threads, the tasks in the scheduler, and the command processor with its session.
*Proof*: simulation: every run of the threads projects to a run of the keyboard, and the session's state is that of the handled keys pressed alone; a measure for both threads; refutations by computation and an invariant of deaf sessions.
*Theorems*: `C67_order`, `C67_state`, `C67_typed`, `C67_finite`, `C67_gone`, `C67_ub`, `C67_input`, `C67_lines`.
*Refuted variants*: `C67_eof_refuted`, `C67_destroyed_refuted`, `C67_exception_refuted`.
*Remarks*: LocalModel: keyboard (C45), scheduler queue and command processor (C53) together. Refuted expectations: the session destroyed while keys are queued is used by the scheduler afterwards (C67_destroyed_refuted); an exception leaving a command leaves input off, at most one more key is handled and the session cannot be destroyed (C67_exception_refuted); exit actions run by Ctrl-D run with input active and no echo (C67_eof_refuted).

### C68 A telnet server opens a session for every client and goes on accepting

*Status*: proved. *File*: `PropAccept.v`.
*Modelled*: `ServerModel.v` (as C55).
*Proof*: invariants of all runs: the own events of each session, the number of accepts pending or queued; a first-in-first-out argument for the queue; refutations by an invariant of servers that no longer accept.
*Theorems*: `C68_begin`, `C68_accepting`, `C68_connect`.
*Refuted variants*: `C68_enter_action_refuted`, `C68_throw_refuted`.
*Remarks*: Refuted expectations: the action given to EnterAction of a telnet server is never called (C68_enter_action_refuted); if the global enter action throws for one client, the server never accepts another (C68_throw_refuted).

### C69 Destroying a telnet server: its sessions go on, but its scheduler must not

*Status*: proved. *File*: `PropServerLife.v`.
*Modelled*: `ServerLifeModel.v`: the server of C55 with a destructor that makes the handler of the pending accept ready.
*Proof*: position of the accept's handler in the queue; simulation between the destroyed server and the one that is not.
*Theorems*: `C69_destroyed`, `C69_sessions`.
*Refuted variants*: `C69_running_refuted`.
*Remarks*: Refuted expectation: a server may be destroyed while its scheduler runs (C69_running_refuted: not even one nobody connected to). asio documents that destroying an acceptor makes the handlers of pending accepts run with operation_aborted.

### C70 Line editing on terminals of a given width

*Status*: proved. *File*: `PropWidth.v`.
*Modelled*: The terminal object of C20 and an emulator with a right margin (`WidthSpec.v`).
*Proof*: bound on the columns reached by each operation, then equality with the unbounded emulator; C22.
*Theorems*: `C70_fits`, `C70_any`, `C70_full_row`.
*Refuted variants*: `C70_wrapped_refuted`.
*Remarks*: Refuted expectation: lines longer than the row can be edited (C70_wrapped_refuted: the user sees '> abcd' above an empty row while the line is 'abc').

### C71 Where colour codes are written

*Status*: proved. *File*: `PropRang.v`.
*Modelled*: `RangModel.v`: the statics, TERM, buffers and formats of streams, insertion of strings and numbers.
*Proof*: invariant relating statics and stream flags to the history of the program.
*Theorems*: `C71_marks`, `C71_model`, `C71_format`, `C71_once`.
*Refuted variants*: `C71_redirect_refuted`, `C71_term_refuted`, `C71_hex_refuted`.
*Remarks*: Refuted expectations: redirecting std::cout before the first output (C71_redirect_refuted), setting TERM later (C71_term_refuted), a command leaving std::hex set (C71_hex_refuted). C71_model shows that the functions of TerminalModel.v used for sessions are these.

### C72 History file shared by several processes

*Status*: proved. *File*: `PropShare.v`.
*Modelled*: `ShareModel.v`: a file and processes reading and writing it in pieces at their own positions; any interleaving.
*Proof*: invariants over executions; the serial case is refined to the file storage of C18.
*Theorems*: `C72_serial`, `C72_last`, `C72_bytes`.
*Refuted variants*: `C72_lost_refuted`, `C72_mixed_refuted`, `C72_clear_refuted`.
*Remarks*: Refuted without the conditions: two processes ending together lose commands (C72_lost_refuted), commands nobody entered appear (C72_mixed_refuted, C72_clear_refuted).

### C73 Which floating point parameters are accepted, and their values

*Status*: proved. *File*: `PropFloat.v`.
*Modelled*: `FloatModel.v`: `from_string` of C09 with a model of strtof/strtod/strtold: reading, exact value as a fraction, rounding, ERANGE.
*Proof*: grammar proved equivalent to the reader; rounding by integer arithmetic in units of the smallest number, lifted to the rationals (`FloatRoundProofs.v`).
*Theorems*: `C73_real_exact`, `C73_unique`, `C73_integers`, `C73_limits`, `C73_formats`, `C73_every`.
*Refuted variants*: `C73_tiny_refuted`, `C73_words_refuted`.
*Remarks*: Library functions stof/stod/stold as in libstdc++/glibc on x86-64 (C locale, round to nearest). Refuted expectations: small numbers are refused (C73_tiny_refuted), words such as nan are accepted (C73_words_refuted). C09 states the same code for an arbitrary library function.

### C74 User code may call its own session

*Status*: proved. *File*: `PropReent.v`.
*Modelled*: `ReentModel.v`: the functions of `SessionModel.v` with user code as programs whose calls run nested.
*Proof*: induction on nesting depth and program; agreement with `feed`; the resolution of C30 for nested lines; the invariant of C57.
*Theorems*: `C74_conservative`, `C74_conservative_calls`, `C74_fuel`, `C74_later`, `C74_exit`, `C74_prompt`, `C74_escape`, `C74_run`, `C74_macro`, `C74_safe`.
*Refuted variants*: `C74_loop_refuted`, `C74_record_refuted`, `C74_empty_refuted`.
*Remarks*: User code is a program of operations and calls that sees all answers. Without calls the model is that of SessionModel.v (C74_conservative). Refuted expectations: a command feeding its own line and an exit action calling Exit never end (C74_loop_refuted); a command calling ExecFromHistory deletes its own line from the history (C74_record_refuted), and on an empty history it is undefined behaviour (C74_empty_refuted). Prompt from user code: C74_prompt; setting actions: C94. Not covered: GetCompletions and OutStream from user code, which are constant.

### C75 Failures of the history file

*Status*: proved. *File*: `PropFault.v`.
*Modelled*: `FaultModel.v`: `Store`, `Commands` and `Clear` with the failure each call meets.
*Proof*: induction on the calls; a relation of lost and shortened lines, closed under composition; the prefix lemma of C19.
*Theorems*: `C75_salvaged`, `C75_recent`, `C75_unwritable`, `C75_conservative`, `C75_unnoticed`.
*Refuted variants*: `C75_kept_refuted`, `C75_command_refuted`.
*Remarks*: Assumes that what reaches the file is a prefix of what was written, and that streams do not throw (their default). Refuted expectations: commands in the file survive as long as there is room and writing succeeds (C75_kept_refuted: the file could not be opened for reading); every line in the file is a command that was entered (C75_command_refuted: half a command after a full disk).

### C76 Menus in memory

*Status*: proved. *File*: `PropHeap.v`.
*Modelled*: `HeapModel.v`: objects in memory with parent pointers, vectors of shared pointers and weak pointers of handlers; all functions that read them.
*Proof*: refinement of the trees of `MenuModel.v`: an invariant relating memory, trees and handlers, kept by each operation; the functions reading menus by induction on words, fuel and the chain of parents.
*Theorems*: `C76_built`, `C76_exact`, `C76_released`, `C76_gone`, `C76_commands`, `C76_texts`, `C76_completions`.
*Refuted variants*: `C76_cycle_refuted`.
*Remarks*: Addresses are never used again in the model (weak pointers do not compare addresses). Sessions that stay in a menu that is destroyed: see C33. Refuted expectation: what nobody owns is freed, whatever the program does (C76_cycle_refuted: a menu moved into itself).

### C77 Formatting left on the stream

*Status*: proved. *File*: `PropFmt.v`.
*Modelled*: `FmtModel.v`: all that the session prints as insertions of strings and numbers into a stream with any formatting (`RangModel.v`).
*Proof*: digits and their value by induction; each output as a list of insertions, related to the texts of the other models.
*Theorems*: `C77_insertions`, `C77_texts`, `C77_history`, `C77_codes`, `C77_usable`, `C77_default`.
*Refuted variants*: `C77_hex_refuted`.
*Remarks*: Streams in a good state with the classic locale; strings and numbers are inserted as the C++ standard says. Refuted expectation: the numbers shown by 'history' are those that '!' takes (C77_hex_refuted: after a command that leaves std::hex, 10 is shown for entry 16, and '! 10' runs entry 10).

### C78 Lifetimes of Cli objects and sessions

*Status*: proved. *File*: `PropLife.v`.
*Modelled*: `LifeModel.v`: programs over any number of `Cli` objects, menus and sessions, each alive or not, with what their members refer to; sessions run as in `SessionModel.v`.
*Proof*: agreement of states with the rules, by induction over programs; invariants of healthy sessions for all sessions of a `Cli` at once; simulations for moving and for parts.
*Theorems*: `C78_rules`, `C78_faults`, `C78_move`, `C78_parts`, `C78_functions`, `C78_menus_gone`.
*Refuted variants*: `C78_moved_while_open_refuted`, `C78_handlers_lost_refuted`, `C78_outlived_refuted`, `C78_orphaned_refuted`, `C78_open_moved_from_refuted`.
*Remarks*: Operations happen between calls: user code that moves or destroys objects while a session runs is not modelled. Moved-from std::function objects are empty, as in libstdc++. Broadcasts are not part of what a session prints (C39): they reach the sessions of all Cli objects. Refuted: a Cli may be moved while sessions are open (C78_moved_while_open_refuted: exit dereferences a null pointer; C78_handlers_lost_refuted), destroyed or replaced (C78_outlived_refuted), or used after it was moved from (C78_open_moved_from_refuted).

### C79 What telnet clients receive

*Status*: proved. *File*: `PropWire.v`.
*Modelled*: `WireModel.v`: the socket of each session over runs of `ServerModel.v`: texts encoded, broadcasts, replies, and closing in the middle of the exit hook.
*Proof*: an invariant relating the bytes to the trace since the session's first event; the events of each hook are shown to be contiguous (`HookInvProofs.v`), so that the bytes end exactly with the exit action's.
*Theorems*: `C79_stream`, `C79_order`, `C79_before`, `C79_shut`, `C79_protocol`.
*Refuted variants*: `C79_goodbye_refuted`.
*Remarks*: Bytes written to an open socket count as sent; they may be lost when the connection breaks. The stream has no pending width and no error state. Refuted: the client sees what the global exit action prints (C79_goodbye_refuted): the session's own action has closed the socket before. Enter is echoed as CR LF and so sent as CR CR LF (in C79_nonvacuous).

### C80 Menus with commands of any class

*Status*: proved. *File*: `PropVirtual.v`.
*Modelled*: `VirtualModel.v`: the virtual functions `Exec`, `Help`, `GetCompletionRecursive` of objects as parameters, and the loops of `Menu` over them, with menus linked to a parent or not.
*Proof*: the readings of a line are listed by a function, shown sorted, complete and tried in order by induction over the words; `C80_library` shows that with the classes of the library the functions are those of `SessionModel.v`, `MenuModel.v` and `CompletionModel.v`.
*Theorems*: `C80_offers`, `C80_offers_unique`, `C80_completions`, `C80_inert`, `C80_orphan`, `C80_library`.
*Refuted variants*: `C80_leave_refuted`.
*Remarks*: User commands run arbitrary code; if they change menus while declining the line, iterators of the loops are invalid, which counts as undefined behaviour of the command. Help and completions of a command are taken as constants while one line is handled. Refuted: a menu that can be entered can be left (C80_leave_refuted), for a menu inserted as a Command. Menus never ask IsEnabled of a command: a user class must look at it itself (nothing in C80_offers depends on it).

### C81 The example programs end to end

*Status*: proved. *File*: `PropExample.v`.
*Modelled*: `ExampleModel.v`: the menus, command functions and exit action of the programs, run by `FileModel.v`; pluginmanager.cpp: `PluginModel.v` (C91).
*Proof*: the specification knows only places, doors and words (grammar of SplitSpec.v); by induction over the words every line does in the model what the description says (`scan_place`, `feed_line`), by induction over the lines so does the session (`script_session`), with C38 for the loop over the stream.
*Theorems*: `C81_session`, `C81_unique`, `C81_text`.
*Refuted variants*: `C81_recall_refuted`, `C81_answer_refuted`.
*Remarks*: The theorem takes signed overflow as wrapping; refuted otherwise for 'answer -2147483648' (C81_answer_refuted). Refuted: '! n' as the first command is undefined behaviour (C81_recall_refuted), since it is removed from the history first and the lookup in the empty history reads out of bounds; later ones are always answered by the message, since the history of a file session keeps one command only. pluginmanager.cpp as a whole is C91, complete.cpp C86 and C87, asyncsession.cpp C88, the two examples with an io_context C92.

### C82 LoopScheduler is linearizable

*Status*: proved. *File*: `PropLinear.v`.
*Modelled*: `LinearModel.v`: what threads see (calls, returns with values, tasks), read off each step of `SchedulerModel.v`.
*Proof*: forward simulation: each step of the scheduler is none, one or two steps of the ideal one (`step_seen`); the facts about `Stopped`, `Run` and `ExecOne` by an invariant of the ideal scheduler over its histories (`calm_step`).
*Theorems*: `C82_linearizable`, `C82_observed`, `C82_stopped_true`, `C82_stopped_false`, `C82_stop_returned`, `C82_run_returns`, `C82_exec_false`.
*Remarks*: The ideal scheduler is LinearSpec.v; returns are seen when the mutex is released, the earliest moment, which makes the statement strongest. That calls return at all is C47 and C48.

### C83 LoopScheduler is free of data races and publishes what precedes a post

*Status*: proved. *File*: `PropRace.v`.
*Modelled*: `RaceModel.v`: the reads, writes, acquisitions and releases of every step of `SchedulerModel.v`; uses of variables by user code.
*Proof*: a general lemma on executions: events under one mutex are ordered (`walk_ordered`, by what the holder of the mutex, or the mutex, knows); the scheduler keeps to it (`walk_sched`); tasks by an invariant over executions (`tasks_ok`).
*Theorems*: `C83_members`, `C83_publish`, `C83_numbers`, `C83_traced`.
*Refuted variants*: `C83_tasks_refuted`.
*Remarks*: Happens-before is defined in RaceSpec.v on executions, independently of the model. With no race in any interleaving, the C++ standard allows no other executions, which is what SchedulerModel.v and all properties over it (C46 to C48, C82) assume. C83_tasks_refuted: two threads running the scheduler let tasks race.

### C84 A local session is free of data races if its thread runs the scheduler

*Status*: proved. *File*: `PropRace.v`.
*Modelled*: `RaceModel.v`: the reads, writes and synchronisation of every step of `KeyboardModel.v` and `LocalModel.v`, constructors and destructors included; for the refutation the constructor with another thread running the scheduler.
*Proof*: for the end, an automaton over the events that accepts one end of life and no use after it (`RaceEndProofs.v`); the lemma of C83 for both mutexes, the start of the thread for what the constructors wrote, `join` for what the destructors end; invariant `kinv` over executions.
*Theorems*: `C84_session`, `C84_traced`, `C84_freed`, `C84_queue`.
*Refuted variants*: `C84_elsewhere_refuted`.
*Remarks*: The order of the members matters (servant is the last, so it finds a constructed mutex and condition variable, and is joined before they go), and Register comes after the thread was started: harmless only because keys wait for the scheduler, run by the same thread. C84_elsewhere_refuted has the race with a scheduler run elsewhere. User code that starts threads of its own is outside.

### C85 A local session on a LoopScheduler handles the typed keys in order, whatever else the scheduler does

*Status*: proved. *File*: `PropSystem.v`.
*Modelled*: `SystemModel.v`: `SchedulerModel.v`, `KeyboardModel.v` and the session in one transition system; keys are tasks among others.
*Proof*: forward simulation into `LocalModel.v` (`y_sim`, with stuttering; invariant `wf`), projection to `SchedulerModel.v` (`reach_sched`), a measure for rest (`lib_less`); then C67 and C47 are lifted.
*Theorems*: `C85_refines`, `C85_order`, `C85_state`, `C85_typed`, `C85_finite`, `C85_stop`, `C85_gone`, `C85_stopped_first`, `C85_ub`, `C85_input`.
*Refuted variants*: `C85_after_stop_refuted`, `C85_stop_late_refuted`.
*Remarks*: C67 is about the session with a queue seen from outside; here the queue is the scheduler itself (SchedulerModel.v), and C85_refines is the refinement between them. C85_after_stop_refuted: a key is handled after Stop returned to another thread. C85_stop_late_refuted: stopping the scheduler after the session was destroyed, and a key was taken, does not prevent the use of the destroyed session.

### C86 complete.cpp: any number of sessions sharing one Cli answer as its menus say

*Status*: proved. *File*: `PropComplete.v`.
*Modelled*: `CompleteModel.v`: the program's menus, functions, handlers and sessions over `SessionModel.v`; custom parameter types with their descriptions.
*Proof*: refinement of the relation `hlike` between the specified house of users and the program, step by step; each menu is scanned through the one command that can be meant (`scan_one`); recalls by induction on their depth (`line_fed`): a chain of more than (size+2)^2 of them comes back to a line with the same history, since each recall leaves the history as it is or shorter (pigeonhole, `nests_ever`), so it has no answer (`nests_endless`); uniqueness of the specification by induction.
*Theorems*: `C86_refines`, `C86_unique`, `C86_toggle`.
*Refuted variants*: `C86_sum_refuted`, `C86_saved_refuted`, `C86_endless_refuted`.
*Remarks*: Lines are given whole (keys: C85 and the properties of the command processor; network: ServerModel.v). C86_sum_refuted: add 2147483647 1 is undefined behaviour. C86_saved_refuted: when the local user exits, the lines of the other sessions are not saved. C86_endless_refuted: a saved line can recall itself, then a recall never returns.

### C87 complete.cpp, key by key and byte by byte

*Status*: proved. *File*: `PropWhole.v`.
*Modelled*: `WholeModel.v`: `ServerModel.v`, `WireModel.v` and `ProcessorModel.v` put together with the menus and handlers of `CompleteModel.v`; session 0 is the local one.
*Proof*: refinement of the relation `wlike` between the hall of users and the server, one lemma per kind of key (`press_edit`, `press_up`, `press_down`, `press_tab`, `press_ret`, ...; remembered lines and completions: `WholeDeskProofs.v`), one for each kind of handler (`step_all`); `saw` relates the events of a step to what each user hears, `wired` the bytes sent to what they have seen; order of keys by the flow invariants of `ServerProofs.v`; uniqueness of the specification by inversion.
*Theorems*: `C87_refines`, `C87_keys`, `C87_starts`, `C87_unique`.
*Refuted variants*: `C87_late_refuted`, `C87_crash_refuted`, `C87_endless_refuted`.
*Remarks*: The local keyboard's thread only posts keys here (C67, C84, C85 have the rest). C87_endless_refuted: a client makes the program recurse for ever by rewriting a remembered line with Up so that it recalls itself. C87_late_refuted: lines sent together with exit are still done after it. C87_crash_refuted: a client ends the whole program by sending Ctrl-D together with exit.

### C88 asyncsession.cpp writes what its menus say and ends at exit

*Status*: proved. *File*: `PropApp.v`.
*Modelled*: `AppModel.v`: `AsyncModel.v` with the menus of `ExampleModel.v`, the exit actions of this program and `Run`, which returns once the scheduler is stopped.
*Proof*: invariant over all runs that relates lines fed, lines in the buffer, the specification's state and the output (`runs_step`), built on the lemma for one line of C81 (`feed_line`); termination since each handler shortens the buffer (`settles`).
*Theorems*: `C88_program`, `C88_unique`, `C88_exits`, `C88_same`, `C88_hangs`.
*Refuted variants*: `C88_end_refuted`, `C88_recall_refuted`.
*Remarks*: Refuted: the program ends at the end of its input (C88_end_refuted, C88_hangs): the work guard keeps Run waiting; a recall as the first line is undefined behaviour (C88_recall_refuted), as in C81.

### C89 Colours look the same on old consoles of Windows

*Status*: proved. *File*: `PropWinConsole.v`.
*Modelled*: `WinConsoleModel.v`: the Windows branches of rang.h, colour marks, Clear; the terminal and the meaning of attributes are in `WinConsoleSpec.v`. Buffers of streams, failing Windows calls and a standard output away from the console are not.
*Proof*: simulation between the two runs: same stream states, the terminal's current colours are those of the attribute; one manipulator by cases on it and the bits of the attribute.
*Theorems*: `C89_same`, `C89_attribute`, `C89_names`, `C89_dialogue`, `C89_control`, `C89_undefined`, `C89_defined`, `C89_clear`.
*Refuted variants*: `C89_reset_refuted`, `C89_restore_refuted`, `C89_nocolor_refuted`, `C89_clear_refuted`.
*Remarks*: The console has the attribute 7 (white on black) before the program starts; otherwise refuted: a reset does not restore the console's own colours (C89_restore_refuted), even with colours off (C89_nocolor_refuted). Refuted too: fg::reset is defined (C89_reset_refuted, reads behind rev[8]); a cleared screen has one colour (C89_clear_refuted). Texts have no escape characters of their own.

### C90 Several local sessions can share a console

*Status*: proved. *File*: `PropKeyboards.v`.
*Modelled*: `KeyboardsModel.v`: any number of the keyboards of `KeyboardModel.v`, with the terminal's mode and the standard input shared; one main thread.
*Proof*: simulation: a keyboard's run among others is a run of it alone in which the others type, read and set the mode (`view_step`), so the theorems about one carry over; invariant over the stack of active keyboards and the modes they have saved (`modes_step`).
*Theorems*: `C90_one`, `C90_conserved`, `C90_keys`, `C90_deactivated`, `C90_modes`.
*Refuted variants*: `C90_order_refuted`, `C90_waiting_refuted`, `C90_command_refuted`, `C90_split_refuted`, `C90_hang_refuted`.
*Remarks*: Refuted for calls that are not nested: closing the first session first leaves the terminal without echo for ever (C90_order_refuted); a command of the first turns echo on while the second waits (C90_waiting_refuted); commands of the second run without echo (C90_command_refuted). A key's bytes can be divided among sessions (C90_split_refuted), and a keyboard woken by a byte another one takes makes its destructor wait (C90_hang_refuted).

### C91 The example program of plugins end to end

*Status*: proved. *File*: `PropPlugin.v`.
*Modelled*: `PluginModel.v`: menus, command functions, registry and container of plugins, exit actions, prompts, and the end of the program; lines are given whole.
*Proof*: the description knows places, plugins, words and lines only; invariant: the tree of menus and the container are functions of the plugins loaded (`tree`, `stock`); by induction over the words each line does what the description says (`all_scan`), by induction over the lines so does the program (`lines_talk`).
*Theorems*: `C91_prints`, `C91_unique`, `C91_safe`.
*Refuted variants*: `C91_unload_refuted`, `C91_overflow_refuted`.
*Remarks*: Signed overflow inside the library's conversion of numbers is taken as wrapping. Refuted: unloading the plugin in whose menu the session stands (C91_unload_refuted) and sums that do not fit an int (C91_overflow_refuted) are undefined behaviour; both are outcomes of the description.

### C92 The example programs with an io_context of their own end to end

*Status*: proved. *File*: `PropNonowner.v`.
*Modelled*: `NonownerModel.v`: menu, functions, handlers, the queue of the io_context, the timer, the end of the program; lines are given whole.
*Proof*: the description knows words, lines and the timer only; each line does what it says (`words_scan`, `any_line`); by induction over the inputs, what was taken from the queue is a prefix of what happened and was answered as described (`run_talk`); the queue drains (`drains`).
*Theorems*: `C92_prints`, `C92_unique`, `C92_settles`, `C92_exits`.
*Refuted variants*: `C92_recall_refuted`.
*Remarks*: A line stands for the keys that make it, so that the timer's message does not appear inside the echo of a line. Refuted: a recall as the first line is undefined behaviour (C92_recall_refuted); it is an outcome of the description.

### C93 Menus may be changed while a line is being processed

*Status*: proved. *File*: `PropLive.v`.
*Modelled*: `LiveModel.v`: `ScanCmds`, `HandleCommand` and `Exec` over the tree as it is at each moment, with the versions of the vectors the loops run over.
*Proof*: calls: by induction over the words and the loops, the tree replayed call by call (`live_progress`); broken and unharmed: the versions of a vector are exact, by induction over the operations (`intact_exact`); defined: only flags change, so the tree keeps its shape (`live_keeps`); agreement with SessionModel.v wherever that is defined (`feed_agree`).
*Theorems*: `C93_calls`, `C93_flags`, `C93_agrees`, `C93_broken`, `C93_unharmed`.
*Refuted variants*: `C93_remove_refuted`, `C93_insert_refuted`, `C93_menu_refuted`.
*Remarks*: Refuted without the condition: removing or inserting a command of a menu whose loop is running, or removing the menu, followed by a std::bad_cast, is undefined behaviour (C93_remove_refuted, C93_insert_refuted, C93_menu_refuted). The functions do not feed further lines (C74 has that).

### C94 Actions and handlers may be set at any time

*Status*: proved. *File*: `PropAction.v`.
*Modelled*: `ReentModel.v`: the actions in use are part of the state; a record of when they were set, called or found empty.
*Proof*: a relation between the states before and after, kept by every step of the code (`run_faithful`); lines by the resolution of C30.
*Theorems*: `C94_in_use`, `C94_one`, `C94_same_line`, `C94_wrong`, `C94_no_exit_action`.
*Remarks*: One session. An action that replaces itself must not use its captures afterwards (the user's code). The exit action a telnet server gives its sessions is fixed, in ServerModel.v.

### C95 Menus inserted as commands

*Status*: proved. *File*: `PropAlone.v`.
*Modelled*: `HeapModel.v`: the operation `HInsertCmd`.
*Proof*: the invariant of C76 with the set of menus without parent; the menus below one of them are closed under following pointers (`scan_cur`).
*Theorems*: `C95_which`, `C95_trapped`, `C95_inside`, `C95_from_outside`.
*Refuted variants*: `C95_up_refuted`.
*Remarks*: User functions that call session.Current (ReentModel.v) can still lead out. C95_inside and C95_from_outside are for menus with no other such menu below; C95_which and C95_trapped for all.

### C96 Every command can be called, with every value but the empty string

*Status*: proved. *File*: `PropReach.v`.
*Modelled*: no new definitions: the tokeniser, conversions, menus and sessions of C02, C07, C28.
*Proof*: the words are quoted (C02), the values printed (C07), and the way up by `..` and down by names is the first reading (`climb_leads`, `below_leads`); the converse is an invariant of the trace over the whole of `Feed` (`feed_good`).
*Theorems*: `C96_function`, `C96_free`, `C96_menu`, `C96_only`, `C96_never_empty`, `C96_unnamed`.
*Refuted variants*: `C96_empty_string_refuted`.
*Remarks*: Floating point and user-defined types: the values the extraction reads from some non-empty text. Assumes that signed overflow wraps (`strict = false`, see C06).

### C97 Destroying a LoopScheduler

*Status*: proved. *File*: `PropSchedEnd.v`.
*Modelled*: `SchedEndModel.v`: the destructor as `Stop` and the destruction of the members, on top of `SchedulerModel.v`.
*Proof*: an invariant of the thread in the destructor (`zstep_inv`: after its notification nobody sleeps); the threads done with the scheduler stay so (`clear_step`), the others are led to a use of a member (`involved_bad`).
*Theorems*: `C97_notified`, `C97_safe`, `C97_unsafe`, `C97_called`, `C97_usable`, `C97_nobody`, `C97_dropped`.
*Refuted variants*: `C97_waiting_refuted`, `C97_own_task_refuted`, `C97_posting_refuted`.
*Remarks*: Other threads may call the scheduler until its members are destroyed.

### C98 Destroying a scheduler based on asio

*Status*: proved. *File*: `PropAsioEnd.v`.
*Modelled*: `AsioEndModel.v`: the destructor in two steps, on top of `AsioSchedModel.v`.
*Proof*: an invariant of all executions with the end in them (`estep_inv`); with a borrowed context by induction on what follows (`borrowed`).
*Theorems*: `C98_begin`, `C98_delete`, `C98_beginner`, `C98_meanwhile`, `C98_guard`, `C98_dropped`, `C98_called`, `C98_borrowed`.
*Refuted variants*: `C98_running_refuted`, `C98_own_task_refuted`.
*Remarks*: Calls of the scheduler by other threads during the destructor count as undefined behaviour.

### C99 Exactly which texts are undefined as parameters

*Status*: proved. *File*: `PropConvTotal.v`.
*Modelled*: `FromStringModel.v` as for C05-C09.
*Proof*: every text is digits, or digits and a first other character (`split_digits`, unique), on which the loop stops (`loop_stops`, by induction on the digits).
*Theorems*: `C99_unsigned`, `C99_signed`, `C99_types`, `C99_bool`, `C99_float`, `C99_defined`.
*Remarks*: Removes the hypotheses of C05, C06, C08 and C09 about the text and the platform.

### C100 Exactly which lines are undefined

*Status*: proved. *File*: `PropFeedUB.v`.
*Modelled*: `SessionModel.v`, `FromStringModel.v`.
*Proof*: `convert` is undefined iff C99 says so (`convert_ub`), an argument list iff it `traps` (induction); then the cases of what a line means (`resolves_or_not`), with the effect of each (C14, C27, C45 etc.).
*Theorems*: `C100_undefined`, `C100_only`, `C100_recall`, `C100_every_number`.
*Remarks*: Removes the hypothesis of C13 that the words of the line are readable: what is undefined is characterised instead.

### C101 A shared history file, when files cannot be used and processes are killed

*Status*: proved. *File*: `PropTrouble.v`.
*Modelled*: `TroubleModel.v`: the steps of `ShareModel.v`, the failures of `FaultModel.v` as further steps, and kills.
*Proof*: an invariant of the execution that maps the calls so far to calls of `FaultModel.v` (`serial_step`); for overlapping calls, invariants of the process and of the bytes of the file.
*Theorems*: `C101_salvaged`, `C101_serial`, `C101_last`, `C101_bytes`, `C101_conservative`.
*Refuted variants*: `C101_killed_refuted`.
*Remarks*: Combines C72 (sharing) and C75 (failures), with kills at any point.

### C102 The Windows keyboard when calls of Windows fail

*Status*: proved. *File*: `PropWinFail.v`.
*Modelled*: `WinFailModel.v`: the steps of `WinKeyboardModel.v`, and failures of each call as further steps.
*Proof*: an invariant relating what `_getch` returned so far to the keys found (`said`); a measure that decreases with every step of the thread but failed waits; an invariant of the thread that is never told to stop.
*Theorems*: `C102_conservative`, `C102_keys`, `C102_debug`, `C102_shutdown`, `C102_over`, `C102_ends`.
*Refuted variants*: `C102_unstopped_refuted`, `C102_flood_refuted`.
*Remarks*: Post throwing something not derived from std::exception (std::terminate, since Read is noexcept) is not modelled.

### C103 The Linux keyboard when system calls fail

*Status*: proved. *File*: `PropLinuxFail.v`.
*Modelled*: `LinuxFailModel.v`: the steps of `KeyboardModel.v`, and failures of each call as further steps.
*Proof*: the invariants of C45, C49, C50 and C62, extended by the failing steps: what was read and decoded, the locks, the pipe, the modes.
*Theorems*: `C103_conservative`, `C103_bytes`, `C103_keys`, `C103_shutdown`, `C103_killed`, `C103_over`, `C103_ends`, `C103_modes`, `C103_blind`.
*Refuted variants*: `C103_post_refuted`, `C103_junk_refuted`, `C103_restore_refuted`, `C103_pipe_refuted`.
*Remarks*: Refuted: after an exception of Post input goes on (C103_post_refuted); the terminal never gets an indeterminate mode (C103_junk_refuted) and is always restored (C103_restore_refuted); a keyboard can be constructed and destroyed when pipe fails or more than a thousand files are open (C103_pipe_refuted: undefined behaviour). Exceptions of the mutex are not modelled.

### C104 The history file on Windows

*Status*: proved. *File*: `PropWinText.v`.
*Modelled*: `WinTextModel.v`: `Commands`, `Store` and `Clear` with the translations of text mode.
*Proof*: reading inverts writing up to a Ctrl-Z, by induction on the content; then as C18 and C19.
*Theorems*: `C104_ideal`, `C104_same`, `C104_bytes`, `C104_ctrl_z`, `C104_from_unix`, `C104_to_unix`, `C104_crash`.
*Refuted variants*: `C104_ctrl_z_refuted`, `C104_from_unix_refuted`, `C104_crash_refuted`.
*Remarks*: Refuted: single-line commands are read back (C104_ctrl_z_refuted: a Ctrl-Z loses all the commands after it); so are those ending in a carriage return in a file of another system (C104_from_unix_refuted); after a crash the last command is whole or shortened (C104_crash_refuted). The translation by the runtime library is assumed to be as documented.

### C105 A history file that is removed or replaced while it is used

*Status*: proved. *File*: `PropRemove.v`.
*Modelled*: `RemoveModel.v`: the steps of `ShareModel.v` on inodes, and a name that somebody else changes.
*Proof*: simulations: with `ShareModel.v` while the name leads to the same file, and with a run begun at the removal; an invariant for the last writer.
*Theorems*: `C105_serial`, `C105_fresh`, `C105_last`, `C105_conservative`.
*Refuted variants*: `C105_back_refuted`, `C105_lost_refuted`.
*Remarks*: Refuted: what was removed stays removed (C105_back_refuted: a Store that began before writes the old commands again); a Store that returns after a removal has stored its commands (C105_lost_refuted). Assumes files and names of POSIX systems, and no errors.

### C106 Which command Insert makes of a function

*Status*: proved. *File*: `PropInsert.v`.
*Modelled*: `InsertModel.v`: overload resolution and deduction for `Insert` as a function on argument lists; which class is instantiated, and whether it can be.
*Proof*: case analysis of the argument lists up to three arguments, longer ones being never viable; induction on the parameters.
*Theorems*: `C106_typed`, `C106_untyped`, `C106_undefined`, `C106_rejected`, `C106_called`, `C106_called_words`, `C106_listed`.
*Refuted variants*: `C106_help_refuted`, `C106_pointer_refuted`, `C106_braces_refuted`.
*Remarks*: Refuted: a function that can be inserted with a help text can be inserted without (C106_help_refuted); plain functions work wherever lambdas do (C106_pointer_refuted); what compiles is defined (C106_braces_refuted: a help text forgotten before two descriptions in braces). The rules of overload resolution and deduction are those of C++14, as modelled in InsertModel.v.

### C107 Exactly which keys are undefined

*Status*: proved. *File*: `PropKeyUB.v`.
*Modelled*: `KeyUBSpec.v`: which lines lead to such a character, as an inductive relation on the tree; which keys are undefined. The model is that of C22, C26, C52.
*Proof*: induction on the recursion of completion in one direction, on the relation in the other; invariants over key sequences.
*Theorems*: `C107_completion`, `C107_key`, `C107_keys`, `C107_plain`, `C107_server`, `C107_local`.
*Refuted variants*: `C107_disabled_refuted`, `C107_unknown_refuted`.
*Remarks*: Refuted: only menus one may use are looked at (C107_disabled_refuted: disabled ones are walked through as well); a line of unknown words is harmless (C107_unknown_refuted: the name of a menu is matched as a prefix, so 'subé' trims in front of é).

### C108 What depends on the locale of the program

*Status*: proved. *File*: `PropLocale.v`.
*Modelled*: `LocaleModel.v`: `isspace` and the decimal point of `strtod` as parameters of completion and of the conversions.
*Proof*: induction on texts; exchanging the two characters commutes with every step of the scanner; texts of numbers are ASCII.
*Theorems*: `C108_reals`, `C108_others`, `C108_completion`, `C108_classic`.
*Refuted variants*: `C108_point_refuted`, `C108_space_refuted`.
*Remarks*: Refuted: numbers written as in C++ are accepted in all locales (C108_point_refuted: 1.5 with a decimal comma); completion ignores the locale (C108_space_refuted). Decimal points of several characters are not modelled.

### C109 The history when memory runs out

*Status*: proved. *File*: `PropAlloc.v`.
*Modelled*: `AllocModel.v`: every copy and insertion of the history may throw.
*Proof*: invariant over all runs; simulation by runs without failures, in which a failing command is Down pressed until the line being typed.
*Theorems*: `C109_safe`, `C109_enough`, `C109_refines`, `C109_new`, `C109_up`, `C109_up_exact`, `C109_load_exact`, `C109_down`, `C109_load`, `C109_stored`.
*Refuted variants*: `C109_stored_refuted`, `C109_strong_refuted`.
*Remarks*: Refuted: only commands of the session are stored (C109_stored_refuted: the counter is increased before the allocation that fails); an operation that throws has no effect (C109_strong_refuted). Failures elsewhere (split, the parsing of parameters, the vector of GetCommands, the storage) are not modelled.

### C110 Lines there is no memory for

*Status*: proved. *File*: `PropAllocFeed.v`.
*Modelled*: `AllocFeedModel.v`: `Feed` with failing allocations before its try block.
*Proof*: simulation: a relation between sessions kept by every function of `Feed`, by induction on words, menus and fuel; induction on the lines.
*Theorems*: `C110_nothing`, `C110_lines`, `C110_counted`, `C110_enough`.
*Refuted variants*: `C110_storage_refuted`.
*Remarks*: Refuted: the storage ends up the same (C110_storage_refuted). Allocations inside the try block of Feed are not made to fail: user code throwing there is in SessionModel.v.

### C111 Sessions that could not be constructed

*Status*: proved. *File*: `PropConstruct.v`.
*Modelled*: `ConstructModel.v`: the stages of the constructor of `CliSession`, on the global stream of `OutStreamModel.v`.
*Proof*: case analysis of the stages; refinement to programs without failures; invariant on registered, open and existing streams by induction on programs.
*Theorems*: `C111_as_if`, `C111_cases`, `C111_told`, `C111_dangling`, `C111_cleaned`, `C111_only`.
*Refuted variants*: `C111_defined_refuted`.
*Remarks*: Refuted: programs in which every stream outlives the sessions on it are defined (C111_defined_refuted: a telnet session, which owns its stream, fails to be constructed).

### C112 The line editor when memory runs out

*Status*: proved. *File*: `PropAllocTerm.v`.
*Modelled*: `AllocTermModel.v`: `Keypressed` and `SetLine` with each allocation failing as an oracle says.
*Proof*: refinement of an ideal editor by induction on the operations; the output is shown by the emulator of C22, an invariant being that no escape sequence is cut.
*Theorems*: `C112_line`, `C112_line_step`, `C112_enough`, `C112_fresh`, `C112_written`.
*Refuted variants*: `C112_shown_refuted`, `C112_lost_refuted`, `C112_hidden_refuted`.
*Remarks*: Refuted: the screen shows the line after a failure (C112_shown_refuted); no line is lost (C112_lost_refuted); only lines shown are run (C112_hidden_refuted).

### C113 Browsing the history when memory runs out

*Status*: proved. *File*: `PropAllocBrowse.v`.
*Modelled*: `AllocBrowseModel.v`: the keys Up and Down over `AllocModel.v` and `AllocTermModel.v`.
*Proof*: case analysis of the allocations; invariant that the line is the entry the history is at after keys that succeed, by induction on the keys.
*Theorems*: `C113_defined`, `C113_up`, `C113_down`, `C113_kept`.
*Refuted variants*: `C113_kept_refuted`.
*Remarks*: Refuted: Up and Down alone keep all entries (C113_kept_refuted: after a failure the next Up overwrites an entry).

### C114 TAB, Clear and all editing keys when memory runs out

*Status*: proved. *File*: `PropAllocKey.v`.
*Modelled*: `AllocKeyModel.v`: TAB and Clear over `AllocTermModel.v`; completions are given.
*Proof*: case analysis of the allocations against a description of what TAB does; invariant by induction on the keys.
*Theorems*: `C114_defined`, `C114_tab`, `C114_clear`.
*Refuted variants*: `C114_cursor_refuted`.
*Remarks*: Refuted: a Clear that fails leaves the cursor (C114_cursor_refuted).

### C115 Return when memory runs out

*Status*: proved. *File*: `PropAllocReturn.v`.
*Modelled*: `AllocReturnModel.v`: Return over `AllocTermModel.v` and `AllocFeedModel.v`; memory inside the try block of `Feed` suffices.
*Proof*: case analysis of the allocations; the events of `Feed` from C53.
*Theorems*: `C115_input`, `C115_line`, `C115_which`, `C115_ran`, `C115_enough`, `C115_typing`, `C115_goes_on`.
*Refuted variants*: `C115_survives_refuted`, `C115_nothing_refuted`.
*Remarks*: Refuted: a session accepts input after a Return that failed (C115_survives_refuted); a Return that fails has run nothing (C115_nothing_refuted).

### C116 Exit when memory runs out

*Status*: proved. *File*: `PropAllocExit.v`.
*Modelled*: `AllocExitModel.v`: `Exit` with the failures of its last two steps; exit actions have memory; what a failing `Store` leaves is arbitrary.
*Proof*: case analysis; induction on the failed attempts; the calls of hooks from C38.
*Theorems*: `C116_threw`, `C116_seen`, `C116_retried`, `C116_ran`, `C116_enough`, `C116_action`.
*Refuted variants*: `C116_once_refuted`, `C116_stored_refuted`, `C116_command_refuted`.
*Remarks*: Refuted: exit actions run once per session (C116_once_refuted); commands are stored once, also if Store failed after it inserted them (C116_stored_refuted). For the rest of the model this is an exit action that throws (C116_action): end of file on a terminal lets the exception leave the handling of the key; after the command `exit`, `Feed` reports it and the session goes on (C116_command_refuted).

### C117 The history file when memory runs out

*Status*: proved. *File*: `PropAllocFile.v`.
*Modelled*: `AllocFileModel.v`: `Commands` and `Store` line by line; an exception inside `std::getline` is caught by the library, which makes the stream bad.
*Proof*: induction on the lines; refinement to the failures of C75; induction on the sessions.
*Theorems*: `C117_threw`, `C117_done`, `C117_commands`, `C117_enough`, `C117_as_fault`, `C117_sessions`.
*Refuted variants*: `C117_kept_refuted`.
*Remarks*: Refuted: a Store that returns keeps what was in the file if there is room (C117_kept_refuted).

### C118 File sessions when reading fails

*Status*: proved. *File*: `PropFileFail.v`.
*Modelled*: `FileFailModel.v`: the loop of `Start` over a stream that fails instead of ending.
*Proof*: refinement to a script by induction on the lines; the text read is cut into lines by induction on the lines of the whole text.
*Theorems*: `C118_script`, `C118_exit_once`.
*Refuted variants*: `C118_whole_refuted`.
*Remarks*: Refuted: only lines of the file are run (C118_whole_refuted): a command cut off by the failure is run, while one cut off by the end of the file is not (C38).

## 5. What is modelled and what is not

| source | modelled | not modelled |
|---|---|---|
| `cli.h` 76-245 (`OutStream`, `Cli`) | registration and broadcasting (`OutStreamModel.v`), hooks, storage, root menu, moving and destruction (`LifeModel.v`) | copying of stream formatting state other than width |
| `cli.h` 247-303, 395-875 (commands, menus, handlers) | `MenuModel.v`, `SessionModel.v`, `CompletionModel.v`; the objects and pointers: `HeapModel.v`; changes while the loops over them run: `LiveModel.v`; parameter lists of any length over the supported types; user classes derived from `Command`: `VirtualModel.v`; overload resolution of `Insert`: `InsertModel.v` | |
| `cli.h` 307-391, 879-979 (`CliSession`) | `SessionModel.v`: constructor, `Feed`, `Prompt`, `Enter`, `Exit`, `Help`, recall, completion ; `ReentModel.v`: user code calling its session, and setting actions, while it runs | `GetCompletions` and `OutStream` called by user code while it runs: constant functions without effects (sessions cannot be copied or moved) |
| `clifilesession.h` | `FileModel.v` | |
| `clilocalsession.h`, `detail/commandprocessor.h` | `ProcessorModel.v`, `LocalModel.v`, `SystemModel.v`; several local sessions on one console: `KeyboardsModel.v` (keyboards only) | |
| `detail/terminal.h`, `screen.h`, `telnetscreen.h` | `TerminalModel.v`, when memory runs out: `AllocTermModel.v`; `winscreen.h`: `WinConsoleModel.v` | |
| `detail/history.h` | `HistoryModel.v`; when memory runs out: `AllocModel.v` | |
| `*historystorage.h` | `StorageModel.v`, several processes: `ShareModel.v`, failures: `FaultModel.v`, both, and killed processes: `TroubleModel.v`, on Windows: `WinTextModel.v`, removed or replaced: `RemoveModel.v` | |
| `detail/split.h`, `fromstring.h`, `commonprefix.h` | `SplitModel.v`, `FromStringModel.v`, `PrefixModel.v`, `FloatModel.v` (`stof`, `stod`, `stold` of libstdc++/glibc); other locales: `LocaleModel.v` | `operator>>` (an oracle) |
| `colorprofile.h`, `detail/rang.h` | the codes written and the persistent stream state (`TerminalModel.v`), detection of terminals and formatting (`RangModel.v`), Windows consoles older than Windows 10 (`WinConsoleModel.v`) | |
| `detail/genericasioremotecli.h`, `detail/server.h` | telnet protocol, key decoding, sessions, disconnection, exit, accepting clients (`TelnetModel.v`, `ServerModel.v`), the bytes sent (`WireModel.v`), destruction (`ServerLifeModel.v`) | asio itself: sockets and completion handlers are environment steps |
| `loopscheduler.h` | `SchedulerModel.v`, `LinearModel.v`, `RaceModel.v`, `SchedEndModel.v` | that mutexes and interleavings suffice is C83 with the standard's guarantee for programs without races |
| `detail/linuxkeyboard.h` | `KeyboardModel.v`, `RaceModel.v`, failing calls: `LinuxFailModel.v` | terminal driver beyond canonical mode and echo flags |
| `detail/genericcliasyncsession.h` | `AsyncModel.v` | the limit of the stream buffer (none by default), other users of the standard input |
| `detail/winkeyboard.h` | `WinKeyboardModel.v`, failing calls: `WinFailModel.v` | |
| `detail/genericasioscheduler.h`, `*asio*.h` wrappers | `AsioSchedModel.v`, `AsioEndModel.v` | asio itself (its documented behaviour is assumed) |
| `examples/` | `simplelocalsession.cpp`, `filesession.cpp`: `ExampleModel.v`; `pluginmanager.cpp`: `PluginModel.v` (lines given whole); `complete.cpp`: `CompleteModel.v`, `WholeModel.v`; `asyncsession.cpp`: `AppModel.v`; the two `*_nonowner_iocontext.cpp`: `NonownerModel.v` (lines given whole) | none |

Also outside the model: real time, memory exhaustion (except in the history, for whole lines, in the constructor of sessions, in the line editor, the keys and the exit of sessions and in the history file, C109-C117), data races
of the program with itself beyond those stated; user functions that go on using what they captured after removing the command that
runs them; replacing an action or handler of the `Cli` from inside that very action.

## 6. Behaviour of the code that surprised (each with its theorem)

* A recall (`!n`) as first command of an empty history reads `buffer[0]` of an empty deque (`C16_first_refuted`,
  `C11_empty_lookup_ub`); a stored entry `!0` recalls itself for ever (`C34_loop_refuted`); Up on an edited `!n`
  creates such entries (`C58_up_refuted`, `C58_loop_refuted`).
* History of size 0 is undefined behaviour (`C15_size_zero_refuted`).
* Every negative `int`, `long`, `long long` overflows under strict C++ rules (`C06_strict_ub`); non-ASCII bytes
  reach `isdigit`/`isspace` as negative values (`C05_nonascii_ub`, `C26_nonascii_refuted`).
* A command function throwing `std::bad_cast` lets the next matching command run as well
  (`C29_bad_cast_refuted`).
* Removing the menu a session is in leaves the session with a dangling pointer (`C33_removed_refuted`).
* Contents of a disabled submenu are still offered by completion (`C27_contents_refuted`); nested menus with empty
  names make completion recurse for ever (`C26_empty_names_refuted`); TAB can rewrite the line in unwanted ways
  (`C52_refuted`).
* An empty exit action makes `exit` throw and the session go on (`C37_empty_action_refuted`,
  `C55_no_action_refuted`); file sessions can loop for ever or run the exit actions twice (`C38_..._refuted`).
* When the user's exception handler throws, keyboard input stays off (`C53_handler_throws_refuted`).
* Telnet: byte 255 is neither doubled on output nor undoubled on input (`C43_ff_refuted`, `C44_other_refuted`);
  DO ECHO is answered by DO ECHO (`C42_loop_refuted`); two Ctrl-D in one read make `Run` throw
  (`C55_twice_refuted`); lines after `exit` in the same read are executed (`C55_after_refuted`).
* The history file is rewritten in place: a crash loses entries (`C19_atomic_refuted`); commands with a line feed
  are split (`C18_line_feed_refuted`).
* Scheduler: a task taken before `Stop` can start after `Stop` returned (`C48_in_flight_refuted`).
* Linux keyboard: the first key typed for a running command is swallowed (`C49_none_refuted`); the destructor can
  block (`C50_..._refuted`); terminal modes can be lost (`C62_twice_refuted`, `C62_lost_refuted`).
* Colour codes are still written after `SetNoColor` (`C56_again_refuted`).
* Sessions share the menus: a session in a menu that another session's command removes runs into undefined
  behaviour (`C63_removed_refuted`).
* Asynchronous sessions: a last line without newline is dropped, neither enter nor exit actions run at the ends of
  the input, lines after `exit` are run, destruction while waiting for input is a use after free (`C64_..._refuted`).
* Windows keyboard: releasing a key or moving the mouse makes the keyboard thread wait inside `_getch`, and the
  destructor then until another key is pressed; function keys and the character 224 are mistaken
  (`C65_..._refuted`).
* Down before any Up empties the line being typed, and Up on a full history drops its oldest entry
  (`C12_down_refuted`, `C12_evicts_refuted`); a file storage can return more commands than its limit
  (`C18_limit_refuted`).
* A session whose current menu is disabled cannot leave it (`C35_disabled_refuted`); commands run after `exit`, and
  exiting again runs the actions again (`C37_again_refuted`).
* Schedulers based on asio: with a context of the application that is idle, `PollOne`, `ExecOne` and `Run` stop the
  context, and tasks posted later never run (`C66_idle_refuted`); an empty task makes `Run` throw
  (`C66_empty_refuted`), `LoopScheduler` skips it; `Stop` from two threads is a data race (`C66_race_refuted`).
* Local sessions: destroyed while keys are queued, the scheduler uses them after their end
  (`C67_destroyed_refuted`); an exception that leaves a command leaves input off: at most one more key is handled, and
  the destructor blocks (`C67_exception_refuted`).
* Commands run with the terminal in its original mode, but exit actions run by Ctrl-D run in the mode without echo, while
  the keyboard thread reads (`C67_eof_refuted`).
* Telnet: a command such as NOP inside a negotiation or sub-negotiation ends it, and the rest of it is taken as typed
  (`C41_nop_refuted`).
* Telnet servers: the action given to `EnterAction` is never called (`C68_enter_action_refuted`); if the global enter
  action throws for one client, no client is ever accepted again (`C68_throw_refuted`).
* Telnet servers: destroying one while its scheduler runs on uses it after its end, always (`C69_running_refuted`,
  `C69_destroyed`).
* Line editing assumes that prompt and line fit in one row of the terminal, with one column free
  (`C70_fits`); beyond that what the user sees is not what they edit (`C70_full_row`, `C70_wrapped_refuted`).
* Colours: what is known about terminals is fixed at the first use, so redirecting `std::cout` or setting TERM around
  it sends codes to the wrong places (`C71_redirect_refuted`, `C71_term_refuted`); a command that leaves `std::hex` set
  breaks the colours of all later prompts (`C71_hex_refuted`).
* Nothing protects the history file from other processes: commands get lost when two sessions end at the same time
  (`C72_lost_refuted`), or pieces of commands and NUL characters appear in it (`C72_mixed_refuted`, `C72_clear_refuted`).
* Floating point parameters: `nan`, `inf` and hexadecimal numbers are accepted, numbers below the smallest normal one are
  refused (`C73_words_refuted`, `C73_tiny_refuted`).
* User code calling the session: a command feeding its own line, or an exit action calling `Exit`, recurses without end;
  `ExecFromHistory` called by a command removes the line of that command, and is undefined behaviour on an empty history
  (`C74_loop_refuted`, `C74_record_refuted`, `C74_empty_refuted`).
* When the history file cannot be opened for reading at the end of a session, but can be written, the whole previous
  history is lost; after a full disk half a command stays in the history as a command (`C75_kept_refuted`,
  `C75_command_refuted`).
* A menu that is moved into itself (`m->Insert(std::move(m))`) or into one of its sub menus is never freed
  (`C76_cycle_refuted`).
* A command that leaves `std::hex` or `std::oct` on its stream makes `history` show numbers that `!` takes for other
  entries (`C77_hex_refuted`).
* A `Cli` can be moved, but its sessions keep a reference to the object it was moved from: leaving such a session is
  undefined, and its handlers are gone (`C78_moved_while_open_refuted`, `C78_handlers_lost_refuted`).
  If what was moved from is destroyed as well, commands still run, but wrong lines, exceptions and
  `exit` are undefined (`C78_orphaned_refuted`).
* Telnet clients never see the output of the global exit action (the "Goodbye" of examples/complete.cpp): the session's own
  exit action closes the socket first (`C79_goodbye_refuted`). Enter is echoed as CR CR LF (`C79_nonvacuous`).
* `Menu::Insert(std::unique_ptr<Command>&&)` accepts a menu but does not set its parent: a session can enter it and never leave
  (`C80_leave_refuted`).  Menus do not check `IsEnabled` of commands: user classes that forget it cannot be disabled.
* In a file session a first command `!n` reads out of bounds (of an empty history, `C81_recall_refuted`).  In `examples/pluginmanager.cpp` unloading the plugin
  in whose menu the session stands makes the next prompt read a freed menu (`C91_unload_refuted`).
* Two threads may run a `LoopScheduler`, but then tasks posted one after the other by one thread race if they use the same variable (C83_tasks_refuted).
* A local session may only be constructed by the thread that runs the scheduler, or before it runs: the keyboard's thread starts before the handler is registered and before the constructor calls `Enter` and `Prompt`, so that a key typed early is handled, by a scheduler running elsewhere, at the same time (C84_elsewhere_refuted). The documentation does not say so.
* `Stop` called by another thread does not wait: a key taken from the queue before is still handled after `Stop` returned (C85_after_stop_refuted).
* `add` in examples/complete.cpp overflows `int` for legal input: undefined behaviour (C86_sum_refuted). When its local user exits, the commands typed in open telnet sessions never reach the history file (C86_saved_refuted).
* In examples/complete.cpp a telnet client can end the server for all users by sending `exit` and Ctrl-D in one packet (C87_crash_refuted); what it sends together with `exit` is done although it has left (C87_late_refuted). It can also exhaust the server's stack: Up on a remembered line edited to `! n` stores that line, and a recall of it never returns (C87_endless_refuted; the same through the history file: C86_endless_refuted).
* examples/asyncsession.cpp never ends when its input does: after the end of a file it waits for ever (`C88_end_refuted`).
* rang.h on Windows before 10: `fg::reset` and `bg::reset` read behind an array (`C89_reset_refuted`); every prompt sets the console to white on black, whatever its colours were, even with colours off (`C89_nocolor_refuted`).
* `WinScreen::Clear` leaves the background colours (`C89_clear_refuted`).
* Two local sessions on one console: closing them in the order they were opened leaves the terminal without echo (`C90_order_refuted`).
* Loading the same plugin twice in `examples/pluginmanager.cpp` makes two menus of one name, of which the second cannot be reached (`C91_prints`, `way_in`).
* In the `*_nonowner_iocontext.cpp` examples both `color` and `nocolor` are enabled until the first of them is used (`C92_prints`, `o_color`, `o_nocolor`).
* A command function that removes or inserts a command of the menu it is called from and then lets a `std::bad_cast` escape is undefined behaviour (`C93_remove_refuted`, `C93_insert_refuted`); disabling is harmless, and a command it enables may run on the same line (`C93_nonvacuous`).
* An empty exit action given to a session makes `exit` print `bad_function_call` and go on (`C94_no_exit_action`).
* A `Menu` passed as `std::unique_ptr<Command>` has no parent: sessions that enter it are trapped (`C95_up_refuted`, `C95_trapped`).
* An empty string cannot be passed to a command, quoted or not (`C96_empty_string_refuted`).
* The `Stop` in the destructor of `LoopScheduler` does not make it safe to destroy it while another thread is in `Run`: that thread then locks a destroyed mutex (`C97_waiting_refuted`).
* A scheduler based on asio with its own context must not be destroyed by a task it runs, nor right after `Stop` while another thread is in `Run` (`C98_own_task_refuted`, `C98_running_refuted`).
* Which texts make the conversion of a parameter undefined is characterised exactly in C99; byte 255 never does, being `EOF` (`C99_nonvacuous`).
* Every function with a numeric or bool parameter, `!` included, can be made undefined by a line with a byte from 128 to 254 in that argument, where `char` is signed (`C100_every_number`).
* A process killed between opening the history file for writing and the first write leaves it empty, although there was room for everything (`C101_killed_refuted`).
* Windows keyboard: `WaitKbHit` treats a failed wait, apart from an assertion, as input; if the input is closed, the end of the input is posted without end (`C102_flood_refuted`), and if `SetEvent` fails the destructor never ends (`C102_unstopped_refuted`).
* Linux keyboard: the results of `pipe`, `tcgetattr` and `tcsetattr` are not checked. If `pipe` fails the descriptors are indeterminate, and if it returns one of 1024 or more (a program with that many files open) `FD_SET` writes out of bounds (`C103_pipe_refuted`).
* History file: opened in text mode, so that on Windows a command with a Ctrl-Z (which a telnet client can send) hides it and all later commands, and the next `Store` erases them (`C104_ctrl_z_refuted`).
* History file: a session that is ending while the user removes the file can write all the removed commands again (`C105_back_refuted`).
* `Insert`: a plain function without a help text does not compile, since its overload has no default for it (`C106_help_refuted`); with the help text forgotten before two descriptions, `Insert(name, f, {"a", "b"})` compiles and is undefined behaviour, `std::string` being built from two iterators (`C106_braces_refuted`).
* Tab right after the name of any menu that is directly followed by a non-ASCII byte is undefined behaviour where char is signed, even if the menu is disabled or the word is just a longer unknown one (`C107_disabled_refuted`, `C107_unknown_refuted`).
* After `setlocale` to a locale with a decimal comma, `1.5` is refused as a floating point parameter (`C108_point_refuted`).
* `NewCommand` counts the command before recording it. If recording fails for lack of memory, a command loaded at the start is stored a second time (`C109_stored_refuted`).
* `Feed` records the line before its try block: for lack of memory `bad_alloc` leaves `Feed`, past the exception handler of the `Cli` (C110).
* `CliSession`'s constructor registers its stream and then inserts four commands: if one of these throws, no destructor unregisters the stream. For a telnet session, which owns it, the next broadcast uses a destroyed stream (C111).
* The line editor writes a character before inserting it, and copies the line again after clearing it: for lack of memory the screen shows characters that are not in the line, or an entered line is lost (C112).
* Up moves in the history before the line is replaced: if replacing it fails for lack of memory, the next Up overwrites an entry with the old line (C113).
* TAB and Clear reset the cursor before they write the line again: if that fails for lack of memory, the next characters are inserted at the start of a line that is not shown (C114).
* A bad_alloc in `Feed` (before its try block) or in `Prompt` after Return skips `ActivateInput`: the scheduler may catch the exception, but the keyboard of that session stays off (C115; the same holds for exceptions of handlers for exceptions, C53).
* `Exit` sets its flag last: if there is no memory to copy or store the history, the exit actions have run (a remote session has been told to close) but the session goes on, and they run again at the next exit (C116).
* `std::getline` hides a bad_alloc: the reading loop of `FileHistoryStorage::Commands` ends as at the end of the file, and `Store` then overwrites the file without the lines that were not read, and reports nothing (C117).
* `CliFileSession::Start` looks only for end of file after `getline`: if reading fails in the middle of a line, the part that was read is run as a command (C118).
