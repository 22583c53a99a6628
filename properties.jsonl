{"id": "C01", "title": "Tokenising a command line is safe for every byte string", "statement": "Feeding any byte string to the command-line tokeniser terminates, never touches the last element of an empty token vector (no undefined behaviour, no failed assertion) and never yields an empty token.", "quantifier": "every finite sequence of bytes, including quotes, backslashes, '!' and control bytes in any order", "why_tests_cant": "The tokeniser is a 4-state machine with a remembered previous state; the set of inputs is infinite and the safety of back() depends on which states can follow which.", "anchors": ["include/cli/detail/split.h: Text::Eval*, NewSentence, RemoveEmptyEntries", "include/cli/detail/split.h: split"]}
{"id": "C02", "title": "Quoting round-trip", "statement": "Any list of non-empty byte strings, each written between double (or single) quotes with a backslash before every quote and backslash, separated by any blanks or by nothing, is tokenised back to exactly that list.", "quantifier": "every list of non-empty byte strings, every choice of quote character per element, every choice of separating blanks", "why_tests_cant": "Arguments may contain any byte, any mixture of quotes and escapes and any length.", "anchors": ["include/cli/detail/split.h: EvalSentence, EvalEscape, EvalSpace", "README.md: Parameter parsing"]}
{"id": "C03", "title": "The tokeniser implements the documented lexical grammar", "statement": "Every input line has a reading as a sequence of blanks, bare words, quoted sentences and '!' signs (maximal munch, backslash escapes for quotes and backslash, other escapes kept verbatim, an unterminated quote runs to the end of line, a final lone backslash is dropped), and the tokens returned are exactly the non-empty values of that reading, in order.", "quantifier": "every input byte string and every well-formed reading of it", "why_tests_cant": "Functional correctness over an infinite language.", "anchors": ["include/cli/detail/split.h: Text", "test/test_split.cpp"]}
{"id": "C04", "title": "Blank lines are inert and surrounding blanks are insignificant", "statement": "A line made only of spaces, tabs and newlines yields no tokens, and feeding it changes nothing (no history entry, no output, no handler run). Adding blanks before a line, or after a line whose quotes are closed and which does not end in a backslash, does not change its tokens.", "quantifier": "every line and every run of blanks", "why_tests_cant": "Infinite set of lines.", "anchors": ["include/cli/detail/split.h: EvalSpace", "include/cli/cli.h: CliSession::Feed"]}
{"id": "C05", "title": "Unsigned integer parameters are converted exactly", "statement": "A parameter of unsigned integer type (8 to 64 bits) accepts exactly: an optional '+', then one or more decimal digits whose value fits the type; the handler gets that value. Everything else is rejected, in particular every value above the maximum, however many digits it has.", "quantifier": "every ASCII token and every unsigned width >= 8", "why_tests_cant": "The overflow test is a clever wrap-around check; 2^64 values and unbounded digit strings cannot be sampled exhaustively.", "anchors": ["include/cli/detail/fromstring.h: unsigned_digits_from_string, unsigned_from_string"]}
{"id": "C06", "title": "Signed integer parameters are converted exactly", "statement": "A parameter of signed integer type (8 to 64 bits) accepts exactly: an optional single sign, then one or more decimal digits whose signed value fits the type, including the minimum; everything else is rejected. Shown for machines where signed overflow wraps; under strict C++ rules the code has undefined behaviour for every negative int/long/long long (negation of the minimum).", "quantifier": "every ASCII token and every signed width >= 8", "why_tests_cant": "Boundary values, wrap-around and undefined behaviour.", "anchors": ["include/cli/detail/fromstring.h: signed_from_string"]}
{"id": "C07", "title": "Printed integers are read back", "statement": "For every integer type, the decimal text of any value of the type, given as a parameter, is converted back to that very value.", "quantifier": "every value of every integer width >= 8", "why_tests_cant": "2^64 values per type.", "anchors": ["include/cli/detail/fromstring.h: signed_from_string, unsigned_from_string"]}
{"id": "C08", "title": "bool, char and string parameters", "statement": "A bool parameter is true exactly for 'true' or a decimal text of value 1, false exactly for 'false' or a decimal text of value 0, and is rejected otherwise. A char parameter accepts exactly the one-character tokens. A string parameter receives the token unchanged.", "quantifier": "every ASCII token", "why_tests_cant": "Infinite set of tokens.", "anchors": ["include/cli/detail/fromstring.h: from_string<bool>, from_string<char>, from_string<std::string>"]}
{"id": "C09", "title": "Floating-point and stream-extracted parameters must consume the whole token", "statement": "A float/double/long double parameter is accepted only when the token has no white space and the C library converts all of it; a parameter of a user type read with operator>> is accepted only if nothing but white space is left.", "quantifier": "every token and every behaviour of the C library / user extractor (as an oracle)", "why_tests_cant": "The conversion function is external and the tokens are unbounded.", "anchors": ["include/cli/detail/fromstring.h: from_string<float>, from_string<double>, from_string<long double>, from_string<T> fallback"]}
{"id": "C10", "title": "History is bounded", "statement": "Whatever sequence of commands, arrow keys and history loads a session sees, its history never holds more than historySize entries.", "quantifier": "every history size and every sequence of operations", "why_tests_cant": "Unbounded operation sequences.", "anchors": ["include/cli/detail/history.h: History::Insert, NewCommand, Previous, LoadCommands"]}
{"id": "C11", "title": "History identifiers are stable and consistent with the listing", "statement": "The identifiers printed by 'history' are consecutive, every stored entry is found again by its printed identifier, entering a command never changes the identifier or text of an entry that stays in the history, the new entry gets a larger identifier than every present one, and only the oldest entry can be dropped. Numbers start from 0.", "quantifier": "every reachable history state and every new command", "why_tests_cant": "Identifier arithmetic is on unsigned machine words with offsets that depend on the full history.", "anchors": ["include/cli/detail/history.h: IndexToId, IdToIndex, At, Show"]}
{"id": "C12", "title": "Arrow-key navigation of the history", "statement": "From a state where n entries are reachable, k Up presses show the entries from newest to oldest (staying at the oldest), and after k <= n Ups, k Downs show the same entries back and finally the line that was being typed. An entry edited while browsing keeps its edit.", "quantifier": "every history content, every draft line, every number of key presses", "why_tests_cant": "Unbounded numbers of key presses and entries.", "anchors": ["include/cli/detail/history.h: Previous, Next", "include/cli/detail/commandprocessor.h: NewCommand (Symbol::up, Symbol::down)"]}
{"id": "C13", "title": "Repeated commands are stored once", "statement": "Entering a command equal to the previous one does not add an entry; as long as recalled entries are not edited and the loaded history has no adjacent equal commands, the history never holds two adjacent equal commands. The newest entry after entering a command is always that command.", "quantifier": "every sequence of entered commands and unedited arrow-key browsing", "why_tests_cant": "Unbounded histories.", "anchors": ["include/cli/detail/history.h: NewCommand", "CHANGELOG.md: issue #55"]}
{"id": "C14", "title": "What a session hands over to the history storage", "statement": "On exit the session stores the newest min(number of commands entered, entries held) entries, oldest first, without the line being typed. For a session without repeats, browsing edits and '!' this is exactly the last commands entered.", "quantifier": "every session history", "why_tests_cant": "Unbounded sessions.", "anchors": ["include/cli/detail/history.h: GetCommands", "include/cli/cli.h: CliSession::Exit"]}
{"id": "C15", "title": "History operations never go out of bounds", "statement": "With a history size of at least one, no sequence of entered commands, Up and Down keys accesses the history buffer out of bounds.", "quantifier": "every history size >= 1 and every sequence of operations", "why_tests_cant": "Memory safety over unbounded operation sequences.", "anchors": ["include/cli/detail/history.h: NewCommand, Previous, Next"]}
{"id": "C16", "title": "'!id' re-executes the entry listed with that id", "statement": "Typing '! n' runs the entry the history holds under identifier n, if it is still held after the '!' line itself was recorded; an unknown identifier is reported as an error and nothing is run.", "quantifier": "every session state and every n", "why_tests_cant": "Depends on the whole history state and on machine-word arithmetic.", "anchors": ["include/cli/cli.h: CliSession::ExecFromHistory", "include/cli/detail/history.h: ForgetLatest, At, IdToIndex"]}
{"id": "C17", "title": "Volatile history storage keeps the most recent commands", "statement": "After any sequence of Store and Clear calls, Commands() returns the last maxSize commands stored since the last Clear, in order.", "quantifier": "every sequence of Store/Clear and every maxSize", "why_tests_cant": "Unbounded call sequences.", "anchors": ["include/cli/volatilehistorystorage.h: Store, Commands, Clear"]}
{"id": "C18", "title": "File history storage keeps the most recent commands across restarts", "statement": "For commands without line feeds, after any sequence of Store and Clear calls by any number of FileHistoryStorage objects on the same file (each with its own limit), Commands() of any object returns the last commands stored, in order, cut to the limit of the objects that stored them.", "quantifier": "every sequence of Store/Clear by any objects on one file, every limit", "why_tests_cant": "Unbounded call sequences and file contents.", "anchors": ["include/cli/filehistorystorage.h: Store, Commands, Clear"]}
{"id": "C19", "title": "Crash during a history save", "statement": "If the process dies while the history file is being rewritten, the next start still finds the previously stored commands (does not hold), or at least a prefix of the new list with possibly a truncated last command.", "quantifier": "every crash point (number of bytes that reached the file)", "why_tests_cant": "Crash points cannot be enumerated by tests.", "anchors": ["include/cli/filehistorystorage.h: Store"]}
{"id": "C20", "title": "Line editing behaves as an ideal line editor", "statement": "For every sequence of keys, the edited line and cursor are those of an ideal editor (text before the cursor / text after the cursor): characters are inserted at the cursor, Backspace removes the one before it, Delete the one after it, arrows/Home/End move, Return hands over the whole line and empties it.", "quantifier": "every sequence of key events", "why_tests_cant": "Unbounded key sequences; off-by-one errors only show at the ends.", "anchors": ["include/cli/detail/terminal.h: Terminal::Keypressed, SetLine"]}
{"id": "C21", "title": "Line editing never goes out of bounds", "statement": "For every sequence of keys the cursor stays within the line, so no erase, insert or substring is out of range.", "quantifier": "every sequence of key events and SetLine calls", "why_tests_cant": "Memory safety over unbounded key sequences.", "anchors": ["include/cli/detail/terminal.h: Terminal::Keypressed"]}
{"id": "C22", "title": "What is displayed is what is edited", "statement": "For printable input, after every key the bytes sent to the terminal leave the text of the edited line right after the prompt, followed only by blanks, with the cursor on the editing position - also when colours are on.", "quantifier": "every sequence of keys, recalled lines and completions made of printable characters", "why_tests_cant": "Needs a terminal emulator over all key sequences.", "anchors": ["include/cli/detail/terminal.h: Terminal::Keypressed, SetLine", "include/cli/colorprofile.h"]}
{"id": "C23", "title": "Longest common prefix", "statement": "The text inserted by TAB for several candidates is a prefix of every candidate and no longer text is.", "quantifier": "every non-empty list of strings", "why_tests_cant": "Infinite domain.", "anchors": ["include/cli/detail/commonprefix.h: CommonPrefix"]}
{"id": "C24", "title": "Completion lists are sorted and free of duplicates", "statement": "The completions offered for any line are in strictly increasing lexicographic order.", "quantifier": "every menu tree, current menu and line", "why_tests_cant": "Infinite domain.", "anchors": ["include/cli/cli.h: CliSession::GetCompletions"]}
{"id": "C25", "title": "Completions are exactly the reachable names that extend the line", "statement": "A text is offered as a completion iff it is a command name of the current (or global) menu starting with the line, or the name of a submenu/parent the line starts with, followed by one space and a completion of the rest of the line inside that menu.", "quantifier": "every menu tree, every current menu, every ASCII line", "why_tests_cant": "Mutually recursive search over an arbitrary tree.", "anchors": ["include/cli/cli.h: Menu::GetCompletions, GetCompletionRecursive, GetCompletionWithParent, GetCompletionRecursiveHelper"]}
{"id": "C26", "title": "Completion terminates", "statement": "Asking for completions terminates for every line if no menu has an empty name.", "quantifier": "every menu tree with non-empty menu names and every line", "why_tests_cant": "Recursion goes down to children and up to parents.", "anchors": ["include/cli/cli.h: Menu::GetCompletionRecursiveHelper"]}
{"id": "C27", "title": "Disabled entries are hidden", "statement": "A disabled command or submenu is never executed, never listed by help and never offered by completion (the last part does not hold for the contents of a disabled submenu).", "quantifier": "every menu tree and line", "why_tests_cant": "Infinite domain.", "anchors": ["include/cli/cli.h: Command::Enable/Disable, VariadicFunctionCommand::Exec, Menu::HandleCommand, GetCompletionRecursive"]}
{"id": "C28", "title": "Command resolution", "statement": "A command line is resolved by the documented rule: global commands first, then the commands of the current menu in insertion order (recursively through named submenus), then the parent menu by its name or '..'; function commands match by name, number of parameters and convertibility. The first match is run with exactly the converted arguments.", "quantifier": "every menu tree, current menu and token list", "why_tests_cant": "Infinite domain; mutual recursion child/parent.", "anchors": ["include/cli/cli.h: Menu::ScanCmds, HandleCommand, Exec, ExecParent", "include/cli/cli.h: VariadicFunctionCommand::Exec, FreeformCommand::Exec, Select::Exec"]}
{"id": "C29", "title": "At most one handler runs per line", "statement": "Feeding one line that is not a '!' recall runs at most one user command handler, provided no handler lets a std::bad_cast escape.", "quantifier": "every session state, line and handler behaviour", "why_tests_cant": "Handlers are arbitrary code.", "anchors": ["include/cli/cli.h: CliSession::Feed, Menu::ScanCmds"]}
{"id": "C30", "title": "Unmatched lines", "statement": "A non-blank line that matches nothing calls the wrong-command handler exactly once with the original line (or prints the default message), runs no command handler and leaves the current menu unchanged; the line is still recorded in the history.", "quantifier": "every session state and line", "why_tests_cant": "Infinite domain.", "anchors": ["include/cli/cli.h: CliSession::Feed, Cli::WrongCommandHandler"]}
{"id": "C31", "title": "Exceptions thrown by handlers do not escape Feed", "statement": "Whatever a command handler throws, Feed returns normally and the exception is reported exactly once (custom handler, default message, or 'Unknown exception' text), unless the user's own exception handler throws.", "quantifier": "every session state, line and handler behaviour", "why_tests_cant": "Arbitrary handler behaviour, nested recalls.", "anchors": ["include/cli/cli.h: CliSession::Feed, Cli::StdExceptionHandler"]}
{"id": "C32", "title": "Enabling, disabling and removing commands", "statement": "Disable makes a command unavailable and Enable restores it, affecting no other command; Remove makes it unavailable for good; operations on a handler whose command is gone have no effect.", "quantifier": "every menu tree and every sequence of handler operations", "why_tests_cant": "Unbounded sequences.", "anchors": ["include/cli/cli.h: CmdHandler::Enable/Disable/Remove"]}
{"id": "C33", "title": "The current menu is always a live menu", "statement": "If no menu is removed, then after any sequence of lines the session's current menu is a menu of the tree (so prompting and dispatching never use a dangling pointer). With removal of a menu a session is in, it can dangle.", "quantifier": "every sequence of lines and handler behaviours", "why_tests_cant": "Unbounded histories; use-after-free.", "anchors": ["include/cli/cli.h: CliSession::Current, Menu::HandleCommand, CmdHandler::Remove"]}
{"id": "C34", "title": "Feeding a line terminates", "statement": "Dispatch always terminates; Feed terminates whenever no history entry is itself an executable '!' line, and lines fed to a session never create such an entry.", "quantifier": "every session state and line", "why_tests_cant": "Non-termination cannot be tested.", "anchors": ["include/cli/cli.h: CliSession::ExecFromHistory, Feed"]}
{"id": "C35", "title": "Menu navigation", "statement": "Typing the name of an enabled submenu makes it the current menu; typing '..' or the parent's name returns to the parent; a path typed on one line leads to the same menu as its elements typed on successive lines.", "quantifier": "every tree, menu and path", "why_tests_cant": "Arbitrary depth.", "anchors": ["include/cli/cli.h: Menu::HandleCommand, ExecParent"]}
{"id": "C36", "title": "Prompt", "statement": "The prompt shows the prompt text of the current menu followed by '> ', and nothing is printed once the session has exited.", "quantifier": "every session state", "why_tests_cant": "All histories.", "anchors": ["include/cli/cli.h: CliSession::Prompt"]}
{"id": "C37", "title": "Enter and exit actions", "statement": "Opening a session runs the global enter action then the session's; exit runs the session's exit action then the global one, stores the history, and suppresses further prompts. A session has exited only if its exit action was run.", "quantifier": "every session state and action behaviour, including throwing actions", "why_tests_cant": "Arbitrary user actions.", "anchors": ["include/cli/cli.h: CliSession::Enter, Exit"]}
{"id": "C38", "title": "File sessions process the whole script", "statement": "A file session feeds exactly the newline-terminated lines of its input, in order, up to and including the one that exits, and runs the exit actions exactly once. (An unterminated last line is not executed.)", "quantifier": "every input text", "why_tests_cant": "Unbounded inputs.", "anchors": ["include/cli/clifilesession.h: CliFileSession::Start"]}
{"id": "C39", "title": "Broadcast output", "statement": "Text written to Cli::cout() reaches every open session's stream exactly once, in order, and no closed session's stream - provided sessions use distinct streams.", "quantifier": "every sequence of opens, closes and writes", "why_tests_cant": "Unbounded sequences.", "anchors": ["include/cli/cli.h: OutStream::Register, UnRegister, xsputn, overflow"]}
{"id": "C40", "title": "Telnet input does not depend on TCP segmentation", "statement": "However the received byte stream is cut into chunks, the resulting key events and replies are the same.", "quantifier": "every byte stream and every segmentation", "why_tests_cant": "Arbitrary segmentations.", "anchors": ["include/cli/detail/genericasioremotecli.h: TelnetSession::OnDataReceived, Consume", "include/cli/detail/server.h: Session::Read"]}
{"id": "C41", "title": "Telnet negotiation never leaks into the command line", "statement": "For every well-formed telnet stream, the bytes handed to the key decoder are exactly the data bytes (doubled 0xFF un-doubled); commands, option negotiations and sub-negotiations produce no keys.", "quantifier": "every well-formed telnet stream", "why_tests_cant": "Infinite language.", "anchors": ["include/cli/detail/genericasioremotecli.h: TelnetSession::Consume, Data, Command"]}
{"id": "C42", "title": "Telnet negotiation replies", "statement": "Each DO/WILL gets exactly one reply, WONT/DONT get none (no negotiation loops), and the reply is the three-byte command for that option (except for option 10, whose reply the text encoder lengthens: refuted).", "quantifier": "every well-formed telnet stream", "why_tests_cant": "Infinite language; binary data passed through a text encoder.", "anchors": ["include/cli/detail/genericasioremotecli.h: RxWill, RxDo, SendIacCmd, Encode"]}
{"id": "C43", "title": "Telnet output encoding", "statement": "A client that turns CR LF back into LF and un-doubles 0xFF recovers exactly the text written by the application (does not hold for texts containing 0xFF), independent of how the text is cut into writes.", "quantifier": "every text and every cutting into writes", "why_tests_cant": "Infinite domain.", "anchors": ["include/cli/detail/genericasioremotecli.h: TelnetSession::Encode", "include/cli/detail/server.h: xsputn, overflow"]}
{"id": "C44", "title": "Telnet key decoding", "statement": "A stream of ordinary characters and complete key sequences (arrows, Home, End, Delete, Backspace, Ctrl-L, Ctrl-D, CR NUL, CR LF) is decoded to exactly the corresponding key events, one per sequence, whatever precedes it.", "quantifier": "every sequence of keys", "why_tests_cant": "Arbitrary key sequences.", "anchors": ["include/cli/detail/genericasioremotecli.h: CliTelnetSession::Output"]}
{"id": "C45", "title": "Local keyboard decoding", "statement": "On Linux, whatever else happens, when the keyboard thread has read the bytes of a sequence of ordinary characters and complete keys, it has found exactly the corresponding key events, the same a telnet session finds for the same keys; and while input is active everything typed is read and notified, if nobody else reads the standard input, it does not end and no signal interrupts the thread. (Without these conditions: refuted.)", "quantifier": "every sequence of keys, every interleaving of keyboard thread, main thread and typing", "why_tests_cant": "Arbitrary key sequences.", "anchors": ["include/cli/detail/linuxkeyboard.h: LinuxKeyboard::Get"]}
{"id": "C46", "title": "Scheduler takes every posted task once, in order", "statement": "Under every interleaving of Post, ExecOne, PollOne, Run and Stop by any number of threads (tasks may themselves post, execute and throw), the tasks taken from the queue followed by the queued ones are the tasks posted, in posting order; each thread's posts keep their program order; every task taken is started exactly once unless its thread is just about to start it; with one executing thread the tasks are started in posting order. (With several executing threads the starting order can differ: refuted.)", "quantifier": "every interleaving of any number of threads", "why_tests_cant": "Schedules cannot be enumerated.", "anchors": ["include/cli/loopscheduler.h: Post, ExecOne, PollOne"]}
{"id": "C47", "title": "No lost wake-ups in the scheduler", "statement": "A thread blocked in ExecOne/Run is never left sleeping while a task is queued or the scheduler is stopped: the thread holding the mutex notifies next. When no thread can move inside the scheduler, every thread is in user code or sleeps with an empty queue; and that state is reached after finitely many steps.", "quantifier": "every interleaving, including spurious wake-ups", "why_tests_cant": "Schedules cannot be enumerated.", "anchors": ["include/cli/loopscheduler.h: ExecOne, Post, Stop"]}
{"id": "C48", "title": "Stop is final", "statement": "After Stop no further task is taken; the only tasks still started are those some thread had already taken; ExecOne and PollOne return true only for tasks already taken or running, hence false for a fresh call; no thread is left blocked and Run returns. Conversely Run returns, and ExecOne returns false, only when the scheduler is stopped; PollOne returns false only then or when no task is queued. (A task taken before Stop can be started after Stop returned: the stronger claim is refuted.) Only Stop stops the scheduler.", "quantifier": "every interleaving", "why_tests_cant": "Schedules cannot be enumerated.", "anchors": ["include/cli/loopscheduler.h: Stop, ExecOne, PollOne, Run"]}
{"id": "C49", "title": "Keyboard deactivation while a command runs", "statement": "While input is deactivated (as a command runs) the keyboard thread reads at most four bytes of the standard input and notifies at most one key; every byte typed is read by exactly one reader, in typing order. (The stronger claim, that it takes nothing, is refuted: the first key typed for the command is lost.) Nothing is read before the constructor has set the mode of the terminal.", "quantifier": "every interleaving of keyboard thread, main thread, typing and other readers", "why_tests_cant": "Races.", "anchors": ["include/cli/detail/linuxkeyboard.h: Read, ActivateInput, DeactivateInput"]}
{"id": "C50", "title": "Keyboard shutdown", "statement": "When the destructor of the Linux keyboard waits for the keyboard thread and input is active, the thread makes at most nine more steps and either it or the destructor can go on until the destructor has returned, except if the thread waits for the rest of a key. (Refuted without these conditions: deadlock when input is deactivated, after a lone ESC; SIGPIPE after a signal.)", "quantifier": "every interleaving", "why_tests_cant": "Deadlocks.", "anchors": ["include/cli/detail/linuxkeyboard.h: ~LinuxKeyboard, Read"]}
{"id": "C51", "title": "Help lists exactly the available commands", "statement": "'help' prints the global commands, then every enabled command and submenu of the current menu in insertion order with its parameters, then the parent if enabled, and nothing else.", "quantifier": "every menu tree and current menu", "why_tests_cant": "Infinite domain.", "anchors": ["include/cli/cli.h: Menu::MainHelp, Help, VariadicFunctionCommand::Help, FreeformCommand::Help, PrintDesc, TypeDesc"]}
{"id": "C52", "title": "TAB keeps what was typed", "statement": "Pressing TAB executes nothing and either leaves the line, or replaces it by the only completion followed by a space, or by the longest common prefix of the completions, or lists them. The new line extends the typed line up to blanks, provided no menu's name is the beginning of another name beside it (otherwise typed text can be lost).", "quantifier": "every session state and line", "why_tests_cant": "Infinite domain.", "anchors": ["include/cli/detail/commandprocessor.h: NewCommand (Symbol::tab)"]}
{"id": "C53", "title": "Input is re-enabled after each command", "statement": "Each entered line deactivates input before the handler runs and re-activates it afterwards (does not hold if the user's exception handler throws).", "quantifier": "every key sequence and handler behaviour", "why_tests_cant": "Arbitrary handler behaviour.", "anchors": ["include/cli/detail/commandprocessor.h: NewCommand (Symbol::command)"]}
{"id": "C54", "title": "History survives across sessions", "statement": "A session opened after another one exited finds, as its newest history entries, the commands the first one stored.", "quantifier": "every pair of sessions and history sizes", "why_tests_cant": "Unbounded sessions.", "anchors": ["include/cli/cli.h: CliSession::CliSession, Exit, Cli::StoreCommands, GetCommands"]}
{"id": "C55", "title": "Remote exit", "statement": "A telnet user typing exit or Ctrl-D is disconnected and the server goes on (does not hold when the server's ExitAction was never set).", "quantifier": "every session state", "why_tests_cant": "Depends on configuration and exceptions.", "anchors": ["include/cli/detail/genericasioremotecli.h: CliTelnetSession::CliTelnetSession, CliGenericTelnetServer::ExitAction", "include/cli/detail/server.h: Disconnect"]}
{"id": "C56", "title": "Colour codes do not disturb the text", "statement": "Two sessions started in the same state where the same keys are pressed, on any kinds of streams and with the colours switched on or off at any moments, behave the same and print the same bytes up to complete colour codes, provided user functions do not read colour codes back; if no text holds an escape character or leaves an escape sequence open, their users see the same screens. While colours have never been on and the stream is no colour terminal, no colour code is written.", "quantifier": "every sequence of keys, every two assignments of colour flags to the keys and the opening, every kind of stream, every environment of user functions, every starting state", "why_tests_cant": "Depends on the interleaving of colour switches with output, and on hidden stream state that persists.", "anchors": ["include/cli/colorprofile.h: BeforePrompt, AfterPrompt, BeforeInput, AfterInput", "include/cli/detail/rang.h: setColor, operator<<"]}
{"id": "C57", "title": "Feeding lines is free of undefined behaviour", "statement": "A session opened on a menu tree with user commands never runs into undefined behaviour (out-of-range access, dangling current menu, ctype misuse, unbounded recursion) while lines are fed, provided no menu is removed, user code lets no bad_cast escape, the history size is at least one, the lines are ASCII where char is signed, no stored history entry is a recall, and the very first line is not a recall.", "quantifier": "every sequence of lines, menu tree and user code behaviour meeting the conditions", "why_tests_cant": "Absence of undefined behaviour over all inputs cannot be observed by running examples.", "anchors": ["include/cli/cli.h: CliSession::Feed, CliSession::ExecFromHistory", "include/cli/detail/history.h: At, ForgetLatest"]}
{"id": "C59", "title": "The line run is the line edited", "statement": "However a line was typed and edited (insertions, deletions, cursor movements), pressing Return feeds exactly the text an ideal editor holds to the session, once, and leaves the line empty; the editing keys themselves change nothing but the line and print nothing but on the session's stream.", "quantifier": "every session state, key sequence and handler behaviour", "why_tests_cant": "Infinite number of key sequences and states.", "anchors": ["include/cli/detail/commandprocessor.h: Keypressed, NewCommand", "include/cli/detail/terminal.h: Terminal::Keypressed"]}
{"id": "C58", "title": "No key sequence crashes an interactive session", "statement": "An interactive session never runs into undefined behaviour or unbounded recursion, whatever keys are pressed (editing, Up, Down, TAB, Ctrl-L, Ctrl-D, Return), and stays usable, provided the conditions of C57 hold for the menus, the user code and the characters typed, menus have names, Up is not pressed while the line is a recall ('!n'), and no recall is entered before any command.", "quantifier": "every key sequence, session state and user code behaviour meeting the conditions", "why_tests_cant": "Absence of undefined behaviour over all key sequences and histories cannot be observed by running examples.", "anchors": ["include/cli/detail/commandprocessor.h: NewCommand", "include/cli/cli.h: PreviousCmd, NextCmd, GetCompletions, Feed", "include/cli/detail/history.h"]}
{"id": "C60", "title": "No use of destroyed remote sessions", "statement": "The tasks posted by a remote session for the keys it decodes, and its read handlers, run only while the session exists, whatever the clients send, when they disconnect, and whatever exceptions user code throws, when one thread runs the scheduler and it is run again after an exception.", "quantifier": "every menu tree, user code behaviour, interleaving of arrivals, connections and handlers", "why_tests_cant": "Use after free depends on the order of disconnections, queued keys and cancelled reads, which cannot be enumerated.", "anchors": ["include/cli/detail/server.h: Session::Read, Session::Disconnect", "include/cli/detail/inputdevice.h: Notify", "include/cli/detail/genericasioremotecli.h: CliTelnetSession"]}
{"id": "C61", "title": "Remote keys are handled once and in order", "statement": "With any number of clients, the keys a session handled are at any time an initial part of the keys its bytes mean, in the order they were typed, each once; and all of them when the session waits for its client and none of its tasks is queued. The replies to its telnet commands are sent in the same way: always the first of those its bytes ask for, and all of them when the session waits for its client.", "quantifier": "every number of clients, way of cutting their bytes, interleaving and user code behaviour", "why_tests_cant": "Interleavings of clients, chunks and handlers are unbounded.", "anchors": ["include/cli/detail/server.h: Session::Read", "include/cli/detail/inputdevice.h: Notify", "include/cli/detail/genericasioscheduler.h: Post"]}
{"id": "C62", "title": "Terminal mode is restored", "statement": "If the keyboard is not activated twice and other code sets the terminal's mode only while input is inactive, then while input is inactive and after the keyboard's destruction the terminal is in the mode found by the last activation or set since by other code, and while input is active it is in the same mode but non-canonical and without echo; so if no other code sets it, the destructor leaves the terminal as it was before the constructor.", "quantifier": "every sequence of activations, deactivations, mode changes and every interleaving with the keyboard thread", "why_tests_cant": "All sequences and interleavings.", "anchors": ["include/cli/detail/linuxkeyboard.h: ToManualMode, ToStandardMode, ActivateInputImpl, DeactivateInput, ~LinuxKeyboard"]}
{"id": "C63", "title": "Remote sessions do not interfere", "statement": "What happens in a session of a server (its output, the functions called in it with their arguments, its input device) and its state (line, current menu, history, exit flag) depend only on its own keys and on the commands stored when it was opened: they are the same as if it were the only session, whatever other clients type, connect or disconnect and however their bytes interleave, provided user code keeps no state common to several sessions and does not change the menus. In particular two runs with the same keys and stored commands for a session give the same output in it, but for broadcasts.", "quantifier": "every number of clients, interleaving, key sequence, menu tree and user code meeting the conditions, including code that throws", "why_tests_cant": "Non-interference compares all pairs of runs of unboundedly many clients.", "anchors": ["include/cli/detail/server.h: Session, Server::Accept", "include/cli/detail/genericasioremotecli.h: CliTelnetSession", "include/cli/cli.h: CliSession"]}
{"id": "C64", "title": "Asynchronous sessions run the complete lines of their input", "statement": "An asynchronous session on the standard input feeds, at any time, an initial part of the newline-terminated lines of the bytes that arrived, in order, each once and without its newline, each preceded by a prompt, whatever pieces the bytes arrive in; all of them when it waits for more bytes or has stopped without an exception. After the end of the input it runs and prints nothing more; it is used after its destruction only if destroyed while a read was pending. Its input is closed then; it lives until it is destroyed, and its input is open while it reads.", "quantifier": "every byte sequence, way of cutting it, menu tree, user code behaviour and order of handlers", "why_tests_cant": "All ways of cutting all inputs, with all user code.", "anchors": ["include/cli/detail/genericcliasyncsession.h: GenericCliAsyncSession::Read, NewLine, destructor"]}
{"id": "C65", "title": "Keys typed at the Windows console arrive in order, and the keyboard stops", "statement": "On Windows, the keys notified are, in order and each once, those typed (ordinary characters, arrows, home, end, delete, backspace, ctrl-L, ctrl-D, enter), whatever other console records arrive in between, and all of them once the keyboard thread has nothing to do. When the keyboard is being destroyed, its thread takes at most four more steps, and the destructor can always proceed to its end unless the thread is waiting inside _getch for a character. Whatever is typed, the keys notified are the first of those the characters read stand for, by a table for single characters (among them ctrl-C, ctrl-D and ctrl-Z for the end of input) and one for those after the prefix 224, and all of them once the thread has nothing to do, but for the second half of an extended key whose first half was read as another key.", "quantifier": "every sequence of keys and other console records, and every interleaving of the two threads and the console", "why_tests_cant": "All interleavings of threads with all inputs.", "anchors": ["include/cli/detail/winkeyboard.h: InputSource::WaitKbHit, Stop, WinKeyboard::Read, Get, destructor"]}
{"id": "C66", "title": "Schedulers based on asio run every posted task once, in order, until stopped", "statement": "Tasks given to a scheduler based on asio are taken from its queue in the order of posting, each is started exactly once, and with one executing thread they are started in that order. With a context of its own, Run does not return before Stop (unless a task throws) and ExecOne returns only after a task; with a context of the application it goes on as long as something is left to do. Stop stops it; after that no further task is taken unless the application restarts the context. Threads wait in the scheduler only when nothing is queued and it is not stopped. The exceptions that leave the run functions are those of tasks, and one for each empty task; the context counts exactly the work left, and the guard until it is given up, if one thread only calls Stop. Every call of Run, ExecOne or PollOne ends at most once, and all that have not ended are those a thread is still inside.", "quantifier": "any number of threads using the scheduler and its context in any interleaving, both generations of asio, both constructors", "why_tests_cant": "All interleavings of threads, and all histories of outstanding work.", "anchors": ["include/cli/detail/genericasioscheduler.h: GenericAsioScheduler", "include/cli/detail/newstandaloneasiolib.h, newboostasiolib.h, oldstandaloneasiolib.h, oldboostasiolib.h: Executor, MakeWorkGuard, Reset"]}
{"id": "C67", "title": "A local session handles what is typed as if there were no threads", "statement": "A local session handles every key its keyboard thread finds exactly once and in order. When neither thread has anything left to do, the session, with its terminal and everything its commands did, is in the state that the typed keys lead to when pressed one after the other without threads, however the bytes arrived and whatever the interleaving. The threads come to rest after finitely many steps if nobody types. The session is used after its end only if it was destroyed, or its constructor threw, and the scheduler runs on; threads add no other undefined behaviour. Command functions run while input is not active and the terminal is in its original mode; between keys it is in the mode without echo; at the end the mode is the original. (Exit actions run by Ctrl-D are an exception: refuted for them.)", "quantifier": "all interleavings of the keyboard thread, the main thread, the user, other readers of the input, signals, Stop and destruction; all menus, handlers, histories and typed keys", "why_tests_cant": "All interleavings, partial escape sequences, and commands running while keys arrive.", "anchors": ["include/cli/clilocalsession.h: CliLocalTerminalSession", "include/cli/detail/inputdevice.h: InputDevice::Notify, Register", "include/cli/detail/commandprocessor.h: CommandProcessor", "include/cli/detail/linuxkeyboard.h", "include/cli/loopscheduler.h"]}
{"id": "C68", "title": "A telnet server opens a session for every client and goes on accepting", "statement": "In every state a telnet server reaches, what happened in each session begins with the bytes of the telnet negotiation and then one call of the global enter action, if set; no enter action runs later, and nothing happens in sessions that were not opened. If the global enter action returns, the server is always waiting for a client or has exactly one connected client whose session is about to be opened, and a client that connects gets a new session that reads its input once the handlers that were ready before have run.", "quantifier": "all menus, handlers, actions, network behaviours, interleavings of clients connecting, sending and disconnecting, and handler exceptions", "why_tests_cant": "All orders of connections and input from any number of clients, and exceptions in any action.", "anchors": ["include/cli/detail/server.h: Server::Accept, Session::Start", "include/cli/detail/genericasioremotecli.h: CliTelnetSession::OnConnect, TelnetSession::OnConnect, CliGenericTelnetServer::EnterAction, CreateSession", "include/cli/cli.h: CliSession::Enter"]}
{"id": "C69", "title": "Destroying a telnet server: its sessions go on, but its scheduler must not", "statement": "When a telnet server is destroyed, its sessions go on as if it had not been, but the scheduler can run at most the handlers that were ready: in every state a server reaches (the global enter action returns), running one more uses the destroyed server, because the handler of the accept holds a pointer to it and accepts again.", "quantifier": "all states of the server, all interleavings of clients and handlers before and after the destruction", "why_tests_cant": "Undefined behaviour that often shows no symptom, and every state the server may be in when it is destroyed.", "anchors": ["include/cli/detail/server.h: Server::Accept, ~Server", "include/cli/detail/genericasioremotecli.h: CliTelnetSession, CliGenericTelnetServer"]}
{"id": "C70", "title": "Line editing on terminals of a given width", "statement": "On a terminal with W columns, wrapping at once or deferring the wrap, editing shows the prompt, the line and the cursor on the editing position, all rows above unchanged, as long as the prompt and the line leave one column free; as soon as the line fills the row, for every prompt and text, going left shows the cursor in the wrong place.", "quantifier": "all widths, both kinds of wrapping, all prompts, all sequences of printable keys and replaced lines, with and without colours", "why_tests_cant": "The column where editing breaks depends on the width of the user's terminal, the prompt and the whole editing history.", "anchors": ["include/cli/detail/terminal.h: Terminal::Keypressed, SetLine"]}
{"id": "C71", "title": "Where colour codes are written", "statement": "As long as TERM and the buffers of the standard streams are left alone and the stream's formatting is harmless (decimal, no '+', width at most 2), prompts and typed input are preceded by colour codes exactly when the colour flag is set, and the resetting code is written exactly to streams on which colours were used before and to terminals whose TERM names a known type; nothing is written to other streams. The formatting of a stream is the one the program set last (or that of a new stream): marks use up the width and set nothing.", "quantifier": "all programs writing to any number of streams, changing the flag, buffers of other streams and formats, all values of TERM, terminals or not", "why_tests_cant": "What is written depends on statics initialised at the first use anywhere in the program, on the environment and on formatting left behind by user code; tests see one such combination per process.", "anchors": ["include/cli/colorprofile.h: operator<<", "include/cli/detail/rang.h: supportsColor, isTerminal, operator<<, setColor"]}
{"id": "C72", "title": "History file shared by several processes", "statement": "When no call on the history file begins during another one, the file holds, once no process is in a call, what an ideal list storage would hold after the calls in their order. When calls overlap, the commands of a Store are kept as the most recent ones if no other process opens the file for writing or writes to it from before this one does until it is done; without that, commands are lost or mixed. Whatever overlaps, each byte of the file stands at a position where one of the calls had it to write, or where it was at the beginning, or is a zero that fills a gap.", "quantifier": "all executions of any number of processes, limits, one-line commands, initial files, and sizes of the pieces read and written", "why_tests_cant": "Interleavings of several processes at the level of file reads and writes are too many and not under the control of a test.", "anchors": ["include/cli/filehistorystorage.h: Store, Commands, Clear"]}
{"id": "C73", "title": "Which floating point parameters are accepted, and their values", "statement": "A parameter of type float, double or long double is accepted exactly when it is the text of a decimal or hexadecimal number with optional sign, point and exponent, an infinity or a NaN, and the number is in range (neither overflowing, nor tiny and inexact); the value given to the command is the representable number nearest to the exact value, ties to even. Integer texts that fit the significand are read exactly, and every finite number of the type has a text. An integer is accepted exactly if it is smaller than the mean of the largest finite number and the next power of two.", "quantifier": "all byte strings (ASCII, or any with unsigned char), the three types", "why_tests_cant": "There are infinitely many texts; roundings at midpoints, and range limits, are hit by exactly chosen inputs only.", "anchors": ["include/cli/detail/fromstring.h: from_string<float>, from_string<double>, from_string<long double>"]}
{"id": "C74", "title": "User code may call its own session", "statement": "Commands, actions and handlers may call Feed, Exit, Enter, Help, ShowHistory, ExecFromHistory, Current, Prompt, PreviousCmd and NextCmd on the session that runs them, nested in any way. A line fed from inside runs the command it resolves to in the state it is fed in, as a line fed from outside, and is recorded; a command that feeds lines does what feeding them one after another does. Output and events are only added, a session that exited stays exited, identifiers stay unique, the history stays within its size. Exit that returns has saved the history. Prompt writes the prompt of the menu current at that moment, and nothing after Exit. Feed throws only what the exception handler of the user throws. User code that feeds legible lines, removes no menu the session may be in, goes to existing menus and does not call ExecFromHistory itself never leads to undefined behaviour.", "quantifier": "all menus, states, user programs (of operations and nested calls, catching exceptions or not), nesting depths", "why_tests_cant": "User code is unbounded, as is the nesting of its calls; each test has one program.", "anchors": ["include/cli/cli.h: CliSession::Feed, Exit, Enter, Help, ShowHistory, ExecFromHistory, Current, Prompt, PreviousCmd, NextCmd"]}
{"id": "C75", "title": "Failures of the history file", "statement": "Whatever fails when the history file is opened, read or written, in any number of sessions and program runs: Commands returns lines that were stored since the file was last cleared, in the order they were stored; some may be lost, and at most one is shortened for each Store that could not write all its data. A Store that can write keeps its own commands as the most recent ones, up to the limit, even if the old ones cannot be read. A file that cannot be opened for writing keeps its contents. Without failures the storage is the ideal one. Sessions do not notice failures.", "quantifier": "all files, sequences of Store and Clear with any limits and commands, failures of opening, reading (after any byte) and writing (after any byte)", "why_tests_cant": "Failures at every byte of every call, in all combinations over any number of sessions, cannot be injected one by one.", "anchors": ["include/cli/filehistorystorage.h: FileHistoryStorage::Store, Commands, Clear"]}
{"id": "C76", "title": "Menus in memory", "statement": "A program that creates menus, inserts commands and menus, enables, disables and removes them through handlers, and destroys menus and Cli objects, always has in memory exactly the objects of the trees it built, each menu pointing to its parent (for menus inserted as plain commands see C95) and to its commands in order: nothing is freed twice, no pointer dangles, and when it owns nothing any more, nothing is left. A handler whose command has gone, by itself or with its menu, does nothing, for ever. Commands, help, prompt and completions computed by following the pointers are those of the trees, from any menu. The only way out is moving a menu into itself or below itself.", "quantifier": "all sequences of operations on any number of menus and handlers; all commands, words, prefixes and menus they are used from", "why_tests_cant": "Sharing and lifetime of objects depend on the whole sequence of operations on menus and handlers; tests with a sanitizer see single sequences.", "anchors": ["include/cli/cli.h: Menu::Insert, Menu::parent, CmdHandler::Descriptor, Menu::HandleCommand, Menu::ScanCmds, Menu::MainHelp, Menu::GetCompletions"]}
{"id": "C77", "title": "Formatting left on the stream", "statement": "Whatever formatting a command leaves on the stream of its session (base, showbase, showpos, uppercase, width, fill, adjustment): help, prompt texts, messages and lists of completions are printed as ever, but the first string is padded to the width that was left. The history shows each entry with its number in the base that was left, which reads back to that number in that base. In base 10 the number shown can be given to '!'. Colour codes have their numbers in the base that was left. With decimal base, no width and no sign everything is as usual.", "quantifier": "all formatting states, histories a session can reach, menus, lines and numbers", "why_tests_cant": "The combinations of flags, widths, fill characters and numbers are unbounded; a test looks at a few.", "anchors": ["include/cli/detail/history.h: History::Show", "include/cli/cli.h: Menu::Help, CliSession::Help, CliSession::Prompt, WrongCommandHandler", "include/cli/detail/rang.h: setColor"]}
{"id": "C78", "title": "Lifetimes of Cli objects and sessions", "statement": "A program creates, moves, assigns and destroys Cli objects, opens, uses and closes sessions on them and changes their menus, in any order. If it uses each session only while its Cli is neither moved, nor assigned to, nor destroyed, then nothing is undefined; whatever user code does, any fault is one of a session whose Cli, storage and menus are all there. Sessions can be closed at any time. Moving a Cli, by construction or assignment, while no session is open on it changes nothing that can be observed. Several Cli objects do not interfere: each part of a program returns and prints what it does without the rest, if user code keeps no common state.", "quantifier": "all programs (sequences of such operations on any number of objects), user code, lines and menus", "why_tests_cant": "Programs and their interleavings of lifetimes are unbounded; a dangling pointer shows only in some of them, and often not at all in a test.", "anchors": ["include/cli/cli.h: Cli::Cli(Cli&&), Cli::operator=, Cli::~Cli, CliSession::CliSession, CliSession::~CliSession, CliSession::Exit"]}
{"id": "C79", "title": "What telnet clients receive", "statement": "The bytes sent to a telnet client are the greeting, then everything printed in its session and everything broadcast since it connected, in order, once, with lines ended by CR LF, mixed with the replies to its telnet commands in order; nothing of other sessions. Each handler sends what it prints and then its replies. Nothing is missing while the socket is open; it is closed right after the server's exit action, whose output is the last thing sent, and nothing is sent before the client is accepted or after its socket is closed. If the client speaks telnet (and does not ask about option 10) and no byte 255 is printed, what it receives is a telnet stream whose data, as shown by a client, is what was printed and whose commands are the greeting and the replies.", "quantifier": "all servers, user code, networks and interleavings of connections, bytes and handlers, and all sessions", "why_tests_cant": "Interleavings of sessions, broadcasts, negotiations and exits are unbounded; a missing or foreign byte shows only for some of them.", "anchors": ["include/cli/detail/server.h: Session::Send, Session::xsputn, Session::overflow, Session::Disconnect, Session::Read", "include/cli/detail/genericasioremotecli.h: CliTelnetSession, TelnetSession::Encode, TelnetSession::OnConnect", "include/cli/cli.h: OutStream"]}
{"id": "C80", "title": "Menus with commands of any class", "statement": "Menus may hold commands of user classes derived from Command. A line is offered, one after the other, to exactly the commands of the current menu and, with the words after a menu's name, to those of menus named by its first words (also the parent by name or '..'), in order of insertion, the parent last, until one takes it or a menu is entered; when none takes it, it is not found. The completions of a line are exactly those given by the commands reached in that way and names of enabled menus. Commands that decline every line, have no help and no completions make no difference. A menu inserted through a pointer to Command has no parent: from inside it only the menus in it can be entered.", "quantifier": "all trees of menus and commands of any class and behaviour, current menus, lines and states", "why_tests_cant": "User classes are unbounded in number and behaviour; tests try the classes of the library only.", "anchors": ["include/cli/cli.h: Command, Menu::Exec, Menu::ScanCmds, Menu::MainHelp, Menu::Insert, Menu::GetCompletions, Menu::GetCompletionRecursive"]}
{"id": "C81", "title": "The example programs end to end", "statement": "For every text on its input, the program of examples/simplelocalsession.cpp and filesession.cpp returns, having written exactly what a small description of its three places says: per line the prompt (with colour codes once colours are on, and a reset code when the output is a terminal), then the greeting, the answer with the number read, the help of the place, the history entry, or the complaint; places are entered and left by the names of menus and '..'; 'exit' or the end of the text ends it with the farewell, once. The description determines the output.", "quantifier": "all input texts (ASCII, or any where char is unsigned) whose first command is not '! n', terminal or not", "why_tests_cant": "The output depends on the whole sequence of lines, of which there are infinitely many; the property composes the tokenizer, menus, conversion of numbers, history, colours and the file session.", "anchors": ["examples/simplelocalsession.cpp: main", "examples/filesession.cpp: main", "include/cli/clifilesession.h: Start", "include/cli/cli.h: Feed, Prompt, Help, ShowHistory, ExecFromHistory"]}
{"id": "C82", "title": "LoopScheduler is linearizable", "statement": "Every history of calls, returns and tasks that threads can see of a LoopScheduler is also one of an ideal scheduler whose functions act at a single moment between call and return, with a queue and a flag as its only state. Hence Stopped returns true only if Stop was called before, and false only if no call of Stop had returned before Stopped was called; after Stop returned the scheduler stays stopped. Run returns, and ExecOne returns false, only if Stop was called before.", "quantifier": "all numbers of threads, programs of the threads (also calls from inside tasks, tasks that throw, empty tasks) and interleavings, spurious wake-ups included", "why_tests_cant": "Interleavings of threads cannot be enumerated by tests, and most are never seen on a test machine.", "anchors": ["include/cli/loopscheduler.h: Post, Stop, Stopped, ExecOne, PollOne, Run"]}
{"id": "C83", "title": "LoopScheduler is free of data races and publishes what precedes a post", "statement": "In every execution of a LoopScheduler no two threads race for its members: of two uses, one of them a change, one happens before the other in the sense of C++. Everything a thread did before posting a task happens before everything the task does; the k-th task taken is the k-th one posted, each once. Tasks run by different threads, though, are not ordered, even if one thread posted them one after the other.", "quantifier": "all numbers of threads, programs of the threads (with any uses of variables of their own outside the scheduler and in tasks) and interleavings, spurious wake-ups included", "why_tests_cant": "A race seldom shows in a run; its absence is a statement about the order of all pairs of accesses in all interleavings.", "anchors": ["include/cli/loopscheduler.h: Post, Stop, Stopped, ExecOne, PollOne, Run"]}
{"id": "C84", "title": "A local session is free of data races if its thread runs the scheduler", "statement": "In every execution of a CliLocalTerminalSession whose constructing thread also runs the LoopScheduler and destroys the session, from the start of the keyboard's thread to the end of the life of all members, no two threads (that one, the keyboard's, others calling Stop) race for any member of the session, the keyboard, the input device or the scheduler. If another thread already runs the scheduler while the session is constructed, a key typed early makes them race for the handler and for the session. When the session is over, each member of it and of its keyboard has been destroyed once, and every use of it by any thread happened before.", "quantifier": "all commands and handlers, inputs, timings of the keyboard thread, signals, spurious wake-ups, calls of Stop by any thread, destruction at any time between tasks", "why_tests_cant": "A race seldom shows in a run; its absence is a statement about the order of all pairs of accesses in all interleavings.", "anchors": ["include/cli/detail/linuxkeyboard.h: LinuxKeyboard, InputSource", "include/cli/detail/inputdevice.h: Register, Notify", "include/cli/clilocalsession.h: CliLocalTerminalSession", "include/cli/loopscheduler.h"]}
{"id": "C85", "title": "A local session on a LoopScheduler handles the typed keys in order, whatever else the scheduler does", "statement": "A CliLocalTerminalSession whose thread runs a LoopScheduler, with any other threads posting tasks, stopping or asking the scheduler, handles every key the keyboard finds exactly once and in order, and is always in the state these keys lead to without threads; when the library is at rest, which it is after finitely many steps, all that was typed was handled. After Stop only keys already taken from the queue are handled. A session destroyed when the scheduler was stopped is not used afterwards. Commands run with the terminal in its original mode.", "quantifier": "all commands, worlds, inputs and timings, numbers of threads, programs of them (Post, Stop, Stopped; the session's thread also ExecOne, Run, PollOne, and tasks calling them), exceptions from tasks, spurious wake-ups, interleavings of the single accesses to the scheduler", "why_tests_cant": "The interleavings of the keyboard's thread, the session's thread and the application's inside Post, ExecOne and the keyboard are unbounded; tests see a few.", "anchors": ["include/cli/clilocalsession.h: CliLocalTerminalSession", "include/cli/detail/inputdevice.h: Notify", "include/cli/detail/linuxkeyboard.h", "include/cli/loopscheduler.h"]}
{"id": "C86", "title": "complete.cpp: any number of sessions sharing one Cli answer as its menus say", "statement": "The example program complete.cpp, with a local session and any number of telnet sessions coming, typing lines, exiting or being lost in any order, writes to each session exactly what its menus, history and handlers prescribe for that session's lines, to all sessions what is broadcast, shows each session the prompt of its own menu, and keeps in the history file the last 1000 lines of the sessions that exited. The colour commands act on all sessions; exactly one of them is usable until they are removed. The program is undefined exactly when a sum overflows int or a recall (which is removed from the history first) is looked up in an empty history that has not dropped any line yet; it recurses without end exactly when recalled lines recall each other for ever.", "quantifier": "all interleavings of session openings, lines and losses, all lines (readable, without line feed), all initial history files of readable lines, recalls among them or not, all implementations of reading and printing std::complex", "why_tests_cant": "Sessions share menus, colours and the history storage; the combinations of lines and their interleavings are unbounded.", "anchors": ["examples/complete.cpp: main", "include/cli/cli.h: CliSession::Feed, Menu, CmdHandler", "include/cli/filehistorystorage.h", "include/cli/detail/history.h"]}
{"id": "C87", "title": "complete.cpp, key by key and byte by byte", "statement": "The example program complete.cpp, with its local session, its telnet server and its one thread, for any keys pressed at the computer and any bytes, connections, ends and errors coming from any number of telnet clients, handled in any order the scheduler allows: the keys handled are those pressed and those decoded from each client's bytes, in order; at each of them the local terminal gets, and each client is sent, exactly the echo, prompt, colours, remembered lines (Up, Down), completions (Tab) and answers a specification of its users prescribes (texts with line ends encoded, interleaved with the replies to telnet commands); who is there, each user's line and prompt, the colours and the saved history are those of the specification. The program is undefined, ends by an exception, or recurses without end, exactly where the specification says.", "quantifier": "all sequences of key presses, connections, reads (data, end, error) of any length for any number of clients and all schedules of their handlers; all keys; all initial history files of readable lines, recalls among them or not; terminal or not; all implementations of reading and printing std::complex; closing a socket that is open works", "why_tests_cant": "It is the whole program: editing, decoding, menus, colours, history and the interleaving of sessions, for inputs of unbounded length.", "anchors": ["examples/complete.cpp: main", "include/cli/detail/commandprocessor.h", "include/cli/detail/terminal.h", "include/cli/detail/genericasioremotecli.h", "include/cli/detail/server.h", "include/cli/cli.h: CliSession"]}
{"id": "C88", "title": "asyncsession.cpp writes what its menus say and ends at exit", "statement": "The example program asyncsession.cpp, however its input arrives: it writes prompts and answers for the lines it has read, in order, each once, as a specification of its menus says; when nothing is left to do it has answered all complete lines read; it ends exactly at the line exit, with 'Closing App...', the goodbye and status 0, and always does when that line was read; the output depends on the bytes only, not on the pieces in which they arrive. When the input ends before that, it waits for ever.", "quantifier": "all sequences of bytes arriving (in any pieces), ends of input and handlers run, of any length, whose first line with words is not a recall; terminal or not; where signed overflow wraps", "why_tests_cant": "The program's inputs and the ways the bytes are cut and interleaved with handlers are unbounded.", "anchors": ["examples/asyncsession.cpp: main", "include/cli/detail/genericcliasyncsession.h", "include/cli/detail/genericasioscheduler.h: Run, Stop", "include/cli/cli.h: CliSession"]}
{"id": "C89", "title": "Colours look the same on old consoles of Windows", "statement": "Whatever texts, colours, styles and prompt marks a program writes, a console before Windows 10 (where colours are console attributes) shows every character in the colours a terminal interpreting escape sequences shows it on a newer Windows, and streams that are not the console get the same bytes. Colours are those of their names; on the console a prompt is green and input bright white if colours are on, and plain otherwise, and what follows is plain; on other streams sequences are written if they are forced there. Behaviour is undefined exactly if fg::reset or bg::reset goes to an old console, never on newer ones. Clear blanks every character and puts the cursor in the corner, keeping the colours of the cells.", "quantifier": "all sequences of writes to all streams, on the console or not; all attributes (one manipulator); all console contents and sizes (Clear)", "why_tests_cant": "The tests do not run on Windows; the sequences of writes, and the states left by each, are unbounded.", "anchors": ["include/cli/detail/rang.h: reverseRGB, setWinAttribute, current_state, setColor", "include/cli/colorprofile.h", "include/cli/detail/winscreen.h: Clear"]}
{"id": "C90", "title": "Several local sessions can share a console", "statement": "With any number of local sessions (Linux keyboards) on one terminal, each keyboard behaves as one alone would on a terminal that others use too. Every byte typed is read by exactly one of them, in typing order; each finds the keys of the bytes it has read; one that is deactivated takes at most one more key. If the keyboard deactivated or destroyed always is the last one activated, the terminal is without echo and line editing while any is active and has its own mode again when none is.", "quantifier": "all numbers of keyboards, all interleavings of their threads with the main thread's calls, all input typed, and other readers; modes: all sequences of calls that are nested", "why_tests_cant": "Needs real terminals and all interleavings of several threads; numbers of keyboards and lengths of runs are unbounded.", "anchors": ["include/cli/detail/linuxkeyboard.h: LinuxKeyboard, InputSource", "include/cli/clilocalsession.h"]}
{"id": "C91", "title": "The example program of plugins end to end", "statement": "For all lines given to examples/pluginmanager.cpp, the program prints exactly what a small description of its plugins says. 'load p' adds a plugin with its own menu, as often as it is given; 'unload p' removes every plugin of that name, each saying so; 'loaded' lists those there are, oldest first; a plugin's commands (sums, differences, reversing, capitals, sorting) can be reached through its name from the main menu and from the other plugins through '..' or 'cli' only; of two plugins with one name the oldest is entered; help, history, '! n', colours and 'exit' (which ends the program, the plugins left saying farewell) work in between. The description determines the output. Without recalls, 'unload' and calculations nothing undefined happens.", "quantifier": "all sequences of lines (ASCII, or any where char is unsigned), both orders in which the plugins may be registered, terminal or not", "why_tests_cant": "The set of plugins, and with it the menus, grows without bound with the lines; the output depends on the whole sequence of them.", "anchors": ["examples/pluginmanager.cpp: main, PluginRegistry, PluginContainer, Arithmetic, Strings", "include/cli/cli.h: Menu::Insert, Menu::Remove, CmdHandler, Feed, Prompt, Help"]}
{"id": "C92", "title": "The example programs with an io_context of their own end to end", "statement": "For all lines typed at examples/boostasio_nonowner_iocontext.cpp or standaloneasio_nonowner_iocontext.cpp, whenever their timer expires and in whatever way the handlers of the io_context are interleaved with the arrival of lines, the program prints exactly what a small description of its menu says for the first things that happened (for all of them when no handler is waiting): 'hello', 'color' and 'nocolor' (each of which disables itself and enables the other), help, history, '! n', wrong commands, exceptions, and the timer's message once. The line 'exit' stops the io_context the scheduler does not own, and the program returns 0 without running what is queued behind it. The description determines the output, and no handler waits for ever.", "quantifier": "all interleavings of lines, the timer and the taking of handlers; all lines (ASCII, or any where char is unsigned); terminal or not", "why_tests_cant": "The moment the timer expires and the lines queued behind 'exit' give unboundedly many interleavings.", "anchors": ["examples/boostasio_nonowner_iocontext.cpp: UserInterface, main", "examples/standaloneasio_nonowner_iocontext.cpp: UserInterface, main", "include/cli/detail/genericasioscheduler.h: GenericAsioScheduler(ContextType&), Stop, Post"]}
{"id": "C93", "title": "Menus may be changed while a line is being processed", "statement": "Command functions may insert, remove, enable and disable commands while the loops over the menus that called them are running. Looking a line up in the menus calls only commands that are enabled and in the menus at the moment they are called, and every call but the last ended with a std::bad_cast. If functions that let a std::bad_cast escape insert and remove nothing, the behaviour is defined, whatever they enable and disable: a command disabled meanwhile is passed over and one enabled meanwhile can run on the same line. When a function found in the current menu ends with a std::bad_cast, the behaviour is undefined exactly if the vector of commands of that menu did not stay the same all the time while it ran, however the menu looks afterwards; changes of other menus do no harm.", "quantifier": "all menu trees, all user code (any operations, any exceptions), all lines and session states", "why_tests_cant": "User code is unrestricted, and the invalid iterators show only for certain places of the change relative to the running loops.", "anchors": ["include/cli/cli.h: CmdHandler::Remove, Menu::Insert, Menu::ScanCmds, Menu::HandleCommand", "include/cli/cli.h: VariadicFunctionCommand::Exec"]}
{"id": "C94", "title": "Actions and handlers may be set at any time", "statement": "User code may set the enter and exit actions of the Cli and of its session, the exception handler and the wrong-command handler at any time, also from inside commands, actions and handlers. Each one called is the one last set for its purpose at the moment of the call: an exception handler set by a function gets what that function throws next, and a handler emptied meanwhile gives the default message. With an empty exit action of the session, Exit throws std::bad_function_call and the session goes on unchanged.", "quantifier": "all sessions, user programs (of operations, nested calls and settings), lines, nesting depths", "why_tests_cant": "Settings can come at any point of unbounded nested user code.", "anchors": ["include/cli/cli.h: Cli::EnterAction, ExitAction, StdExceptionHandler, WrongCommandHandler", "include/cli/cli.h: CliSession::EnterAction, ExitAction, Enter, Exit"]}
{"id": "C95", "title": "Menus inserted as commands", "statement": "A menu handed to the Insert that takes a std::unique_ptr<Command> gets no parent. It is listed, owned, enabled, removed and destroyed like any other command, but a session that enters it never leaves it and the menus below it by a line, neither by \"..\" nor by the name of the menu that holds it. Within it commands, help and completions are those of a session whose root menu it is, and so is what a line starting with its name does from outside. Every other menu points to the one that holds it.", "quantifier": "all sequences of operations on any number of menus and handlers; all lines, user functions and menus they are used from", "why_tests_cant": "Which menus have a parent depends on the whole sequence of operations; that no line leads out is about all lines and user functions.", "anchors": ["include/cli/cli.h: Menu::Insert(std::unique_ptr<Command>&&)", "include/cli/cli.h: Menu::HandleCommand, Menu::ScanCmds, Menu::MainHelp, Menu::GetCompletions"]}
{"id": "C96", "title": "Every command can be called, with every value but the empty string", "statement": "If in every menu the names of the commands are different, not empty, not \"..\" and not those of the global commands, then from any menu some line runs any enabled function of the application with any values of its parameter types, except the empty string; some line runs any free form function with any non-empty words, and some line enters any menu. Conversely no line makes a function run with an empty string, and a command with an empty name is never run.", "quantifier": "all trees of menus, all current menus, all commands and all tuples of values; for the converse all lines, user functions and states", "why_tests_cant": "It says that for every command, every menu to start from and every tuple of values a suitable line exists, and of one value that no line passes it.", "anchors": ["include/cli/detail/split.h: split", "include/cli/detail/fromstring.h: from_string", "include/cli/cli.h: CliSession::Feed, Menu::ScanCmds, VariadicFunctionCommand::Exec, FreeformCommand::Exec"]}
{"id": "C97", "title": "Destroying a LoopScheduler", "statement": "When the destructor of a LoopScheduler comes to destroy its members, no thread waits for its condition variable without having been notified, so this is defined unless a thread holds the mutex. If nobody calls the scheduler afterwards, all is well if every thread is done with it: in none of its functions, except in (or about to call) a task by ExecOne or PollOne, and in no task called by Run; if one is not, undefined behaviour may follow. So a scheduler must not be destroyed while another thread is in Run, although the destructor stops it, nor by a task that Run called. The tasks still queued are dropped.", "quantifier": "all executions of any number of threads, any of which destroys the scheduler at any time", "why_tests_cant": "Whether a woken thread uses the destroyed mutex depends on the interleaving; usually it goes unnoticed.", "anchors": ["include/cli/loopscheduler.h: LoopScheduler::~LoopScheduler, Stop, Run, ExecOne, PollOne, Post"]}
{"id": "C98", "title": "Destroying a scheduler based on asio", "statement": "Destroying a scheduler with a context of its own is defined iff no thread is in Stop when the destructor begins and none is in a function of the scheduler or the context, or in a task, when the context is deleted; the guard is always given up before. Tasks not yet taken are dropped, those taken were all started, and from then on neither may be used. With a context of the application the destructor changes nothing of the context: whatever uses only the context goes on as it would have, and the tasks posted are run with it.", "quantifier": "all executions of any number of threads using the scheduler and its context, old and new versions of asio, any time of destruction", "why_tests_cant": "The destruction may come at any point of any execution of several threads.", "anchors": ["include/cli/detail/genericasioscheduler.h: GenericAsioScheduler::~GenericAsioScheduler", "include/cli/detail/newboostasiolib.h", "include/cli/detail/newstandaloneasiolib.h", "include/cli/detail/oldboostasiolib.h", "include/cli/detail/oldstandaloneasiolib.h"]}
{"id": "C99", "title": "Exactly which texts are undefined as parameters", "statement": "For every text, every integer type, bool and the floating point types, the conversion of a parameter is undefined behaviour exactly in two cases. (1) Where char is signed: the first character that is not part of the number (for floating point: white space) is a byte from 128 to 254, and the digits before it fit the type. (2) Where overflow is undefined: a minus sign and digits that fit the unsigned type, for int and wider types and bool. In all other cases exactly the texts of numbers of the type give their value, and all others are rejected.", "quantifier": "all texts (any bytes), all widths >= 8, all ten integer types, bool, float types with any C library, char signed or not, overflow undefined or not", "why_tests_cant": "The bytes are unbounded sequences, and undefined behaviour is not observable by running one compiler's code.", "anchors": ["include/cli/detail/fromstring.h: unsigned_digits_from_string, unsigned_from_string, signed_from_string, from_string<bool>, from_string<float>"]}
{"id": "C100", "title": "Exactly which lines are undefined", "statement": "A line given to Feed is undefined behaviour exactly if it names a function of the session (help, exit, history and ! included) with the right number of arguments, one of which is undefined as a text of its parameter's type (C99) while the arguments before it are converted; or it is a recall and no command was ever recorded, or the line it recalls is itself undefined. Where char is signed, for every enabled function with a number or a bool among its parameters there is such a line.", "quantifier": "all lines, command trees, sessions in any state, platforms, user code that lets no bad_cast escape", "why_tests_cant": "It excludes undefined behaviour for every text and tree, which no run shows, and gives the exact exceptions.", "anchors": ["include/cli/cli.h: CliSession::Feed, Select::Exec, VariadicFunctionCommand::Exec", "include/cli/detail/fromstring.h: from_string"]}
{"id": "C101", "title": "A shared history file, when files cannot be used and processes are killed", "statement": "Several processes use one history file; opening, reading or writing it may fail at any point, and processes may be killed at any point. If no call begins during another one, the file holds what is left of the commands stored since it was last cleared: in order, each unchanged, but for at most one shortened command for each failed write and each kill. If calls overlap, the commands of a Store that can write, is not killed, and is the only writer from before it opens the file until it is done, are kept as the most recent ones, whatever happens to the others and however its reading fails. Each byte of the file is one that some call had to write at that place.", "quantifier": "all initial files, all numbers of processes, all interleavings, all failures and kills at all points, all sizes of the pieces read and written", "why_tests_cant": "Crashes and failures at every point of every interleaving are unboundedly many schedules.", "anchors": ["include/cli/filehistorystorage.h: FileHistoryStorage::Store, Commands, Clear"]}
{"id": "C102", "title": "The Windows keyboard when calls of Windows fail", "statement": "Waiting for input, reading a character, setting the stop event and posting a key may fail at any point. Whichever calls fail: no character typed is lost, repeated or moved; the keys found are those that the characters say, with one more for each EOF of _getch in its place (the end of the input, or, inside a key of two characters, an ignored one); only the key whose Post throws is not posted, and it is the last. With assertions, the first wait that fails aborts the program and nothing else does. If SetEvent works, then after the destructor was called the thread takes at most four more steps for each wait that fails, and either thread can go on unless the keyboard's waits for a character. The thread ends only if it was told to or a key could not be posted; when the destructor has ended, the thread has. If SetEvent fails the destructor never ends; if every wait fails, a closed input is reported without end.", "quantifier": "all records typed, all interleavings of the two threads, all failures at all points, with and without assertions", "why_tests_cant": "Failures of Windows calls cannot be provoked at will, and they can happen at every point of unboundedly many interleavings.", "anchors": ["include/cli/detail/winkeyboard.h: InputSource, WinKeyboard"]}
{"id": "C103", "title": "The Linux keyboard when system calls fail", "statement": "select, read, write, tcgetattr, tcsetattr and posting a key may fail at any point. Whichever calls fail: no byte typed is lost, repeated or moved; the keys found are those of the bytes read, with a zero byte in its place for each read that failed; only the key whose Post throws is not notified, and it is the last. If input is active, the destructor ends as if nothing had failed, even if nothing can be written into the pipe: the thread takes at most nine more steps, and either thread can go on unless the keyboard's waits for the rest of a key. Only a select that failed can have the process killed by the destructor; the thread ends only if it was told to, a select failed or a key could not be posted; when the destructor has ended, the thread has. If tcgetattr works, the terminal never gets a mode other than those it had from others, with or without canonical mode and echo. If pipe failed, or returned a descriptor too large for select, nothing is ever read.", "quantifier": "all input, all interleavings of the two threads and the rest of the world, all failures at all points, char signed or not", "why_tests_cant": "Failures of system calls cannot be provoked at will, and they can happen at every point of unboundedly many interleavings.", "anchors": ["include/cli/detail/linuxkeyboard.h: InputSource, LinuxKeyboard"]}
{"id": "C104", "title": "The history file on Windows", "statement": "The history file is opened in text mode. Whatever stores and clears are done, by storages with any limits, if no command has a line feed or a Ctrl-Z, the file is read back as an ideal list of the last commands, the same as on other systems. It has a line for each command, ended by a carriage return and a line feed. If a command has a Ctrl-Z, the commands before it and the part of it before the Ctrl-Z are read back, and nothing else. A file written on another system is read correctly unless a command ends in a carriage return; on another system each command of a file written on Windows ends in one. After a crash during Store the file has the first ones of the new commands, the last of them possibly shortened or with a carriage return added.", "quantifier": "all sequences of stores and clears, all limits, all initial files, all points of a crash", "why_tests_cant": "The effects depend on carriage returns and Ctrl-Z at every place in the commands, on every byte a crash can cut at, and on a runtime library that tests on Linux do not use.", "anchors": ["include/cli/filehistorystorage.h: FileHistoryStorage"]}
{"id": "C105", "title": "A history file that is removed or replaced while it is used", "statement": "Somebody removes the history file, or puts another file in its place, at any time while processes store and clear. If this never happens during a call, and calls do not overlap, the file is what calls, removals and replacements make of it one after another. Whenever it happens while no process is between the begin of a Store and its opening of the file for writing, all that follows is as if it began there, with the new file or none: a process still writing does not matter any more. The commands of a Store are kept, as the most recent ones, if nobody else changes, removes or replaces the file of this name from before the Store opens it for writing until it is done, whatever happened before.", "quantifier": "all numbers of processes, all interleavings of their reads and writes with removals and replacements, all contents", "why_tests_cant": "Removals must hit points within a call that cannot be chosen from outside, in unboundedly many interleavings.", "anchors": ["include/cli/filehistorystorage.h: FileHistoryStorage::Store, Commands, Clear"]}
{"id": "C106", "title": "Which command Insert makes of a function", "statement": "A call of Menu::Insert with a name and a function makes a command of typed words exactly if the arguments are, in this order, the function, optionally a help text, optionally descriptions; or descriptions, the function, optionally a help text; if the parameters after the stream are taken by value or constant reference and have types that words can be converted to; and if the function is an object with one constant operator(), or a plain function that comes first and is followed by a help text. It makes a command of all words exactly for such objects with one parameter std::vector<std::string>. The command gets the text and the descriptions given and calls the function with one converted word for each parameter, or with all words. Two literals in braces in place of the help text are undefined behaviour; all other calls do not compile.", "quantifier": "all argument lists, all callables with any number of parameters, all lines", "why_tests_cant": "Every call is a program of its own, and there are unboundedly many parameter lists; most cases are programs that must not compile, which a test program cannot contain.", "anchors": ["include/cli/cli.h: Menu::Insert, VariadicFunctionCommand, FreeformCommand, Select"]}
{"id": "C107", "title": "Exactly which keys are undefined", "statement": "In an interactive session, handling a key is undefined behaviour exactly if it is Return, and the line is undefined or leaves a session that goes on in a menu that was destroyed; or Tab, and the current menu was destroyed, or the line, read as a chain of names of submenus, of the parent menu or of '..', each followed by white space or by nothing, leads to a character with a negative value (a non-ASCII byte where char is signed) in front of which completion trims; or Ctrl-L, and the current menu of a session that goes on was destroyed. All other keys are defined, and a sequence of keys is undefined exactly if one of its keys is, where it is typed. A telnet server, with any clients, is undefined exactly if some key is when it is handled, and a local session with its threads only then.", "quantifier": "all trees with unique commands, all histories, all lines and cursor positions, all keys and key sequences, all user code; all clients and interleavings of handlers and threads", "why_tests_cant": "It is an equivalence: every key that is not listed is defined in every state; and undefined behaviour is not observable by a test.", "anchors": ["include/cli/detail/commandprocessor.h: NewCommand", "include/cli/cli.h: CliSession::GetCompletions, Menu::GetCompletionWithParent, Menu::GetCompletionRecursiveHelper"]}
{"id": "C108", "title": "What depends on the locale of the program", "statement": "In every locale that extends ASCII, floating point parameters are read as in the \"C\" locale with the roles of the locale's decimal point and the full stop exchanged: the same values, the same rejections, the same undefined cases; texts with neither of them are read the same everywhere. Completion gives the same results as in the \"C\" locale where char is signed, and elsewhere on all lines without characters that are white in that locale only. Nothing else in the library depends on the locale set by setlocale (streams have locales of their own).", "quantifier": "all locales that extend ASCII, platforms, formats, texts, lines, menus", "why_tests_cant": "Test machines have a few locales installed; the equivalence is over all locales and all texts.", "anchors": ["include/cli/cli.h: CliSession::GetCompletions, Menu::GetCompletionRecursiveHelper", "include/cli/detail/fromstring.h: from_string<float>, <double>, <long double>"]}
{"id": "C109", "title": "The history when memory runs out", "statement": "If any allocations made by the history fail with bad_alloc, all its operations stay defined and its bound holds; every history reached is one reached without failures, but for the number of commands counted. A command that cannot be recorded leaves the entries as they were and can be entered again; a failing Up does nothing or moves without returning the text, a failing Down has moved, a failing load keeps the commands before the failing one. What is stored are as many of the last entries as lines were entered, recorded or not.", "quantifier": "all sizes from 1, sequences of operations, patterns of failing allocations", "why_tests_cant": "Each allocation of each operation would have to be made to fail, in every state.", "anchors": ["include/cli/detail/history.h: History::NewCommand, Previous, Next, LoadCommands, GetCommands, Insert", "include/cli/cli.h: CliSession::ExecFromHistory, CliSession::Exit"]}
{"id": "C110", "title": "Lines there is no memory for", "statement": "If cutting a line into words or recording it fails with bad_alloc, the exception leaves Feed; nothing of the line ran, nothing was printed, no entry of the history changed. A session that goes on behaves from then on as one in which these lines were never entered: same functions called, same output, same menus, same outcome; only the number of commands stored at the end differs, by the lines lost while being recorded.", "quantifier": "all menus, user functions, lines, states not browsing, patterns of failing allocations", "why_tests_cant": "The failure has to hit two particular statements, in every state, and the comparison is with all later behaviour.", "anchors": ["include/cli/cli.h: CliSession::Feed, CliSession::Exit", "include/cli/detail/history.h: History::NewCommand"]}
{"id": "C111", "title": "Sessions that could not be constructed", "statement": "If the constructor of CliSession fails with bad_alloc before it has registered its stream, the global output stream is as if no session had been attempted. If it fails afterwards, while the commands of the global menu are inserted, the stream stays registered: it goes on receiving broadcasts, and once it is destroyed every broadcast is undefined, until a session on a stream at the same place is closed. Nothing else makes a program undefined in which streams outlive the sessions on them.", "quantifier": "all programs of constructions, failing at any stage, closings, creation and destruction of streams, broadcasts", "why_tests_cant": "The failure has to hit one of the last four insertions, and the effect shows only in a later broadcast of another session.", "anchors": ["include/cli/cli.h: CliSession::CliSession, CliSession::~CliSession, OutStream", "include/cli/detail/genericasioremotecli.h: CliTelnetSession"]}
{"id": "C112", "title": "The line editor when memory runs out", "statement": "Whatever allocations of Terminal fail with bad_alloc, nothing is accessed out of range, and line and cursor are those of an ideal editor in which the operations that threw did not happen, except a Backspace, which did, and a Return that failed while handing over the line, after which the line is empty. After the next Return that succeeds, the screen shows what is typed, as long as there is memory.", "quantifier": "all sequences of keys and replaced lines, colour settings, patterns of failing allocations, both orders of evaluation", "why_tests_cant": "Each of up to four allocations per key has to fail in every state, and the later behaviour compared.", "anchors": ["include/cli/detail/terminal.h: Terminal::Keypressed, Terminal::SetLine"]}
{"id": "C113", "title": "Browsing the history when memory runs out", "statement": "Whatever allocations fail with bad_alloc while Up and Down are handled, nothing is undefined. An Up that fails does nothing, or moves in the history without showing the entry, depending on the allocation; a Down that fails always moves. If after a failure Up is not pressed before a Down that succeeds, all entries of the history are kept.", "quantifier": "all reachable histories, lines and cursors, sequences of Up and Down, colour settings, patterns of failing allocations", "why_tests_cant": "The failure has to hit one of up to seven allocations, and its effect shows in the entries only after further keys.", "anchors": ["include/cli/detail/commandprocessor.h: CommandProcessor::NewCommand", "include/cli/detail/history.h: History::Previous, History::Next", "include/cli/detail/terminal.h: Terminal::SetLine"]}
{"id": "C114", "title": "TAB, Clear and all editing keys when memory runs out", "statement": "Whatever allocations fail with bad_alloc, any sequence of editing keys (those of the line editor, Up, Down, TAB, Clear) is defined and leaves a history and a line that could be reached without failures. A TAB or Clear that fails leaves the text of the line as it was; the cursor stays, or goes to the start of the line if the line could not be shown again after the prompt.", "quantifier": "all reachable histories, lines and cursors, completions, sequences of keys, colour settings, patterns of failing allocations", "why_tests_cant": "Any of the allocations of any key in any sequence may fail, and all states that follow count.", "anchors": ["include/cli/detail/commandprocessor.h: CommandProcessor::NewCommand, CommandProcessor::Keypressed", "include/cli/detail/terminal.h: Terminal"]}
{"id": "C115", "title": "Return when memory runs out", "statement": "When bad_alloc leaves the handling of Return, the input device is on exactly if the line editor was what failed. Then the line is still in the editor and only a line end was written; or the editor is empty and the line either had no effect at all (no command ran, menus, current menu and entries of the history are as before) or was run in full with only the prompt missing. If no bad_alloc leaves it, Return is handled as it is with memory. While lines are typed, with keys failing anywhere and the caller going on, input is off at the end only if some Return failed after its line was handed over.", "quantifier": "all sessions, lines and cursors, sequences of editing keys and Returns, user code, colour settings, patterns of failing allocations", "why_tests_cant": "Each allocation of the line editor, of Feed and of the prompt may fail, for every line, session and behaviour of user code.", "anchors": ["include/cli/detail/commandprocessor.h: CommandProcessor::Keypressed, CommandProcessor::NewCommand", "include/cli/cli.h: CliSession::Feed, CliSession::Prompt", "include/cli/detail/terminal.h: Terminal::Keypressed"]}
{"id": "C116", "title": "Exit when memory runs out", "statement": "An Exit that fails with bad_alloc while it copies or stores the commands has run each exit action once, and looks like one that succeeded: same output, same calls, same menus. But the session is not over: it is where it was, with its history. If the copy failed, nothing was stored. However often Exit is tried so, one that succeeds at last stores the commands once, as if it were the first, while the exit actions have run as often as it was tried.", "quantifier": "all sessions, exit actions, histories, storages, numbers of failed attempts, storages left by a Store that fails", "why_tests_cant": "Any number of attempts may fail, with any history, storage and behaviour of the exit actions.", "anchors": ["include/cli/cli.h: CliSession::Exit, Cli::StoreCommands", "include/cli/detail/history.h: History::GetCommands", "include/cli/volatilehistorystorage.h: VolatileHistoryStorage::Store"]}
{"id": "C117", "title": "The history file when memory runs out", "statement": "A Store of the history file that throws bad_alloc leaves the file as it is. One that returns has stored its commands behind the lines of the file that could be read: all of them, or those before the first line there was no memory to read. However many sessions end, with whatever failures, the file holds in order some of the commands it held and of those whose Store returned, none of them altered. What happens to the file could also be a failure of the device.", "quantifier": "all files, limits, commands, numbers of sessions, patterns of failing allocations", "why_tests_cant": "Memory may run out at any line of any file in any of any number of sessions.", "anchors": ["include/cli/filehistorystorage.h: FileHistoryStorage::Store, FileHistoryStorage::Commands"]}
{"id": "C118", "title": "File sessions when reading fails", "statement": "A file session whose input stream fails after some bytes of a text (badbit: a read error reported by the stream buffer, or no memory for the line) runs exactly the lines read in full before the failure, then, as one more line, the part of the next line that was read, and then exits. Start returns, with each exit action run exactly once, or at most once if an exception leaves it.", "quantifier": "all texts, points of failure, menus, user code, colour settings", "why_tests_cant": "Reading may fail at any byte of any text, with any commands and user code.", "anchors": ["include/cli/clifilesession.h: CliFileSession::Start"]}
