{"id": "C01", "title": "Option lookup is last-one-wins on the first '='", "statement": "For any NULL-terminated array of C strings handed over by sudo, looking up key k yields v exactly when some entry means (k,v) and no later entry means a pair with the same key, where an entry means (text before its first '=', text after it), or (entry, entry) if it has no '='; a NULL array yields nothing.", "quantifier": "every array (any length, any byte contents including embedded '=', duplicate keys, empty strings, non-UTF-8), every key", "why_tests_cant": "the space of arrays and duplicate/ordering patterns is infinite; tests sample a handful of arrays", "anchors": ["sudo_plugin/src/options/option_map.rs::OptionMap::from_raw", "sudo_plugin/src/options/option_map.rs::OptionMap::get_bytes"]}
{"id": "C02", "title": "Typed option reads distinguish missing, invalid and valid", "statement": "A typed read of key k succeeds with x exactly when the array provides a value for k that is valid UTF-8 and denotes x in the requested type; it reports 'missing k' exactly when no value is provided or the value is not UTF-8; otherwise it reports 'invalid k value'.", "quantifier": "every array, key and requested type", "why_tests_cant": "needs all combinations of presence, encoding validity and parsability", "anchors": ["sudo_plugin/src/options/option_map.rs::OptionMap::get", "sudo_plugin/src/options/option_map.rs::OptionMap::get_str"]}
{"id": "C03", "title": "Text values are accepted exactly when they are well-formed UTF-8", "statement": "A value can be read as text exactly when its bytes are the concatenation of the UTF-8 encodings of a sequence of Unicode scalar values (no surrogates, no overlong forms, nothing above U+10FFFF).", "quantifier": "every byte string", "why_tests_cant": "all byte strings of unbounded length", "anchors": ["sudo_plugin/src/options/option_map.rs::OptionMap::get_str"]}
{"id": "C04", "title": "Integer options parse exactly the decimal numerals in range", "statement": "Reading an option as an integer type succeeds with n exactly when the text is an optional sign ('-' only for signed types) followed by one or more decimal digits denoting n, and n is within the range of the type; overflow is an error, never a wrapped value.", "quantifier": "every text and every one of the eight integer types", "why_tests_cant": "overflow boundaries and unbounded leading zeros need all strings", "anchors": ["sudo_plugin/src/options/traits.rs::FromSudoOption for i8..u64"]}
{"id": "C05", "title": "Printed numbers read back", "statement": "The decimal text the plugin prints for an integer of a type is parsed back to the same integer by the option parser of that type, uses only digits with an optional leading '-', and has no leading zeros.", "quantifier": "every value of every integer type", "why_tests_cant": "2^64 values", "anchors": ["sudo_pair/src/lib.rs::SudoPair::socket_path", "sudo_pair/src/lib.rs::SudoPair::template_spec", "sudo_plugin/src/options/traits.rs"]}
{"id": "C06", "title": "List options are all-or-nothing", "statement": "A comma-separated list option is accepted exactly when every element between commas is a valid element (so an empty list text or a trailing comma is rejected), and then yields the element values in order.", "quantifier": "every text", "why_tests_cant": "arbitrary lengths and positions of the bad element", "anchors": ["sudo_plugin/src/options/traits.rs::FromSudoOption for Vec<T>", "sudo_plugin/src/options/traits.rs::FromSudoOptionList"]}
{"id": "C07", "title": "Missing or malformed user information aborts the session with no side effect", "statement": "If any of cwd, egid, euid, gid, groups, host, pgid, pid, ppid, uid, user is absent, not UTF-8 or unparsable in the user-info array, opening the plugin returns -1, and nothing but error text is emitted: no prompt is shown, no file is touched, no socket is created, no plugin becomes active.", "quantifier": "every set of arrays, every environment behaviour", "why_tests_cant": "many fields times many malformed values, plus absence of effects", "anchors": ["sudo_plugin/src/options/user_info.rs::UserInfo::try_from", "sudo_plugin/src/core.rs::open"]}
{"id": "C08", "title": "Target identity defaults", "statement": "The effective target uid is runas_euid if readable, else runas_uid if readable, else the effective uid of the sudo process; likewise for gids.", "quantifier": "every command-info array", "why_tests_cant": "combinations of missing/malformed/non-UTF-8 for the two keys", "anchors": ["sudo_plugin/src/options/command_info.rs::CommandInfo::try_from"]}
{"id": "C09", "title": "Optional settings never make opening fail", "statement": "No optional setting (one other than plugin_dir, plugin_path, progname) can by itself cause opening to abort: malformed optional settings are ignored. REFUTED by network_addrs entries that are a valid address without '/mask'; proved for every array whose network_addrs entries all either contain '/' or do not start with a valid address.", "quantifier": "every settings array", "why_tests_cant": "a slice-index panic on one syntactic shape among infinitely many values", "anchors": ["sudo_plugin/src/options/settings.rs::Settings::try_from", "sudo_plugin/src/options/settings.rs::NetAddr::from_sudo_option"]}
{"id": "C10", "title": "Unsupported API versions are refused before anything is read", "statement": "If sudo's advertised API version is older than 1.9, opening returns -1 whatever the other arguments are, the only effect being the error text; if it is at least 1.9 the version never causes a refusal.", "quantifier": "every 32-bit version word, every argument set", "why_tests_cant": "2^32 versions and arbitrary other arguments", "anchors": ["sudo_plugin/src/version.rs::Version::check", "sudo_plugin/src/plugin/io_env.rs::IoEnv::new"]}
{"id": "C11", "title": "Version words round-trip and order correctly", "statement": "Packing and unpacking API versions are inverse for all 16-bit major/minor pairs and all 32-bit words, and comparing versions agrees with comparing words.", "quantifier": "all 2^32 words", "why_tests_cant": "bit manipulation over the full 32-bit range", "anchors": ["sudo_plugin-sys/src/lib.rs::sudo_api_mkversion", "sudo_plugin/src/version.rs"]}
{"id": "C12", "title": "Prompt templates expand as documented", "statement": "Expanding a template replaces each two-byte sequence '%c' by the expansion of c if one is defined and by c itself otherwise, copies every other byte, and drops a lone trailing '%'; the result is unique.", "quantifier": "every template (any bytes), every set of expansions", "why_tests_cant": "unbounded templates; adjacent/trailing escapes", "anchors": ["sudo_pair/src/template.rs::Spec::expand"]}
{"id": "C13", "title": "Expanded values are never re-interpreted", "statement": "Text substituted into a prompt (command line, cwd, host, user) appears verbatim: '%' sequences inside substituted values are not expanded, and expanding a template that ends on a directive boundary followed by another template equals concatenating the two expansions.", "quantifier": "every template and every substituted value, including values containing '%'", "why_tests_cant": "an attacker controls the command line; injection must be excluded for all values", "anchors": ["sudo_pair/src/template.rs::Spec::expand", "sudo_pair/src/lib.rs::SudoPair::template_spec"]}
{"id": "C14", "title": "The prompt directives show the documented request data", "statement": "%b %B %C %d %h %H %g %p %u %U %W stand for the approval program's name and path, the reconstructed invocation, the effective cwd, hostname, terminal rows, real gid, pid, real uid, user name and terminal columns; every other byte after % stands for itself.", "quantifier": "every request", "why_tests_cant": "all requests; a swapped directive is invisible on symmetrical test data", "anchors": ["sudo_pair/src/lib.rs::SudoPair::template_spec", "sudo_pair/src/lib.rs::PluginOptions::binary_name"]}
{"id": "C15", "title": "Plugin options fall back to documented defaults", "statement": "Each plugin option takes the provided value when readable and otherwise the documented default (binary_path, prompt paths, socket_dir, gids_enforced = {0}, gids_exempted = {}).", "quantifier": "every plugin-option array", "why_tests_cant": "all malformed values", "anchors": ["sudo_pair/src/lib.rs::From<&OptionMap> for PluginOptions"]}
{"id": "C16", "title": "A configured enforcement list is never silently narrowed", "statement": "If the administrator provides a gids_enforced value, every gid written in it is enforced. REFUTED: one malformed element (for instance a space or an empty element) silently replaces the whole list by {0}. With the empty list of the sample configuration, every callback and system call is as with gids_enforced=0.", "quantifier": "every gids_enforced value", "why_tests_cant": "the failure needs a list with one malformed element among valid ones", "anchors": ["sudo_pair/src/lib.rs::From<&OptionMap> for PluginOptions"]}
{"id": "C17", "title": "Pairing is required exactly when documented", "statement": "A request proceeds without a pair exactly when: invoked by the user sudo runs as; or neither effective uid nor gid changes; or the command is the approval program; or no output stream is to be logged; or one of the user's groups is exempted; or none of the groups the command will have is enforced.", "quantifier": "every combination of arrays", "why_tests_cant": "six interacting conditions over unbounded group sets", "anchors": ["sudo_pair/src/lib.rs::SudoPair::is_exempt"]}
{"id": "C18", "title": "Approval-program exemption is by path components", "statement": "The approval-program exemption applies exactly when the command path and binary_path have the same components (repeated and trailing '/' and interior '.' ignored; '..' and symlinks are not resolved).", "quantifier": "every pair of paths", "why_tests_cant": "all spellings of paths", "anchors": ["sudo_pair/src/lib.rs::SudoPair::is_sudoing_approval_command"]}
{"id": "C19", "title": "Changing both user and group is refused up front", "statement": "A non-exempt request that changes the effective uid and names a group with -g is refused (-1) before any prompt is shown, any file is touched, or any socket created.", "quantifier": "every such request and every environment behaviour", "why_tests_cant": "absence of effects over all environments", "anchors": ["sudo_pair/src/lib.rs::SudoPair::is_sudoing_to_user_and_group", "sudo_pair/src/lib.rs::SudoPair::open"]}
{"id": "C20", "title": "No approval, no session", "statement": "Opening a non-exempt request returns 1 only if a peer connection was accepted on the request's socket, the whole pair prompt was delivered to it, and the byte then read from it was 'y' or 'Y'.", "quantifier": "every request, every environment behaviour (errors, short writes, interrupts, connection schedules)", "why_tests_cant": "all interleavings of failures and partial I/O", "anchors": ["sudo_pair/src/lib.rs::SudoPair::open", "sudo_pair/src/lib.rs::SudoPair::remote_pair_prompt", "sudo_pair/src/socket.rs::Socket::open"]}
{"id": "C21", "title": "Anything but y/Y refuses", "statement": "If the peer closes, the read fails or is interrupted, or the byte is anything else, opening returns -1; exactly one read is made and no later byte can change the outcome.", "quantifier": "every response byte and every read error", "why_tests_cant": "256 bytes times errors times surrounding schedule", "anchors": ["sudo_pair/src/lib.rs::SudoPair::remote_pair_prompt"]}
{"id": "C22", "title": "Approval is honoured", "statement": "If the socket directory is acceptable, every system call succeeds, someone connects and answers y or Y, opening returns 1 and the session becomes active. In any such directory, whoever the socket is meant for can approve, provided they may search the directories above the socket (C87).", "quantifier": "every non-exempt, non -u/-g request and every such environment", "why_tests_cant": "completeness over all requests", "anchors": ["sudo_pair/src/lib.rs::SudoPair::open", "sudo_pair/src/socket.rs::Socket::open"]}
{"id": "C23", "title": "The socket is never connectable by outsiders, at any instant", "statement": "At every point of opening (so at every possible crash point), the permission bits of the inode created for the socket are either 000, or exactly 0200 with the target user as owner (user change), or exactly 0020 with the target group as group (group change), provided only trusted processes can alter the socket directory.", "quantifier": "every request, every schedule of actions by other processes, every prefix of the execution", "why_tests_cant": "crash points and races between bind, chown and chmod", "anchors": ["sudo_pair/src/socket.rs::Socket::open", "sudo_pair/src/lib.rs::SudoPair::socket_mode", "sudo_pair/src/lib.rs::SudoPair::socket_uid", "sudo_pair/src/lib.rs::SudoPair::socket_gid"]}
{"id": "C24", "title": "A user-change session needs someone able to act as the target user", "statement": "If a request changes the effective uid, no schedule of connects, unlinks, creations, renames, links, chmods and chowns by processes that are neither privileged, nor running as sudo's own uid, nor as the target uid leads to opening returning 1; no assumption on the socket directory is needed.", "quantifier": "every request, every schedule of actions by other processes, every environment behaviour", "why_tests_cant": "adversarial concurrency", "anchors": ["sudo_pair/src/socket.rs::Socket::open", "sudo_pair/src/lib.rs::SudoPair::socket_uid"]}
{"id": "C25", "title": "A group-change session needs a member of the target group", "statement": "If a request keeps the uid and names a group, and the chain of directories above the socket is only writable by trusted processes, no schedule of actions by processes that are neither privileged nor sudo's uid nor members of the target group leads to opening returning 1.", "quantifier": "every request, every schedule of actions by other processes", "why_tests_cant": "adversarial concurrency", "anchors": ["sudo_pair/src/socket.rs::Socket::open", "sudo_pair/src/socket.rs::Socket::enforce_ownership", "sudo_pair/src/lib.rs::SudoPair::socket_gid"]}
{"id": "C26", "title": "The accepted peer itself is authorised", "statement": "When other processes only attempt connections, the peer that is accepted is privileged, or has the target uid (user change), or belongs to the target group (group change).", "quantifier": "every connection schedule, any number of competing peers", "why_tests_cant": "which connection is accepted depends on the schedule", "anchors": ["sudo_pair/src/socket.rs::Socket::open"]}
{"id": "C27", "title": "The requesting user can never approve their own session", "statement": "The plugin never accepts a connection from the requesting user. REFUTED: with -g to a group the requester already belongs to, the requester may connect and answer y.", "quantifier": "every request", "why_tests_cant": "needs the interaction of file permissions and group membership", "anchors": ["sudo_pair/src/lib.rs::SudoPair::open", "sudo_pair/src/lib.rs::SudoPair::socket_gid"]}
{"id": "C28", "title": "The umask is restored", "statement": "Whenever opening returns, the process file-creation mask equals what it was before, provided select reports only 1 or -1 as documented for one descriptor without timeout and the listening descriptor is below FD_SETSIZE; without that proviso it is REFUTED (the panic path leaves the mask at 0777).", "quantifier": "every request and environment behaviour", "why_tests_cant": "all failure points between setting and restoring", "anchors": ["sudo_pair/src/socket.rs::Socket::open"]}
{"id": "C29", "title": "The socket file does not outlive the wait", "statement": "When opening returns after having created the socket, the socket path no longer names it, provided the final metadata and unlink calls are not failed by the kernel and other processes do not interfere.", "quantifier": "every request and outcome (approved, declined, interrupted, failed at any call)", "why_tests_cant": "all failure points", "anchors": ["sudo_pair/src/socket.rs::Socket::open", "sudo_pair/src/socket.rs::Socket::unlink"]}
{"id": "C30", "title": "Nothing but a stale socket is ever removed or altered", "statement": "Absent interference by others, opening changes no file-system name other than the socket path, removes that name only if it denotes a socket, and changes no pre-existing inode's owner, group or permissions; if the path names something that is not a socket, opening returns -1.", "quantifier": "every file-system state and request", "why_tests_cant": "all file-system states", "anchors": ["sudo_pair/src/socket.rs::Socket::unlink", "sudo_pair/src/socket.rs::Socket::open"]}
{"id": "C31", "title": "The socket directory must be private", "statement": "If the directory of the socket path does not exist, is not owned by sudo's effective uid, or is writable by group or others, opening a non-exempt request returns -1 without changing the umask or creating anything.", "quantifier": "every request, file-system state, environment", "why_tests_cant": "all directory modes and owners, and absence of effects", "anchors": ["sudo_pair/src/socket.rs::Socket::enforce_ownership"]}
{"id": "C32", "title": "The socket's parent is checked to be a directory", "statement": "The parent of the socket path passes the directory test only if it is a directory. REFUTED: the bit test also accepts block devices and sockets (creation then fails in the kernel, so the session is still refused).", "quantifier": "every inode type", "why_tests_cant": "needs the numeric encoding of file types", "anchors": ["sudo_pair/src/socket.rs::Socket::enforce_ownership"]}
{"id": "C33", "title": "Sockets of different sessions never collide", "statement": "Two requests with the same socket_dir have the same socket path only if they have the same real uid and the same pid, and the socket is a direct child of socket_dir with a name of the form uid.pid.sock.", "quantifier": "all uids and pids", "why_tests_cant": "2^64 pairs", "anchors": ["sudo_pair/src/lib.rs::SudoPair::socket_path"]}
{"id": "C34", "title": "The pair sees the whole prompt before being asked", "statement": "When the response byte is read, the bytes delivered on the connection are exactly the expansion of the pair template (file contents if readable, else the built-in default) for this request, in order, whatever short writes or interrupts occurred.", "quantifier": "every request, template and partial-write schedule", "why_tests_cant": "all partial-write schedules", "anchors": ["sudo_pair/src/lib.rs::SudoPair::remote_pair_prompt", "sudo_pair/src/socket.rs::Write for Socket"]}
{"id": "C35", "title": "Local prompt failures never decide the session", "statement": "Whether the local prompt file is unreadable, the terminal cannot be opened or written, or sudo's printf fails, opening returns the same code as if the local prompt had been shown; the prompt goes to the terminal first and to stderr only if that fails.", "quantifier": "every combination of local failures", "why_tests_cant": "all failure combinations", "anchors": ["sudo_pair/src/lib.rs::SudoPair::local_pair_prompt"]}
{"id": "C36", "title": "Only documented return codes reach sudo and no panic escapes", "statement": "Opening returns only 1 or -1, logging and window-size callbacks only 1 or 0, the version callback only 1 or -1, for the pairing plugin in every state, argument and environment, including internal panics.", "quantifier": "every state, argument and environment behaviour", "why_tests_cant": "all panic sites", "anchors": ["sudo_plugin/src/core.rs::open", "sudo_plugin/src/core.rs::log_stdout", "sudo_plugin/src/core.rs::change_winsize", "sudo_plugin/src/core.rs::show_version", "sudo_plugin/src/core.rs::catch_unwind_open"]}
{"id": "C37", "title": "The pair sees exactly the logged output", "statement": "In an active paired session, over any sequence of callbacks that all return 1, the bytes received by the pair after the approval exchange are exactly the concatenation, in order, of the data of the logged output callbacks whose stream is enabled and of the window-size sequences.", "quantifier": "every callback history, every partial-write and interrupt schedule", "why_tests_cant": "histories and partial writes are unbounded", "anchors": ["sudo_pair/src/lib.rs::SudoPair::log_output", "sudo_plugin/src/core.rs::log_ttyout"]}
{"id": "C38", "title": "Output is shown to the pair before sudo may show it", "statement": "An output callback for an enabled stream in a paired session returns 1 only when all of its bytes have been delivered to the pair; otherwise it returns 0 and the pair has received a prefix of it. It returns 1 exactly when no call made for it failed. That it returns 1 exactly when all bytes were delivered is REFUTED: restoring the SIGINT disposition may fail after a full write.", "quantifier": "every data and write schedule", "why_tests_cant": "all partial-write/error schedules", "anchors": ["sudo_pair/src/lib.rs::SudoPair::log_output"]}
{"id": "C39", "title": "Only streams marked for logging reach the pair", "statement": "A log callback for a stream whose iolog hint is off returns 1 in an initialised session and has no effect at all, for any plugin that does not override the hints.", "quantifier": "every plugin, session state and data", "why_tests_cant": "generic over plugins", "anchors": ["sudo_plugin/src/core.rs::log_ttyin", "sudo_plugin/src/core.rs::log_ttyout", "sudo_plugin/src/core.rs::log_stdin", "sudo_plugin/src/core.rs::log_stdout", "sudo_plugin/src/core.rs::log_stderr"]}
{"id": "C40", "title": "Piped standard input is rejected in paired sessions", "statement": "In a non-exempt session every stdin callback returns 0 when standard input is marked for logging. Without that mark it is REFUTED: the callback returns 1 and the data passes (although the README says sessions cannot be piped to).", "quantifier": "every session and data", "why_tests_cant": "the gap lies in the interaction of two layers", "anchors": ["sudo_pair/src/lib.rs::SudoPair::log_stdin", "sudo_plugin/src/core.rs::log_stdin"]}
{"id": "C41", "title": "Window-size changes reach the pair", "statement": "In a paired session a window-size callback sends exactly ESC[8;<lines>;<cols>t with decimal numbers, regardless of logging hints; if it returns 1 this was fully delivered, and it returns 1 exactly when no call made for it failed. That it returns 1 iff it was fully delivered is REFUTED as for output.", "quantifier": "all 2^64 sizes and write schedules", "why_tests_cant": "all sizes and schedules", "anchors": ["sudo_pair/src/lib.rs::SudoPair::change_winsize", "sudo_plugin/src/core.rs::change_winsize"]}
{"id": "C42", "title": "Callbacks outside an active session deny and do nothing", "statement": "Before a successful open, after close, and after an open without a command (sudo -V), every log and window-size callback returns 0 and has no effect. An open without a command is itself allowed, and from it to the closing the plugin makes no call at all.", "quantifier": "every plugin and every such state", "why_tests_cant": "all orders of callbacks", "anchors": ["sudo_plugin/src/core.rs::log_stdout", "sudo_plugin/src/plugin/io_state.rs::IoState::io_plugin"]}
{"id": "C43", "title": "Closing ends the pair's connection", "statement": "Closing a paired session shuts down and closes its connection before the environment is released, leaves no active plugin, and a subsequent open behaves as a first open; closing when nothing is open does nothing.", "quantifier": "every session state and environment behaviour", "why_tests_cant": "state-machine histories", "anchors": ["sudo_pair/src/lib.rs::SudoPair::close", "sudo_plugin/src/plugin/io_state.rs::IoState::drop", "sudo_pair/src/socket.rs::Drop for Socket"]}
{"id": "C44", "title": "A refused session leaves no connection behind", "statement": "If opening returns -1 after a connection was accepted, that connection has been shut down and closed by the time opening returns, and the listening socket is closed in every case.", "quantifier": "every refusal point", "why_tests_cant": "all failure points", "anchors": ["sudo_pair/src/lib.rs::SudoPair::open", "sudo_pair/src/socket.rs::Drop for Socket"]}
{"id": "C45", "title": "Ctrl-C handling is restored", "statement": "After every read, write or flush on the connection the SIGINT disposition is what it was before, provided sigaction does not fail; while the operation runs its SA_RESTART flag is off and nothing else about it is changed.", "quantifier": "every operation and outcome", "why_tests_cant": "all failure points", "anchors": ["sudo_pair/src/socket.rs::ctrl_c_aborts_syscalls"]}
{"id": "C46", "title": "Ctrl-C while waiting aborts cleanly", "statement": "If the wait for a peer is interrupted, opening returns -1, no connection is accepted, the socket is removed and the umask restored. The plugin never waits in accept, which is made again when interrupted: every accept follows a select that found somebody.", "quantifier": "every request and file-system state", "why_tests_cant": "timing of the signal", "anchors": ["sudo_pair/src/socket.rs::Socket::open"]}
{"id": "C47", "title": "The version banner", "statement": "The version callback prints '<name> I/O plugin version <version>' and a newline at info level to sudo's printf, and returns 1, in every state in which an environment exists; it prints nothing and returns -1 otherwise. The version it prints is that of the framework crate, not of the plugin (REFUTED expectation).", "quantifier": "every state, every printf behaviour that accepts whole messages", "why_tests_cant": "const evaluated in a different crate", "anchors": ["sudo_plugin/src/plugin/io_plugin.rs::IoPlugin::show_version", "sudo_plugin/src/core.rs::show_version"]}
{"id": "C48", "title": "Errors are reported once, tagged, and reporting terminates", "statement": "Reporting an error without a source prints newline, then 'name: message', then newline at error level. For an error with a source the reporting loop never ends (REFUTED termination): it keeps printing the first source for as long as the printf accepts it.", "quantifier": "every error value and printf behaviour", "why_tests_cant": "non-termination cannot be observed by a test", "anchors": ["sudo_plugin/src/output/print_facility.rs::PrintFacility::write_error"]}
{"id": "C49", "title": "Text handed to sudo's printf is printed verbatim", "statement": "Text passed to sudo's printf is printed verbatim. REFUTED when it contains '%', because it is passed as the format string; proved for text without '%'.", "quantifier": "every text", "why_tests_cant": "format-string interpretation depends on content", "anchors": ["sudo_plugin/src/output/print_facility.rs::Write for PrintFacility"]}
{"id": "C50", "title": "The reconstructed invocation lists program, flags and arguments", "statement": "The command line shown to the pair is the program name, then one flag per set option in a fixed order with its value, then every argument, separated by single spaces; it contains every argument verbatim.", "quantifier": "every settings record and argument list", "why_tests_cant": "2^16 flag combinations times arbitrary strings", "anchors": ["sudo_plugin/src/plugin/io_env.rs::IoEnv::invocation", "sudo_plugin/src/options/settings.rs::Settings::flags"]}
{"id": "C51", "title": "The pair can tell different commands apart", "statement": "Two requests with different argument lists show different command lines. REFUTED: arguments containing spaces are not quoted; also without spaces, arguments can be taken for flags of sudo. Proved for requests that differ only in arguments without spaces.", "quantifier": "every two argument lists", "why_tests_cant": "needs a collision", "anchors": ["sudo_plugin/src/plugin/io_env.rs::IoEnv::invocation"]}
{"id": "C52", "title": "Groups gained by the command", "statement": "The groups considered for enforcement are the target groups if provided, else the invoking user's groups, plus the target effective gid, and nothing else.", "quantifier": "every request", "why_tests_cant": "unbounded group sets", "anchors": ["sudo_plugin/src/plugin/io_env.rs::IoEnv::runas_gids"]}
{"id": "C53", "title": "The shown working directory is the one the command will use", "statement": "The directory shown in prompts is the policy's cwd when provided and readable, else the user's cwd.", "quantifier": "every request", "why_tests_cant": "all combinations", "anchors": ["sudo_plugin/src/plugin/io_env.rs::IoEnv::cwd"]}
{"id": "C54", "title": "The approval script refuses self-approval", "statement": "When SUDO_UID is absent or truthful, the sample approval script never connects to a socket of the user running it; it connects only to a socket it can find and write and whose owner and group have names, escalates with -u only if the owner may write and with -g only if the group may, and otherwise exits with an error. With a forged SUDO_UID it is REFUTED.", "quantifier": "every uid, socket mode, writability and environment", "why_tests_cant": "all modes and identities", "anchors": ["sample/bin/sudo_approve::main"]}
{"id": "C55", "title": "The deny-everything example denies", "statement": "The raw-API example never returns approval from check, for any arguments, version and print function, and sets the error string exactly when a print function is present and the API version is at least 1.17. With a print function check prints the denial and show_version the version, and without one nothing is printed.", "quantifier": "every history of open/check/show_version", "why_tests_cant": "all versions and histories", "anchors": ["examples/raw_plugin_api/src/lib.rs::check"]}
{"id": "C56", "title": "Each open is judged on its own arguments", "statement": "The outcome of an open depends only on the arguments of that open and the environment. REFUTED: if a previous open was not followed by close (or close panicked), the previous environment is used and the new arguments are ignored.", "quantifier": "every history of callbacks", "why_tests_cant": "needs histories", "anchors": ["sudo_plugin/src/plugin/io_state.rs::IoState::init", "sudo_plugin/src/core.rs::open"]}
{"id": "C57", "title": "Every command to be logged into an enforced group is paired", "statement": "If a command is to be run, opening either finds the request exempt, or refuses, or obtains approval. REFUTED: a command path that is not valid UTF-8 is treated as 'no command' and opening returns 1 without any pairing.", "quantifier": "every command-info array", "why_tests_cant": "non-UTF-8 paths are rarely tested", "anchors": ["sudo_plugin/src/core.rs::open", "sudo_plugin/src/options/command_info.rs::CommandInfo::try_from"]}
{"id": "C58", "title": "Exempt sessions are left alone", "statement": "For an exempt request opening returns 1 with no prompt, no file access and no socket; afterwards every log and window-size callback returns 1 with no effect.", "quantifier": "every exempt request, every history", "why_tests_cant": "absence of effects over histories", "anchors": ["sudo_pair/src/lib.rs::SudoPair::open", "sudo_pair/src/lib.rs::SudoPair::log_output", "sudo_pair/src/lib.rs::SudoPair::log_stdin"]}
{"id": "C59", "title": "A primary-group change without -g is refused", "statement": "A non-exempt request that keeps the effective uid and names no group (so only the primary gid changes) is refused with -1 and no socket is created.", "quantifier": "every such request", "why_tests_cant": "reaches an 'unreachable' branch", "anchors": ["sudo_pair/src/lib.rs::SudoPair::socket_mode"]}
{"id": "C60", "title": "A group named with -g is never ignored", "statement": "If sudo passes a runas_group setting and the uid changes, the request is refused. REFUTED when the group name is not valid UTF-8: it is treated as absent.", "quantifier": "every runas_group value", "why_tests_cant": "non-UTF-8 values", "anchors": ["sudo_pair/src/lib.rs::SudoPair::is_sudoing_to_explicit_group", "sudo_plugin/src/options/settings.rs"]}
{"id": "C61", "title": "Terminal input is never interfered with", "statement": "Terminal-input callbacks in an initialised session return 1 and have no effect, paired or not.", "quantifier": "every session and data", "why_tests_cant": "all data", "anchors": ["sudo_plugin/src/core.rs::log_ttyin", "sudo_plugin/src/plugin/io_plugin.rs::IoPlugin::log_ttyin"]}
{"id": "C62", "title": "Ctrl-C while output is being sent to the pair", "statement": "Ctrl-C while the plugin is blocked sending output to the pair ends the session, as it does while waiting for the pair. REFUTED: an interrupted write is made again; if calls are only ever interrupted, the callback returns 1 after delivering everything, never 0.", "quantifier": "every paired session, stream, data and pattern of interruptions", "why_tests_cant": "needs signals at chosen moments, any number of times", "anchors": ["sudo_pair/src/socket.rs::ctrl_c_aborts_syscalls", "sudo_pair/src/socket.rs::Socket::write", "sudo_pair/src/lib.rs::SudoPair::log_output"]}
{"id": "C63", "title": "Every field of the four arrays is read from its own key", "statement": "When opening gets as far as an environment, every field of the settings, the user information and the command information is the value of its documented key, read with its documented type, or its documented default; the raw maps, the user environment, the plugin options and the arguments are exactly what the arrays say; the API version is the pair of halves of sudo's version word.", "quantifier": "every set of arrays, all 80-odd fields", "why_tests_cant": "a wrong key, type or default of a rarely used field shows only for arrays that contain it", "anchors": ["sudo_plugin/src/options/settings.rs::Settings::try_from", "sudo_plugin/src/options/user_info.rs::UserInfo::try_from", "sudo_plugin/src/options/command_info.rs::CommandInfo::try_from", "sudo_plugin/src/plugin/io_env.rs::IoEnv::new"]}
{"id": "C64", "title": "Numbers in the formats of sudo's plugin manual", "statement": "An octal file creation mask and a signed priority in the command information are read as the numbers they denote. REFUTED: the mask is read as decimal, and a negative priority is lost. Proved: unsigned decimal numbers are read as such.", "quantifier": "every command-info array", "why_tests_cant": "the formats coincide on the values tests tend to use", "anchors": ["sudo_plugin/src/options/command_info.rs::CommandInfo::try_from", "sudo_plugin/src/options/traits.rs::FromSudoOption"]}
{"id": "C65", "title": "A user without a terminal is recognised", "statement": "The documented form of 'no terminal', an entry 'tty=' with an empty value, is read as no terminal. REFUTED: it is read as a terminal with an empty path. Proved: there is no terminal exactly when there is no entry that is text.", "quantifier": "every user-info array", "why_tests_cant": "needs the empty value of one entry among many", "anchors": ["sudo_plugin/src/options/user_info.rs::UserInfo::try_from"]}
{"id": "C66", "title": "Preserved groups are the groups considered", "statement": "If the policy preserves the invoking user's groups, exactly these and the target group are considered for enforcement, whatever else is passed ('if preserve_groups is set, runas_groups is ignored'). REFUTED for release builds when runas_groups is passed as well; proved without runas_groups, and for debug builds.", "quantifier": "every request", "why_tests_cant": "needs a contradictory policy in a release build", "anchors": ["sudo_plugin/src/plugin/io_env.rs::IoEnv::runas_gids", "sudo_plugin/src/options/command_info.rs::CommandInfo"]}
{"id": "C67", "title": "Staying oneself gives no new enforced group", "statement": "A command run under the requester's own user, not otherwise exempt, is either approved by a pair or gains no enforced group the requester does not already have. REFUTED: only the primary group is compared, so supplementary target groups go unpaired; proved when no target groups are passed, and for debug builds.", "quantifier": "every request and execution", "why_tests_cant": "needs the combination of equal ids and extra supplementary groups", "anchors": ["sudo_pair/src/lib.rs::SudoPair::is_sudoing_to_themselves", "sudo_pair/src/lib.rs::SudoPair::is_exempt"]}
{"id": "C68", "title": "The pair hears the prompt and the echo of its answer, and nothing else", "statement": "During an opening, bytes are sent on a connection only after it was accepted. They are a prefix of the prompt for the pair; or the whole prompt and, after the answer was read, its echo: the byte (an 'n' at end of file) and a newline. The echo is complete unless a call failed.", "quantifier": "every request, every execution, every connection", "why_tests_cant": "partial writes, interruptions and failures at every point cannot be enumerated", "anchors": ["sudo_pair/src/lib.rs::SudoPair::remote_pair_prompt", "sudo_pair/src/socket.rs::Socket::write"]}
{"id": "C69", "title": "The user is told why a session was refused", "statement": "When opening refuses, the text handed to sudo's printf at the error level after the local prompt is the tagged message for the cause: that -u and -g may not be combined, that communication with the pair failed (no answer was read), or that the pair declined (a connection was accepted, and an answer was read or a call failed). It is silent only for the panics listed in the statement.", "quantifier": "every request, every execution in which printf does not overcount", "why_tests_cant": "each cause has many ways to arise", "anchors": ["sudo_pair/src/lib.rs::SudoPair::open", "sudo_plugin/src/core.rs::open", "sudo_plugin/src/output/print_facility.rs::PrintFacility::write_error", "sudo_pair/src/errors.rs::Error"]}
{"id": "C70", "title": "Failures while the socket is set up and the prompt sent are fatal", "statement": "If examining the directory, removing an old socket, creating, binding, listening on, chowning or chmodding the socket, waiting for it or accepting a connection fails, or a write or change of the SIGINT disposition before the answer is read, or that read, then the session is refused. The exceptions are interrupted accepts and writes, which are repeated, and a failing look-up of the old socket.", "quantifier": "every request, every execution, every failing call and error number", "why_tests_cant": "failures of chown or sigaction do not happen in tests", "anchors": ["sudo_pair/src/socket.rs::Socket::open", "sudo_pair/src/socket.rs::ctrl_c_aborts_syscalls", "sudo_pair/src/lib.rs::SudoPair::remote_pair_connect", "sudo_pair/src/lib.rs::SudoPair::remote_pair_prompt"]}
{"id": "C71", "title": "No socket is made at an address that the system cannot represent", "statement": "If the path of the socket is 108 bytes or longer, or contains a NUL, then no socket is created, no path is bound, chowned or chmodded, nothing is waited for, and the session is refused unless no approval was needed.", "quantifier": "every request with such a path, every execution", "why_tests_cant": "depends on the configured directory, the uid and the pid together", "anchors": ["sudo_pair/src/lib.rs::SudoPair::socket_path", "sudo_pair/src/socket.rs::Socket::open"]}
{"id": "C72", "title": "The paths and identities handed to the system are those of the request", "statement": "Every file examined is socket_dir or the socket; only the socket is bound, removed, chowned and chmodded; its owner becomes the target user (mode 0200) or, if only the group changes, its group the target group (mode 0020), the other id being left alone; the files read are the two configured templates; the terminal opened is the user's.", "quantifier": "every request, every execution, every call", "why_tests_cant": "arguments would have to be observed at the system call boundary as root", "anchors": ["sudo_pair/src/lib.rs::SudoPair::socket_uid", "sudo_pair/src/lib.rs::SudoPair::socket_gid", "sudo_pair/src/lib.rs::SudoPair::socket_mode", "sudo_pair/src/socket.rs::Socket::open", "sudo_pair/src/lib.rs::SudoPair::local_pair_prompt"]}
{"id": "C73", "title": "The terminal is closed", "statement": "If the local prompt opens the terminal, then it is opened once, nothing but text output happens until it is closed, and it is not used again, also when showing the prompt panics.", "quantifier": "every request, every execution that returns", "why_tests_cant": "descriptor leaks on failure paths are invisible to assertions on output", "anchors": ["sudo_pair/src/lib.rs::SudoPair::local_pair_prompt", "sudo_plugin/src/output/tty.rs::Tty"]}
{"id": "C74", "title": "Retrying ends only because the environment says so", "statement": "The loops that retry calls (writing everything, accepting, reporting an error) end because a call succeeds, fails for good, or the environment gives no further answer: bounding the number of rounds by more than the number of answers left does not change any result.", "quantifier": "every buffer, every environment, every sufficient bound", "why_tests_cant": "quantifies over unbounded sequences of interruptions", "anchors": ["sudo_plugin/src/output/print_facility.rs::PrintFacility::write_error", "sudo_pair/src/socket.rs::Socket::open", "sudo_pair/src/socket.rs::Socket::write"]}
{"id": "C75", "title": "Opening reads exactly the memory it was passed", "statement": "If the pointers given to the open callback lead, in memory, to argc strings and to four NULL-terminated arrays of NUL-terminated strings (each possibly a NULL pointer), opening behaves as it does on those lists of strings, its behaviour is defined, and every byte it reads belongs to the argument pointers, an array slot including the terminating NULL, or a string including its NUL.", "quantifier": "every memory, every pointer size, every layout (overlapping or not), every plugin", "why_tests_cant": "out-of-bounds reads are silent and layouts cannot be enumerated", "anchors": ["sudo_plugin/src/options/option_map.rs::OptionMap::from_raw", "sudo_plugin/src/plugin/io_env.rs::IoEnv::new", "sudo_plugin/src/core.rs::open"]}
{"id": "C76", "title": "The logging callbacks read no byte outside the buffer", "statement": "The callbacks that pass output read only bytes of the buffer of the given length, behave as on the list of those bytes, and read nothing at all for a stream that was not marked for logging.", "quantifier": "every memory, buffer, length, stream and plugin", "why_tests_cant": "over-reads are silent", "anchors": ["sudo_plugin/src/core.rs::log_ttyin", "sudo_plugin/src/core.rs::log_stdin"]}
{"id": "C77", "title": "What opening relies upon", "statement": "With a negative argument count, a count larger than the array, or an array without its terminating NULL, the behaviour of open is undefined: the preconditions of C75 are needed.", "quantifier": "every memory, version supported, every plugin", "why_tests_cant": "undefined behaviour need not show in a test", "anchors": ["sudo_plugin/src/plugin/io_env.rs::IoEnv::new", "sudo_plugin/src/options/option_map.rs::OptionMap::from_raw"]}
{"id": "C78", "title": "The instruction shown leads to the session's socket", "statement": "The default prompt for the user expands to the binary path, the uid and the pid of the request; given these two numbers the approval script looks for the socket at exactly the address at which the plugin made it, if socket_dir is /var/run/sudo_pair. REFUTED for other values of socket_dir, among them the one in the README's own example: the script has the directory built in.", "quantifier": "every request and configuration", "why_tests_cant": "the agreement of two programs in two languages on a path, for all numbers", "anchors": ["sample/bin/sudo_approve::main", "sudo_pair/src/lib.rs::DEFAULT_USER_PROMPT", "sudo_pair/src/lib.rs::SudoPair::socket_path"]}
{"id": "C79", "title": "A colleague who follows the instruction gets through, the requester does not", "statement": "While the session's socket exists under its name and is open to anyone, the directories above it may be searched by all, and its owner and group have names, any user other than the requester who runs the script is connected to it, directly or after exactly one nested sudo, as a process the socket is meant for (one whose approval counts, C22). A process started by the requester, directly or through sudo, is never connected by the script.", "quantifier": "every request, every execution, every user, every state after the socket was created", "why_tests_cant": "depends on the permissions at every instant and on every user's groups", "anchors": ["sample/bin/sudo_approve::main", "sudo_pair/src/lib.rs::SudoPair::socket_uid", "sudo_pair/src/lib.rs::SudoPair::socket_mode"]}
{"id": "C80", "title": "The approval program runs no command of its caller's choosing", "statement": "Running the approval program as another user needs no pair, so its arguments must not be able to make it run something. REFUTED: the script assigns them to integer variables, which makes bash evaluate them; 'a[$(id)]' runs id as root without pairing. Proved: decimal numbers run nothing. For every pair of arguments that is a number in bash's sense (decimal, octal after a leading zero, empty, signed, in 64 bits) or an array element subscripted by a command, the commands run and the path of the socket looked for are exactly determined.", "quantifier": "every request for the approval program, every argument of the forms modelled", "why_tests_cant": "injection through arithmetic evaluation is not visible with well-formed arguments", "anchors": ["sample/bin/sudo_approve::main", "sudo_pair/src/lib.rs::SudoPair::is_sudoing_approval_command"]}
{"id": "C81", "title": "The requester cannot send control characters to the pair's terminal", "statement": "Control characters in the prompt for the pair come from the template. REFUTED: arguments are shown verbatim, so an escape sequence in an argument can overwrite the command the pair is to approve. Proved when no text of the request contains control characters.", "quantifier": "every request, template and execution", "why_tests_cant": "needs hostile arguments", "anchors": ["sudo_pair/src/lib.rs::SudoPair::remote_pair_prompt", "sudo_plugin/src/plugin/io_env.rs::IoEnv::invocation", "sudo_pair/src/template.rs::Spec::expand"]}
{"id": "C82", "title": "No C string is cut short", "statement": "Whatever callbacks sudo makes, with whatever arguments, file contents and answers of the environment, no path and no printf text that the plugin hands to the system contains a NUL byte, so that none is silently shortened.", "quantifier": "every history of callbacks, every state, every execution", "why_tests_cant": "the check is repeated at each of ten call sites; a missing one shows only with hostile file contents", "anchors": ["sudo_plugin/src/output/print_facility.rs::PrintFacility::write", "sudo_pair/src/socket.rs::Socket::enforce_ownership", "sudo_pair/src/socket.rs::Socket::open"]}
{"id": "C83", "title": "A printf that sudo did not give is not called", "statement": "If sudo passes a null printf to every open, no callback ever calls printf; reports are dropped and sessions proceed as decided.", "quantifier": "every history of callbacks, every execution", "why_tests_cant": "a call through a null pointer is undefined behaviour; sudo always passes a function in practice", "anchors": ["sudo_plugin/src/output/print_facility.rs::PrintFacility::write", "sudo_plugin/src/core.rs::open"]}
{"id": "C84", "title": "Sessions running side by side do not harm each other", "statement": "While other invocations of sudo use the plugin in the same socket directory, for another process id or another requesting user, whatever their plugins do to the file system at whatever moment leaves this session's guarantees intact: its socket is closed to everyone until it belongs to the target user (or group) with mode 0200 (0020), an accepted peer is privileged or acts as the target user (belongs to the target group), and if otherwise only outsiders act no session that needs approval is opened.", "quantifier": "every request, every execution, every interleaving with calls of other sessions, connections by anyone and arbitrary acts of outsiders, given that the names leading to the socket are guarded and its siblings are plain files", "why_tests_cant": "the interleavings of two privileged processes are unbounded, and interference would show only when two sessions open at the same moment", "anchors": ["sudo_pair/src/lib.rs::SudoPair::socket_path", "sudo_pair/src/socket.rs::Socket::open", "sudo_pair/src/socket.rs::Socket::unlink_socket"]}
{"id": "C85", "title": "A failed initialisation names the entry at fault", "statement": "If sudo's settings, or with usable settings its user information, lack a usable value for a required entry, opening prints, at error level, exactly one report naming the first such entry in the order the entries are asked for: that no value was provided, or the entry and the value that could not be read. Every incomplete array has exactly one such complaint. REFUTED: that the complaint about an absent value means there was none (a working directory whose name is not UTF-8 is reported as not provided); REFUTED: that the complaint is printed as it is (the offending value becomes part of a format string).", "quantifier": "every set of arrays, every printf behaviour", "why_tests_cant": "which entry is named depends on the order of every combination of faults, with unbounded values", "anchors": ["sudo_plugin/src/options/option_map.rs::OptionMap::get", "sudo_plugin/src/errors.rs::Error", "sudo_plugin/src/options/user_info.rs::UserInfo::try_from", "sudo_plugin/src/options/settings.rs::Settings::try_from", "sudo_plugin/src/core.rs::open"]}
{"id": "C86", "title": "A repeated opening does not displace the running session", "statement": "If open is called while a session is active, then whatever its arguments, the answers of the environment and the outcome: connections made before the call are neither used nor closed, every connection accepted during the call is closed when it returns, and the session remains the one that was active. Over any history without close, the first approver receives everything the session's callbacks are meant to send, however many openings come in between.", "quantifier": "every state with an active session, every arguments and environment behaviour, every history of callbacks without close", "why_tests_cant": "needs histories of callbacks crossed with every failure point of the repeated opening", "anchors": ["sudo_plugin/src/plugin/io_state.rs::IoState::init", "sudo_plugin/src/core.rs::open", "sudo_pair/src/socket.rs::Drop for Socket"]}
{"id": "C87", "title": "Only those who may search the socket directory can approve", "statement": "Provided nobody who may not search the socket directory can change the names leading to it, every accepted connection comes from a process that may search it. If the directory has no search bits, as README.md and sample/Makefile create it (mode 0644), only privileged processes are accepted, no unprivileged process can bring about an approval, and the script finds no socket for them. That every process the socket is meant for can approve whenever the plugin accepts the directory is therefore REFUTED.", "quantifier": "every request, every execution, every behaviour of unprivileged processes, every mode of the directory", "why_tests_cant": "impossibility over all interleavings; tests usually run as root, whom search bits do not concern", "anchors": ["README.md", "sample/Makefile", "sudo_pair/src/socket.rs::Socket::enforce_ownership", "sample/bin/sudo_approve::main"]}
{"id": "C88", "title": "The script connects nobody if the requested user or group has no name", "statement": "If getent does not know the requested user (sudo -u '#4711') or, for a change of group, the requested group, then from the moment the session's socket is open to anyone the script connects nobody to it, privileged or not.", "quantifier": "every request, every execution, every user, every state after the socket was created", "why_tests_cant": "depends on the user database and on the permissions at every instant", "anchors": ["sample/bin/sudo_approve::main", "sudo_pair/src/lib.rs::SudoPair::socket_uid"]}
{"id": "C89", "title": "What sudo tells the library reaches the plugin's methods unchanged", "statement": "The exported table is an I/O plugin for API 1.17 with every function but log_suspend, the hooks and event_alloc. For any plugin written with the library: the open function calls its open once, for the request sudo was given; data on a stream reaches the method for that stream, unchanged and once, unless the stream is not marked and the plugin heeds the marks; window sizes reach change_winsize with lines and columns in order; the exit status and the error reach close in order. Success is reported as 1 and a panic as a refusal; a suspension reaches no method. A function that reports -1 is not called again, so that whatever it would have been asked about goes through; the others still are, and can end the session.", "quantifier": "every plugin, every request, every state of the process", "why_tests_cant": "quantifies over all plugins", "anchors": ["sudo_plugin/src/macros.rs::sudo_io_plugin", "sudo_plugin-sys/src/lib.rs::io_plugin::EMPTY", "sudo_plugin/src/core.rs::open", "sudo_plugin/src/core.rs::close", "sudo_plugin/src/core.rs::change_winsize", "sudo_plugin/src/plugin/io_plugin.rs::IoPlugin"]}
{"id": "C90", "title": "In a session as sudo runs it, marked data is passed on only after the pair was sent it", "statement": "Take a front end that uses the exported table as core.rs and io_plugin.rs document. If a command that is not exempt runs, it was approved; no function of the plugin is ever switched off; the data passed on is that of a beginning of what happened, for all of which the pair was sent what is due before; data piped to a marked standard input is never passed on; and the event at which a session ends is not passed on. At the end the connection is closed. An exempt session passes everything on without a single system call. That the pair sees all output the user is given is REFUTED: output that is not marked for logging is passed on unseen.", "quantifier": "every request, every sequence of events, every execution", "why_tests_cant": "composition of all callbacks over unbounded sessions and all failures of the connection", "anchors": ["sudo_plugin/src/core.rs::OpenStatus", "sudo_plugin/src/core.rs::LogStatus", "sudo_plugin/src/plugin/io_plugin.rs::IoPlugin", "sudo_plugin/src/macros.rs::sudo_io_plugin", "sudo_pair/src/lib.rs::SudoPair"]}
{"id": "C91", "title": "The request determines the session", "statement": "Arguments of an opening that describe the same request, in whatever order and spelling, lead to the same answers and the same system calls in whatever follows, given the same surroundings; so does marking typed input for logging or not. Adding entries for other keys to any of the arrays, and changing the user's environment in any way, changes nothing, in any opening of any history, including arguments that cannot be read. Every key counted as part of the request can change a session, so the lists of keys are exact. The same holds of whole sessions as sudo runs them, up to and including the close: the data passed on, whether the session is ended early and every call are equal.", "quantifier": "every pair of argument sets describing one request, every history of callbacks, every execution", "why_tests_cant": "relates pairs of unbounded histories over all surroundings and all irrelevant inputs", "anchors": ["sudo_plugin/src/plugin/io_env.rs::IoEnv::new", "sudo_plugin/src/options/option_map.rs::OptionMap::from_raw", "sudo_plugin/src/options/settings.rs::Settings", "sudo_plugin/src/options/user_info.rs::UserInfo", "sudo_plugin/src/options/command_info.rs::CommandInfo", "sudo_pair/src/lib.rs::SudoPair"]}
{"id": "C92", "title": "Once the pair has gone, marked data or a new window size ends the session, and nothing else does", "statement": "Once every write to the pair fails, the next non-empty marked data (other than what is typed at the terminal) or change of the window is not passed on and ends the session. Typed input, unmarked data and suspensions go through without a single system call, so that the plugin cannot notice. That the command terminates immediately, as the sample prompt promises, is therefore REFUTED.", "quantifier": "every paired session, every sequence of events, every execution", "why_tests_cant": "unbounded sequences of events after the departure, over all failures", "anchors": ["sudo_pair/src/lib.rs::SudoPair::log_output", "sudo_plugin/src/plugin/io_plugin.rs::IoPlugin::log_ttyin", "sudo_plugin/src/core.rs::LogStatus", "sample/etc/sudo_pair.prompt.pair"]}
{"id": "C93", "title": "The approval script hands over single keys and gives the terminal back", "statement": "The script connects only from a terminal; it sends every key as it is typed, without local echo and without waiting for the end of a line, up to the first that makes the terminal send a signal. Ctrl-C is an ordinary key, unless it is the terminal's quit or suspend character. A session opened through the script was approved by the first key, y or Y; once it is open the plugin reads nothing more from the pair. When the script ends the terminal has the settings it had, provided that saving and restoring them works. Ctrl-D ends or suspends the connection unless another key did before, if the terminal sends signals. That it does on every terminal is REFUTED (stty -isig).", "quantifier": "every terminal, every sequence of keys, every failure of the programs the script calls", "why_tests_cant": "all terminal settings and all sequences of keys", "anchors": ["sample/bin/sudo_approve::pair", "sudo_pair/README.md", "sudo_pair/src/lib.rs::SudoPair::remote_pair_prompt"]}
{"id": "C94", "title": "A stricter configuration never exempts anyone", "statement": "If the same command by the same user runs without a pair under a configuration that enforces at least the same groups and exempts at most the same, then it runs without a pair, and without a single system call of the plugin, under the other. A list with an element that is not a 32-bit number counts as not given, in every later callback and system call; for the enforced groups that is as if it were 0; the empty list of sample/etc/sudo.conf is such a list. That writing more into gids_enforced never lets anyone run without a pair is REFUTED: gids_enforced=10 gates access to group 10, gids_enforced=10,wheel does not.", "quantifier": "every pair of openings that differ only in the configured groups, every list, every execution", "why_tests_cant": "relates two configurations over all users, targets, lists and states", "anchors": ["sudo_pair/src/lib.rs::PluginOptions", "sudo_pair/src/lib.rs::SudoPair::is_exempt", "sudo_pair/src/lib.rs::SudoPair::is_sudoing_to_enforced_gid", "sudo_pair/README.md", "sample/etc/sudo.conf"]}
{"id": "C95", "title": "Typing the instruction of the prompt runs the approval program", "statement": "A shell reads the line shown by the default prompt as the approval program with the requester's uid and pid as its two arguments, if the path of the program has no characters special to a shell; in an opening without a template for the user, whose terminal takes the prompt and whose socket_dir is the default, that line is on the terminal, and given these arguments the approval program looks for the socket at the name that the opening binds. For the sample prompt this is REFUTED: the quotes make the program and its arguments a single word, so that docker is asked for a program of that name, whatever the request.", "quantifier": "every request with a plain program path and host name, and every opening for it", "why_tests_cant": "all paths, host names, uids and pids", "anchors": ["sudo_pair/src/lib.rs::DEFAULT_USER_PROMPT", "sudo_pair/src/lib.rs::SudoPair::template_spec", "sample/etc/sudo_pair.prompt.user"]}
{"id": "C96", "title": "sudo finds in memory the table that the plugin exports", "statement": "For each structure that sudo and its plugins share and each architecture with bindings, every field of the structure as the library lays it out is read back by code compiled with sudo_plugin.h, or with an older header that had only the first of the fields. In the exported table these are the type and version, nine functions and NULL for the rest. A field that sudo writes (event_alloc) changes no other field and nothing beyond the structure. Sizes and alignments agree, and fields are aligned.", "quantifier": "all ten structures, three architectures, all field values, all contents of the gaps, all shorter headers", "why_tests_cant": "the layout tests check only the offsets, against constants made by the same tool, and only on the architecture they run on", "anchors": ["sudo_plugin-sys/include/sudo_plugin.h", "sudo_plugin-sys/src/bindings/sudo_plugin.x86-64.rs", "sudo_plugin-sys/src/bindings/sudo_plugin.x86.rs", "sudo_plugin-sys/src/bindings/sudo_plugin.aarch64.rs", "sudo_plugin-sys/src/lib.rs::io_plugin::EMPTY", "sudo_plugin/src/macros.rs::sudo_io_plugin"]}
{"id": "C97", "title": "The first to connect decides alone", "statement": "An opening accepts at most one connection. Once it has, it closes the listening socket at once and creates no other: in every later state, whoever connects to whatever path, nothing happens, and exactly one connection has been made. So the answer comes from the first in the queue. That somebody able to approve can still connect while the opening has no answer is REFUTED: one who connects and never answers blocks the request for good.", "quantifier": "every opening, every execution, every user trying to connect at any time", "why_tests_cant": "needs every interleaving of connection attempts with the calls of the plugin", "anchors": ["sudo_pair/src/socket.rs::Socket::open", "sudo_pair/src/lib.rs::SudoPair::remote_pair_connect", "sudo_pair/src/lib.rs::SudoPair::remote_pair_prompt"]}
{"id": "C98", "title": "The records of a session tell its story", "statement": "Where records are kept at all, the records of an opening at the levels every build keeps are a prefix of one of four message sequences: exempt; required, both -u and -g; required, waiting, connected, declined; required, waiting, connected, approved, started. An accepted opening of a command has the whole first sequence if it is exempt and the whole last one if it is not, and after any callbacks in between its end adds exactly 'pair session ended' in the second case and nothing in the first. 'approved' or 'started' is recorded only if somebody able to approve was asked and said yes; 'declined' only if another answer was read and the opening did not succeed, and every other answer is recorded so unless a disposition of SIGINT could not be set. Nothing beyond telling the user is done, so no socket is created, without a record that a pair is waited for, and the end is recorded only after the connection was shut down. Each of these records carries uid, target uid and gid, command and arguments, and the name and version that the plugin gives itself. That the records say who approved is REFUTED, and so is that every refusal leaves a warning or error.", "quantifier": "every request, every execution, every sink that does not discard, every list of callbacks between opening and end", "why_tests_cant": "needs all failures of all calls, and logging is not tested at all", "anchors": ["sudo_pair/src/lib.rs::SudoPair::open", "sudo_pair/src/lib.rs::SudoPair::close", "sudo_pair/src/lib.rs::SudoPair::remote_pair_connect", "sudo_pair/src/lib.rs::SudoPair::remote_pair_prompt"]}
{"id": "C99", "title": "Keeping records changes nothing and gives nothing away", "statement": "Opening, closing, logging, resizing and dropping have the same outcome, calls and final state with their records as without, in debug builds too, where a record evaluates the mode of the socket early. Unless records of the lowest level are compiled in, what arrives of the records of a log callback does not depend on the data typed or shown, nor on whether it could be forwarded; not even the records that are discarded tell more than its length. Unless the build changes it, exactly the records from info up arrive, and in debug builds those from debug up. Without that condition on the lowest level the claim is REFUTED: the build of sample/Makefile records the length of what is shown. That no command runs without a record is REFUTED: if syslog cannot be reached when the session is opened, an approved session leaves none.", "quantifier": "every environment, plugin state, stream, data and execution", "why_tests_cant": "quantifies over all data and all executions", "anchors": ["sudo_pair/src/lib.rs::SudoPair::log_output", "sudo_pair/src/lib.rs::slog", "sample/Makefile", "sudo_pair/src/lib.rs::SudoPair::remote_pair_connect"]}
{"id": "C100", "title": "An open session only writes to its pair", "statement": "In whatever state and order the callbacks other than open are made, and whatever sudo and the system answer, all calls of the plugin are to print, to change what SIGINT does, and to write to, shut down or close the connection of that session: no file is touched, nothing is accepted, and nothing is read, so what the pair types after its answer has no effect. Over any history at most one byte is read per opening. In a session as sudo runs it, everything read is read while it is opened.", "quantifier": "every state, every history of callbacks with any arguments, every execution, every list of things that happen in a session", "why_tests_cant": "absence of calls over all executions", "anchors": ["sudo_pair/src/lib.rs::SudoPair::log_output", "sudo_pair/src/lib.rs::SudoPair::remote_pair_prompt", "sudo_plugin/src/core.rs::log_ttyout", "sudo_plugin/src/core.rs::close"]}
{"id": "C101", "title": "Addresses and masks are read as written", "statement": "The parser of network addresses accepts exactly the dotted form of IPv4 and the colon forms of IPv6, with at most one run of zeros left out and possibly an IPv4 tail, and gives the address written. The only difference between versions of the standard library is whether leading zeros are allowed in the dotted form. A network_addrs setting made of addresses with masks is read as that list, any other as the empty list, except that an address without a mask after well-formed entries makes the opening fail without a word; nothing else in that setting does.", "quantifier": "every text, every array of settings, every execution", "why_tests_cant": "all texts; the tests have one IPv4 example", "anchors": ["sudo_plugin/src/options/settings.rs::NetAddr", "sudo_plugin/src/options/settings.rs::from_sudo_option", "sudo_plugin/src/options/traits.rs::FromSudoOptionList"]}
{"id": "C102", "title": "Any plugin's errors are told once and become its status; defaults let everything pass", "statement": "Whatever plugin is built on the library: if its open method, a log method or the window-size method fails with an error without a source, the error is told to the user once, on the error channel and tagged with the plugin's name, and sudo gets the status that the plugin converts the error to. A plugin that overrides none of the defaults lets all data pass, is never disabled, makes no calls between its opening and its end, and is dropped when the session is closed.", "quantifier": "every plugin, every request, every list of things that happen in a session, every execution", "why_tests_cant": "all plugins", "anchors": ["sudo_plugin/src/core.rs::open", "sudo_plugin/src/core.rs::log_ttyout", "sudo_plugin/src/core.rs::change_winsize", "sudo_plugin/src/plugin/io_plugin.rs::IoPlugin"]}
{"id": "C103", "title": "With the sample prompts the pair is shown what is to be approved", "statement": "If the sample prompt for the pair is installed, then before the answer is read the pair was sent exactly its text with the user, the host, the directory and the command line of the request filled in (or the built-in prompt with the same four if the file was not read); if these contain no escape character, a terminal paints the user and the directory bold blue, the host bold red, and the command line and the question in no style. If the sample prompt for the user is installed and the terminal does not fail, the terminal shows exactly its text with the host, the approval program, the user's number and the process number.", "quantifier": "every request, every execution", "why_tests_cant": "every request and every way of writing the prompt out in pieces", "anchors": ["sample/etc/sudo_pair.prompt.pair", "sample/etc/sudo_pair.prompt.user", "sudo_pair/src/lib.rs::remote_pair_prompt"]}
{"id": "C104", "title": "The plugin of the documentation does what its three methods say", "statement": "The plugin that the documentation of sudo_io_plugin! gives as an example, driven by sudo through any session, makes no call but printing at the level of information, is never the reason for the command not to run or to be ended, and lets all data pass; if printing does not fail it has printed one line for its opening and one for each piece of standard output that sudo marked for logging, and closing it prints the last line and leaves no state. REFUTED as a report of all standard output: output that sudo does not mark is not mentioned.", "quantifier": "every request that opens, every sequence of happenings, every execution", "why_tests_cant": "every session and every way in which sudo's print function may answer", "anchors": ["sudo_plugin/src/macros.rs::sudo_io_plugin", "sudo_plugin/src/plugin/io_plugin.rs::IoPlugin"]}
{"id": "C105", "title": "Setting SUDO_UID does not let the requester approve through the script", "statement": "Whatever value the requester gives SUDO_UID before running the approval script, the script connects them to their session's socket only directly, as the process they started and where they may write to the socket anyway: never by calling sudo, which sets the variable anew. So with -u they are never connected, and with -g only if they already belong to the target group. With the variable untouched the offer of the sample prompt, that the requester may run the command to approve their own session, is REFUTED: the script refuses them even where they may write to the socket.", "quantifier": "every opening, every state after the socket was created, every process of the requester, every value of SUDO_UID", "why_tests_cant": "needs two programs, sudo's environment and the permissions at every instant", "anchors": ["sample/bin/sudo_approve::main", "sample/etc/sudo_pair.prompt.user", "sudo_pair/src/lib.rs::SudoPair::socket_mode"]}
{"id": "C106", "title": "What the ways of installing leave behind, and whether the plugin works there", "statement": "On every machine with the usual directories, sample/Makefile (as the Dockerfile calls it), README.md and the Debian package put each file they name, if it is in the repository, in its place with root as its owner and the stated mode; the Makefile leaves the owner of a socket directory that was there. After the Makefile a privileged peer can approve, after the package every process the socket is meant for. That every recipe lets those processes approve is REFUTED: after README.md or the Makefile the socket directory cannot be searched, and nothing unprivileged processes do gets a command approved. With the Makefile's default prefix the directory the plugin looks for is missing and no command passes that is not exempt. README.md and the package name prompt files that do not exist in the repository, so the built-in prompts are used. The options the Makefile writes guard the group nogroup only: a command as root passes unseen.", "quantifier": "every machine on which the recipe can be followed, every request, every run and every behaviour of other processes", "why_tests_cant": "depends on the files of a whole machine and on every behaviour of the other processes", "anchors": ["sample/Makefile::install", "contrib/make_deb_pkg.sh", "contrib/DEBIAN/postinst", "README.md", "Dockerfile", "sudo_pair/src/socket.rs::Socket::enforce_ownership", "sudo_pair/src/lib.rs::PluginOptions"]}
{"id": "C107", "title": "Who can approve under given sudoers rules, and what the rules in the repository lead to", "statement": "While the socket is there and can be reached, the approval script takes a colleague other than the requester to it if and only if they are privileged, are the target user (or a member of the target group), or the sudoers rules let them run the script as that user (or group). README.md's sentence that only people who can use sudo as that user or group can approve is REFUTED: a member of the group who appears in no rule can. A command whose rule opts out of logging output runs without any system call of the plugin; one whose rule asks for it is paired unless something else exempts it. In particular, under the examples of README.md the members of the group run /bin/cat and /bin/ls without the plugin doing anything, also where that is an exception to an earlier rule for everything, while visudo and whatever is not excepted needs an approval. Under the sample rule and the options of sample/Makefile every command granted needs an approval, and only privileged processes and members of the group games can give it.", "quantifier": "every set of rules, every request they grant, every run, every behaviour of processes outside the trusted set, every colleague", "why_tests_cant": "quantifies over all rules and all behaviours of other processes during the run", "anchors": ["README.md", "sample/etc/sudoers.d/sudo_pair", "sample/bin/sudo_approve", "sudo_pair/src/lib.rs::SudoPair::is_exempt", "sudo_pair/src/socket.rs::Socket::enforce_ownership"]}
{"id": "C108", "title": "The socket has the owner, group and mode README.md lists whenever the plugin waits for a pair", "statement": "At every moment the plugin waits for a connection, the session's path leads to the socket it bound itself; for a change of user the socket looks like s-w------- with the target user as owner and exactly privileged processes and that user may write to it; for a change of group it looks like s----w---- with the plugin's user as owner and the target group, and exactly privileged processes and members of the group (other than the plugin's user) may. It stays so until the end of the opening, whatever processes outside the trusted set do.", "quantifier": "every request, every run, every moment of waiting, every behaviour of the untrusted processes before and during the wait", "why_tests_cant": "quantifies over all interleavings with hostile processes", "anchors": ["README.md", "sudo_pair/src/socket.rs::Socket::open", "sudo_pair/src/lib.rs::SudoPair::socket_mode", "sudo_pair/src/lib.rs::SudoPair::socket_uid", "sudo_pair/src/lib.rs::SudoPair::socket_gid"]}
{"id": "C109", "title": "From the sudoers rule to the pair's screen: a logged command runs only under the eyes of an entitled approver", "statement": "When the governing sudoers rule asks for output logging and nothing else exempts the request, then in a session as sudo runs it, whatever happens during the session and whatever unprivileged processes do, the command runs only if a process that is privileged or the target user (for -g: privileged or a member of the target group) connected to the socket made for this very request, was sent the complete prompt and then answered y or Y; from then on only a beginning of what happens is let through, all of its output (terminal, standard output, standard error) and window sizes having been delivered, in order and without anything else, to that same connection; among outsiders only the command never runs; and when the rule opts out the session proceeds untouched.", "quantifier": "every set of sudoers rules in the modelled subset, every request, every sequence of output, input, resizes and suspensions, every schedule of other processes and every outcome of every system call", "why_tests_cant": "quantifies over rules, requests, sessions and hostile interleavings at once", "anchors": ["README.md", "sudo_pair/src/lib.rs::SudoPair::open", "sudo_pair/src/lib.rs::SudoPair::log_output", "sudo_plugin/src/core.rs::open", "sudo_plugin/src/core.rs::log_ttyout", "sample/etc/sudoers.d/sudo_pair"]}
{"id": "C110", "title": "An approved session runs to its end", "statement": "In a session as sudo runs it, the plugin ends a paired session only because data was piped to a command whose standard input is to be logged, or because a call it made to write to its pair (or to set SIGINT around the write) failed; in a session that can be asked for, in which every call does its job (interrupted and partial writes included) and nothing is piped, the one byte read from the pair alone decides: after y or Y every piece of data is passed on and everything due is delivered, in order, over the connection the answer came from, and after anything else the command is not run; and for every such request, every entitled process that may search the directories above the socket, every private socket directory and every course of the session, some such environment exists.", "quantifier": "every request, every sequence of output, input, resizes and suspensions, every outcome of every system call, every starting file system", "why_tests_cant": "needs all sessions and all partial or interrupted writes, and an existence claim for every request", "anchors": ["sudo_pair/src/lib.rs::SudoPair::log_output", "sudo_pair/src/lib.rs::SudoPair::log_stdin", "sudo_pair/src/lib.rs::SudoPair::open", "sudo_pair/src/socket.rs::Socket::write", "sudo_plugin/src/core.rs::open", "sudo_plugin/src/core.rs::log_ttyout"]}
{"id": "C111", "title": "A session leaves nothing behind", "statement": "When a session in which a pair has to be asked is over, from sudo's opening of the plugin through any course of events to its close, and whether the pair agreed, declined, left or was never reached: the file-creation mask and the disposition of SIGINT are what they were, no socket is listening, exactly the connections that were open before are open, every name other than the session's socket and every inode that was in use are as before, and the session's socket path names nothing or what it named before -- provided the system calls used for restoring (sigaction, stat and unlink of a socket just created) succeed, select(2) answers as documented and descriptors are below 1024. The mask, the disposition of SIGINT, the listener and the connections are restored whatever other processes do to the file system meanwhile; for the files, other processes may only connect. REFUTED without the provisos on unlink and sigaction: if the socket cannot be removed the session goes on, nobody is told and the socket stays; if the disposition of SIGINT cannot be put back, it stays changed.", "quantifier": "every request that is not exempt, every sequence of output, input, resizes and suspensions, every order and outcome of the other system calls, every starting file system, every process connecting at any time", "why_tests_cant": "needs every failure at every point of the opening, every course of the session and every starting state at once", "anchors": ["sudo_pair/src/lib.rs::SudoPair::open", "sudo_pair/src/lib.rs::SudoPair::close", "sudo_pair/src/socket.rs::Socket::open", "sudo_pair/src/socket.rs::Socket::close", "sudo_pair/src/socket.rs::Socket::unlink", "sudo_pair/src/socket.rs::ctrl_c_aborts_syscalls", "sudo_plugin/src/core.rs::open", "sudo_plugin/src/core.rs::close"]}
