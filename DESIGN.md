# Design

Target: square/sudo_pair (pinned source in /repo, Rust). The deliverable is a
Rocq (Coq 8.16.1) model of the plugin and theorems about it, in
`rocq/theories`. Properties are listed in `properties.jsonl`, their status in
`MANIFEST.json`, and the log of deliberate breakages in `seeded/LOG.jsonl`.

## The log of deliberate breakages

Each line of `seeded/LOG.jsonl` is one edit of the model, built in a scratch
copy. Its fields do not all have the same standing:

- `failing_lemmas` is measured: the lemmas at which `make -k` stopped. If none
  of them led to a theorem listed under `contradicted`, the failing lemma was
  admitted in the scratch copy and the build repeated, up to five times.
- `failed` is derived from the dependency files of the compiler: the property
  theorems that use one of these lemmas and so no longer have a proof. Many of
  them would still be true of the edited model, with another proof.
- `contradicted` is a judgement made by reading: the theorems among them whose
  statement is false of the edited model. It is not itself machine-checked. An
  empty list says that the edit was found to change nothing observable.
- `tightened` names the theorems added or strengthened because the edit
  contradicted none at the time.

## Layout

| file | models |
|---|---|
| `Base.v` | bytes, results, splitting (vocabulary only) |
| `Utf8.v`, `Num.v`, `Path.v` | the std functions the code calls: `str::from_utf8`, integer/bool `FromStr`, `to_string`, `Path::{components,join,parent,file_name,==}` |
| `Version.v` | sudo_plugin-sys version words, sudo_plugin/src/version.rs |
| `Template.v` | sudo_pair/src/template.rs |
| `Options.v` | sudo_plugin/src/options/*, sudo_plugin/src/errors.rs (data) |
| `World.v`, `Sys.v` | the environment: a small Unix kernel with file names, inodes, permissions, one listening socket, SIGINT disposition, umask; the other processes; the calls the plugin makes |
| `Io.v` | `write_all`, sudo_plugin/src/output/* |
| `Socket.v` | sudo_pair/src/socket.rs |
| `Env.v` | sudo_plugin/src/plugin/io_env.rs |
| `Core.v` | sudo_plugin/src/core.rs, io_state.rs, io_plugin.rs, for an arbitrary plugin; histories of callbacks |
| `Pair.v` | sudo_pair/src/lib.rs, errors.rs |
| `Approve.v`, `Script.v` | sample/bin/sudo_approve: its decision; how its arguments become numbers and a path, and the nested sudo |
| `RawExample.v` | examples/raw_plugin_api |
| `Spec.v`, `FieldSpec.v`, `TraceSpec.v`, `SessionSpec.v`, `CallbackSpec.v`, `AdversarySpec.v`, `HonourSpec.v`, `TalkSpec.v`, `ScriptSpec.v`, `SideSpec.v`, `TellSpec.v` | specifications, written without using the model's helper functions: what the arrays mean, what templates mean, when a pair is required; predicates on lists of calls; who may act between calls |
| `ArithSpec.v`, `ArithFacts.v` | what an argument of the approval script means to bash: numbers in 64 bits, octal, command substitution in a subscript |
| `BaseLemmas.v`, `OptionProofs.v`, `NumProofs.v`, `Utf8Proofs.v`, `PathProofs.v`, `TemplateProofs.v`, `VersionProofs.v`, `ReadProofs.v`, `RequestProofs.v`, `PairPure.v`, `InputFacts.v`, `FieldFacts.v` | lemmas about the pure parts |
| `RunProofs.v`, `IoProofs.v`, `SocketProofs.v`, `FailFacts.v`, `PairProofs.v` | for each effectful function, the possible sequences of calls and the outcome each leads to |
| `KernelFacts.v`, `OpenFacts.v`, `AskFacts.v`, `SplitFacts.v`, `ShapeFacts.v`, `SessionFacts.v`, `InitFacts.v`, `CleanupFacts.v`, `FilesFacts.v`, `RefusalFacts.v`, `AdversaryFacts.v`, `GuardFacts.v`, `PeerFacts.v`, `HonourFacts.v`, `ForwardFacts.v`, `LocalFacts.v`, `TalkFacts.v`, `SetupFacts.v`, `ArgFacts.v`, `SideFacts.v`, `TellFacts.v`, `AgainFacts.v` | consequences for whole openings |
| `SearchFacts.v` | search permission on the socket directory |
| `Frontend.v`, `FrontSpec.v`, `FrontFacts.v` | macros.rs:67-110, sudo_plugin-sys/src/lib.rs:239-263: the exported table, and a front end using it |
| `SameSpec.v`, `SameFacts.v` | arguments that differ only in what a session does not depend on |
| `SessionRun.v`, `SessionRunFacts.v` | a session of sudo from the opening to the close, as a function of the arguments |
| `LeaveSpec.v`, `LeaveFacts.v` | sessions whose pair has gone |
| `Terminal.v`, `TerminalFacts.v` | sample/bin/sudo_approve:25-44: the pair's terminal and what socat sends |
| `ConfigSpec.v`, `ConfigFacts.v` | configurations that enforce more and exempt less |
| `Shell.v`, `ShellFacts.v` | how a shell splits the instruction of a prompt into words: blanks and single quotes only |
| `WaitFacts.v` | accept comes after select |
| `ScriptFacts.v` | the approval script, the instruction shown, control characters in prompts |
| `ForgeFacts.v` | the approval script run by a requester who set SUDO_UID |
| `Install.v`, `InstallSpec.v`, `InstallFacts.v`, `InstalledFacts.v` | sample/Makefile, README.md:52-74, contrib/make_deb_pkg.sh and contrib/DEBIAN/postinst as actions of root on the files of a machine; what they leave behind and how the plugin fares there |
| `Sudoers.v`, `SudoersFacts.v` | the part of sudoers(5) that sample/etc/sudoers.d/sudo_pair and README.md:90-100 use; who can approve under given rules |
| `ListingSpec.v`, `WaitingFacts.v` | the mode as ls -l prints it; the socket while the plugin waits |
| `WholeSpec.v`, `WholeFacts.v` | a session from the sudoers rule to what the pair is sent |
| `ThroughSpec.v`, `ThroughFacts.v` | sessions that are not ended by the plugin |
| `TidySpec.v`, `TidyFacts.v` | what a whole session leaves behind |
| `CallbackFacts.v`, `HistoryFacts.v`, `OutputFacts.v`, `Structure.v`, `SigFacts.v`, `MiscFacts.v`, `FuelFacts.v`, `CleanFacts.v`, `FlawFacts.v` | callbacks, histories of callbacks, printing, SIGINT, sample programs, loop bounds |
| `Memory.v`, `MemorySpec.v`, `MemoryFacts.v` | the C arguments as bytes in memory: reading them, what it means for memory to hold them, and that both agree |
| `Samples.v`, `Worlds.v` | concrete arguments and environments used by the examples |
| `WatchSpec.v`, `WatchFacts.v` | the calls of an open session |
| `Defaults.v`, `DefaultFacts.v` | plugins that keep the defaults of io_plugin.rs:26-186; what becomes of the errors of any plugin |
| `SamplePrompts.v`, `SampleFacts.v` | sample/etc/sudo_pair.prompt.*, byte for byte; how a terminal styles text |
| `DocExample.v`, `DocSpec.v`, `DocFacts.v` | the example in the documentation of the macro, sudo_plugin/src/macros.rs:24-52; what it is to print |
| `Net.v`, `NetSpec.v`, `NetFacts.v` | the address parser of the standard library, as settings.rs:330-331 uses it; the textual forms of addresses |
| `FirstFacts.v` | the one connection that an opening accepts |
| `Log.v`, `LogSpec.v`, `LogFacts.v` | the records made by sudo_pair/src/lib.rs, at which points and with which values; where they go |
| `Layout.v`, `LayoutFacts.v` | sudo_plugin.h and the bindings: fields, offsets, bytes of the shared structures |
| `Conformance.v`, `LayoutTests.v` | the 24 unit tests of option_map.rs and template.rs and the 30 layout tests of the bindings, replayed in the model |
| `Props*.v` | the property theorems, each closed by `exact`, each with an example meeting its hypotheses and `Print Assumptions` |

## Execution model

A callback runs in a state monad over a *world*: the kernel state, a *script*
and the trace of calls made so far. The script supplies, for every call the
plugin makes, first a list of actions by other processes (connect, unlink,
create, rename, hard-link, chmod, chown, each subject to Unix permission
checks, including search permission for the directories on the way) and then the answer of the environment (success, an errno, a byte
count, data). All theorems quantify over the script, hence over every failure
pattern, partial write, interrupt, peer behaviour and schedule of other
processes. A script that ends early, or whose next answer is one the kernel
cannot give, yields `Stopped`: the process blocks for ever or is killed there.
The trace records the kernel before and after each call, so a statement about
all trace entries is a statement about every crash point.

Loops that retry calls are bounded by a number of rounds computed from the
script; C74 proves that any bound larger than the number of answers left gives
the same result, so the bound is not a simplification.

A Rust panic is the outcome `Panicked`; `catch_unwind` and drops during
unwinding are explicit. `Result` and `Option` are data.

## Trusted base

- Coq 8.16.1's kernel (`coqchk` is run as well).
- `Print Assumptions` is printed under every property theorem; every one of
  them is "Closed under the global context" (no axioms at all, neither ours
  nor the standard library's). `coqchk -o` lists axioms of standard library
  modules that get loaded along the way (the ssreflect `under` support); no
  theorem here depends on them.
- The reading of /repo: the model was written by hand from the source; nothing
  links it mechanically to the Rust code. Every definition cites the lines it
  models and states its simplifications. All unit tests of the code, which
  are about option_map.rs, template.rs and the layout of the bindings, hold of
  the model (`Conformance.v`, `LayoutTests.v`).
- The meaning given to std/libc/kernel functions in `Utf8.v`, `Num.v`,
  `Path.v`, `World.v` and `Sys.v`.

Modelled: everything in sudo_plugin/src (options, env, state, core, output,
version, errors, the table macros.rs exports), sudo_plugin-sys version
arithmetic and the empty table, everything in
sudo_pair/src, the approval script (socat as a relay from the
terminal to the socket), the raw API example.

In most files a C array is the list of the buffers its entries point to.
`Memory.v` models the same callbacks over addresses; C75 and C76 show that
reading a well-formed memory gives those lists, and C77 what happens otherwise.

Not modelled: how slog and its backends turn records into text and send them; writes by others to that memory while a callback
runs; the `conversation` function and `errstr` (unused by the code); threads (the code
has none); the types of the functions in the bindings;
sudo itself, except that `Frontend.v` follows what core.rs:41-83 and
io_plugin.rs:65-156 say sudo does with the answers;
wall-clock time; line editing at the pair's terminal; whether SIGPIPE is
ignored in the process that loaded the plugin (a write to a connection whose
other end is closed may return an error, or end the run as `Stopped`; both are
answers of the script); the contents of the packages (only names, owners and modes are in
`Install.v`; the rpm consists of the shared object alone and is left out) and
`sample/etc` apart from the sample prompts, the option of the sample
sudo.conf and the sample sudoers rule (`Sudoers.v` has the subset of sudoers(5)
it needs: no hosts, passwords, aliases, negation or arguments); what a terminal does with control sequences other
than those for bold and colours.

## Plan per property

| id | property | how |
|---|---|---|
| C01 | Option lookup is last-one-wins on the first '=' | `from_raw` vs relational spec `Provides` on the raw array (Spec.v), induction on the array. |
| C02 | Typed option reads distinguish missing, invalid and valid | `get` vs `Provides` + UTF-8 + a relation for the type; generic in the type. |
| C03 | Text values are accepted exactly when they are well-formed UTF-8 | `valid_utf8` vs the arithmetic encoder of Unicode scalar values; strong induction on length plus a case analysis per length class. |
| C04 | Integer options parse exactly the decimal numerals in range | `parse_int` vs positional value of a digit string; induction on digits with accumulator. |
| C05 | Printed numbers read back | `to_dec` then `parse_int`; induction on digits. |
| C06 | List options are all-or-nothing | `parse_list` vs `join` of separator-free pieces. |
| C07 | Missing or malformed user information aborts the session with no side effect | `core_open` on the pairing plugin: case analysis on the first missing field, trace contains only printf calls. |
| C08 | Target identity defaults | `command_info_try_from` vs `Provides`. |
| C09 | Optional settings never make opening fail | refutation by a concrete array; positive theorem under the stated shape condition. |
| C10 | Unsupported API versions are refused before anything is read | `core_open`, generic in the plugin. |
| C11 | Version words round-trip and order correctly | shift/mask lemmas over Z. |
| C12 | Prompt templates expand as documented | inductive relation `Expands`, proved sound, complete and functional. |
| C13 | Expanded values are never re-interpreted | corollary lemmas of C12 on concatenation. |
| C14 | The prompt directives show the documented request data | `template_spec` vs a table written out in Spec.v. |
| C15 | Plugin options fall back to documented defaults | `plugin_options_from` vs `Provides`. |
| C16 | A configured enforcement list is never silently narrowed | refutation by computation; positive: well-formed lists are enforced element by element; the sample list by C94. |
| C17 | Pairing is required exactly when documented | `is_exempt` vs a predicate `Exempt` over the raw arrays. |
| C18 | Approval-program exemption is by path components | `path_eqb` vs an independent notion of path spelling. |
| C19 | Changing both user and group is refused up front | `core_open`; trace contains only printf calls. |
| C20 | No approval, no session | Hoare-style reasoning over the monad; existence of accept/deliver/read events in the trace. |
| C21 | Anything but y/Y refuses | same, converse direction. |
| C22 | Approval is honoured | symbolic execution of an all-success script, existentially over everything not controlled. |
| C23 | The socket is never connectable by outsiders, at any instant | invariant over every kernel snapshot in the trace, under arbitrary actions of others. |
| C24 | A user-change session needs someone able to act as the target user | invariant on the listener's inode under arbitrary actions of outsiders. |
| C25 | A group-change session needs a member of the target group | same plus an invariant on the directory chain. |
| C26 | The accepted peer itself is authorised | invariant on the queue when others only connect. |
| C27 | The requesting user can never approve their own session | refutation by a concrete script. |
| C28 | The umask is restored | invariant on k_umask; refutation for the panic path. |
| C29 | The socket file does not outlive the wait | trace/kernel reasoning on socket_open. |
| C30 | Nothing but a stale socket is ever removed or altered | frame invariant on names and inodes. |
| C31 | The socket directory must be private | trace reasoning on enforce_ownership. |
| C32 | The socket's parent is checked to be a directory | bit computation; plus the kernel's bind failing outside a directory. |
| C33 | Sockets of different sessions never collide | injectivity of `to_dec` and of the '.'-separated format; path_join lemma. |
| C34 | The pair sees the whole prompt before being asked | write_all correctness under all partial-write schedules. |
| C35 | Local prompt failures never decide the session | two-run statement: status independent of local answers, by showing the rest is run from a world differing only in trace. |
| C36 | Only documented return codes reach sudo and no panic escapes | case analysis on every callback. |
| C37 | The pair sees exactly the logged output | induction over callback histories. |
| C38 | Output is shown to the pair before sudo may show it | write_all correctness. |
| C39 | Only streams marked for logging reach the pair | generic in the plugin. |
| C40 | Piped standard input is rejected in paired sessions | positive theorem under the hint; refutation without. |
| C41 | Window-size changes reach the pair | write_all correctness with the escape sequence spelled out. |
| C42 | Callbacks outside an active session deny and do nothing | generic in the plugin; `C42_no_command` is about whole histories of the pairing plugin. |
| C43 | Closing ends the pair's connection | trace reasoning on core_close. |
| C44 | A refused session leaves no connection behind | k_open unchanged by a refused open. |
| C45 | Ctrl-C handling is restored | ctrl_c_aborts_syscalls: disposition before = after. |
| C46 | Ctrl-C while waiting aborts cleanly | instance of the socket_open analysis. |
| C47 | The version banner | core_show_version, generic, then instance for the version text. |
| C48 | Errors are reported once, tagged, and reporting terminates | write_error; non-termination as: for every fuel/script of accepting answers the loop consumes the whole script. |
| C49 | Text handed to sudo's printf is printed verbatim | a small printf semantics (only %% and plain bytes are given meaning); refutation on '%'. |
| C50 | The reconstructed invocation lists program, flags and arguments | `invocation`/`flags` vs a specification by rendering a list of items. |
| C51 | The pair can tell different commands apart | refutation by two argument lists; injectivity of joining words without spaces. |
| C52 | Groups gained by the command | membership in `runas_gids`. |
| C53 | The shown working directory is the one the command will use | `env_cwd` vs `Provides`. |
| C54 | The approval script refuses self-approval | case analysis on `approve`; refutation with forged SUDO_UID. |
| C55 | The deny-everything example denies | induction over histories of `raw_run`. |
| C56 | Each open is judged on its own arguments | refutation by two opens; positive: an open from the initial state, or after close, does not depend on the past. |
| C57 | Every command to be logged into an enforced group is paired | refutation by a concrete array; positive under valid UTF-8 command. |
| C58 | Exempt sessions are left alone | `core_open` and callbacks on an exempt state, induction over histories. |
| C59 | A primary-group change without -g is refused | `core_open` reaches the panic before Socket::open. |
| C60 | A group named with -g is never ignored | refutation by a concrete array; positive for UTF-8 names (C19). |
| C61 | Terminal input is never interfered with | core_log on Ttyin. |
| C62 | Ctrl-C while output is being sent to the pair | refutation; the positive part by induction over write_all. |
| C63 | Every field of the four arrays is read from its own key | `FieldSpec.v` spells out key, type and default of every field; case analysis. |
| C64 | Numbers in the formats of sudo's plugin manual | refutations; unsigned decimals as in C04. |
| C65 | A user without a terminal is recognised | refutation; absence proved. |
| C66 | Preserved groups are the groups considered | refutation for release builds; debug builds panic instead. |
| C67 | Staying oneself gives no new enforced group | refutation; proved without a group list and for debug builds. |
| C68 | The pair hears the prompt and the echo of its answer, and nothing else | bytes delivered per connection, over the call sequences of an opening. |
| C69 | The user is told why a session was refused | last printf at the error level vs the cause. |
| C70 | Failures while the socket is set up and the prompt sent are fatal | case analysis over the call sequences; the exceptions are listed in `Fatal`. |
| C71 | No socket is made at an address that the system cannot represent | same. |
| C72 | The paths and identities handed to the system are those of the request | same. |
| C73 | The terminal is closed | same. |
| C74 | Retrying ends only because the environment says so | monotonicity of the loops in their bound. |
| C75 | Opening reads exactly the memory it was passed | address-level reader vs `Represents`; reader logic that collects the addresses. |
| C76 | The logging callbacks read no byte outside the buffer | same. |
| C77 | What opening relies upon | the reader reaches an address that is not mapped. |
| C78 | The instruction shown leads to the session's socket | decimal text through bash arithmetic; refutation by the README's configuration. |
| C79 | A colleague who follows the instruction gets through, the requester does not | the states of the socket's inode (C23) and the script's decision. |
| C80 | The approval program runs no command of its caller's choosing | refutation; numerals evaluate to numbers. |
| C81 | The requester cannot send control characters to the pair's terminal | refutation; induction over `Expands` and the invocation. |
| C82 | No C string is cut short | induction over the code (`Structure.v`), whose hypotheses about calls are guarded by the NUL checks. |
| C83 | A printf that sudo did not give is not called | same, plus an invariant of the environment kept between callbacks. |
| C84 | Sessions running side by side do not harm each other | the invariant behind C23–C26, widened: acts on sibling names of the socket, by anyone, keep the guard, the socket's name and its inode (`GuardFacts.v`); the calls of another session are such acts (C72 for its opening, no file calls afterwards). |
| C85 | A failed initialisation names the entry at fault | the list of required entries read in order against `Provides`/`Utf8`; each `?` of `try_from` either finds a fine entry or fails with the complaint about it (`TellFacts.v`); the report as in C10. |
| C86 | A repeated opening does not displace the running session | the grammar of openings: connections used in a call are accepted in it, numbers of connections only grow, and a pair obtained while one is active is dropped (`AgainFacts.v`); then induction over histories as for C37. |
| C87 | Only those who may search the socket directory can approve | the directory keeps its mode and stays unreachable for those who may not search it (an invariant over every action, `SearchFacts.v`); the queue of the listener holds only searchers. Refutation of the unrestricted C22 by the directory mode of the README. |
| C88 | The script connects nobody if the requested user or group has no name | the stage of the socket (C23) fixes owner or group; errexit and pipefail stop the script at getent (`ScriptFacts.v`). |
| C89 | What sudo tells the library reaches the plugin's methods unchanged | the table of `Frontend.v` and `core_*` for a generic plugin, against the plugin's own methods (`FrontFacts.v`). |
| C90 | In a session as sudo runs it, marked data is passed on only after the pair was sent it | a front end written from the documentation of the status codes, composed with C20, C36, C37, C40 and C43; induction on what happens; refutation by computation. |
| C91 | The request determines the session | a relation between runs (same calls, related results) carried through every function of the plugin by `Sim_*` (`SameFacts.v`); the environments are related when they match the same request; the exactness of the key lists by computing two runs per key. For sessions as sudo runs them the relation is carried through `front_run` and the close (`SessionRunFacts.v`), which gives equality of results and worlds. |
| C92 | Once the pair has gone, marked data or a new window size ends the session, and nothing else does | the steps of C90 with `delivered` empty (`LeaveFacts.v`); unmarked events are shown to make no call; refutation from that. |
| C93 | The approval script hands over single keys and gives the terminal back | a line discipline and the function `pair` as a function of the keys and of which programs fail (`Terminal.v`); induction on the keys; C20 gives the key that was read; every event of a session only writes (`LeaveFacts.v`); refutation by computation. |
| C94 | A stricter configuration never exempts anyone | monotonicity of the specification of exemptions, transferred to runs by C17 (`ConfigFacts.v`); uniqueness of how a list is split; the same request is described without the entry, so C91 applies; refutation by computing the two decisions. |
| C95 | Typing the instruction of the prompt runs the approval program | the expansion of the two instructions (C14's specification) split into words (`Shell.v`, `ShellFacts.v`); C35, C72 and C78 put together for a whole opening; refutation by computation. |
| C96 | sudo finds in memory the table that the plugin exports | loads and stores of disjoint fields (`LayoutFacts.v`); header and bindings transcribed separately (`Layout.v`). |
| C97 | The first to connect decides alone | the shape of an opening's trace (`SocketProofs.v`): the accept and what may follow it; the kernel states after the listener is closed (`FirstFacts.v`); refutation by computation. |
| C98 | The records of a session tell its story | the computations of `Pair.v` with records (`Log.v`); a logic relating outcome, calls and messages (`LogFacts.v`); two refutations by computation. |
| C99 | Keeping records changes nothing and gives nothing away | erasing the records gives the computations of `Pair.v`; induction-free comparison of the records of two callbacks; refutation by computation. |
| C100 | An open session only writes to its pair | induction over the code (`Structure.v`) without the reading of connections; counting of reads. |
| C101 | Addresses and masks are read as written | parser against grammar: greedy reading is complete because a group is followed by a colon or the end; the platform's parser (`pl_parse_ip`, a parameter elsewhere) is then any function that agrees with the grammar. |
| C102 | Any plugin's errors are told once and become its status; defaults let everything pass | the report of an error (C48) inside the callbacks of an arbitrary plugin; induction over what happens in a session. |
| C103 | With the sample prompts the pair is shown what is to be approved | C34 and C35, and reading the two templates piece by piece. |
| C104 | The plugin of the documentation does what its three methods say | Induction over the session; each method writes one piece with `write_all`. REFUTED as a report of all standard output. |
| C105 | Setting SUDO_UID does not let the requester approve through the script | Case analysis of one nested call, with the stages of the socket from C23 and C79. REFUTED: the offer of self-approval in the sample prompt. |
| C106 | What the ways of installing leave behind, and whether the plugin works there | Each command as an action of root, followed step by step with the files already in place; then C22, C87 and the invariant of C23 on the resulting machine. REFUTED: that every recipe lets the processes the socket is meant for approve. |
| C107 | Who can approve under given sudoers rules, and what the rules in the repository lead to | The invariant of C23 gives owner, group and mode of the socket; the script's decision then depends on the rules alone. The last rule that permits a command settles its logging, hence C02/C03. The examples of README.md are taken alone and as an exception to an earlier rule for everything. REFUTED: that only people who can use sudo as that user or group can approve (a member of the group without any rule) |
| C108 | The socket has the owner, group and mode README.md lists whenever the plugin waits for a pair | Every select follows a bind, listen, chown and chmod that succeeded (shape of `OpenT`); the invariant of C23 followed through these four calls, and kept afterwards |
| C109 | From the sudoers rule to the pair's screen: a logged command runs only under the eyes of an entitled approver | `front_run` begins with `core_open` (C18, C26 with the guard of C23); the steps after it by C90, all output being marked because of the rule |
| C110 | An approved session runs to its end | why a callback returns something other than 1 (`OutT`: a failed write, or piped input), by induction over what happens; with C22 for the opening; existence by running the callbacks forwards (`Can`) after the opening of C22. |
| C111 | A session leaves nothing behind | the session is split into opening, events and close; C28, C29, C30, C31, C46 for the opening, the calls made later are writes, printf, shutdown and close of the pair's connection (C90), the disposition of SIGINT by composition of C45 over the session; only one connection is accepted (`one_only'` in FirstFacts.v) and it is the one closed. |

Every property is expressible. Those whose full statement is false of the
faithful model carry a `_refuted` theorem with a concrete witness next to the
strongest positive statement that holds.
