{
 "claims": [
  {
   "property": "C01",
   "status": "proved",
   "theorems": [
    "C01_lookup",
    "C01_null_array"
   ],
   "note": ""
  },
  {
   "property": "C02",
   "status": "proved",
   "theorems": [
    "C02_typed_read"
   ],
   "note": ""
  },
  {
   "property": "C03",
   "status": "proved",
   "theorems": [
    "C03_text",
    "C03_unique"
   ],
   "note": ""
  },
  {
   "property": "C04",
   "status": "proved",
   "theorems": [
    "C04_integers"
   ],
   "note": ""
  },
  {
   "property": "C05",
   "status": "proved",
   "theorems": [
    "C05_print_parse",
    "C05_decimal_unique"
   ],
   "note": ""
  },
  {
   "property": "C06",
   "status": "proved",
   "theorems": [
    "C06_lists",
    "C06_empty_rejected",
    "C06_trailing_comma_rejected"
   ],
   "note": ""
  },
  {
   "property": "C07",
   "status": "proved",
   "theorems": [
    "C07_user_info_required"
   ],
   "note": "Stopped means that a printf call never returned."
  },
  {
   "property": "C08",
   "status": "proved",
   "theorems": [
    "C08_target_uid",
    "C08_target_gid"
   ],
   "note": ""
  },
  {
   "property": "C09",
   "status": "proved",
   "theorems": [
    "C09_optional_ignored",
    "C09_maskless_aborts",
    "C09_refuted",
    "C09_not_full"
   ],
   "note": "The claim as first stated is false (C09_refuted, C09_not_full): a network_addrs entry that is a valid address without '/mask' makes opening fail silently. C09_optional_ignored proves the claim for all other arrays, C09_maskless_aborts that every such entry has that effect."
  },
  {
   "property": "C10",
   "status": "proved",
   "theorems": [
    "C10_old_versions_refused",
    "C10_version_irrelevant",
    "C10_nothing_read"
   ],
   "note": ""
  },
  {
   "property": "C11",
   "status": "proved",
   "theorems": [
    "C11_versions"
   ],
   "note": ""
  },
  {
   "property": "C12",
   "status": "proved",
   "theorems": [
    "C12_expansion"
   ],
   "note": ""
  },
  {
   "property": "C13",
   "status": "proved",
   "theorems": [
    "C13_verbatim",
    "C13_composition"
   ],
   "note": ""
  },
  {
   "property": "C14",
   "status": "proved",
   "theorems": [
    "C14_directives"
   ],
   "note": ""
  },
  {
   "property": "C15",
   "status": "proved",
   "theorems": [
    "C15_plugin_options"
   ],
   "note": ""
  },
  {
   "property": "C16",
   "status": "proved",
   "theorems": [
    "C16_sample",
    "C16_refuted",
    "C16_not_full",
    "C16_wellformed_enforced"
   ],
   "note": "The full claim is false of the code: C16_refuted / C16_not_full. C16_wellformed_enforced and C16_sample are what does hold."
  },
  {
   "property": "C17",
   "status": "proved",
   "theorems": [
    "C17_pairing_required_iff",
    "C17_exempt_proceeds"
   ],
   "note": "Both directions. In debug builds the exempt direction needs sudo's data to satisfy the asserted consistency (the assertions panic otherwise)."
  },
  {
   "property": "C18",
   "status": "proved",
   "theorems": [
    "C18_approval_program",
    "C18_distinguishes"
   ],
   "note": ""
  },
  {
   "property": "C19",
   "status": "proved",
   "theorems": [
    "C19_both_refused"
   ],
   "note": ""
  },
  {
   "property": "C20",
   "status": "proved",
   "theorems": [
    "C20_approval_needed"
   ],
   "note": ""
  },
  {
   "property": "C21",
   "status": "proved",
   "theorems": [
    "C21_other_answers_refuse",
    "C21_one_read",
    "C21_no_answer_refuses"
   ],
   "note": ""
  },
  {
   "property": "C22",
   "status": "proved",
   "theorems": [
    "C22_answer_decides",
    "C22_yes_counts",
    "C22_can_be_approved"
   ],
   "note": "Askable, Works and Ready are defined in HonourSpec.v. C22_answer_decides: when every call does its job, the single answer read decides. C22_can_be_approved: for every such request there is a run that ends in approval. Stopped: a system call did not return."
  },
  {
   "property": "C23",
   "status": "proved",
   "theorems": [
    "C23_user_change",
    "C23_group_change"
   ],
   "note": "Covers every state before and after each call from the bind on, and the state at which a run that was cut short stops. Provisos: the names leading to the socket are guarded against outsiders (GuardedBy), trusted processes only connect, and the target id is not 2^32-1 (which chown(2) takes as 'leave unchanged')."
  },
  {
   "property": "C24",
   "status": "proved",
   "theorems": [
    "C24_outsiders_cannot_open",
    "C24_outsiders_not_accepted"
   ],
   "note": "No assumption on the file system. The second theorem says an outsider is not accepted even when others connect as well."
  },
  {
   "property": "C25",
   "status": "proved",
   "theorems": [
    "C25_outsiders_cannot_open",
    "C25_only_members_accepted",
    "C25_unguarded_refuted",
    "C25_unguarded_false"
   ],
   "note": "The guard is needed: C25_unguarded_refuted gives a run in which mallory, who owns the parent of the socket directory, gets a session approved. Target gid 2^32-1 is excluded (chown leaves the group unchanged)."
  },
  {
   "property": "C26",
   "status": "proved",
   "theorems": [
    "C26_user_change",
    "C26_group_change"
   ],
   "note": "Target id 2^32-1 is excluded."
  },
  {
   "property": "C27",
   "status": "proved",
   "theorems": [
    "C27_user_change",
    "C27_refuted",
    "C27_not_full"
   ],
   "note": "Refuted as stated: C27_refuted is a run in which a member of the target group approves their own sudo -g. C27_user_change proves the part that holds."
  },
  {
   "property": "C28",
   "status": "proved",
   "theorems": [
    "C28_umask_restored",
    "C28_refuted",
    "C28_not_full"
   ],
   "note": "Proved with both provisos of the statement; each is needed (C28_refuted, C28_not_full)."
  },
  {
   "property": "C29",
   "status": "proved",
   "theorems": [
    "C29_socket_removed",
    "C29_refuted",
    "C29_not_full"
   ],
   "note": "Needs the provisos of C28 as well: the panics of C28 leave the socket in place (C29_refuted, C29_not_full). Non-interference means that other processes only attempt connections."
  },
  {
   "property": "C30",
   "status": "proved",
   "theorems": [
    "C30_files_untouched",
    "C30_occupied_refused"
   ],
   "note": "Non-interference means that other processes only attempt connections. Link count is not modelled: removing a name leaves the inode."
  },
  {
   "property": "C31",
   "status": "proved",
   "theorems": [
    "C31_bad_directory",
    "C31_bad_from_the_start"
   ],
   "note": "o = Stopped means that a system call did not return."
  },
  {
   "property": "C32",
   "status": "proved",
   "theorems": [
    "C32_refuted",
    "C32_not_full",
    "C32_what_passes",
    "C32_still_a_directory"
   ],
   "note": "The full claim is false of the code (C32_refuted, C32_not_full). C32_what_passes says exactly what passes; C32_still_a_directory that a session is nevertheless only approved if the parent is a directory when the socket is created."
  },
  {
   "property": "C33",
   "status": "proved",
   "theorems": [
    "C33_child_of_socket_dir",
    "C33_no_collision"
   ],
   "note": ""
  },
  {
   "property": "C34",
   "status": "proved",
   "theorems": [
    "C34_prompt_before_answer"
   ],
   "note": ""
  },
  {
   "property": "C35",
   "status": "proved",
   "theorems": [
    "C35_goes_on",
    "C35_same_code",
    "C35_terminal_first",
    "C35_shown",
    "C35_overcount_refuted"
   ],
   "note": "Holds provided printf does not claim to have printed more than it was given; C35_overcount_refuted shows what happens otherwise (the Rust code panics and the session is refused). TerminalFailed is defined in LocalFacts.v. Other processes are assumed to do the same during both local phases."
  },
  {
   "property": "C36",
   "status": "proved",
   "theorems": [
    "C36_return_codes",
    "C36_any_plugin"
   ],
   "note": ""
  },
  {
   "property": "C37",
   "status": "proved",
   "theorems": [
    "C37_pair_sees_output",
    "C37_any_codes"
   ],
   "note": ""
  },
  {
   "property": "C38",
   "status": "proved",
   "theorems": [
    "C38_delivered_first",
    "C38_exactly",
    "C38_refuted",
    "C38_not_full"
   ],
   "note": "Proved: 1 means all bytes were delivered; 0 means an initial part was and some call failed. The converse (\"exactly when\") is refuted: if restoring the SIGINT disposition fails after a full write, the callback returns 0 although everything arrived (C38_refuted, C38_not_full). What decides is whether a call failed: C38_exactly."
  },
  {
   "property": "C39",
   "status": "proved",
   "theorems": [
    "C39_hints",
    "C39_pairing_plugin"
   ],
   "note": "For any plugin that does not override the hints, and for every opened session of the pairing plugin."
  },
  {
   "property": "C40",
   "status": "proved",
   "theorems": [
    "C40_stdin_refused",
    "C40_unmarked_passes",
    "C40_refuted",
    "C40_not_full"
   ],
   "note": "Proved when stdin is marked for logging; refuted otherwise (C40_refuted, C40_not_full): unmarked stdin passes in every paired session."
  },
  {
   "property": "C41",
   "status": "proved",
   "theorems": [
    "C41_window_size",
    "C41_exactly",
    "C41_refuted",
    "C41_not_full"
   ],
   "note": "As for C38: 1 means fully delivered and that no call failed (C41_exactly), 0 an initial part and that some call failed. \"iff it was fully delivered\" is refuted in the same way (C41_refuted, C41_not_full)."
  },
  {
   "property": "C42",
   "status": "proved",
   "theorems": [
    "C42_inactive",
    "C42_states",
    "C42_no_command"
   ],
   "note": ""
  },
  {
   "property": "C43",
   "status": "proved",
   "theorems": [
    "C43_close_disconnects",
    "C43_fresh_after_close",
    "C43_nothing_open"
   ],
   "note": "Includes that the connection is no longer open afterwards, and that an opening after a close equals a first opening."
  },
  {
   "property": "C44",
   "status": "proved",
   "theorems": [
    "C44_refused_closes",
    "C44_listener_closed"
   ],
   "note": ""
  },
  {
   "property": "C45",
   "status": "proved",
   "theorems": [
    "C45_read",
    "C45_write",
    "C45_flush",
    "C45_history"
   ],
   "note": "Interruptible and SigactionWorks are defined in SigFacts.v. Stopped: a system call did not return."
  },
  {
   "property": "C46",
   "status": "proved",
   "theorems": [
    "C46_interrupted",
    "C46_waits"
   ],
   "note": ""
  },
  {
   "property": "C47",
   "status": "proved",
   "theorems": [
    "C47_banner",
    "C47_no_environment",
    "C47_pairing_plugin",
    "C47_refuted"
   ],
   "note": "The expectation that the banner shows the version of the sudo_pair crate (1.0.0) is refuted: it shows 1.2.0, the version of sudo_plugin."
  },
  {
   "property": "C48",
   "status": "proved",
   "theorems": [
    "C48_report",
    "C48_endless",
    "C48_refuted"
   ],
   "note": "Exact report without a source; termination with a source refuted: any number of printf calls, all answered, are used up."
  },
  {
   "property": "C49",
   "status": "proved",
   "theorems": [
    "C49_verbatim",
    "C49_opening",
    "C49_session",
    "C49_refuted",
    "C49_not_full"
   ],
   "note": "Proved for text without %; every text handed to printf is such a text or part of the user prompt; refuted with a user template showing the command line and an argument \"%n\"."
  },
  {
   "property": "C50",
   "status": "proved",
   "theorems": [
    "C50_invocation",
    "C50_arguments_verbatim"
   ],
   "note": ""
  },
  {
   "property": "C51",
   "status": "proved",
   "theorems": [
    "C51_refuted",
    "C51_not_full",
    "C51_without_spaces",
    "C51_flags_refuted"
   ],
   "note": "The full claim is false of the code: C51_refuted / C51_not_full, C51_flags_refuted. C51_without_spaces is what does hold."
  },
  {
   "property": "C52",
   "status": "proved",
   "theorems": [
    "C52_groups",
    "C52_total"
   ],
   "note": ""
  },
  {
   "property": "C53",
   "status": "proved",
   "theorems": [
    "C53_cwd"
   ],
   "note": ""
  },
  {
   "property": "C54",
   "status": "proved",
   "theorems": [
    "C54_decisions",
    "C54_refuted",
    "C54_not_full"
   ],
   "note": "Proved for an absent or truthful SUDO_UID; refuted for a forged one (C54_refuted, C54_not_full)."
  },
  {
   "property": "C55",
   "status": "proved",
   "theorems": [
    "C55_denies",
    "C55_other_callbacks",
    "C55_printed"
   ],
   "note": ""
  },
  {
   "property": "C56",
   "status": "proved",
   "theorems": [
    "C56_after_close",
    "C56_arguments_ignored",
    "C56_refuted",
    "C56_panicking_close"
   ],
   "note": "Refuted without an intervening close (C56_refuted: an exempt opening followed by a non-exempt one that asks nobody) and for a plugin whose close panics; proved after any close of the pairing plugin. C56_full states the refuted claim."
  },
  {
   "property": "C57",
   "status": "proved",
   "theorems": [
    "C57_refuted",
    "C57_not_full",
    "C57_textual_command_paired"
   ],
   "note": "The full claim is false of the code: C57_refuted / C57_not_full (a command path that is not UTF-8 is taken for no command). C57_textual_command_paired is what does hold."
  },
  {
   "property": "C58",
   "status": "proved",
   "theorems": [
    "C58_exempt_left_alone"
   ],
   "note": "Same side condition as C17 for debug builds."
  },
  {
   "property": "C59",
   "status": "proved",
   "theorems": [
    "C59_primary_group_refused"
   ],
   "note": ""
  },
  {
   "property": "C60",
   "status": "proved",
   "theorems": [
    "C60_refuted",
    "C60_not_full",
    "C60_textual_group_refused"
   ],
   "note": "The full claim is false of the code: C60_refuted / C60_not_full (a group name that is not UTF-8 is taken for absent). C60_textual_group_refused is what does hold."
  },
  {
   "property": "C61",
   "status": "proved",
   "theorems": [
    "C61_ttyin"
   ],
   "note": ""
  },
  {
   "property": "C62",
   "status": "proved",
   "theorems": [
    "C62_write_made_again",
    "C62_refuted",
    "C62_not_full"
   ],
   "note": "The expectation is refuted (C62_refuted, C62_not_full); C62_write_made_again is what holds."
  },
  {
   "property": "C63",
   "status": "proved",
   "theorems": [
    "C63_fields",
    "C63_determined"
   ],
   "note": ""
  },
  {
   "property": "C64",
   "status": "proved",
   "theorems": [
    "C64_umask_refuted",
    "C64_nice_refuted",
    "C64_not_full",
    "C64_unsigned"
   ],
   "note": "The full claim is false of the code: C64_umask_refuted, C64_nice_refuted, C64_not_full. C64_unsigned is what does hold."
  },
  {
   "property": "C65",
   "status": "proved",
   "theorems": [
    "C65_refuted",
    "C65_not_full",
    "C65_absent"
   ],
   "note": "The full claim is false of the code: C65_refuted / C65_not_full. C65_absent is what does hold."
  },
  {
   "property": "C66",
   "status": "proved",
   "theorems": [
    "C66_refuted",
    "C66_not_full",
    "C66_consistent"
   ],
   "note": "The full claim is false of the code: C66_refuted / C66_not_full. C66_consistent is what does hold."
  },
  {
   "property": "C67",
   "status": "proved",
   "theorems": [
    "C67_refuted",
    "C67_not_full",
    "C67_no_list",
    "C67_debug"
   ],
   "note": "The full claim is false of the code: C67_refuted / C67_not_full. C67_no_list and C67_debug are what does hold."
  },
  {
   "property": "C68",
   "status": "proved",
   "theorems": [
    "C68_heard"
   ],
   "note": ""
  },
  {
   "property": "C69",
   "status": "proved",
   "theorems": [
    "C69_told"
   ],
   "note": ""
  },
  {
   "property": "C70",
   "status": "proved",
   "theorems": [
    "C70_failures_fatal"
   ],
   "note": ""
  },
  {
   "property": "C71",
   "status": "proved",
   "theorems": [
    "C71_unusable_address"
   ],
   "note": ""
  },
  {
   "property": "C72",
   "status": "proved",
   "theorems": [
    "C72_arguments"
   ],
   "note": ""
  },
  {
   "property": "C73",
   "status": "proved",
   "theorems": [
    "C73_terminal_closed"
   ],
   "note": ""
  },
  {
   "property": "C74",
   "status": "proved",
   "theorems": [
    "C74_write_bound",
    "C74_other_bounds"
   ],
   "note": ""
  },
  {
   "property": "C75",
   "status": "proved",
   "theorems": [
    "C75_open_reads_arguments"
   ],
   "note": ""
  },
  {
   "property": "C76",
   "status": "proved",
   "theorems": [
    "C76_buffer",
    "C76_unmarked"
   ],
   "note": ""
  },
  {
   "property": "C77",
   "status": "proved",
   "theorems": [
    "C77_negative_count",
    "C77_count_too_large",
    "C77_no_end"
   ],
   "note": ""
  },
  {
   "property": "C78",
   "status": "proved",
   "theorems": [
    "C78_instruction",
    "C78_refuted",
    "C78_not_full"
   ],
   "note": "The full claim is false of the code: C78_refuted / C78_not_full. C78_instruction is an equivalence, so it also says for which socket_dir it holds."
  },
  {
   "property": "C79",
   "status": "proved",
   "theorems": [
    "C79_user_change",
    "C79_group_change",
    "C79_requester"
   ],
   "note": ""
  },
  {
   "property": "C80",
   "status": "proved",
   "theorems": [
    "C80_refuted",
    "C80_not_full",
    "C80_numbers",
    "C80_commands",
    "C80_socket"
   ],
   "note": "The full claim is false of the code: C80_refuted / C80_not_full. Bash arithmetic is modelled for numerals and for one form of array subscript (Script.v); other arguments are outside the model."
  },
  {
   "property": "C81",
   "status": "proved",
   "theorems": [
    "C81_refuted",
    "C81_not_full",
    "C81_printable"
   ],
   "note": "The full claim is false of the code: C81_refuted / C81_not_full. C81_printable is what does hold."
  },
  {
   "property": "C82",
   "status": "proved",
   "theorems": [
    "C82_whole_strings"
   ],
   "note": ""
  },
  {
   "property": "C83",
   "status": "proved",
   "theorems": [
    "C83_no_printf"
   ],
   "note": ""
  },
  {
   "property": "C84",
   "status": "proved",
   "theorems": [
    "C84_user_socket",
    "C84_group_socket",
    "C84_user_accepted",
    "C84_group_accepted",
    "C84_user_never",
    "C84_group_never"
   ],
   "note": "Other sessions are over-approximated: any file-system call that any run of another session can make may happen at any moment, in any order. Assumes that the socket directory holds no directory or symbolic link under another name (Apart), beyond the guard of C23."
  },
  {
   "property": "C85",
   "status": "proved",
   "theorems": [
    "C85_settings",
    "C85_user_info",
    "C85_one_complaint",
    "C85_absent_refuted",
    "C85_absent_not_full",
    "C85_format_refuted",
    "C85_format_not_full"
   ],
   "note": "Two expectations are false of the code and refuted: C85_absent_refuted / C85_absent_not_full and C85_format_refuted / C85_format_not_full. C85_settings, C85_user_info and C85_one_complaint are what holds."
  },
  {
   "property": "C86",
   "status": "proved",
   "theorems": [
    "C86_repeated_open",
    "C86_same_session",
    "C86_pair_keeps_watching"
   ],
   "note": ""
  },
  {
   "property": "C87",
   "status": "proved",
   "theorems": [
    "C87_searchers",
    "C87_closed_accepted",
    "C87_closed_never",
    "C87_script",
    "C87_refuted",
    "C87_not_full"
   ],
   "note": "That everybody entitled can approve whenever the plugin accepts the directory is false: C87_refuted / C87_not_full, with the directory as README.md:59 creates it. C87_searchers, C87_closed_accepted, C87_closed_never and C87_script are what holds."
  },
  {
   "property": "C88",
   "status": "proved",
   "theorems": [
    "C88_user",
    "C88_group"
   ],
   "note": ""
  },
  {
   "property": "C89",
   "status": "proved",
   "theorems": [
    "C89_table",
    "C89_open",
    "C89_asked",
    "C89_close",
    "C89_switched_off",
    "C89_others_asked"
   ],
   "note": ""
  },
  {
   "property": "C90",
   "status": "proved",
   "theorems": [
    "C90_watched",
    "C90_closed",
    "C90_exempt",
    "C90_refuted",
    "C90_not_full"
   ],
   "note": "That the pair sees everything the user is given is false: C90_refuted / C90_not_full (output not marked for logging). The front end is modelled from the documentation in core.rs and io_plugin.rs; where sudo's treatment of -1 is not stated the permissive reading is taken, and C90_watched shows that -1 never occurs."
  },
  {
   "property": "C91",
   "status": "proved",
   "theorems": [
    "C91_request",
    "C91_other_entries",
    "C91_every_entry",
    "C91_session",
    "C91_session_entries"
   ],
   "note": ""
  },
  {
   "property": "C92",
   "status": "proved",
   "theorems": [
    "C92_gone",
    "C92_unnoticed",
    "C92_refuted",
    "C92_not_full"
   ],
   "note": "That the command terminates immediately is false: C92_refuted / C92_not_full; C92_unnoticed says exactly what still goes through."
  },
  {
   "property": "C93",
   "status": "proved",
   "theorems": [
    "C93_keys",
    "C93_other_keys",
    "C93_approved",
    "C93_unheard",
    "C93_terminal",
    "C93_no_echo",
    "C93_restored",
    "C93_ctrl_d",
    "C93_refuted",
    "C93_not_full"
   ],
   "note": "That Ctrl-D always ends the connection is false: C93_refuted / C93_not_full (a terminal with -isig). The terminal is modelled without line editing and without translation of carriage returns."
  },
  {
   "property": "C94",
   "status": "proved",
   "theorems": [
    "C94_stricter",
    "C94_bad_entry",
    "C94_refuted",
    "C94_not_full"
   ],
   "note": "That adding to the text of gids_enforced never exempts is false: C94_refuted / C94_not_full. C94_stricter compares the lists as read; it assumes no maskless network address and, in a debug build, consistent data."
  },
  {
   "property": "C95",
   "status": "proved",
   "theorems": [
    "C95_default",
    "C95_opening",
    "C95_sample",
    "C95_refuted",
    "C95_not_full"
   ],
   "note": "For the sample prompt the claim is false: C95_refuted / C95_not_full; C95_sample says what is read instead, for every request. The shell is modelled only as far as blanks and single quotes; other special characters give no words at all."
  },
  {
   "property": "C96",
   "status": "proved",
   "theorems": [
    "C96_found",
    "C96_table",
    "C96_written",
    "C96_size",
    "C96_aligned"
   ],
   "note": "Offsets follow the C rules for int and pointer fields on the three architectures with bindings (little-endian). That older headers are prefixes of this one is how the header is meant to evolve; the older headers are not in the repository."
  },
  {
   "property": "C97",
   "status": "proved",
   "theorems": [
    "C97_one",
    "C97_late",
    "C97_refuted",
    "C97_not_full"
   ],
   "note": "That others can still connect while an opening waits for its answer is false: C97_refuted / C97_not_full. The code sets no time limit (socket.rs, lib.rs:298-335)."
  },
  {
   "property": "C98",
   "status": "proved",
   "theorems": [
    "C98_story",
    "C98_accepted",
    "C98_waiting",
    "C98_approved",
    "C98_declined",
    "C98_answered",
    "C98_identity",
    "C98_session",
    "C98_ended",
    "C98_peer_refuted",
    "C98_peer_not_full",
    "C98_refusal_refuted",
    "C98_refusal_not_full"
   ],
   "note": "Two stronger claims are false: that the records say who approved (C98_peer_refuted / C98_peer_not_full), and that every refusal leaves a warning or an error (C98_refusal_refuted / C98_refusal_not_full: errors of lib.rs:298-335 are not logged)."
  },
  {
   "property": "C99",
   "status": "proved",
   "theorems": [
    "C99_same",
    "C99_data",
    "C99_length",
    "C99_builds",
    "C99_sample_refuted",
    "C99_unreachable_refuted",
    "C99_not_full"
   ],
   "note": "Two stronger claims are false: that every command leaves a record (C99_unreachable_refuted / C99_not_full: lib.rs:772-795 falls back to discarding), and that no build records lengths of output (C99_sample_refuted: sample/Makefile:18 compiles trace records in)."
  },
  {
   "property": "C100",
   "status": "proved",
   "theorems": [
    "C100_calls",
    "C100_reads",
    "C100_front"
   ],
   "note": ""
  },
  {
   "property": "C101",
   "status": "proved",
   "theorems": [
    "C101_addresses",
    "C101_dotted",
    "C101_versions",
    "C101_read",
    "C101_bare_aborts",
    "C101_others_open"
   ],
   "note": "The parser belongs to the standard library, whose source is not in /repo; Net.v follows it from memory (library/std/src/net/parser.rs). Elsewhere the parser is a parameter of the platform."
  },
  {
   "property": "C102",
   "status": "proved",
   "theorems": [
    "C102_open_error",
    "C102_session_error",
    "C102_defaults"
   ],
   "note": ""
  },
  {
   "property": "C103",
   "status": "proved",
   "theorems": [
    "C103_pair",
    "C103_painted",
    "C103_user"
   ],
   "note": ""
  },
  {
   "property": "C104",
   "status": "proved",
   "theorems": [
    "C104_session",
    "C104_close",
    "C104_refuted",
    "C104_not_full"
   ],
   "note": "The reading that the example reports all standard output is refuted (C104_refuted): without iolog_stdout the method is not called. C104_session states what it reports."
  },
  {
   "property": "C105",
   "status": "proved",
   "theorems": [
    "C105_forged",
    "C105_user_change",
    "C105_group_change",
    "C105_refuted",
    "C105_not_full"
   ],
   "note": "The sentence of sample/etc/sudo_pair.prompt.user that the requester may approve their own session with the command shown is refuted (C105_refuted, C105_not_full)."
  },
  {
   "property": "C106",
   "status": "proved",
   "theorems": [
    "C106_makefile",
    "C106_readme",
    "C106_package",
    "C106_works",
    "C106_closed",
    "C106_prefix",
    "C106_prompts",
    "C106_options",
    "C106_passes",
    "C106_not_full"
   ],
   "note": "C106_full, that every recipe lets the processes the socket is meant for approve, is refuted (C106_not_full): README.md and sample/Makefile create the socket directory with mode 0644. The rpm package is not modelled."
  },
  {
   "property": "C107",
   "status": "proved",
   "theorems": [
    "C107_user",
    "C107_group",
    "C107_refuted",
    "C107_not_full",
    "C107_unlogged",
    "C107_logged",
    "C107_opt_out",
    "C107_opt_in",
    "C107_sample",
    "C107_alone"
   ],
   "note": "README.md:240-241 taken literally is refuted (C107_refuted, C107_not_full): a member of the target group needs no rule. Rules are a subset of sudoers(5), see Sudoers.v; how sudo matches them is taken from its manual, not from /repo."
  },
  {
   "property": "C108",
   "status": "proved",
   "theorems": [
    "C108_user",
    "C108_group"
   ],
   "note": ""
  },
  {
   "property": "C109",
   "status": "proved",
   "theorems": [
    "C109_user",
    "C109_group",
    "C109_nobody_user",
    "C109_nobody_group",
    "C109_unlogged"
   ],
   "note": ""
  },
  {
   "property": "C110",
   "status": "proved",
   "theorems": [
    "C110_ended",
    "C110_decides",
    "C110_possible"
   ],
   "note": ""
  },
  {
   "property": "C111",
   "status": "proved",
   "theorems": [
    "C111_restored",
    "C111_process",
    "C111_socket_refuted",
    "C111_sigint_refuted",
    "C111_not_full"
   ],
   "note": "Fresh, CanTidy, ProcessRestored and Restored are defined in TidySpec.v. For the files other processes only attempt connections (ConnectOnly). Without the provisos on unlink and sigaction the claim is false: C111_socket_refuted, C111_sigint_refuted, C111_not_full; for those on select and descriptors see C28."
  }
 ]
}