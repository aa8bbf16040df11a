{
 "claims": [
  {
   "property": "C01",
   "status": "proved",
   "theorems": [
    "C01_number_set_history",
    "C01_empty_has_no_member",
    "C01_empty_converse_refuted"
   ],
   "note": "C01_empty_converse_refuted is an extra fact, not part of the claim: a set may have no member and not be reported empty."
  },
  {
   "property": "C02",
   "status": "partial",
   "theorems": [
    "C02_complete_set_partial",
    "C02_all_is_complete",
    "C02_complete_array",
    "C02_complete_set_refuted_excluded_all",
    "C02_complete_set_refuted_all_after_clear"
   ],
   "note": "Full statement is false of the code for inverted sets: two refutations are proved beside the partial theorem."
  },
  {
   "property": "C03",
   "status": "proved",
   "theorems": [
    "C03_string_to_uint_ex",
    "C03_string_to_uint_upto",
    "C03_numeral_unique"
   ],
   "note": ""
  },
  {
   "property": "C04",
   "status": "proved",
   "theorems": [
    "C04_expression_shape",
    "C04_qualify_tokens",
    "C04_status_names",
    "C04_quiet_names",
    "C04_signal_names",
    "C04_number_valid"
   ],
   "note": ""
  },
  {
   "property": "C05",
   "status": "proved",
   "theorems": [
    "C05_qualify_syscall_tokens",
    "C05_optional_token_accepted"
   ],
   "note": "The '?' prefix protects from unknown names, numbers and classes only, which is what the statement says; a bad @personality or a malformed regex behind '?' is still fatal."
  },
  {
   "property": "C06",
   "status": "proved",
   "theorems": [
    "C06_linear_filter_exact",
    "C06_traced"
   ],
   "note": ""
  },
  {
   "property": "C07",
   "status": "partial",
   "theorems": [
    "C07_binary_filter_partial",
    "C07_binary_filter_characterised",
    "C07_out_of_table_refuted"
   ],
   "note": "In full the property is false of the code (C07_out_of_table_refuted); the exact verdict on every number is C07_binary_filter_characterised."
  },
  {
   "property": "C08",
   "status": "proved",
   "theorems": [
    "C08_installed_program_sound",
    "C08_usable_candidate_installed"
   ],
   "note": ""
  },
  {
   "property": "C09",
   "status": "proved",
   "theorems": [
    "C09_when_expression"
   ],
   "note": ""
  },
  {
   "property": "C10",
   "status": "proved",
   "theorems": [
    "C10_schedule_exact"
   ],
   "note": ""
  },
  {
   "property": "C11",
   "status": "partial",
   "theorems": [
    "C11_injected_result_partial",
    "C11_untouched",
    "C11_after_substitution_refuted"
   ],
   "note": "In full the property is false of the code (C11_after_substitution_refuted): TCB_TAMPERED_NO_FAIL is never cleared. Proved for tracees with no earlier syscall= injection, or when the injection itself uses syscall=."
  },
  {
   "property": "C12",
   "status": "partial",
   "theorems": [
    "C12_quoted_lossless_partial",
    "C12_reads_only_input",
    "C12_non_ascii_chars_refuted",
    "C12_char_lossless"
   ],
   "note": "Proved for every style by the C rules, except --strings-in-hex=non-ascii-chars, where \\xHH followed by a hex digit reads as another byte in C (C12_non_ascii_chars_refuted); for that style the text is lossless when \\x takes exactly two digits (h := Two in the theorem)."
  },
  {
   "property": "C13",
   "status": "partial",
   "theorems": [
    "C13_output_bound",
    "C13_printstr_buffer",
    "C13_alloc_partial",
    "C13_alloc_wraps_refuted",
    "C13_char_buffer"
   ],
   "note": "string_quote and printstr_ex: proved in full. print_quoted_string_ex: the allocation size wraps for a comment style with more than 2^30 - 3 bytes (C13_alloc_wraps_refuted)."
  },
  {
   "property": "C14",
   "status": "proved",
   "theorems": [
    "C14_printable",
    "C14_char_printable"
   ],
   "note": ""
  },
  {
   "property": "C15",
   "status": "partial",
   "theorems": [
    "C15_string_ellipsis_partial",
    "C15_path_ellipsis",
    "C15_omit_trailing_refuted"
   ],
   "note": "False for QUOTE_OMIT_TRAILING_0 (extended attributes): an omitted NUL at the limit hides the truncation (C15_omit_trailing_refuted). Everything else is proved."
  },
  {
   "property": "C16",
   "status": "proved",
   "theorems": [
    "C16_dump_lossless",
    "C16_lines_make_up_buffer",
    "C16_dump_general"
   ],
   "note": ""
  },
  {
   "property": "C17",
   "status": "partial",
   "theorems": [
    "C17_compare",
    "C17_nonzero",
    "C17_add",
    "C17_sub",
    "C17_min",
    "C17_max",
    "C17_div_partial",
    "C17_div_refuted"
   ],
   "note": "ts_div is exact only while sec mod n * 10^9 + nsec + n/2 fits 64 bits; otherwise C17_div_refuted."
  },
  {
   "property": "C18",
   "status": "partial",
   "theorems": [
    "C18_fraction",
    "C18_fraction_only",
    "C18_whole",
    "C18_nan_refuted",
    "C18_huge_refuted",
    "C18_time_argument_partial",
    "C18_rejected_partial"
   ],
   "note": "Every string is covered. Without point, exponent or minus: exact (C18_time_argument_partial, C18_whole). With them: strtod and the double arithmetic of parse_ts are modelled over rationals with any IEEE 754 rounding to nearest, and the result is within 2.5 ns of the constant times the unit up to 2^53 ns (C18_fraction); nothing else is accepted (C18_fraction_only) - except that NaN and values of 2^63 s or more are not rejected but converted without meaning (C18_nan_refuted, C18_huge_refuted). Between 2^53 ns and 2^63 s no accuracy is proved."
  },
  {
   "property": "C19",
   "status": "partial",
   "theorems": [
    "C19_map_partial",
    "C19_create",
    "C19_any_geometry_refuted"
   ],
   "note": "For every geometry whose node sizes can be computed (sane); trie_create also accepts others, where the first store is undefined (C19_any_geometry_refuted)."
  },
  {
   "property": "C20",
   "status": "partial",
   "theorems": [
    "C20_iterate_partial",
    "C20_start_out_of_range_refuted"
   ],
   "note": "For a start that fits the key and an end below 2^64 - 1; the count is wrong otherwise (C20_start_out_of_range_refuted)."
  },
  {
   "property": "C21",
   "status": "proved",
   "theorems": [
    "C21_table",
    "C21_start",
    "C21_turn",
    "C21_first_stop",
    "C21_cleanup"
   ],
   "note": ""
  },
  {
   "property": "C22",
   "status": "proved",
   "theorems": [
    "C22_cache_transparent",
    "C22_cache_transparent_loop"
   ],
   "note": ""
  },
  {
   "property": "C23",
   "status": "partial",
   "theorems": [
    "C23_lines_partial",
    "C23_lines_cleanup_partial",
    "C23_newlines",
    "C23_superseded_refuted",
    "C23_staged_refuted"
   ],
   "note": "For runs without -ff and status filtering, in which no thread that is not the leader calls execve while the leader's line is open (reached_calm); false otherwise, by C23_superseded_refuted and C23_staged_refuted."
  },
  {
   "property": "C24",
   "status": "proved",
   "theorems": [
    "C24_read",
    "C24_read_cleanup",
    "C24_shown"
   ],
   "note": ""
  },
  {
   "property": "C25",
   "status": "proved",
   "theorems": [
    "C25_alternate",
    "C25_other_stops",
    "C25_syscall_stop"
   ],
   "note": ""
  },
  {
   "property": "C26",
   "status": "partial",
   "theorems": [
    "C26_signal_of_stop",
    "C26_group_stop",
    "C26_event_stop",
    "C26_restart_partial",
    "C26_run_partial",
    "C26_interrupted_refuted",
    "C26_injected_delayed_refuted"
   ],
   "note": "For runs in which strace is not told to stop, signals are not injected, and no thread's execve overtakes an undispatched event; false for an interrupted strace (C26_interrupted_refuted) and for signal= with delay_enter= (C26_injected_delayed_refuted)."
  },
  {
   "property": "C27",
   "status": "partial",
   "theorems": [
    "C27_nothing_lost_partial",
    "C27_next_partial",
    "C27_collect_partial",
    "C27_extra_event_crash_refuted",
    "C27_extra_event_lost_refuted"
   ],
   "note": "For runs in which a tracee that keeps an undispatched exec event is not dropped before (fair); false otherwise (C27_extra_event_crash_refuted, C27_extra_event_lost_refuted)."
  },
  {
   "property": "C28",
   "status": "partial",
   "theorems": [
    "C28_cleanup_partial",
    "C28_detach_partial",
    "C28_signals_partial",
    "C28_released_partial",
    "C28_event_refuted"
   ],
   "note": "Provided the tracee is not seen in a PTRACE_EVENT stop while being detached: that one is let go with SIGTRAP (C28_event_refuted)."
  },
  {
   "property": "C29",
   "status": "partial",
   "theorems": [
    "C29_exit_partial",
    "C29_failure_refuted"
   ],
   "note": "Provided that no request to go on fails, but for a tracee that is gone: otherwise the exit status is overwritten with 1 (C29_failure_refuted)."
  },
  {
   "property": "C30",
   "status": "partial",
   "theorems": [
    "C30_call_partial",
    "C30_others",
    "C30_stops",
    "C30_untraced",
    "C30_known",
    "C30_start",
    "C30_execve_refuted",
    "C30_detached_refuted"
   ],
   "note": "For calls that end at a syscall stop or by the process's exit, without -c; false for a thread's execve (C30_execve_refuted) and for several tracees being detached (C30_detached_refuted)."
  },
  {
   "property": "C31",
   "status": "partial",
   "theorems": [
    "C31_delay",
    "C31_not_early",
    "C31_resumed",
    "C31_timer_partial",
    "C31_timer_refuted",
    "C31_fired_refuted"
   ],
   "note": "Not early: proved in full. The timer is armed no later than the earliest expiry plus the time that passes between two readings of the clock (C31_timer_refuted shows that this slack is real); a timer that fired and was not handled yet is lost when another delay starts (C31_fired_refuted)."
  },
  {
   "property": "C32",
   "status": "partial",
   "theorems": [
    "C32_read_partial",
    "C32_defined",
    "C32_short",
    "C32_poked_refuted"
   ],
   "note": "Until strace itself writes into the tracee (poke injection): the cache is not invalidated then (C32_poked_refuted)."
  },
  {
   "property": "C33",
   "status": "proved",
   "theorems": [
    "C33_sound",
    "C33_complete"
   ],
   "note": ""
  },
  {
   "property": "C34",
   "status": "partial",
   "theorems": [
    "C34_umoven",
    "C34_umovestr_partial",
    "C34_aligned",
    "C34_misaligned_refuted",
    "C34_tail_refuted"
   ],
   "note": "umoven: in full. umovestr: false at addresses or lengths that are not multiples of the word size (C34_misaligned_refuted, C34_tail_refuted); C34_umovestr_partial says exactly what is returned."
  },
  {
   "property": "C35",
   "status": "proved",
   "theorems": [
    "C35_poke",
    "C35_whole",
    "C35_whole_vm",
    "C35_fallback"
   ],
   "note": ""
  },
  {
   "property": "C36",
   "status": "proved",
   "theorems": [
    "C36_flags_reading",
    "C36_flags_lossless",
    "C36_sprintflags_same"
   ],
   "note": ""
  },
  {
   "property": "C37",
   "status": "proved",
   "theorems": [
    "C37_lookup",
    "C37_lookup_unique",
    "C37_reverse",
    "C37_round_trip",
    "C37_value_lossless"
   ],
   "note": ""
  },
  {
   "property": "C38",
   "status": "proved",
   "theorems": [
    "C38_lookup_le",
    "C38_empty_table_refuted"
   ],
   "note": "C38_empty_table_refuted shows that the condition on the table in the quantifier is needed."
  },
  {
   "property": "C39",
   "status": "partial",
   "theorems": [
    "C39_last_writer_wins_partial",
    "C39_terminated_name_refuted"
   ],
   "note": "For names without NUL in the given length; a name registered again with its NUL counted reads one byte behind the stored name (C39_terminated_name_refuted)."
  },
  {
   "property": "C40",
   "status": "partial",
   "theorems": [
    "C40_counters",
    "C40_tables",
    "C40_summary",
    "C40_average_partial",
    "C40_orders",
    "C40_order_refuted",
    "C40_gap_refuted"
   ],
   "note": "Averages are subject to the limits of ts_div (C17); sorting by calls or errors truncates 64-bit differences (C40_order_refuted); a number in a gap of the table crashes -c (C40_gap_refuted)."
  },
  {
   "property": "C41",
   "status": "partial",
   "theorems": [
    "C41_fanotify_mark",
    "C41_members",
    "C41_duplicates",
    "C41_syscalls_partial",
    "C41_rest_refuted",
    "C41_poll",
    "C41_select"
   ],
   "note": "Membership: in full. System calls: all that pathtrace decodes but for rename's new path, epoll_ctl's epfd and perf_event_open's group_fd (C41_rest_refuted)."
  },
  {
   "property": "C42",
   "status": "proved",
   "theorems": [
    "C42_safe",
    "C42_bindings",
    "C42_others",
    "C42_in_order"
   ],
   "note": ""
  },
  {
   "property": "C43",
   "status": "proved",
   "theorems": [
    "C43_lookup",
    "C43_maps"
   ],
   "note": ""
  },
  {
   "property": "C44",
   "status": "partial",
   "theorems": [
    "C44_ascending",
    "C44_lines",
    "C44_fresh_partial",
    "C44_current_partial",
    "C44_result",
    "C44_wrap_refuted"
   ],
   "note": "Ascending: in full. Freshness: for fewer than 2^32 mapping changes; the generation number wraps (C44_wrap_refuted)."
  },
  {
   "property": "C45",
   "status": "proved",
   "theorems": [
    "C45_inside",
    "C45_records",
    "C45_empty",
    "C45_forward",
    "C45_brackets"
   ],
   "note": ""
  },
  {
   "property": "C46",
   "status": "proved",
   "theorems": [
    "C46_attributes_inside",
    "C46_messages_inside",
    "C46_attributes",
    "C46_messages",
    "C46_error",
    "C46_error_capped",
    "C46_error_full"
   ],
   "note": ""
  },
  {
   "property": "C47",
   "status": "proved",
   "theorems": [
    "C47_next_set_bit"
   ],
   "note": ""
  },
  {
   "property": "C48",
   "status": "partial",
   "theorems": [
    "C48_mask_text_partial",
    "C48_lossless_partial",
    "C48_generic_printed",
    "C48_generic_lossless",
    "C48_verbose_dies_refuted"
   ],
   "note": "Whenever a text is printed it is lossless; with -X verbose strace dies on a full mask of realtime signals (C48_verbose_dies_refuted)."
  },
  {
   "property": "C49",
   "status": "partial",
   "theorems": [
    "C49_whole_partial",
    "C49_unreadable_partial",
    "C49_stopped_partial",
    "C49_fetches_partial",
    "C49_degenerate",
    "C49_limit_refuted"
   ],
   "note": "For fewer than 2^32 elements when a limit applies; 2^32 and more escape the limit (C49_limit_refuted)."
  },
  {
   "property": "C50",
   "status": "partial",
   "theorems": [
    "C50_vector_data",
    "C50_vector_total",
    "C50_unlimited",
    "C50_dump_total",
    "C50_dump_data_partial",
    "C50_dump_data_refuted",
    "C50_dump_size"
   ],
   "note": "Printing: in full. Dumping (-e read/write) stops at the first buffer of length zero (C50_dump_data_refuted)."
  },
  {
   "property": "C51",
   "status": "proved",
   "theorems": [
    "C51_refines",
    "C51_step",
    "C51_queries",
    "C51_foreach_safe",
    "C51_zeroed"
   ],
   "note": ""
  },
  {
   "property": "C52",
   "status": "partial",
   "theorems": [
    "C52_retval",
    "C52_retval_limit",
    "C52_delay",
    "C52_delay_limit",
    "C52_poke_partial",
    "C52_poke_refuted"
   ],
   "note": "Return values and delays: in full. Pokes: list heads are moved by realloc, which breaks the list links (C52_poke_refuted)."
  },
  {
   "property": "C53",
   "status": "partial",
   "theorems": [
    "C53_alloc_exact",
    "C53_grow_partial",
    "C53_grow_huge_member_refuted"
   ],
   "note": "Allocation: in full. Growing: for member sizes up to SIZE_MAX - 127; otherwise C53_grow_huge_member_refuted."
  },
  {
   "property": "C54",
   "status": "partial",
   "theorems": [
    "C54_recognition",
    "C54_recognition_wide_compat",
    "C54_recognition_x86_64",
    "C54_recognition_flag",
    "C54_injected_error",
    "C54_injected_success",
    "C54_injected_x86_64",
    "C54_injected_flag_partial",
    "C54_injected_nios2_refuted",
    "C54_error_bits"
   ],
   "note": "In full for all architectures modelled but nios2, where an injected error is stored negated (C54_injected_nios2_refuted)."
  },
  {
   "property": "C55",
   "status": "proved",
   "theorems": [
    "C55_status_reading",
    "C55_status_lossless",
    "C55_signal_name",
    "C55_signal_distinct"
   ],
   "note": ""
  },
  {
   "property": "C56",
   "status": "proved",
   "theorems": [
    "C56_ilog10",
    "C56_ilog2_64",
    "C56_ilog2_32",
    "C56_zero"
   ],
   "note": ""
  },
  {
   "property": "C57",
   "status": "partial",
   "theorems": [
    "C57_shuffle_generic",
    "C57_shuffle_x86_64",
    "C57_shuffle_x32_partial",
    "C57_shuffle_x32_refuted",
    "C57_shuffle_ia64",
    "C57_shuffle_arm",
    "C57_shuffle_aarch64",
    "C57_shuffle_range"
   ],
   "note": "Every personality but x32, which is an involution on all numbers except the one of C57_shuffle_x32_refuted."
  },
  {
   "property": "C58",
   "status": "proved",
   "theorems": [
    "C58_last_rule_wins"
   ],
   "note": ""
  },
  {
   "property": "C59",
   "status": "proved",
   "theorems": [
    "C59_columns"
   ],
   "note": ""
  },
  {
   "property": "C60",
   "status": "proved",
   "theorems": [
    "C60_form"
   ],
   "note": ""
  },
  {
   "property": "C61",
   "status": "partial",
   "theorems": [
    "C61_messages",
    "C61_shown_partial",
    "C61_no_wrap",
    "C61_otherwise",
    "C61_arrays",
    "C61_structs",
    "C61_other_levels",
    "C61_hang_refuted",
    "C61_overread_refuted",
    "C61_recverr"
   ],
   "note": "For messages whose rounded length does not wrap and that hold no cut-off socket address. A 64-bit tracee can hang strace with cmsg_len = 2^64-1 (C61_hang_refuted) and an IP_ORIGDSTADDR message can make it read past its buffer (C61_overread_refuted). Structure of the data: arrays, credentials, packet information, timestamps and unknown levels."
  },
  {
   "property": "C62",
   "status": "partial",
   "theorems": [
    "C62_safe",
    "C62_given_only",
    "C62_fields_partial",
    "C62_scope_refuted",
    "C62_unix_path",
    "C62_unix_abstract",
    "C62_packet",
    "C62_ax25",
    "C62_raw"
   ],
   "note": "Safety and independence of other memory: all families. Values: the fields of AF_INET, AF_INET6, AF_IPX, AF_NETLINK, AF_BLUETOOTH, AF_IEEE802154, AF_VSOCK, AF_QIPCRTR, AF_XDP, AF_MCTP, AF_UNIX, AF_PACKET and unknown families; sin6_scope_id of an address cut within it is made up (C62_scope_refuted). AF_X25 and AF_AX25 text forms: safety only."
  },
  {
   "property": "C63",
   "status": "partial",
   "theorems": [
    "C63_arguments",
    "C63_low_high",
    "C63_low_high_refuted"
   ],
   "note": "In full for getllval and its callers; the offset of preadv/pwritev when the low word is not sign-extended (C63_low_high_refuted)."
  },
  {
   "property": "C64",
   "status": "partial",
   "theorems": [
    "C64_success_partial",
    "C64_pid_refuted",
    "C64_failure",
    "C64_names",
    "C64_same"
   ],
   "note": "In full except a process ID that does not fit an int (as with -e inject=getpid:retval=4294967297), which printpid takes as an int: C64_pid_refuted shows the wrong number."
  },
  {
   "property": "C65",
   "status": "proved",
   "theorems": [
    "C65_mode",
    "C65_open_flags",
    "C65_open_args",
    "C65_device",
    "C65_mknod"
   ],
   "note": "With the constants of asm-generic; the major and minor of the C library are modelled as in glibc."
  },
  {
   "property": "C66",
   "status": "proved",
   "theorems": [
    "C66_socketcall",
    "C66_ipc",
    "C66_direct",
    "C66_ipc_otherwise",
    "C66_shmat_result",
    "C66_long"
   ],
   "note": "In full for the mapping of the arguments; the printers of each argument are abstract here. On 64-bit sparc, and with a version on s390, strace does not decode the call, which is outside the claim."
  },
  {
   "property": "C67",
   "status": "partial",
   "theorems": [
    "C67_accepted",
    "C67_meaning",
    "C67_ranges",
    "C67_poke_data_refuted"
   ],
   "note": "Proved for expressions whose poke data is hexadecimal; without that the claim is false (C67_poke_data_refuted): sscanf takes other characters. The warning about retval= values that look like errors is not modelled. What a delay means is C18."
  },
  {
   "property": "C68",
   "status": "partial",
   "theorems": [
    "C68_command_partial",
    "C68_numbers",
    "C68_unknown",
    "C68_macros_refuted",
    "C68_argument"
   ],
   "note": "False for some macros (C68_macros_refuted): HIDIOCGNAME is shown as HIDIOCSFEATURE, SPI_IOC_MESSAGE with a number of bytes, and macros of a fixed size are shown for any size; proved for all other commands. The decoders of the arguments of each subsystem are not modelled."
  },
  {
   "property": "C69",
   "status": "proved",
   "theorems": [
    "C69_deleted",
    "C69_fdinfo",
    "C69_shown",
    "C69_printed",
    "C69_paths_differ",
    "C69_devices_differ"
   ],
   "note": "The details of sockets (get_sockaddr_by_inode), SELinux contexts, translation of PIDs and descriptors described by a struct finfo are not modelled."
  },
  {
   "property": "C70",
   "status": "partial",
   "theorems": [
    "C70_entering",
    "C70_count",
    "C70_result_safe",
    "C70_result_partial",
    "C70_result_refuted",
    "C70_result_cut_refuted",
    "C70_affinity",
    "C70_affinity_more"
   ],
   "note": "C70_result_partial needs a text shorter than 999 bytes and no empty set between two sets with ready descriptors; C70_result_refuted shows the doubled bracket in every such call, C70_result_cut_refuted that descriptors are dropped without a mark when the buffer is full."
  },
  {
   "property": "C71",
   "status": "partial",
   "theorems": [
    "C71_result",
    "C71_complete",
    "C71_timeout",
    "C71_x32_refuted"
   ],
   "note": "C71_x32_refuted: when sizeof(long) is 4 but addresses have 64 bits (x32 tracer with a 64-bit tracee), the reserve computed with 2 * sizeof(long) is too small and the buffer is overrun."
  },
  {
   "property": "C72",
   "status": "partial",
   "theorems": [
    "C72_futex_op",
    "C72_wake_op",
    "C72_sock_type",
    "C72_memfd",
    "C72_memfd_zero",
    "C72_memfd_nested_refuted",
    "C72_personality",
    "C72_personality_result",
    "C72_ioprio",
    "C72_qcmd",
    "C72_signal",
    "C72_clone_flags"
   ],
   "note": "A reader of C expressions (comments dropped, a|b<<n) is the specification.  Refuted part: with -X verbose a comment may stand in a comment."
  },
  {
   "property": "C73",
   "status": "proved",
   "theorems": [
    "C73_futex_args",
    "C73_futex_others",
    "C73_clone_args"
   ],
   "note": "On x86-64 and i386.  The texts of the timeout, of the stored tid or descriptor and of the TLS descriptor are parameters."
  },
  {
   "property": "C74",
   "status": "partial",
   "theorems": [
    "C74_ilog10",
    "C74_ticks",
    "C74_ticks_d",
    "C74_clock",
    "C74_clock_number",
    "C74_clock_refuted"
   ],
   "note": "Refuted for rates that are no power of ten (C74_clock_refuted: one tick at 1024 Hz is shown as 0.001 s): the remainder in ticks is printed as if it were a decimal fraction."
  },
  {
   "property": "C75",
   "status": "partial",
   "theorems": [
    "C75_siginfo",
    "C75_none",
    "C75_poll_refuted",
    "C75_ptrace_refuted"
   ],
   "note": "Refuted outside these codes: an I/O signal chosen with F_SETSIG (C75_poll_refuted) and a ptrace event stop (C75_ptrace_refuted) are shown with members the kernel did not fill in.  The texts of process IDs, descriptors and system call names are parameters."
  },
  {
   "property": "C76",
   "status": "partial",
   "theorems": [
    "C76_lists",
    "C76_complete",
    "C76_extent",
    "C76_single",
    "C76_none",
    "C76_abbreviated",
    "C76_last_event_refuted"
   ],
   "note": "The number of events of the last device in a list is never shown (refuted). The text of the members is not part of this claim. For lists of devices, 16 bytes must be readable although the structure ends after 12."
  },
  {
   "property": "C77",
   "status": "partial",
   "theorems": [
    "C77_code",
    "C77_code_refuted",
    "C77_source",
    "C77_ebpf",
    "C77_program",
    "C77_named",
    "C77_operand",
    "C77_filter",
    "C77_ebpf_program"
   ],
   "note": "False for codes of loads, arithmetic and jumps with bits above 255, which the kernel rejects: the bits are not shown (refuted); for all others proved."
  },
  {
   "property": "C78",
   "status": "partial",
   "theorems": [
    "C78_safe",
    "C78_translated",
    "C78_proc_pid",
    "C78_shown",
    "C78_process_or_group",
    "C78_name_refuted",
    "C78_depth_refuted",
    "C78_old_kernel_refuted"
   ],
   "note": "proved; refuted beyond 32 levels (33 are possible), for the process name shown when /proc belongs to another namespace, and for the first translation on kernels without NS_GET_PARENT"
  },
  {
   "property": "C79",
   "status": "partial",
   "theorems": [
    "C79_safe",
    "C79_search",
    "C79_slash",
    "C79_last_element_refuted"
   ],
   "note": "proved for PATH not ending with a colon; refuted for a last element that is empty, which is not searched"
  },
  {
   "property": "C80",
   "status": "partial",
   "theorems": [
    "C80_safe",
    "C80_own",
    "C80_steady",
    "C80_found",
    "C80_stale_refuted",
    "C80_abstract_refuted"
   ],
   "note": "Refuted in two parts: remembered details are never refreshed, so a socket connected after it was first shown is shown unconnected (C80_stale_refuted); of an abstract name with an embedded NUL only the part before it is shown (C80_abstract_refuted)."
  },
  {
   "property": "C81",
   "status": "partial",
   "theorems": [
    "C81_openat2",
    "C81_mount_setattr",
    "C81_setxattrat",
    "C81_landlock",
    "C81_mnt_id_req",
    "C81_sched_setattr",
    "C81_sched_getattr",
    "C81_clone3",
    "C81_clone3_exit",
    "C81_clone3_now",
    "C81_layout",
    "C81_shown_partial",
    "C81_told_apart_partial",
    "C81_policy_refuted",
    "C81_ns_id_refuted",
    "C81_getattr_more_refuted"
   ],
   "note": "That every used member is shown is partial: false of sched_policy with SCHED_FLAG_KEEP_PARAMS alone (C81_policy_refuted), of mnt_ns_id in a structure that ends inside it (C81_ns_id_refuted), and of the rest of a larger structure after sched_getattr (C81_getattr_more_refuted). The texts of numbers, flags, descriptors and arrays are the subject of C36-C39, C49, C64, C69."
  },
  {
   "property": "C82",
   "status": "partial",
   "theorems": [
    "C82_merge",
    "C82_none",
    "C82_kept",
    "C82_log_order",
    "C82_stack_refuted",
    "C82_midnight_refuted"
   ],
   "note": "Refuted beyond this: lines that begin with a space (stacks with -k, dumps with -e read/write) are dropped (C82_stack_refuted); -tt logs that run over midnight come out in another order (C82_midnight_refuted)."
  },
  {
   "property": "C83",
   "status": "partial",
   "theorems": [
    "C83_told_partial",
    "C83_cache",
    "C83_limit",
    "C83_abort",
    "C83_abort_refuted",
    "C83_wrong_stack_refuted",
    "C83_hidden_stack_refuted",
    "C83_mode_refuted",
    "C83_mode_libunwind_refuted",
    "C83_empty_name_refuted",
    "C83_exact_refuted"
   ],
   "note": "C83_told_partial: proved if calls whose stack is taken at the entry are shown, their stack is not empty and names no function with an empty name, and the personality stays. Otherwise refuted: with -z, two failing execve calls make strace give up (C83_abort), or the stack of a hidden call is shown as that of another one (C83_wrong_stack_refuted) or alone (C83_hidden_stack_refuted); changes of the personality misplace stacks (C83_mode_refuted, C83_mode_libunwind_refuted); C83_empty_name_refuted, C83_exact_refuted."
  },
  {
   "property": "C84",
   "status": "partial",
   "theorems": [
    "C84_expression",
    "C84_options_actual",
    "C84_options_partial",
    "C84_separately_refuted"
   ],
   "note": "C84_options_partial leaves out --output-separately with exactly one -f, where C84_separately_refuted shows that the option has no effect; C84_options_actual describes every case as it is."
  },
  {
   "property": "C85",
   "status": "partial",
   "theorems": [
    "C85_pair_partial",
    "C85_pair_refuted",
    "C85_user_partial",
    "C85_user_chosen",
    "C85_same",
    "C85_dropped"
   ],
   "note": "Partial: texts with two or more colons are accepted, the part after the second colon being ignored (C85_pair_refuted); C85_user_chosen and C85_dropped hold for them too."
  },
  {
   "property": "C86",
   "status": "proved",
   "theorems": [
    "C86_vector",
    "C86_argv",
    "C86_argc",
    "C86_execve"
   ],
   "note": "Vectors of 2^32 - 1 or more words (counters of unsigned int wrap) are outside the statement; the kernel refuses more than 2^31 - 1 strings. Strings themselves: C12-C15."
  },
  {
   "property": "C87",
   "status": "proved",
   "theorems": [
    "C87_ensure",
    "C87_program",
    "C87_later",
    "C87_redirect"
   ],
   "note": ""
  },
  {
   "property": "C88",
   "status": "partial",
   "theorems": [
    "C88_entry_partial",
    "C88_entry_int80_refuted",
    "C88_entry_int80",
    "C88_exit_partial",
    "C88_exit_never_fails_refuted",
    "C88_ip",
    "C88_answers"
   ],
   "note": "Partial: i386 calls made by 64-bit code with int 0x80 are shown as 64-bit calls without PTRACE_GET_SYSCALL_INFO, and with the high halves of registers with it (C88_entry_int80_refuted); with PTRACE_GET_SYSCALL_INFO calls that never fail are shown as failed if the value looks like an error (C88_exit_never_fails_refuted).  How the kernel fills ptrace_syscall_info is part of the specification (ScnoSpec)."
  },
  {
   "property": "C89",
   "status": "partial",
   "theorems": [
    "C89_part",
    "C89_context",
    "C89_context_read",
    "C89_path",
    "C89_fd",
    "C89_shown",
    "C89_dirfd_partial",
    "C89_dirfd_refuted"
   ],
   "note": "Partial because of the directory: fsconfig prints its path before its directory descriptor, and symlinkat's target before the link's, so these contexts are looked up from the working directory (C89_dirfd_refuted)."
  },
  {
   "property": "C90",
   "status": "proved",
   "theorems": [
    "C90_result",
    "C90_no_list",
    "C90_fits",
    "C90_descriptor"
   ],
   "note": ""
  },
  {
   "property": "C91",
   "status": "proved",
   "theorems": [
    "C91_recvmmsg_each",
    "C91_recvmmsg_all",
    "C91_sendmmsg",
    "C91_no_vector",
    "C91_said",
    "C91_recvmsg",
    "C91_bound"
   ],
   "note": ""
  },
  {
   "property": "C92",
   "status": "partial",
   "theorems": [
    "C92_run",
    "C92_stop",
    "C92_ends",
    "C92_unlimited",
    "C92_unavailable_refuted"
   ],
   "note": "A call whose result could not be got is shown as <unavailable> and not counted, so that the log can show more than N calls that ended: C92_unavailable_refuted."
  },
  {
   "property": "C93",
   "status": "partial",
   "theorems": [
    "C93_mode",
    "C93_program",
    "C93_never",
    "C93_never_tstp",
    "C93_waiting",
    "C93_anywhere",
    "C93_background",
    "C93_timer",
    "C93_kills",
    "C93_nohup_refuted",
    "C93_alarm_refuted",
    "C93_noticed",
    "C93_not_restarted",
    "C93_dies"
   ],
   "note": "Two limits: in the mode waiting a signal strace was started with ignored (nohup) ends it (C93_nohup_refuted); with -D an alarm(2) set before is lost (C93_alarm_refuted)."
  },
  {
   "property": "C94",
   "status": "proved",
   "theorems": [
    "C94_meaning",
    "C94_raw",
    "C94_abbrev",
    "C94_verbose",
    "C94_struct",
    "C94_address"
   ],
   "note": ""
  },
  {
   "property": "C95",
   "status": "partial",
   "theorems": [
    "C95_time",
    "C95_address",
    "C95_timer",
    "C95_fits",
    "C95_data",
    "C95_array",
    "C95_date_partial",
    "C95_no_date",
    "C95_zone_refuted",
    "C95_special",
    "C95_utimens",
    "C95_utimes",
    "C95_pair"
   ],
   "note": "Partial: in zones whose offset has seconds (local mean times) the date shown is another instant, because %z has no seconds (C95_zone_refuted)."
  },
  {
   "property": "C96",
   "status": "partial",
   "theorems": [
    "C96_id",
    "C96_distinct",
    "C96_element",
    "C96_list",
    "C96_address",
    "C96_failed",
    "C96_size_zero_refuted"
   ],
   "note": "Partial: after getgroups(0, list), which returns only the number, memory the kernel did not write is shown as the list (C96_size_zero_refuted)."
  },
  {
   "property": "C97",
   "status": "proved",
   "theorems": [
    "C97_place",
    "C97_place_cleanup",
    "C97_separate",
    "C97_shared"
   ],
   "note": "For runs in which a second event collected for a tracee is not for one that was dropped since, and an execve by another thread is reported after the events of that thread (as for C21). That lines in a -ff file are whole is not claimed here."
  },
  {
   "property": "C98",
   "status": "partial",
   "theorems": [
    "C98_shown",
    "C98_names",
    "C98_lossless",
    "C98_lossless_raw_refuted",
    "C98_lossless_raw_partial",
    "C98_header",
    "C98_capget",
    "C98_capset",
    "C98_address"
   ],
   "note": "The losslessness is false in the raw style (-X raw): a set of the first word and a set of the second word with the same bits are the same text (C98_lossless_raw_refuted); C98_lossless_raw_partial is what holds there."
  },
  {
   "property": "C99",
   "status": "partial",
   "theorems": [
    "C99_codes_partial",
    "C99_codes_refuted",
    "C99_words",
    "C99_returned_refuted",
    "C99_address",
    "C99_types_partial",
    "C99_other_types"
   ],
   "note": "Partial: the greatest code of each type is left out although it can be in the set (C99_codes_refuted: SW_MACHINE_COVER is SW_MAX), so the C99_codes_partial and C99_types_partial claim the codes below it. The words shown in the raw and verbose styles go up to a whole word and so beyond what was returned (C99_returned_refuted)."
  },
  {
   "property": "C100",
   "status": "partial",
   "theorems": [
    "C100_accepted_partial",
    "C100_accepted_refuted",
    "C100_memory",
    "C100_all",
    "C100_calls"
   ],
   "note": "Partial: the 65536th expression's index is the number that stands for no index, so it cannot have both pokes (C100_accepted_refuted). The text of the tokens is C67, how the bytes are written C35, when a rule fires C09-C11."
  },
  {
   "property": "C101",
   "status": "partial",
   "theorems": [
    "C101_flags",
    "C101_nodemask",
    "C101_nodemask_part",
    "C101_no_mask",
    "C101_node",
    "C101_mode",
    "C101_mode_lossless",
    "C101_calls",
    "C101_pages",
    "C101_move_pages",
    "C101_get_mempolicy_refuted"
   ],
   "note": "The value get_mempolicy stores is always shown as a policy: with MPOL_F_NODE it is a node number, and the policy's flags have no names there (C101_get_mempolicy_refuted)."
  },
  {
   "property": "C102",
   "status": "partial",
   "theorems": [
    "C102_wake_op_partial",
    "C102_wake_op_refuted",
    "C102_wake_op_lossless",
    "C102_futex",
    "C102_flags",
    "C102_flags_lossless",
    "C102_waiters",
    "C102_futex2"
   ],
   "note": "C102_wake_op_partial excludes the raw style: there the code adds the remark FUTEX_OP_??? to operations that exist (C102_wake_op_refuted). Timespecs (C94) and clock names are parameters."
  },
  {
   "property": "C103",
   "status": "partial",
   "theorems": [
    "C103_reason_partial",
    "C103_shown_partial",
    "C103_defined",
    "C103_dup_refuted",
    "C103_moved_refuted",
    "C103_overlap_refuted"
   ],
   "note": "The full statement is false: C103_dup_refuted, C103_moved_refuted, C103_overlap_refuted. Proved when the descriptor never was another virtual cpu and the structure was always mapped at the same place."
  },
  {
   "property": "C104",
   "status": "proved",
   "theorems": [
    "C104_size",
    "C104_shown",
    "C104_address",
    "C104_lossless"
   ],
   "note": ""
  },
  {
   "property": "C105",
   "status": "partial",
   "theorems": [
    "C105_self_partial",
    "C105_child_partial",
    "C105_none",
    "C105_proc_refuted",
    "C105_any_refuted",
    "C105_high_refuted",
    "C105_changed_refuted"
   ],
   "note": "Partial: the number of the process is not translated for setns and unshare when /proc belongs to another PID namespace (C105_proc_refuted), setns(fd, 0) shows nothing (C105_any_refuted), bit 33 of the flags of setns and clone, which the kernel ignores, is taken for CLONE_INTO_CGROUP (C105_high_refuted), and the flags of clone3 are those at the end of the call (C105_changed_refuted)."
  },
  {
   "property": "C106",
   "status": "partial",
   "theorems": [
    "C106_flags_partial",
    "C106_flags_refuted",
    "C106_flags_lossless_partial",
    "C106_prot",
    "C106_mmap_partial",
    "C106_old_mmap_partial",
    "C106_mprotect",
    "C106_mremap",
    "C106_remap_file_pages_partial",
    "C106_mincore"
   ],
   "note": "Partial: flags below 2^32, as the upper half is dropped (C106_flags_refuted). The text of the descriptor is a parameter (C69)."
  },
  {
   "property": "C107",
   "status": "proved",
   "theorems": [
    "C107_set",
    "C107_get",
    "C107_address",
    "C107_list",
    "C107_lossless",
    "C107_set_lossless"
   ],
   "note": "The texts of paths, descriptors and names are parameters (C15, C69). That a NUL that is left out hides the ellipsis is C15_omit_trailing_refuted."
  },
  {
   "property": "C108",
   "status": "partial",
   "theorems": [
    "C108_open",
    "C108_name",
    "C108_lossless",
    "C108_mount_partial",
    "C108_mount_refuted"
   ],
   "note": "False as to the identity of the mount: with AT_HANDLE_MNT_ID_UNIQUE the kernel writes 64 bits, and the upper half is not shown (C108_mount_refuted). The rest is proved."
  },
  {
   "property": "C109",
   "status": "partial",
   "theorems": [
    "C109_iocb_partial",
    "C109_plain",
    "C109_resfd_refuted",
    "C109_submit",
    "C109_submit_negative",
    "C109_cancel",
    "C109_getevents"
   ],
   "note": "Partial: for commands without operands of their own (IOCB_CMD_FSYNC and others) the flags and the descriptor to be notified are not shown (C109_resfd_refuted). Texts of descriptors, strings and vectors are parameters."
  },
  {
   "property": "C110",
   "status": "proved",
   "theorems": [
    "C110_create",
    "C110_ctl",
    "C110_wait",
    "C110_no_events"
   ],
   "note": ""
  },
  {
   "property": "C111",
   "status": "proved",
   "theorems": [
    "C111_lseek",
    "C111_llseek",
    "C111_sendfile64",
    "C111_sendfile"
   ],
   "note": ""
  },
  {
   "property": "C112",
   "status": "partial",
   "theorems": [
    "C112_mount",
    "C112_used",
    "C112_high_bits_refuted"
   ],
   "note": "C112_high_bits_refuted: with the magic number, bits above 31 are not shown."
  },
  {
   "property": "C113",
   "status": "partial",
   "theorems": [
    "C113_fcntl",
    "C113_fcntl64",
    "C113_getown_refuted"
   ],
   "note": "C113_getown_refuted: whether the result of F_GETOWN is a process or a group is decided from the result of the previous call. Not covered: the text behind the results of F_GETFD, F_GETFL, F_GETLEASE, F_GET_SEALS, F_GETSIG."
  }
 ]
}