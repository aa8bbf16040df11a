{
 "C01": {"status": "proved", "note": "C01_empty_converse_refuted is an extra fact, not part of the claim: a set may have no member and not be reported empty."},
 "C02": {"note": "Full statement is false of the code for inverted sets: two refutations are proved beside the partial theorem."},
 "C05": {"note": "The '?' prefix protects from unknown names, numbers and classes only, which is what the statement says; a bad @personality or a malformed regex behind '?' is still fatal."},
 "C07": {"note": "In full the property is false of the code (C07_out_of_table_refuted); the exact verdict on every number is C07_binary_filter_characterised."},
 "C11": {"note": "In full the property is false of the code (C11_after_substitution_refuted): TCB_TAMPERED_NO_FAIL is never cleared. Proved for tracees with no earlier syscall= injection, or when the injection itself uses syscall=."},
 "C12": {"note": "Proved for every style by the C rules, except --strings-in-hex=non-ascii-chars, where \\xHH followed by a hex digit reads as another byte in C (C12_non_ascii_chars_refuted); for that style the text is lossless when \\x takes exactly two digits (h := Two in the theorem)."},
 "C13": {"note": "string_quote and printstr_ex: proved in full. print_quoted_string_ex: the allocation size wraps for a comment style with more than 2^30 - 3 bytes (C13_alloc_wraps_refuted)."},
 "C15": {"note": "False for QUOTE_OMIT_TRAILING_0 (extended attributes): an omitted NUL at the limit hides the truncation (C15_omit_trailing_refuted). Everything else is proved."},
 "C17": {"note": "ts_div is exact only while sec mod n * 10^9 + nsec + n/2 fits 64 bits; otherwise C17_div_refuted."},
 "C18": {"note": "Every string is covered. Without point, exponent or minus: exact (C18_time_argument_partial, C18_whole). With them: strtod and the double arithmetic of parse_ts are modelled over rationals with any IEEE 754 rounding to nearest, and the result is within 2.5 ns of the constant times the unit up to 2^53 ns (C18_fraction); nothing else is accepted (C18_fraction_only) - except that NaN and values of 2^63 s or more are not rejected but converted without meaning (C18_nan_refuted, C18_huge_refuted). Between 2^53 ns and 2^63 s no accuracy is proved."},
 "C19": {"note": "For every geometry whose node sizes can be computed (sane); trie_create also accepts others, where the first store is undefined (C19_any_geometry_refuted)."},
 "C20": {"note": "For a start that fits the key and an end below 2^64 - 1; the count is wrong otherwise (C20_start_out_of_range_refuted)."},
 "C23": {"note": "For runs without -ff and status filtering, in which no thread that is not the leader calls execve while the leader's line is open (reached_calm); false otherwise, by C23_superseded_refuted and C23_staged_refuted."},
 "C26": {"note": "For runs in which strace is not told to stop, signals are not injected, and no thread's execve overtakes an undispatched event; false for an interrupted strace (C26_interrupted_refuted) and for signal= with delay_enter= (C26_injected_delayed_refuted)."},
 "C27": {"note": "For runs in which a tracee that keeps an undispatched exec event is not dropped before (fair); false otherwise (C27_extra_event_crash_refuted, C27_extra_event_lost_refuted)."},
 "C28": {"note": "Provided the tracee is not seen in a PTRACE_EVENT stop while being detached: that one is let go with SIGTRAP (C28_event_refuted)."},
 "C29": {"note": "Provided that no request to go on fails, but for a tracee that is gone: otherwise the exit status is overwritten with 1 (C29_failure_refuted)."},
 "C30": {"note": "For calls that end at a syscall stop or by the process's exit, without -c; false for a thread's execve (C30_execve_refuted) and for several tracees being detached (C30_detached_refuted)."},
 "C31": {"note": "Not early: proved in full. The timer is armed no later than the earliest expiry plus the time that passes between two readings of the clock (C31_timer_refuted shows that this slack is real); a timer that fired and was not handled yet is lost when another delay starts (C31_fired_refuted)."},
 "C32": {"note": "Until strace itself writes into the tracee (poke injection): the cache is not invalidated then (C32_poked_refuted)."},
 "C34": {"note": "umoven: in full. umovestr: false at addresses or lengths that are not multiples of the word size (C34_misaligned_refuted, C34_tail_refuted); C34_umovestr_partial says exactly what is returned."},
 "C38": {"status": "proved", "note": "C38_empty_table_refuted shows that the condition on the table in the quantifier is needed."},
 "C39": {"note": "For names without NUL in the given length; a name registered again with its NUL counted reads one byte behind the stored name (C39_terminated_name_refuted)."},
 "C40": {"note": "Averages are subject to the limits of ts_div (C17); sorting by calls or errors truncates 64-bit differences (C40_order_refuted); a number in a gap of the table crashes -c (C40_gap_refuted)."},
 "C41": {"note": "Membership: in full. System calls: all that pathtrace decodes but for rename's new path, epoll_ctl's epfd and perf_event_open's group_fd (C41_rest_refuted)."},
 "C44": {"note": "Ascending: in full. Freshness: for fewer than 2^32 mapping changes; the generation number wraps (C44_wrap_refuted)."},
 "C48": {"note": "Whenever a text is printed it is lossless; with -X verbose strace dies on a full mask of realtime signals (C48_verbose_dies_refuted)."},
 "C49": {"note": "For fewer than 2^32 elements when a limit applies; 2^32 and more escape the limit (C49_limit_refuted)."},
 "C50": {"note": "Printing: in full. Dumping (-e read/write) stops at the first buffer of length zero (C50_dump_data_refuted)."},
 "C52": {"note": "Return values and delays: in full. Pokes: list heads are moved by realloc, which breaks the list links (C52_poke_refuted)."},
 "C53": {"note": "Allocation: in full. Growing: for member sizes up to SIZE_MAX - 127; otherwise C53_grow_huge_member_refuted."},
 "C54": {"note": "In full for all architectures modelled but nios2, where an injected error is stored negated (C54_injected_nios2_refuted)."},
 "C57": {"note": "Every personality but x32, which is an involution on all numbers except the one of C57_shuffle_x32_refuted."},
 "C61": {"note": "For messages whose rounded length does not wrap and that hold no cut-off socket address. A 64-bit tracee can hang strace with cmsg_len = 2^64-1 (C61_hang_refuted) and an IP_ORIGDSTADDR message can make it read past its buffer (C61_overread_refuted). Structure of the data: arrays, credentials, packet information, timestamps and unknown levels."},
 "C62": {"note": "Safety and independence of other memory: all families. Values: the fields of AF_INET, AF_INET6, AF_IPX, AF_NETLINK, AF_BLUETOOTH, AF_IEEE802154, AF_VSOCK, AF_QIPCRTR, AF_XDP, AF_MCTP, AF_UNIX, AF_PACKET and unknown families; sin6_scope_id of an address cut within it is made up (C62_scope_refuted). AF_X25 and AF_AX25 text forms: safety only."},
 "C63": {"note": "In full for getllval and its callers; the offset of preadv/pwritev when the low word is not sign-extended (C63_low_high_refuted)."},
 "C64": {"note": "In full except a process ID that does not fit an int (as with -e inject=getpid:retval=4294967297), which printpid takes as an int: C64_pid_refuted shows the wrong number."},
 "C65": {"note": "With the constants of asm-generic; the major and minor of the C library are modelled as in glibc."},
 "C66": {"note": "In full for the mapping of the arguments; the printers of each argument are abstract here. On 64-bit sparc, and with a version on s390, strace does not decode the call, which is outside the claim."},
 "C67": {"note": "Proved for expressions whose poke data is hexadecimal; without that the claim is false (C67_poke_data_refuted): sscanf takes other characters. The warning about retval= values that look like errors is not modelled. What a delay means is C18."},
 "C68": {"note": "False for some macros (C68_macros_refuted): HIDIOCGNAME is shown as HIDIOCSFEATURE, SPI_IOC_MESSAGE with a number of bytes, and macros of a fixed size are shown for any size; proved for all other commands. The decoders of the arguments of each subsystem are not modelled."},
 "C69": {"note": "The details of sockets (get_sockaddr_by_inode), SELinux contexts, translation of PIDs and descriptors described by a struct finfo are not modelled."},
 "C70": {"note": "C70_result_partial needs a text shorter than 999 bytes and no empty set between two sets with ready descriptors; C70_result_refuted shows the doubled bracket in every such call, C70_result_cut_refuted that descriptors are dropped without a mark when the buffer is full."},
 "C71": {"note": "C71_x32_refuted: when sizeof(long) is 4 but addresses have 64 bits (x32 tracer with a 64-bit tracee), the reserve computed with 2 * sizeof(long) is too small and the buffer is overrun."},
 "C72": {"note": "A reader of C expressions (comments dropped, a|b<<n) is the specification.  Refuted part: with -X verbose a comment may stand in a comment."},
 "C73": {"note": "On x86-64 and i386.  The texts of the timeout, of the stored tid or descriptor and of the TLS descriptor are parameters."},
 "C74": {"note": "Refuted for rates that are no power of ten (C74_clock_refuted: one tick at 1024 Hz is shown as 0.001 s): the remainder in ticks is printed as if it were a decimal fraction."},
 "C75": {"note": "Refuted outside these codes: an I/O signal chosen with F_SETSIG (C75_poll_refuted) and a ptrace event stop (C75_ptrace_refuted) are shown with members the kernel did not fill in.  The texts of process IDs, descriptors and system call names are parameters."},
 "C76": {"note": "The number of events of the last device in a list is never shown (refuted). The text of the members is not part of this claim. For lists of devices, 16 bytes must be readable although the structure ends after 12."},
 "C77": {"note": "False for codes of loads, arithmetic and jumps with bits above 255, which the kernel rejects: the bits are not shown (refuted); for all others proved."},
 "C78": {"note": "proved; refuted beyond 32 levels (33 are possible), for the process name shown when /proc belongs to another namespace, and for the first translation on kernels without NS_GET_PARENT"},
 "C79": {"note": "proved for PATH not ending with a colon; refuted for a last element that is empty, which is not searched"},
 "C80": {"note": "Refuted in two parts: remembered details are never refreshed, so a socket connected after it was first shown is shown unconnected (C80_stale_refuted); of an abstract name with an embedded NUL only the part before it is shown (C80_abstract_refuted)."},
 "C81": {"note": "That every used member is shown is partial: false of sched_policy with SCHED_FLAG_KEEP_PARAMS alone (C81_policy_refuted), of mnt_ns_id in a structure that ends inside it (C81_ns_id_refuted), and of the rest of a larger structure after sched_getattr (C81_getattr_more_refuted). The texts of numbers, flags, descriptors and arrays are the subject of C36-C39, C49, C64, C69."},
 "C82": {"note": "Refuted beyond this: lines that begin with a space (stacks with -k, dumps with -e read/write) are dropped (C82_stack_refuted); -tt logs that run over midnight come out in another order (C82_midnight_refuted)."},
 "C83": {"note": "C83_told_partial: proved if calls whose stack is taken at the entry are shown, their stack is not empty and names no function with an empty name, and the personality stays. Otherwise refuted: with -z, two failing execve calls make strace give up (C83_abort), or the stack of a hidden call is shown as that of another one (C83_wrong_stack_refuted) or alone (C83_hidden_stack_refuted); changes of the personality misplace stacks (C83_mode_refuted, C83_mode_libunwind_refuted); C83_empty_name_refuted, C83_exact_refuted."},
 "C84": {"note": "C84_options_partial leaves out --output-separately with exactly one -f, where C84_separately_refuted shows that the option has no effect; C84_options_actual describes every case as it is."},
 "C85": {"note": "Partial: texts with two or more colons are accepted, the part after the second colon being ignored (C85_pair_refuted); C85_user_chosen and C85_dropped hold for them too."},
 "C86": {"note": "Vectors of 2^32 - 1 or more words (counters of unsigned int wrap) are outside the statement; the kernel refuses more than 2^31 - 1 strings. Strings themselves: C12-C15."},
 "C87": {"note": ""},
 "C88": {"note": "Partial: i386 calls made by 64-bit code with int 0x80 are shown as 64-bit calls without PTRACE_GET_SYSCALL_INFO, and with the high halves of registers with it (C88_entry_int80_refuted); with PTRACE_GET_SYSCALL_INFO calls that never fail are shown as failed if the value looks like an error (C88_exit_never_fails_refuted).  How the kernel fills ptrace_syscall_info is part of the specification (ScnoSpec)."},
 "C89": {"note": "Partial because of the directory: fsconfig prints its path before its directory descriptor, and symlinkat's target before the link's, so these contexts are looked up from the working directory (C89_dirfd_refuted)."},
 "C90": {"note": ""},
 "C91": {"note": ""},
 "C92": {"note": "A call whose result could not be got is shown as <unavailable> and not counted, so that the log can show more than N calls that ended: C92_unavailable_refuted."},
 "C93": {"note": "Two limits: in the mode waiting a signal strace was started with ignored (nohup) ends it (C93_nohup_refuted); with -D an alarm(2) set before is lost (C93_alarm_refuted)."},
 "C94": {"note": ""},
 "C95": {"note": "Partial: in zones whose offset has seconds (local mean times) the date shown is another instant, because %z has no seconds (C95_zone_refuted)."},
 "C96": {"note": "Partial: after getgroups(0, list), which returns only the number, memory the kernel did not write is shown as the list (C96_size_zero_refuted)."},
 "C97": {"note": "For runs in which a second event collected for a tracee is not for one that was dropped since, and an execve by another thread is reported after the events of that thread (as for C21). That lines in a -ff file are whole is not claimed here."},
 "C98": {"note": "The losslessness is false in the raw style (-X raw): a set of the first word and a set of the second word with the same bits are the same text (C98_lossless_raw_refuted); C98_lossless_raw_partial is what holds there."},
 "C99": {"note": "Partial: the greatest code of each type is left out although it can be in the set (C99_codes_refuted: SW_MACHINE_COVER is SW_MAX), so the C99_codes_partial and C99_types_partial claim the codes below it. The words shown in the raw and verbose styles go up to a whole word and so beyond what was returned (C99_returned_refuted)."},
 "C100": {"note": "Partial: the 65536th expression's index is the number that stands for no index, so it cannot have both pokes (C100_accepted_refuted). The text of the tokens is C67, how the bytes are written C35, when a rule fires C09-C11."},
 "C101": {"note": "The value get_mempolicy stores is always shown as a policy: with MPOL_F_NODE it is a node number, and the policy's flags have no names there (C101_get_mempolicy_refuted)."},
 "C102": {"note": "C102_wake_op_partial excludes the raw style: there the code adds the remark FUTEX_OP_??? to operations that exist (C102_wake_op_refuted). Timespecs (C94) and clock names are parameters."},
 "C103": {"note": "The full statement is false: C103_dup_refuted, C103_moved_refuted, C103_overlap_refuted. Proved when the descriptor never was another virtual cpu and the structure was always mapped at the same place."},
 "C104": {"note": ""},
 "C105": {"note": "Partial: the number of the process is not translated for setns and unshare when /proc belongs to another PID namespace (C105_proc_refuted), setns(fd, 0) shows nothing (C105_any_refuted), bit 33 of the flags of setns and clone, which the kernel ignores, is taken for CLONE_INTO_CGROUP (C105_high_refuted), and the flags of clone3 are those at the end of the call (C105_changed_refuted)."},
 "C106": {"note": "Partial: flags below 2^32, as the upper half is dropped (C106_flags_refuted). The text of the descriptor is a parameter (C69)."},
 "C107": {"note": "The texts of paths, descriptors and names are parameters (C15, C69). That a NUL that is left out hides the ellipsis is C15_omit_trailing_refuted."},
 "C108": {"note": "False as to the identity of the mount: with AT_HANDLE_MNT_ID_UNIQUE the kernel writes 64 bits, and the upper half is not shown (C108_mount_refuted). The rest is proved."},
 "C109": {"note": "Partial: for commands without operands of their own (IOCB_CMD_FSYNC and others) the flags and the descriptor to be notified are not shown (C109_resfd_refuted). Texts of descriptors, strings and vectors are parameters."},
 "C110": {"note": ""},
 "C111": {"note": ""},
 "C112": {"note": "C112_high_bits_refuted: with the magic number, bits above 31 are not shown."},
 "C113": {"note": "C113_getown_refuted: whether the result of F_GETOWN is a process or a group is decided from the result of the previous call. Not covered: the text behind the results of F_GETFD, F_GETFL, F_GETLEASE, F_GET_SEALS, F_GETSIG."}
}
