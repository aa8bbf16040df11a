#!/usr/bin/env python3
"""Source of /verif/properties.jsonl (kept as a script so the list stays diffable)."""
import json, os
P = []
def p(id, title, statement, quantifier, why, anchors):
    P.append(dict(id=id, title=title, statement=statement, quantifier=quantifier,
                  why_tests_cant=why, anchors=anchors))

p("C01", "Number sets behave as mathematical sets",
  "The sets behind -e status=, -e signal=, -e quiet=, -e read=/write= and every -e trace= qualifier answer a membership query exactly as the mathematical set produced by the same sequence of additions, whole-set inversions and clearings; a query never depends on how the backing bit vector happened to grow, and one operation never changes the membership of an unrelated number.",
  "every finite sequence of add/invert/clear operations, every queried number, every array of sets and every index",
  "the backing vector grows lazily and is complemented lazily (a 'not' bit), so correctness depends on unboundedly many interleavings of growth, inversion and out-of-range queries",
  ["src/number_set.c: add_number_to_set, is_number_in_set, is_number_in_set_array, invert_number_set_array, clear_number_set_array, number_set_array_is_empty", "src/number_set.h"])
p("C02", "'Complete set' test",
  "The test strace uses to recognise that a filter selects every element of its universe {0..max-1} (is_complete_set) answers yes exactly when every number below max is a member.",
  "every reachable number set and every universe size",
  "depends on the interaction of the population count with the inversion flag for every history",
  ["src/number_set.c: is_complete_set, is_complete_set_array", "src/basic_filters.c"])
p("C03", "Decimal option arguments",
  "A numeric option argument is accepted iff it is an (optionally blank- and sign-prefixed) decimal numeral, ending at the end of string or at one of the permitted terminators, whose value lies in 0..max; the value returned is then exactly the numeral's value, and the returned end position points at the terminator; every other string is rejected with -1.",
  "every byte string, every upper bound, every set of accepted terminators",
  "infinitely many strings, including overflow of 64-bit strtoll and values just above INT_MAX",
  ["src/string_to_uint.c: string_to_uint_ex", "src/string_to_uint.h"])
p("C04", "Qualifier expressions for plain sets",
  "An expression [!]*(all|none|tok,tok,...) passed to -e status=/signal=/quiet=/read=/... denotes: all or none or the union of its tokens, complemented once per leading '!'; whatever the set held before, the set left behind contains exactly the denoted numbers, and an expression with no token or an unknown token is rejected.",
  "every expression string and every token table",
  "unbounded nesting of '!' and unbounded token lists",
  ["src/basic_filters.c: qualify_tokens, qualify_syscall_tokens", "src/filter_qualify.c"])
p("C05", "System call sets per personality",
  "-e trace=SET selects, in each personality, exactly the syscalls whose name/number/class/regex is listed, restricted to the requested personality when a @suffix is given, complemented once per leading '!'; an unknown token, personality or malformed regex is rejected, except that an unknown name, number or class prefixed by '?' is ignored.",
  "every token list, every syscall table, every personality",
  "the token grammar and the tables are unbounded combinations",
  ["src/basic_filters.c: qualify_syscall_tokens, qualify_syscall, qualify_syscall_number, qualify_syscall_class, qualify_syscall_name"])
p("C06", "seccomp-bpf linear filter is exact",
  "With --seccomp-bpf, the generated linear BPF program, run on any (arch, nr) pair a kernel can present, returns TRACE for every syscall strace must stop on and for every number outside the syscall table, and ALLOW for every in-table syscall that need not be traced; it always terminates in a RET instruction.",
  "every per-personality traced set, every syscall table size, every audit arch value and every 32-bit syscall number",
  "2^32 numbers times all subsets of the table; a wrong jump offset shows only for particular run lengths",
  ["src/filter_seccomp.c: linear_filter_generator, bpf_syscalls_cmp, replace_jmp_placeholders, traced_by_seccomp"])
p("C07", "seccomp-bpf bitmap filter is exact",
  "The alternative 'binary match' BPF program gives the same verdict as the traced set for every (arch, nr).",
  "every per-personality traced set, every syscall table size, every audit arch value and every 32-bit syscall number",
  "2^32 numbers times all subsets of the table",
  ["src/filter_seccomp.c: binary_match_filter_generator, bpf_syscalls_match, traced_by_seccomp"])
p("C08", "Filter program selection never yields a broken program",
  "strace installs a BPF filter only if it generated one without jump-offset overflow and within the kernel's instruction limit, and installs the shorter of the candidates; every relative jump inside an installed program stays inside the program.",
  "every traced set and syscall table",
  "overflow appears only for long sections (>255 instructions)",
  ["src/filter_seccomp.c: check_seccomp_filter_properties, replace_jmp_placeholders, dump_seccomp_bpf"])
p("C09", "Injection 'when=' expressions",
  "when=F[..L][+[S]] is accepted exactly when it is well formed with 1<=F, F<=L, numbers within 16-bit range, and denotes the schedule first=F, last=L (infinity when absent), step=S (0 when no +S, 1 for a bare +).",
  "every byte string",
  "infinitely many strings",
  ["src/filter_qualify.c: parse_inject_token", "src/defs.h: inject_opts"])
p("C10", "Injection fires exactly on the scheduled invocations",
  "For a tracee and a syscall matched by an injection with schedule F..L+S, the n-th matching invocation is tampered with iff n is a term of F, F+S, F+2S, ... and (no L or n<=L); with S absent only the F-th.",
  "every schedule and every invocation history, of any length",
  "unbounded histories; 16-bit countdown wrap and the infinity sentinel",
  ["src/syscall.c: tamper_with_syscall_entering", "src/defs.h: INJECT_LAST_INF"])
p("C11", "Injected results become the observable results",
  "When an injection with retval=/error= fires on a syscall, at the syscall's exit the tracee observes exactly the injected value or error, independently of which injections fired earlier in the same tracee.",
  "every history of injected and non-injected syscalls in one tracee",
  "requires particular orders of differently configured injections",
  ["src/syscall.c: tamper_with_syscall_entering, tamper_with_syscall_exiting, syscall_exiting_finish", "src/defs.h: TCB_TAMPERED_NO_FAIL"])
p("C12", "Quoted strings are lossless",
  "The text strace prints for a byte string can be decoded back, by the C string-literal rules, to exactly the bytes shown, for every quoting style (-x, -xx, default).",
  "every byte string, every length, every style",
  "256^n strings; octal abbreviation is ambiguous only for particular following bytes",
  ["src/util.c: string_quote", "src/print_utils.h: sprint_byte_oct, sprint_byte_hex"])
p("C13", "Quoted output fits the buffer callers allocate",
  "Quoting n bytes never writes more than 4n+3 bytes (4n+1 with quotes omitted) including the terminating NUL.",
  "every byte string, every style, every size",
  "worst-case bytes and lengths are unbounded",
  ["src/util.c: string_quote, print_quoted_string_ex, printstr_ex, printpathn"])
p("C14", "Quoted output is printable ASCII",
  "Whatever bytes a tracee supplies, the quoted form consists only of printable ASCII characters (no control characters, no terminal escapes, no newline).",
  "every byte string and every style",
  "256^n strings",
  ["src/util.c: string_quote"])
p("C15", "Ellipsis iff truncated",
  "A string or path argument is printed with a trailing ... exactly when part of it was not shown; without ... the printed text is the complete string.",
  "every tracee string, every -s limit, every requested length",
  "depends on NUL position versus limit versus length for all sizes",
  ["src/util.c: printstr_ex, printpathn, print_quoted_string_ex, print_quoted_cstring, string_quote"])
p("C16", "Hex dumps are lossless",
  "-e read/-e write dumps show every byte of the buffer exactly once, in order, with its offset; the bytes can be recovered from the hex columns and every output line has the same layout.",
  "every buffer and every length",
  "line/column arithmetic for every length and offset width",
  ["src/util.c: dumpstr"])
p("C17", "Timespec arithmetic",
  "Sums, differences, quotients, minima, maxima and comparisons of timespecs used in summaries, delays and relative timestamps equal the exact integer-nanosecond results and preserve normalisation.",
  "every pair of normalised timespecs and every divisor",
  "carry/borrow and sign cases over unbounded ranges",
  ["src/util.c: ts_nz, ts_cmp, ts_add, ts_sub, ts_div, ts_min, ts_max"])
p("C18", "Time arguments with unit suffixes",
  "A time argument (delay_enter=, -O, --tips...) N[s|ms|us|ns] denotes exactly N times the unit (microseconds by default), and rejects malformed strings.",
  "every string",
  "unbounded numerals and suffixes",
  ["src/util.c: parse_ts, str2timescale_ex"])
p("C19", "The PID trie is a map",
  "After any sequence of stores, a lookup in the sparse integer map used by PID-namespace translation returns the last value stored under that key (modulo the item width), or the configured empty value if none; keys wider than the key size are rejected.",
  "every trie geometry, every sequence of stores, every key",
  "node sharing, partial depth and packing of sub-byte items vary with every key/geometry combination",
  ["src/trie.c: trie_create, trie_set, trie_get, trie_get_node, trie_get_node_bit_offs, trie_data_block_calc_pos"])
p("C20", "Trie iteration visits exactly the range",
  "Iterating over [start, end] calls the visitor on keys in increasing order, only on keys within the range, with the value a lookup would give, and covers every key of the range holding a non-empty value.",
  "every trie, every range",
  "recursion over sub-ranges at every depth",
  ["src/trie.c: trie_iterate_keys, trie_iterate_keys_node"])
p("C21", "Tracee table integrity",
  "At every moment the tracee table contains at most one entry per PID, the tracee counter equals the number of live entries, and an entry is found by PID iff the process is currently traced.",
  "every sequence of attach/fork/exec-switch/exit/detach events",
  "unbounded histories with PID reuse and slot reuse",
  ["src/strace.c: alloctcb, droptcb, pid2tcb, maybe_allocate_tcb, maybe_switch_tcbs"])
p("C22", "PID lookup cache is transparent",
  "The direct-mapped PID cache never returns an entry for another PID or a stale entry: lookups give the same result as a scan of the table.",
  "every sequence of allocations, drops and lookups",
  "cache aliasing requires specific PID collisions modulo the cache size",
  ["src/strace.c: pid2tcb, droptcb"])
p("C23", "Log lines of different tracees never mix",
  "In a shared log, text of one tracee never continues a line started by another: the earlier line is always closed with ' <unfinished ...>' (or a newline) before another tracee's line starts, and each line carries the prefix of the tracee that wrote it.",
  "every interleaving of output from any number of tracees",
  "interleavings are unbounded",
  ["src/strace.c: printleader, line_ended, tprintf, set_current_tcp"])
p("C24", "Every unfinished line is resumed or closed",
  "A syscall printed as '<unfinished ...>' is later shown by a '<... name resumed>' line of the same tracee exactly when its exit is printed, and an uninterrupted syscall never prints 'resumed'.",
  "every interleaving of entries and exits",
  "interleavings are unbounded",
  ["src/syscall.c: print_syscall_resume", "src/strace.c: printleader, TCB_REPRINT"])
p("C25", "Syscall entry and exit alternate",
  "For each tracee the decoder is called alternately for entry and exit, whatever stops occur in between; a stop that is not a syscall stop never flips the state.",
  "every sequence of ptrace stops",
  "unbounded histories",
  ["src/strace.c: trace_syscall", "src/syscall.c: syscall_entering_finish, syscall_exiting_finish"])
p("C26", "Signals are delivered exactly as they were stopped",
  "For each signal-delivery stop, strace restarts the tracee passing on exactly that signal, and on all non-signal stops passes none, except for the documented cases (startup SIGSTOP, group-stop); no signal is invented, lost or changed.",
  "every event sequence",
  "unbounded histories and signal numbers",
  ["src/strace.c: next_event, dispatch_event"])
p("C27", "No wait event is lost or duplicated",
  "Every status collected from wait4 by the event loop is dispatched exactly once and, per tracee, in the order collected.",
  "every schedule of wait results",
  "depends on the interplay of the pending list and the extra event slot for all schedules",
  ["src/strace.c: next_event, dispatch_event"])
p("C28", "Detach leaves the tracee running or as it was",
  "After detaching, a tracee stopped by strace itself is not left stopped and any pending real signal observed while detaching is passed on.",
  "every order of stops seen while detaching",
  "races between SIGSTOP and other signals",
  ["src/strace.c: detach, detach_interrupted_or_stopped, detach_or_interrupt_or_stop"])
p("C29", "strace exits the way its command did",
  "strace's own termination mimics the traced command: exits with its status code, or kills itself with the same signal.",
  "every command termination status and every order of tracee exits",
  "all wait statuses",
  ["src/strace.c: terminate, print_signalled, print_exited, next_event"])
p("C30", "Status filtering publishes exactly the selected calls",
  "With -e status=SET a syscall line appears in the log iff its final status (successful/failed/unfinished/unavailable/detached) is in SET, whole and unchanged.",
  "every sequence of syscalls and outcomes, every SET",
  "unbounded histories of staged output",
  ["src/stage_output.c", "src/syscall.c: syscall_exiting_trace", "src/strace.c: droptcb"])
p("C31", "Injected delays are not shorter than requested",
  "A tracee delayed by delay_enter/delay_exit is not resumed before its requested time has elapsed, and as long as some tracee is delayed a timer is armed no later than the earliest expiry.",
  "every set of delayed tracees and every timing",
  "unbounded concurrent delays",
  ["src/delay.c: delay_tcb, arm_delay_timer", "src/strace.c: restart_delayed_tcbs, ts_min"])
p("C32", "Cached tracee memory reads are exact",
  "Between two resumptions of the tracee, reading len bytes at addr returns exactly the tracee's memory at [addr, addr+len), whatever reads happened before (page cache transparent), or fails; it never returns bytes of other pages.",
  "every sequence of reads and invalidations, every address and length, every memory content and set of unreadable pages",
  "cache replacement interleavings and page-boundary arithmetic",
  ["src/ucopy.c: vm_read_mem, lookup_cached_raddr_idx, set_cached_raddr_idx, invalidate_umove_cache, umoven"])
p("C33", "Tracee C-string reads",
  "Reading a NUL-terminated string of at most len bytes returns strlen+1 with exactly those bytes copied if a NUL occurs within len bytes and the pages up to it are readable; 0 with len bytes copied if there is none; negative otherwise; it never writes past the buffer.",
  "every memory content, address, length, page size",
  "page-crossing arithmetic for all alignments",
  ["src/ucopy.c: umovestr"])
p("C34", "Fallback string reads agree with the fast path",
  "When process_vm_readv is unavailable, the PTRACE_PEEKDATA fallback returns the same result as the documented contract of the string read.",
  "every memory content, address (alignment), length",
  "alignment times NUL position times length",
  ["src/ucopy.c: umovestr_peekdata, umoven_peekdata"])
p("C35", "Fallback memory writes touch only the requested bytes",
  "The word-wise poke used for poke_enter/poke_exit changes exactly the bytes [addr, addr+len) to the given data and leaves every other byte unchanged.",
  "every address alignment, length, data and memory content",
  "head/tail word merging for every alignment",
  ["src/ucopy.c: upoken_pokedata, upoken_peekpoke"])
p("C36", "Flag sets are printed losslessly",
  "When a bit mask is printed symbolically as A|B|...|0xREST, the named constants are taken from the table, every printed constant is contained in the value, and the OR of all printed parts equals the value; zero prints as the table's zero entry or 0.",
  "every 64-bit value and every flag table",
  "2^64 values and overlapping multi-bit constants",
  ["src/xlat.c: printflags_ex, sprintflags_ex"])
p("C37", "Constant lookup",
  "Looking up a value in a sorted constant table returns the name of an entry with exactly that value, and fails only if there is none.",
  "every sorted table and every value",
  "all tables and 2^64 values",
  ["src/xlat.c: xlookup, xlat_bsearch_compare, xrlookup"])
p("C38", "Nearest lower constant lookup",
  "The 'greatest constant not exceeding v' lookup returns the entry with the greatest value <= v and reports that value, or nothing if every entry exceeds v.",
  "every sorted nonempty table and every value",
  "binary search boundaries",
  ["src/xlat.c: xlookup_le, xlat_search_eq_or_less"])
p("C39", "Dynamic constant tables are last-writer-wins maps",
  "A dynamically learned name table (generic netlink families, device majors) maps each value to the last name registered for it and never holds duplicates.",
  "every sequence of registrations",
  "unbounded histories and growth points",
  ["src/dyxlat.c: dyxlat_alloc, dyxlat_add_pair, dyxlat_get"])
p("C40", "Summary counters are exact",
  "The -c summary reports for each syscall the number of completed calls, the number that failed, the exact sum, minimum and maximum of the (non-negative, overhead-corrected) times; totals equal the sums over syscalls.",
  "every sequence of completed syscalls",
  "unbounded histories",
  ["src/count.c: count_syscall, call_summary_pers"])
p("C41", "Path filter membership",
  "A path matches -P iff it equals one of the paths given or its canonical form; duplicates do not change anything.",
  "every sequence of selected paths",
  "unbounded histories and array growth",
  ["src/pathtrace.c: pathmatch, storepath, pathtrace_select_set"])
p("C42", "-E environment edits",
  "The command's environment is the original with each -E VAR=VAL / -E VAR applied in order: VAR=VAL makes the first binding of VAR be VAL, VAR removes every binding of VAR, other variables keep their bindings and order; the buffer allocated is never overrun.",
  "every environment and every list of edits",
  "unbounded lists; prefix-related names",
  ["src/strace.c: make_env, update_env, add_to_env, remove_from_env"])
p("C43", "Address to mapping lookup",
  "For stack traces, an instruction pointer is attributed to the mapping that contains it, and to none if no mapping does.",
  "every list of mappings accepted by the cache and every address",
  "binary search over unbounded lists",
  ["src/mmap_cache.c: mmap_cache_search"])
p("C44", "Mapping cache stays sorted and is never used stale",
  "Whatever /proc/PID/maps contains, the cache built from it holds ascending non-overlapping ranges; after a memory-map changing syscall was seen the next use rebuilds it.",
  "every sequence of maps lines; every sequence of invalidations and uses",
  "adversarial or racy maps contents",
  ["src/mmap_cache.c: mmap_cache_rebuild_if_invalid, mmap_cache_invalidate, delete_mmap_cache"])
p("C45", "Directory entry decoding stays in the returned buffer",
  "Decoding a getdents buffer terminates, reads only inside the bytes the kernel returned, and for well-formed buffers shows every record exactly once in order.",
  "every buffer content and length",
  "hostile d_reclen values",
  ["src/xgetdents.c: decode_dents"])
p("C46", "Netlink attribute and message decoding stays in the message",
  "Decoding a sequence of netlink attributes/messages terminates, every header and payload handed to a decoder lies within the message, and for well-formed sequences each attribute is shown exactly once in order.",
  "every message content and length",
  "hostile nla_len values and alignment",
  ["src/nlattr.c: decode_nlattr, decode_nlattr_with_data, fetch_nlattr", "src/netlink.c: decode_netlink"])
p("C47", "Bit scanning",
  "next_set_bit returns the smallest set bit position >= the starting position and below the size, or -1 if there is none.",
  "every bit vector, start and size",
  "byte boundary and tail cases for all sizes",
  ["src/util.c: next_set_bit"])
p("C48", "Signal masks are printed losslessly",
  "A printed signal mask [..] or ~[..] denotes exactly the set of signals in the mask.",
  "every mask",
  "2^64 masks and the two-thirds inversion rule",
  ["src/signal.c: sprintsigmask_n"])
p("C49", "Array printing",
  "Printing an array of nmemb elements shows exactly the elements 0..min(nmemb, limit)-1 in order, each fetched from its own address, marks truncation exactly when elements are omitted, and never reads outside the array or past an address wrap-around.",
  "every length, element size, start address, limit, unreadable position",
  "overflow of address arithmetic and truncation boundaries",
  ["src/util.c: print_array_ex, sequence_truncation_needed"])
p("C50", "Scatter/gather data limits",
  "For a vector I/O returning n bytes, the data shown for the buffers add up to at most n bytes and equal the first n bytes of the concatenated buffers.",
  "every vector and every n",
  "unbounded vectors",
  ["src/io.c: print_iovec_klong, tprint_iov_upto", "src/util.c: dumpiov_upto"])
p("C51", "Intrusive lists",
  "list insert/append/remove/remove_head/remove_tail/replace keep a well-formed circular list and behave as the corresponding operations on the abstract sequence.",
  "every sequence of operations on any number of items",
  "pointer aliasing in every configuration",
  ["src/list.h"])
p("C52", "Injection data tables",
  "A return value, delay or poke registered while parsing -e inject is found unchanged under the index handed out, however many were registered later; registration beyond the 16-bit index space is refused rather than aliased.",
  "every sequence of registrations",
  "needs 65536 registrations to reach the boundary",
  ["src/retval.c: retval_new, retval_get", "src/delay.c: alloc_delay_data, fill_delay_data", "src/poke.c: alloc_poke_data"])
p("C53", "Allocation size arithmetic",
  "Array allocation either dies or provides at least nmemb*size bytes (no wrap-around), and growing an array strictly increases its capacity.",
  "every size_t pair",
  "overflow cases",
  ["src/xmalloc.c: xallocarray, xreallocarray, xgrowarray"])
p("C54", "Error return recognition",
  "A raw return register is reported as an error exactly when it lies in [-4095, -1] in the tracee's word size, and the errno printed is its negation; injected errors and successes read back as injected.",
  "every register value and word size",
  "2^64 values",
  ["src/negated_errno.h: is_negated_errno", "src/linux/*/get_error.c", "src/linux/*/set_error.c"])
p("C55", "Wait statuses are printed losslessly",
  "The decoded form of a wait status determines the status: distinct statuses print differently.",
  "every 32-bit status",
  "2^32 statuses",
  ["src/wait.c: printstatus"])
p("C56", "Integer logarithms",
  "ilog10 and ilog2 return the integer logarithms used to size printed columns and PID key widths.",
  "every 64-bit value",
  "2^64 values",
  ["src/util.c: ilog10", "src/defs.h: ilog2_64, ilog2_32"])
p("C57", "Syscall renumbering is an involution",
  "The per-architecture renumbering between kernel syscall numbers and strace table slots is its own inverse, so no syscall number is lost or aliased when it is stored and converted back for display or injection.",
  "every syscall number, every personality, every placement of the remapped block",
  "2^64 numbers; aliasing would show up only at the block edges",
  ["src/linux/generic/shuffle_scno.c", "src/linux/x86_64/shuffle_scno.c", "src/linux/x32/shuffle_scno.c", "src/linux/ia64/shuffle_scno.c", "src/linux/arm/shuffle_scno.c", "src/linux/aarch64/shuffle_scno.c", "src/defs.h: shuffle_scno"])
p("C58", "The last matching injection rule wins",
  "When several inject=/fault= expressions are given, each system call of each personality is tampered with as the last expression that names it says; a call named by no expression is never tampered with.",
  "every list of expressions, every set in them, every personality and system call",
  "unbounded lists of overlapping sets over several personalities",
  ["src/filter_qualify.c: qualify_inject_common"])
p("C59", "Summary column selection",
  "-U accepts exactly the comma-separated lists of names of distinct columns; the summary then shows these columns in this order, followed by the names of the calls unless they are among them; the array of columns is never overrun and keeps its terminator.",
  "every option argument",
  "unbounded strings, many aliases per column",
  ["src/count.c: set_count_summary_columns"])
p("C60", "Strings in hexadecimal exactly as asked",
  "Every byte of a printed string is shown in the form -x/--strings-in-hex asks for: by default printable characters stand for themselves and others are escaped; with =all every byte is \\xHH; with =non-ascii every byte is \\xHH exactly when some byte of the string is neither printable nor a blank; with =non-ascii-chars just those bytes are.",
  "every byte string, style and set of extra characters to escape",
  "256^n strings, four styles",
  ["src/util.c: string_quote"])
p("C61", "Control messages are walked exactly",
  "The control messages of a sendmsg/recvmsg buffer are shown completely, in order and once each: every header's three numbers, the data printed from exactly the message's own bytes, leftover bytes announced with their address; printing always terminates and never reads outside the copied buffer.",
  "every control buffer, length, word size and limit",
  "unbounded nested lengths chosen by the tracee; overflow only at extreme values",
  ["src/msghdr.c: decode_msg_control, print_cmsg_type_data"])
p("C62", "Socket addresses are shown as given",
  "A socket address is decoded from the bytes the tracee gave and no others: each field shown has the value at its offset in the address of that family, names and paths read back as given, and printing never reads outside strace's own buffer whatever the family and length.",
  "every address, family and length",
  "2^16 families, any length, any content",
  ["src/sockaddr.c: decode_sockaddr, print_sockaddr and the printers of each family"])
p("C63", "64-bit arguments are put together from the right registers",
  "A 64-bit system call argument is shown with the value the tracee passed, whichever calling convention, byte order and kernel word size the tracee uses, and the arguments behind it are taken from the registers that follow it.",
  "every value, register contents, calling convention and byte order; the twelve calls with such arguments",
  "2^64 values times conventions of architectures not at hand",
  ["src/util.c: getllval, print_arg_lld, print_arg_llu", "src/defs.h: ULONG_LONG", "src/io.c: print_lld_from_low_high_val", "src/fadvise.c", "src/sync_file_range.c", "src/fanotify.c"])
p("C64", "The result of a call is shown as it is",
  "What stands behind the '=' of a line can be read back: the value the call returned (or '?' if there is none), the name of the error or its number, whether the call is to be restarted, whether the call was tampered with or delayed, and with -T the time it took, cut off at the chosen precision; two calls that failed with different errors never look the same.",
  "every returned value, error number, format, note and pair of times",
  "2^64 values times error numbers, formats and notes",
  ["src/syscall.c: syscall_exiting_trace, print_err_ret, print_erestart, print_injected_note", "src/print_fields.h", "src/linux/generic/errnoent.h"])
p("C65", "File modes, open flags and device numbers are shown as they are",
  "The expression shown for a file mode, for the flags of open, openat and openat2, and for a device number has, read as C, exactly the value the tracee passed, in every -X style; the mode argument of open is shown exactly when the kernel uses it, the device of mknod exactly for device files; building the text never overflows.",
  "every mode, flag set, device number and style",
  "2^64 flag sets and device numbers",
  ["src/printmode.c: print_symbolic_mode_t", "src/open.c: sprint_open_modes64, decode_open", "src/mknod.c: decode_mknod", "src/print_dev_t.c: print_dev_t"])
p("C66", "Calls made through socketcall and ipc are shown as the calls they are",
  "A system call made through socketcall or ipc is shown with the name and the arguments of the call the kernel makes for it, in whichever registers and memory words they were passed, and the same as if it had been made directly; if the number is unknown or the arguments cannot be read, the multiplexer itself is shown with its own registers.",
  "every register and memory contents, call number, version, word size and byte order",
  "2^32 numbers times memory contents on architectures not at hand",
  ["src/syscall.c: decode_socket_subcall, decode_ipc_subcall", "src/linux/generic/subcallent.h", "src/ipc_sem.c", "src/ipc_semctl.c", "src/ipc_msg.c", "src/ipc_msgctl.c", "src/ipc_shm.c", "src/ipc_shmctl.c"])
p("C67", "What -e inject= and -e fault= accept and mean",
  "An expression of -e inject= is accepted exactly when it is a set of system calls followed by items separated by colons (error=, retval=, signal=, delay_enter=, delay_exit=, poke_enter=, poke_exit=, syscall=, when=), each well formed, none of a kind twice (error= and retval= being one kind), and at least one that does something; fault= takes only error=, syscall= and when=, and without error= fails the calls with ENOSYS. Every part then takes effect as it is written, in each personality.",
  "every text of the option, every set of system call tables, signal names and error names",
  "the texts are unbounded and the parts interact; tests try a few dozen expressions",
  ["src/filter_qualify.c: parse_inject_token, parse_inject_expression, parse_poke_token, parse_delay_token, find_errno_by_name, qualify_inject_common", "src/poke.c: poke_add"])
p("C68", "ioctl commands are shown by names of theirs",
  "Whatever number is given as the command of ioctl, every alternative shown for it is a notation of just that number: a name the table has for it, a macro with arguments that computes it, or _IOC(direction, type, number, size) from which it can be computed; and all names the table has for it are shown. With numbers asked for, the exact number comes first. The argument of a command of an unknown type shows what goes in before the call and what comes out after it.",
  "every command number, machine with its own layout of the fields (generic, alpha/mips/powerpc, sparc), sorted table of names, kind of file and display mode",
  "there are 2^32 commands with three different bit layouts; a test tries a few hundred of them",
  ["src/ioctl.c:ioctl_lookup", "src/ioctl.c:ioctl_next_match", "src/ioctl.c:ioctl_print_code", "src/ioctl.c:evdev_decode_number", "src/ioctl.c:hiddev_decode_number", "src/ioctl.c:ioctl_decode_command_number", "src/ioctl.c:ioctl_decode_unknown_type", "src/ioctl.c:SYS_FUNC(ioctl)", "src/term.c:term_ioctl_decode_command_number"])
p("C69", "what is shown of a descriptor",
  "With descriptors decoded, a descriptor is shown by its number and, behind it, what was asked for: a device with its kind and numbers and the other end of a pseudoterminal, an eventfd with its counter, a pidfd with its process, a signalfd with its signals, a socket with its details, anything else by its path with the angle brackets escaped, and (deleted) only if that name was removed. Two descriptors, paths or devices that differ never look the same.",
  "every descriptor, link text, contents of fdinfo, set of kinds asked for and style of strings",
  "paths are arbitrary bytes, and the text of fdinfo depends on the kernel; a test makes a few of each kind",
  ["src/util.c:printfd_pid_with_finfo", "src/util.c:printsocket", "src/util.c:printdev", "src/util.c:printeventfd", "src/util.c:printpidfd", "src/util.c:printsignalfd", "src/util.c:scan_fdinfo_lines", "src/util.c:get_inode_of_socket_path", "src/pathtrace.c:get_proc_pid_fd_path"])
p("C70", "Descriptor sets and CPU masks are listed exactly",
  "On entering select or pselect6, a set argument that can be read is shown as the list of exactly its members below the count (the int argument, limited to 0..1048576), in increasing order, whatever the word size and byte order of the tracee; any other set argument is shown as an address. On leaving, the ready descriptors of each set and the remaining time are shown, and for every memory content and return value the text stays inside its buffer. A CPU affinity mask is shown as the list of exactly its CPUs, followed by '...' exactly when the mask is longer than the kernel's.",
  "all set contents, counts, addresses, word sizes, byte orders, return values and remaining times; all CPU masks and lengths",
  "sets have up to 2^20 members in any combination; the buffer bound and the doubled bracket depend on all three sets and on the return value together",
  ["src/desc.c:decode_select", "src/affinity.c:print_affinitylist", "src/util.c:next_set_bit"])
p("C71", "Results of poll are the elements with returned events, in order",
  "On leaving poll or ppoll successfully, the text lists the elements of the array with returned events, in order, each with its descriptor and events: either all of them, or a proper prefix followed by '...', or all up to the first element that cannot be read, whose address follows; then the remaining time. Nothing is left out of a text shorter than 980 bytes unless the number of elements is limited. The text stays inside its buffer.",
  "all arrays, memory contents, return values, limits, flag texts and remaining times; tracers with 32-bit and 64-bit addresses",
  "the buffer bound depends on the lengths of all element texts together and on where reading fails",
  ["src/poll.c:decode_poll_exiting"])
p("C72", "composed values",
  "Values that strace shows as several constants joined by bars and shifts (a futex operation, the FUTEX_WAKE_OP argument, a socket type, memfd_create flags, a personality, an I/O priority, a quotactl command, a signal, clone flags) read as a C expression give exactly the value passed, whatever it is and in every -X style.",
  "every 32-bit value (64-bit for clone flags), every style",
  "there are 2^32 values of each, most of them with bits that have no name; tests cover the named ones",
  ["src/futex.c: do_futex", "src/net.c: tprint_sock_type", "src/memfd_create.c", "src/personality.c", "src/ioprio.c: print_ioprio", "src/quota.c: print_qcmd", "src/signal.c: printsignal", "src/clone.c"])
p("C73", "arguments of futex and clone",
  "Of a futex call strace shows the arguments the operation takes and no others (all of them when the operation is unknown); of a clone call it shows the stack and the flags, and each further argument exactly when the flags make the kernel use it, taken from the place it has in the architecture's order.",
  "every operation with every combination of its flag bits, every value of the arguments, both x86 argument orders",
  "the flags have 2^64 values and the arguments shown depend on five of their bits in combination",
  ["src/futex.c: do_futex", "src/clone.c: SYS_FUNC(clone)"])
p("C74", "Ticks are shown with the seconds they are",
  "A count of clock ticks (the CPU times of times, of a siginfo and of netlink attributes) and a count of units of a device or protocol with a fixed rate (PTP offsets, busy-poll times, traffic-control timers) is shown as its decimal number; unless it is zero or raw output was asked for, a comment follows with the number of seconds, and that decimal fraction is exactly the count divided by the rate, with the sign of the count, when the rate is a power of ten.  For other clock rates the count is still shown, and is followed by nothing or by one comment.",
  "every 64-bit count, signed or not, every style of output, every rate that is a power of ten (of clock_t: up to 10^9), and for the count every rate",
  "The fraction is made of a quotient and a remainder padded to a width computed from the rate; a wrong width or a lost sign shows only for particular pairs of count and rate, and the system's clock rate is fixed on the machine that runs the tests.",
  ["src/util.c: print_ticks", "src/util.c: print_ticks_d", "src/util.c: print_clock_t", "src/util.c: ilog10"])
p("C75", "The siginfo shown is the one the kernel filled in",
  "What is shown of the information that comes with a signal - in the line of a delivered signal and in the arguments of calls that pass it - names the signal and its code, the error if there is one, and exactly the members of the structure the kernel fills in for that signal and code, each read at its place and in its type: sender, timer, queued value, child status (a number for an exit, a signal otherwise) with its CPU times, fault address with what belongs to the code, band and descriptor, or system call with its architecture.  Only a null queued value and a zero sender of a kernel signal may be left out.",
  "every content of a siginfo_t on x86_64 that the kernel can produce with a code below or equal to zero, of the signal's own, or of the kernel for a signal without its own; every style",
  "The structure is a union whose meaning depends on the pair of signal and code; tests deliver a few signals, while most pairs (hardware faults, memory errors, protection keys, performance events) do not occur on the machine that runs them.",
  ["src/printsiginfo.c: printsiginfo", "src/printsiginfo.c: print_si_info", "src/printsiginfo.c: print_si_code", "src/printsiginfo.c: printsigsource", "src/printsiginfo.c: printsigval", "src/print_fields.h: PRINT_FIELD_SYSCALL_NAME", "src/xlat/audit_arch.in"])
p("C76", "Data of device mapper requests are shown as far as they are well formed",
  "For device mapper ioctls with -v: whatever the request announces (where its data start and how long they are, how many targets it has) and whatever offsets the structures in the tracee's memory hold, decoding ends; it shows the structures in the order in which each says where the next is; every one shown lies entirely between the announced start and end of the data and strictly behind the previous one; the strings shown with them end with the data; it stops with 'misplaced' exactly where the next structure would not lie there, with the address exactly where it cannot be read, and otherwise only at the end of the list. Lists are shown at entry only for table loads and at exit only for calls that succeeded; without -v nothing is read.",
  "all requests (32-bit data_size, data_start, target_count), all contents of the tracee's memory including unreadable parts, all chains of offsets including loops, backward references and ones that wrap around 32 bits",
  "The chain is built from offsets under the control of the tracee, and overlong, overlapping and cyclic chains are unlimited in number; the tests have a few well-formed requests and some broken ones.",
  ["src/dm.c: dm_decode_payload, dm_decode_dm_target_spec, dm_decode_dm_name_list, dm_decode_dm_target_versions, dm_decode_dm_target_deps, dm_decode_dm_target_msg, dm_decode_string"])
p("C77", "BPF programs are shown as their source",
  "Every instruction of a classic BPF program (a seccomp filter, a socket filter, or any other) is shown as BPF_STMT(code, k) or BPF_JUMP(code, k, jt, jf) such that a C compiler, given the kernel's headers, would build the same instruction: the code as an expression of its class, size, mode, operation and source, k as a number, as seccomp action and data, or as an offset into the ancillary, network or link-layer data. This holds for every 16-bit code, jump offset and 32-bit k and in all styles of -X. Instructions of eBPF programs are shown with all their members. Programs are shown entirely up to 4096 instructions, with an ellipsis for the rest.",
  "all values of all members of an instruction, all users of programs, all styles of constants, all lengths of programs",
  "There are 2^64 instructions; the tests have some dozens of them.",
  ["src/bpf_filter.c: print_bpf_filter_code, print_bpf_filter_block, print_bpf_fprog", "src/bpf_seccomp_filter.c: print_seccomp_filter_k", "src/bpf_sock_filter.c: print_sock_filter_k", "src/bpf.c: print_ebpf_insn"])
p("C78", "Process IDs of other PID namespaces are translated right, whatever was cached",
  "When a tracee lives in another PID namespace, the ID strace shows 'in strace's PID NS' beside a process, thread, group or session ID is the one that same process, group or session has in strace's namespace at that moment; an ID nobody has in the tracee's namespace is given no translation; and the number strace uses to look up a tracee in /proc is the one /proc has it under. This holds whatever translations were made and cached before, and whatever processes have come, gone or been renumbered since.",
  "all histories of translations with arbitrary contents of /proc at each of them, all trees of PID namespaces and sets of tasks, all kinds of ID, all namespaces of the tracee, of strace and of /proc (up to 32 levels)",
  "what is cached depends on the whole history of earlier translations and of process creation and exit; a test sees one history with fresh process IDs, hardly ever a reused one",
  ["src/pidns.c: translate_pid, translate_id_proc_pid, translate_id_dir, proc_data_cache_iterator_fn, update_proc_data, get_ns, get_ns_hierarchy, get_proc_pid, printpid", "src/util.c: proc_status_get_id_list"])
p("C79", "The program run is the one PATH leads to",
  "'strace NAME' runs, for a name without a slash, the first regular file of that name with an execute permission among the directories of PATH, in their order, an empty element being the current directory; if there is none, strace reports it and runs nothing. A name with a slash is run as that path. No PATH, name or current directory makes strace write outside of its path buffer.",
  "all values of PATH, all names, all current directories, all file systems",
  "directories of any number and length, with the lengths that just fit and just do not, cannot be enumerated",
  ["src/strace.c: startup_child"])
p("C80", "Socket details shown with -yy are those of the socket itself",
  "Over any run, whatever the kernel answers to the queries, the protocol details shown for a socket descriptor are what a well-formed message about the socket with exactly this inode said in reply to the query for its protocol, now or when it was asked for earlier, or else the bare inode. Sockets whose inodes share an entry of the cache are never mixed up. A socket the kernel tells of is found behind any number of other messages. As long as the answers for a socket do not change, what is remembered is invisible. No byte outside a received message is read and no buffer overflows.",
  "all sequences of lookups, all inodes and protocols, all contents and lengths of the datagrams received, all xflag settings",
  "the cache couples lookups at arbitrary distance through inode collisions; tests see a few sockets and well-formed kernel replies",
  ["src/socketutils.c:get_sockaddr_by_inode", "src/socketutils.c:receive_responses", "src/socketutils.c:unix_parse_response", "src/socketutils.c:inet_parse_response", "src/socketutils.c:netlink_parse_response", "src/socketutils.c:cache_inode_details"])
p("C81", "Structures whose size the caller states are shown as the kernel takes them",
  "For the calls that take a structure together with its size (openat2, clone3, mount_setattr, setxattrat, sched_setattr, sched_getattr, landlock_create_ruleset, statmount, listmount), for every size, every content and every readable part of memory: an address is shown exactly when the size is below the smallest the kernel accepts or the bytes cannot be read; otherwise every member shown has, under its name, the value the kernel takes (bytes beyond the stated size being 0), in order, and of bytes beyond the known structure the first are shown, exactly if they are not all 0, with a mark if there are more. A member that the kernel uses and that is not 0 is shown, so that calls which the kernel tells apart look different. For clone3 the values stored behind pidfd and parent_tid are added after the call, and the decision not to wait for that loses nothing.",
  "all sizes, all contents of memory and all patterns of readable bytes, all values of -s, of the page size and of verbosity",
  "tests use the sizes of the versions that exist and a few beyond; which member is hidden depends on every bit of the flags and on where the structure or the readable memory ends",
  ["src/open.c: print_open_how", "src/clone.c: clone3", "src/mount_setattr.c: print_mount_attr", "src/sched.c: print_sched_attr", "src/xattr.c: print_xattr_args", "src/landlock.c: print_landlock_ruleset_attr", "src/statmount.c, src/listmount.c: print_mnt_id_req", "src/util.c: print_nonzero_bytes"])
p("C82", "Merged logs contain every stamped line once, sorted by time",
  "When the per-process logs written by strace -ff with -t, -tt or -ttt are merged by strace-log-merge, the result is exactly the lines of all logs that begin with a time stamp, each behind the process number in a column wide enough for the longest one, sorted by time; lines with the same time stay in the order of their logs and within each log, so lines of one log whose stamps do not decrease keep their order. An unterminated last line is not glued to another. Files whose suffix is no process number are ignored; without any log an error is reported.",
  "every set of files with any suffixes and contents, every number of lines, every time and number of fraction digits",
  "There are unboundedly many logs and interleavings; tests merge a few short ones",
  ["src/strace-log-merge: iterate_logfiles, process_suffix, process_logfile", "src/strace.c: printleader"])
p("C83", "Each call is shown with its own stack (-k)",
  "With -k, every shown system call and signal is followed by the stack trace that belongs to it: for calls that replace or end the process the stack it was entered with, for the others the stack at their end; calls that are not shown leave no trace, and strace never gives up because of them. The frames are what the unwinding library tells of the addresses with the current mappings, whatever was remembered from earlier walks, and at most the requested number of them.",
  "every history of calls, signals and process ends, every stack, every status filter, every sequence of walks and changes of mappings",
  "Histories are unbounded; the captured stack is kept between stops, so an error shows up only at a later call",
  ["src/unwind.c: unwind_tcb_print, unwind_tcb_capture, unwind_tcb_fin, queue_print", "src/unwind-libdw.c: find_bucket, frame_callback, tcb_walk", "src/syscall.c: syscall_entering_trace, syscall_exiting_trace, update_personality"])
p("C84", "options of the command line mean what the manual says",
  "For every sequence of options: strace refuses to start exactly when an argument is malformed or options exclude each other (-c with -C; no program and no process; -D with --daemonize, without a program or more than three times; -t with --absolute-timestamps; -x with --strings-in-hex; -y with --decode-fds; -f with --follow-forks; -ff with --output-separately; separate output with a summary or a pipe; -w or -U without a summary; -q with --quiet; --kill-on-exit with -p), and otherwise every setting is that of the last option that states it, of the number of times a counted option is given, or the documented default; -e NAME=TEXT changes the setting NAME, any other text is a trace expression.",
  "every list of options with every argument (any byte string), with and without a program",
  "The settings depend on combinations of some forty options in every order and number; tests try a few.",
  ["src/strace.c:init", "src/strace.c:parse_ts_arg", "src/strace.c:parse_interruptible_arg", "src/strace.c:process_opt_p_list", "src/filter_qualify.c:qualify"])
p("C85", "-u runs the program with exactly that user's identity",
  "With -u USER, USER being a name or UID:GID with a single colon, the program is started only by a strace run by root, only if USER denotes a user, and only with the real, effective and saved user and group ids of that user (the effective and saved ones of the file's owner or group if it is set-ID) and with that user's supplementary groups (none for UID:GID); whenever a step fails the program is not started, and no step lacks the privilege it needs, including the installation of the seccomp filter.  A program without set-ID bits run as a non-root user cannot return to any other identity.  Without -u nothing changes.",
  "every text of USER, every user database, every program file, every failure of the calls, every initial credentials; every later sequence of credential calls of the program",
  "Which identities remain reachable depends on saved ids and groups and on the order of the calls; tests do not run as root and cannot try every sequence.",
  ["src/strace.c:is_uid_gid_pair", "src/strace.c:exec_or_die", "src/strace.c:init", "src/strace.c:startup_child"])
p("C86", "the argument and environment vectors of execve are shown truthfully",
  "For execve(path, argv, envp) the words of a vector are shown in order as strings up to the null word.  If the vector cannot be read to its end, or runs off the address space, `... /* address */` marks where; if not even the first word can be read, the address alone is shown.  Abbreviated, at most -s strings are shown and `...` marks the cut exactly when there are more, and the environment is shown by its address with the exact number of its elements and `unterminated` exactly when its end was not found.",
  "every memory contents and readability, every address, word size 4 or 8, every -s, vectors of fewer than 2^32 - 1 elements",
  "The loop depends on every possible memory layout, including unreadable pages and the end of the address space.",
  ["src/execve.c:printargv", "src/execve.c:printargc", "src/execve.c:decode_execve"])
p("C87", "the standard descriptors are never taken by strace's own files",
  "Whatever descriptors strace is started with, after start-up descriptors 0, 1 and 2 are open: those that were open keep what they were, the others are dummies; nothing else changes, and no file strace opens later (such as the log) gets a number below 3.  The program gets exactly the descriptors strace was given.  When strace gives up its stdin and stdout, both become dummies and every other descriptor stays.  Too few free descriptors end strace.",
  "every table of descriptors, every limit, every later sequence of openings and closings",
  "All combinations of open and closed descriptors and of later openings matter; tests run with 0-2 open.",
  ["src/strace.c:open_dummy_desc", "src/strace.c:ensure_standard_fds_opened", "src/strace.c:redirect_standard_fds", "src/strace.c:set_cloexec_flag"])
p("C88", "the call, arguments and result shown are those of the stop at hand",
  "On x86_64, whatever happened at earlier stops and was already asked at this one, and whether or not the kernel supports PTRACE_GET_SYSCALL_INFO or PTRACE_GETREGSET: at the entry to a call of the 64-bit, i386 or x32 ABI strace gets that ABI, that number and the arguments the kernel takes, or no answer; at the exit it gets the result (the error if there is one, else the value), or no answer; the instruction pointer is that of the stop.  When the requests succeed there is an answer.",
  "every history of stops of any tracees and of queries at them with every failure of the requests, every ABI, number, register contents",
  "Registers and call information are cached in global variables shared by all tracees; every interleaving of stops, queries and failures matters, as do three ABIs and kernels of all ages.",
  ["src/syscall.c:get_scno", "src/syscall.c:get_syscall_args", "src/syscall.c:get_syscall_result", "src/syscall.c:get_syscall_regs", "src/syscall.c:get_regs", "src/syscall.c:strace_get_syscall_info", "src/syscall.c:get_instruction_pointer", "src/syscall.c:clear_regs", "src/linux/x86_64/get_scno.c:arch_get_scno", "src/linux/x86_64/arch_get_personality.c:get_personality_from_syscall_info", "src/linux/x86_64/getregs_old.c:getregs_old"])
p("C89", "Security contexts: the part, the mismatch and the file",
  "With --secontext, a context is shown by its type (or in full), without final newlines, in text that reads back as that part and that has no bracket or exclamation mark; the context expected follows after !! exactly when it is known and its part differs; the text can be read in one way only. The context after a path is that of the file the path names for the tracee (from its root, its working directory or the descriptor given), the one after a descriptor that of the file it is open on; nothing is shown when the system gives none. The directory used for a path is the one the call names for it.",
  "all contexts and expected contexts (any bytes), all option sets and -x modes, all answers of the system, all processes, descriptors and paths, all sequences of calls with paths",
  "Contexts come from the policy and the file system; a test needs an SELinux host and sees the few labels it has.",
  ["src/secontext.c:parse_secontext", "src/secontext.c:print_context", "src/secontext.c:selinux_getfdcon", "src/secontext.c:selinux_getfilecon", "src/secontext.c:selinux_printfilecon", "src/open.c:print_dirfd", "src/fsconfig.c:SYS_FUNC(fsconfig)"])
p("C90", "Result of poll: the ready descriptors and the time left",
  "After a successful poll or ppoll, the text lists exactly the elements with events, in order, each with its descriptor and events; an element that cannot be read ends the list with its address; \"...\" stands for what is left out, and only when as many as the string limit are shown (unless -v) or the text gets long; the time left follows if there is space. Zero is said to be a timeout, nothing is said of a failed call or of an array that is not decoded. The text always fits the buffer it is made in.",
  "all arrays (any length, address and contents, readable or not), all flag and time texts (any length), all options",
  "The length of the text depends on how many elements have events and on their addresses and flags; the buffer limit and a failing read meet only for particular combinations.",
  ["src/poll.c:decode_poll_exiting", "src/util.c:sequence_truncation_needed"])
p("C91", "Messages received and sent: whose name length is whose",
  "Each message that recvmmsg shows is the one now at its place in the vector, with the length its own name buffer had on entry before the =>, no more of the name than that, and data only up to its own length; all messages received are shown, up to the limit of abbreviation, when they could be read before and after; the lengths saved on entry are never read past. sendmmsg shows the whole vector even when it fails, with lengths for the messages sent only. recvmsg shows the length on entry alone when it fails. Timeout and the time left are said exactly when the result is zero, or positive with a timeout given.",
  "all vectors (any length and address), all contents of memory on entry and on exit (which need not agree), all results, options and limits",
  "The pairing of lengths saved on entry with elements printed on exit depends on which elements could be read when, and on three separate limits.",
  ["src/mmsghdr.c:save_mmsgvec_namelen", "src/mmsghdr.c:decode_mmsgvec", "src/mmsghdr.c:print_struct_mmsghdr", "src/mmsghdr.c:do_recvmmsg", "src/mmsghdr.c:SYS_FUNC(sendmmsg)", "src/msghdr.c:print_struct_msghdr", "src/msghdr.c:SYS_FUNC(recvmsg)"])
p("C92", "A limit of system calls ends the trace after exactly that many",
  "With --syscall-limit=N strace captures no more than N system calls, however many processes it traces and however their stops interleave.  Before N were captured the limit ends nothing.  Once N were, the loop ends at once: no further stop is waited for, no stop already collected is handled, nothing more is written and nothing is asked of the tracees except to be let go.  A call counts when it ends, was traced on entry, its result could be got and -e status selects it.",
  "all limits, options, sets of processes, and histories of stops and answers of the kernel",
  "The calls of several processes end in every order and stops are collected in batches; that no interleaving captures one call too many or handles a stop left in the queue is a statement about all histories.",
  ["src/strace.c:next_event", "src/strace.c:dispatch_event", "src/syscall.c:syscall_exiting_trace"])
p("C93", "Signals reach strace only as -I says, and the program not at all differently",
  "The program strace starts has exactly the signal dispositions and blocked signals strace was started with, with and without -D.  -I determines, for SIGHUP, SIGINT, SIGQUIT, SIGPIPE, SIGTERM and SIGTSTP, whether strace takes them as any program, notes them, or is not affected; the default is the one of the manual.  A signal that was noted ends the event loop before another event is waited for or handled and before a tracee is restarted; the command gets the signal too, attached processes do not, and strace dies of it.  The handler of the delay timer cannot run while strace decodes.",
  "all options, all dispositions and masks strace may be started with, all signals, and all states of the event loop",
  "Dispositions and masks are inherited and overwritten in a certain order by several processes; tests try a few signals with a few options and cannot choose the moment a signal arrives.",
  ["src/strace.c:init", "src/strace.c:exec_or_die", "src/strace.c:startup_child", "src/strace.c:set_sighandler", "src/strace.c:interrupt", "src/strace.c:cleanup", "src/strace.c:terminate"])
p("C94", "Resource limits are shown as they are",
  "The text of a resource limit identifies its value: in the raw style it is the number; in the abbreviated style the name of infinity stands exactly for the greatest value of the type, a product with 1024 exactly for the multiples of 1024 greater than 1024, and every other value is its number; in the verbose style the number comes first and the other form, if any, follows as a comment. No limit makes strace die for want of room. The soft and the hard limit are each taken from their own bytes, of 4 bytes for i386 programs and 8 otherwise; if the structure cannot be read or the call failed, its address is shown.",
  "every 32-bit and 64-bit limit, every style, every address, memory and word size",
  "Tests look at a handful of limits; that each of 2^64 texts stands for one value and none overflows its buffer cannot be tried.",
  ["src/resource.c: print_rlim64_t, print_rlim32_t, print_rlimit64, print_rlimit32, decode_rlimit", "src/xstring.h: xsnprintf_"])
p("C95", "Times and dates are shown as they are",
  "A time given to or returned by a call is shown as its signed seconds and its nanoseconds or microseconds as they are in memory, or its address if it cannot be read; the text made of it for the end of a line is the same and always fits its buffer. Times among other data are shown exactly if there are enough bytes, each from its own. UTIME_NOW and UTIME_OMIT are named exactly for the values that mean them. Every other time of a file is followed by a date, which reads back as the same instant and fraction, and the date is left out exactly for the time 0, for fractions of a second or more and for times that have no local date.",
  "every time structure of 4- or 8-byte members, every memory, every number of bytes at hand, every style and every local time zone",
  "Tests use a few times and zones; the claim is about every value of the structure and every zone.",
  ["src/print_timespec.h", "src/print_timeval.c", "src/util.c: sprinttime_ex, sprinttime, sprinttime_usec, sprinttime_nsec"])
p("C96", "User and group IDs and lists of groups are shown as they are",
  "An ID is shown as its number and the value of all ones as -1, for calls with 16-bit IDs of the low 16 bits, so that different IDs are shown differently. The list of groups of setgroups, or of getgroups that returned it, shows the IDs in order, each from its own bytes, cut short only by -s; a number greater than the system allows, like the result of a failed call, is not taken as the length of a list, and the address is shown.",
  "every ID, every number of groups, every address and memory, every limit on groups",
  "Tests use a few IDs and short lists.",
  ["src/uid.c: printuid, print_gid, print_groups, sys_setgroups, sys_getgroups", "src/print_fields.h: PRINT_VAL_ID"])
p("C97", "With -ff each process's text is only in its own file",
  "Every piece of text that strace writes about a process is in the place for that process: with -ff in the file named after the pid it has at that time, and nothing goes anywhere else; without -ff in the one log, and no per-process file gets any text. This holds for every history of events, also when a thread that calls execve takes over the pid (and file) of its leader, when text is held back until the result is known (-z, -Z, -e status=), and after the final detach.",
  "all options, all sets of processes traced, all histories of events reported by the kernel, all decoder outputs, all errors of ptrace",
  "files are swapped between tracees when a thread calls execve, streams are replaced by memory streams and published later, and entries of the table are reused; a test sees a few of these orders only",
  ["src/strace.c: printleader, droptcb, maybe_switch_tcbs, after_successful_attach", "src/stage_output.c", "src/syscall.c: print_syscall_resume"])
p("C98", "Capability sets are shown by the names of exactly their members",
  "capget and capset show each of the three capability sets, in every style of constants, as its members: the names of exactly the capabilities in the set, in order of number and joined by |, bits without a name as one hexadecimal number, and the empty set as 0. The sets have 64 bits with the versions 2 and 3 of the interface and 32 with any other, the header shows the version and the pid, and what cannot be read is shown as its address. In the default and the verbose style different sets are shown by different texts.",
  "all sets of 64 bits, styles, versions, contents and accessibility of the memory of the program, and results of the system call",
  "there are 2^64 sets in three styles and two words are joined into one text; tests show a few of them",
  ["src/capability.c:print_cap_bits", "src/capability.c:print_cap_data", "src/capability.c:print_cap_header", "src/capability.c:capget", "src/capability.c:capset", "src/xlat/cap_mask0.in", "src/xlat/cap_mask1.in"])
p("C99", "The event codes of an input device are shown by the names of exactly the codes that were returned",
  "After a successful ioctl that returns a set of event codes of an input device, the text is, in the default style of constants, the names of exactly the codes of the set in increasing order, or when abbreviating the first four of them and dots, and in the other styles the words of memory that hold them; a set that is empty, failed or cannot be read is an address.",
  "all sets, return values, types of events, sizes of words, styles and contents and accessibility of the memory of the program",
  "a set of keys has 767 bits and every return value cuts it elsewhere; tests use a few sets",
  ["src/evdev.c:decode_bitset", "src/evdev.c:bit_ioctl", "src/util.c:next_set_bit"])
p("C100", "poke_enter and poke_exit change the asked-for bytes and nothing else, and the line says so",
  "At each stop of a system call to which an --inject expression with poke_enter=/poke_exit= applies, strace writes the bytes asked for at that stop at the addresses the named arguments hold: each request up to some byte (all of it if the kernel allows), where requests overlap the one given first stays, requests for the other stop or for arguments the call does not have are not carried out, and no other byte of memory changes. Other expressions make no difference. The line of the call says \"INJECTED: args\" if and only if a byte was written at a stop of that very call, \"INJECTED\"/\"retval\" iff its result was changed, \"DELAYED\" iff it was delayed.",
  "all sets of up to 65535 expressions, all sequences of calls of a tracee with any arguments, all memories and all ways in which the kernel lets writes succeed, fail or stop short",
  "overlaps, partial writes, many expressions sharing one table and flags left over from an earlier call only show for particular histories and failures",
  ["src/poke.c: alloc_poke_data, poke_add, poke_tcb", "src/syscall.c: tamper_with_syscall_entering, tamper_with_syscall_exiting, print_injected_note, syscall_exiting_finish", "src/filter_qualify.c: parse_poke_token", "src/list.h: list_insert", "src/ucopy.c: upoken"])
p("C101", "Memory policies and node masks are shown as they are in memory",
  "For mbind, set_mempolicy, migrate_pages and get_mempolicy the node mask is shown as exactly the words that hold the maxnode-1 bits the call speaks of, each as the number in memory, so node n is bit n mod bits of word n / bits of the text; with abbreviation at most the string limit of words and then an ellipsis; a word that cannot be read is shown by its address; with no mask the address or [] is shown. A policy is shown by its name and the names of its flags and can be read back in every style. The arrays of move_pages have the stated number of elements, each the one in memory, the status as a node or the negated name of an error.",
  "every word size, address, node count, memory content, limit, style and policy value",
  "The mask may be of any length, lie anywhere (including at the end of the address space) and be readable in part; the node count is any 64-bit number; policies are any 64-bit number. The tests use a few masks of one or two words.",
  ["src/numa.c: print_nodemask, print_node, print_mode, migrate_pages, mbind, set_mempolicy, get_mempolicy, move_pages", "src/syscall.c: print_err", "src/util.c: print_array_ex, tfetch_mem64"])
p("C102", "Futex calls are shown by their command, the arguments it has and the parts of FUTEX_OP",
  "For every futex call the operation is shown by the name of its command with FUTEX_PRIVATE_FLAG and FUTEX_CLOCK_REALTIME where that combination exists and as a number with a remark otherwise, and exactly the arguments which that command has follow, in order, counts as unsigned 32-bit numbers; the last argument of FUTEX_WAKE_OP is shown as the shift flag, the operation, its argument, the comparison and its argument, each with its shift, and two values shown alike are the same value. The flags of a futex2 call are shown by the size, the names of the flags and the rest as a number, and no two flag words are shown alike. futex_waitv and futex_requeue show the waiters that are in memory, field by field, at most 128 and with abbreviation at most the string limit, the rest as \"...\".",
  "every operation word, every argument, every style of constants, every memory and number of waiters",
  "There are 2^32 operation words and 2^32 FUTEX_OP values per style; tests cover one call per command.",
  ["src/futex.c: do_futex", "src/futex2.c: print_futex2_flags, print_waiter, print_waiter_array, futex_waitv, futex_wake, futex_wait, futex_requeue", "src/xlat/futexops.in", "src/xlat/futex2_sizes.in"])
p("C103", "The exit reason shown with --kvm=vcpu is that of the virtual cpu which was run",
  "With --kvm=vcpu, whatever virtual cpus were created, whatever was mapped and however often KVM_RUN was called before, the reason shown after a KVM_RUN that did not fail is the exit_reason in the structure mapped for the virtual cpu of that descriptor, by its name or as KVM_EXIT_???; and it is shown whenever that mapping is there and can be read. No history makes strace do something undefined.",
  "every history of descriptor tables, maps files, KVM_CREATE_VCPU, KVM_RUN, reports of mapping changes and other users of the mapping cache; every memory",
  "The place of the structure is cached per descriptor and re-validated only in some cases; whether a stale place is used depends on the interleaving of mapping changes, descriptor changes and other users of the cache.",
  ["src/kvm.c: vcpu_register, vcpu_get_info, kvm_ioctl_run_attach_auxstr, kvm_ioctl_decode_run", "src/mmap_cache.c: mmap_cache_rebuild_if_invalid, mmap_cache_search, mmap_cache_search_custom", "src/xlat/kvm_exit_reason.in"])
p("C104", "Sets of cpus",
  "What sched_setaffinity and sched_getaffinity show of a set of cpus that can be read is the numbers of all the cpus in its first bytes, at most as many bytes as the sets of the kernel have, in increasing order and each once, and \"...\" if and only if there are more bytes. Nothing in those bytes is lost: sets of the same size of which the same is shown are the same. The number of bytes is the least 128 * 2^j that the kernel does not refuse. The address is shown instead if the call failed, the set cannot be read or the arguments are not to be decoded.",
  "every mask, every length, both byte orders and word sizes, every kernel set size up to 2^27 bytes",
  "a test shows a few masks on one machine; the claim is about every mask, every length relative to the kernel's size and the word size, and both byte orders",
  ["src/affinity.c: get_cpuset_size, print_affinitylist, sched_setaffinity, sched_getaffinity", "src/util.c: next_set_bit"])
p("C105", "New namespaces",
  "With -e namespace=new, after a successful clone, clone3, setns or unshare the namespaces of the process concerned that are of the kinds asked for by the flags are shown after the result, in a fixed order, separated by commas, those whose links in /proc can be read; strace never ends because the text would not fit. Without the option, after a failed call, or if the child is not found in /proc, nothing is shown.",
  "every set of flags, every process number, every content of the links in /proc as the kernel makes them",
  "a test uses a few flags; the claim is about all 256 combinations of kinds, all inode numbers of up to ten digits and processes that have vanished",
  ["src/clone.c: read_namespace_id, get_namespace_auxstr, clone, clone3, setns, unshare"])
p("C106", "Memory mapping calls",
  "The arguments of mmap (in its three forms of offsets, and the old form with its arguments in memory), munmap, mprotect, pkey_mprotect, mremap, remap_file_pages and mincore are shown as what they mean: addresses, sizes, the protections, the type of the mapping followed by its flags and the size of huge pages, the offset in bytes, and the new address of mremap exactly if the call uses it; flags are told apart by what is shown; mincore shows one number for each page of the range. Not true of the upper half of the flags of mmap: it is not shown.",
  "every value of the arguments, every style of constants, every memory of the tracee",
  "There are 2^64 values of each argument; tests look at a few combinations of flags.",
  ["src/mem.c:print_mmap_flags", "src/mem.c:print_mmap", "src/mem.c:SYS_FUNC(mremap)", "src/mem.c:do_mprotect", "src/mem.c:SYS_FUNC(mincore)", "src/fetch_indirect_syscall_args.c"])
p("C107", "Extended attributes",
  "The value that setxattr sets and that getxattr returns is shown as a string literal for exactly its bytes, as many as the size given or the result says, cut after the maximal length (-s), without a NUL at its end; with the size, which is shown too, this tells the value. A list of names likewise, with every NUL. Instead of a value its address is shown if the call failed, if it only asks for the size, if the value has more than 65536 bytes or if it cannot be read.",
  "every value, size, address, result and memory of the tracee, every -s and -x and style of constants",
  "Values are arbitrary bytes; tests use a few short ones.",
  ["src/xattr.c:print_xattr_val", "src/xattr.c:decode_setxattr_without_path", "src/xattr.c:decode_getxattr_without_path", "src/xattr.c:print_xattr_list", "src/util.c:printstr_ex"])
p("C108", "File handles",
  "A file handle passed to open_by_handle_at or returned by name_to_handle_at is shown with its size, its type and its first 128 bytes in hexadecimal, and the text tells all three; a size that the kernel has changed is shown behind the one that was given, also if the call failed because the handle does not fit. A structure that cannot be read is shown as its address. The identity of the mount is shown as the number the kernel has written.",
  "every address, header, handle and memory of the tracee before and after the call, every error and all flags",
  "The sizes, types and bytes are arbitrary, and memory may change or vanish between entering and exiting.",
  ["src/file_handle.c:print_f_handle", "src/file_handle.c:SYS_FUNC(name_to_handle_at)", "src/file_handle.c:SYS_FUNC(open_by_handle_at)"])
p("C109", "Asynchronous I/O control blocks show every member the kernel uses",
  "For io_submit, io_cancel and io_getevents, each control block shows its data, its key and per-call flags if any, its command by name, its priority (class and level if IOCB_FLAG_IOPRIO is set, else the number if not 0) and its descriptor; then, by the command, its buffer (as a string, an I/O vector, poll events or an address), size and offset, its flags and the descriptor to be notified. The i-th element of io_submit is the control block of the i-th pointer. Events show data, object and both results, signed.",
  "every control block of 64 bytes, every command number, every style of constants, every memory of the tracee, every number of control blocks or events, words of 4 and 8 bytes",
  "The members shown depend on three other members of a block of 64 arbitrary bytes; tests use a few blocks with a few commands.",
  ["src/aio.c: print_iocb_header", "src/aio.c: print_iocb", "src/aio.c: print_common_flags", "src/aio.c: io_submit", "src/aio.c: io_cancel", "src/aio.c: print_io_getevents", "src/ioprio.c: print_ioprio"])
p("C110", "Epoll calls are shown by operation, with as many events as the kernel stored",
  "For every epoll call, descriptors, sizes and timeouts are shown as signed 32-bit numbers; the operation of epoll_ctl by its name; its event as the structure at the pointer, with every event bit named and the user's data in hexadecimal, except for EPOLL_CTL_DEL, which has none, and for memory that cannot be read: these are shown as the address. After epoll_wait, epoll_pwait and epoll_pwait2 exactly the number of events that the call returned are shown, in order (cut as abbreviation demands); [] for none; and the address if the call failed.",
  "all argument values, memories, both layouts of the event, numbers of events and output styles",
  "the events, bits, layouts and numbers of events are unbounded; tests fix a few",
  ["src/epoll.c: epoll_create, epoll_create1, epoll_ctl, epoll_wait, epoll_pwait, epoll_pwait2, print_epoll_event"])
p("C111", "Offsets of lseek, _llseek and sendfile are shown as the kernel takes them",
  "For every lseek the offset is shown as the signed long of the kernel's word size, and for every _llseek as the signed 64-bit number made of its two halves; the origin by its name; the resulting offset of _llseek as the number in memory, or the address if it cannot be read or the call failed. For every sendfile and sendfile64 the offset in memory before the call is shown, followed by the one after it exactly if the call moved data; the address if it cannot be read.",
  "all argument values, results, memories before and after the call, and word sizes",
  "the offsets, memories and results are unbounded; sign and width errors show only at extreme values",
  ["src/lseek.c: lseek, llseek", "src/sendfile.c: sendfile, sendfile64"])
p("C112", "The arguments of mount are shown as the kernel uses them",
  "For every mount, every bit of the flags is named, or shown in hexadecimal, after the old magic number if the upper half has it; the type of the file system is shown as an address if the mount is a remount, bind, move or change of propagation, for which the kernel ignores it, and the data if it is one of these but a remount; in all other cases both are shown as strings.",
  "all flags, argument values and output styles",
  "2^64 flags: a wrong mask shows for few of them",
  ["src/mount.c: mount"])
p("C113", "The third argument of fcntl is shown as what its command takes",
  "For every fcntl and fcntl64 the descriptor and the name of the command are shown, followed by the third argument in the form the command gives it: nothing for commands that take none; a signed number, named flags, a signal, a descriptor, a process; for locks and owners the structure at the pointer, read before the call if the kernel reads it and after the call if the kernel writes it, with the offsets of the caller's word size, or the address if it cannot be read; hexadecimal for every other command.",
  "all commands (known or not), argument values, memories before and after the call, 64-bit and 32-bit callers, and output styles",
  "the commands, arguments and memories are unbounded; tests try each command on a few values and run for one layout",
  ["src/fcntl.c: fcntl, fcntl64, print_fcntl, printflock, printflock64, print_f_owner_ex", "src/fetch_struct_flock.c: fetch_struct_flock, fetch_struct_flock64"])
out = os.path.join(os.path.dirname(__file__), "..", "properties.jsonl")
with open(out, "w") as f:
    for x in P: f.write(json.dumps(x, ensure_ascii=False) + "\n")
print(len(P))
