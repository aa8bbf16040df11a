{"id": "C01", "title": "Number sets behave as mathematical sets", "statement": "The sets behind -e status=, -e signal=, -e quiet=, -e read=/write= and every -e trace= qualifier answer a membership query exactly as the mathematical set produced by the same sequence of additions, whole-set inversions and clearings; a query never depends on how the backing bit vector happened to grow, and one operation never changes the membership of an unrelated number.", "quantifier": "every finite sequence of add/invert/clear operations, every queried number, every array of sets and every index", "why_tests_cant": "the backing vector grows lazily and is complemented lazily (a 'not' bit), so correctness depends on unboundedly many interleavings of growth, inversion and out-of-range queries", "anchors": ["src/number_set.c: add_number_to_set, is_number_in_set, is_number_in_set_array, invert_number_set_array, clear_number_set_array, number_set_array_is_empty", "src/number_set.h"]}
{"id": "C02", "title": "'Complete set' test", "statement": "The test strace uses to recognise that a filter selects every element of its universe {0..max-1} (is_complete_set) answers yes exactly when every number below max is a member.", "quantifier": "every reachable number set and every universe size", "why_tests_cant": "depends on the interaction of the population count with the inversion flag for every history", "anchors": ["src/number_set.c: is_complete_set, is_complete_set_array", "src/basic_filters.c"]}
{"id": "C03", "title": "Decimal option arguments", "statement": "A numeric option argument is accepted iff it is an (optionally blank- and sign-prefixed) decimal numeral, ending at the end of string or at one of the permitted terminators, whose value lies in 0..max; the value returned is then exactly the numeral's value, and the returned end position points at the terminator; every other string is rejected with -1.", "quantifier": "every byte string, every upper bound, every set of accepted terminators", "why_tests_cant": "infinitely many strings, including overflow of 64-bit strtoll and values just above INT_MAX", "anchors": ["src/string_to_uint.c: string_to_uint_ex", "src/string_to_uint.h"]}
{"id": "C04", "title": "Qualifier expressions for plain sets", "statement": "An expression [!]*(all|none|tok,tok,...) passed to -e status=/signal=/quiet=/read=/... denotes: all or none or the union of its tokens, complemented once per leading '!'; whatever the set held before, the set left behind contains exactly the denoted numbers, and an expression with no token or an unknown token is rejected.", "quantifier": "every expression string and every token table", "why_tests_cant": "unbounded nesting of '!' and unbounded token lists", "anchors": ["src/basic_filters.c: qualify_tokens, qualify_syscall_tokens", "src/filter_qualify.c"]}
{"id": "C05", "title": "System call sets per personality", "statement": "-e trace=SET selects, in each personality, exactly the syscalls whose name/number/class/regex is listed, restricted to the requested personality when a @suffix is given, complemented once per leading '!'; an unknown token, personality or malformed regex is rejected, except that an unknown name, number or class prefixed by '?' is ignored.", "quantifier": "every token list, every syscall table, every personality", "why_tests_cant": "the token grammar and the tables are unbounded combinations", "anchors": ["src/basic_filters.c: qualify_syscall_tokens, qualify_syscall, qualify_syscall_number, qualify_syscall_class, qualify_syscall_name"]}
{"id": "C06", "title": "seccomp-bpf linear filter is exact", "statement": "With --seccomp-bpf, the generated linear BPF program, run on any (arch, nr) pair a kernel can present, returns TRACE for every syscall strace must stop on and for every number outside the syscall table, and ALLOW for every in-table syscall that need not be traced; it always terminates in a RET instruction.", "quantifier": "every per-personality traced set, every syscall table size, every audit arch value and every 32-bit syscall number", "why_tests_cant": "2^32 numbers times all subsets of the table; a wrong jump offset shows only for particular run lengths", "anchors": ["src/filter_seccomp.c: linear_filter_generator, bpf_syscalls_cmp, replace_jmp_placeholders, traced_by_seccomp"]}
{"id": "C07", "title": "seccomp-bpf bitmap filter is exact", "statement": "The alternative 'binary match' BPF program gives the same verdict as the traced set for every (arch, nr).", "quantifier": "every per-personality traced set, every syscall table size, every audit arch value and every 32-bit syscall number", "why_tests_cant": "2^32 numbers times all subsets of the table", "anchors": ["src/filter_seccomp.c: binary_match_filter_generator, bpf_syscalls_match, traced_by_seccomp"]}
{"id": "C08", "title": "Filter program selection never yields a broken program", "statement": "strace installs a BPF filter only if it generated one without jump-offset overflow and within the kernel's instruction limit, and installs the shorter of the candidates; every relative jump inside an installed program stays inside the program.", "quantifier": "every traced set and syscall table", "why_tests_cant": "overflow appears only for long sections (>255 instructions)", "anchors": ["src/filter_seccomp.c: check_seccomp_filter_properties, replace_jmp_placeholders, dump_seccomp_bpf"]}
{"id": "C09", "title": "Injection 'when=' expressions", "statement": "when=F[..L][+[S]] is accepted exactly when it is well formed with 1<=F, F<=L, numbers within 16-bit range, and denotes the schedule first=F, last=L (infinity when absent), step=S (0 when no +S, 1 for a bare +).", "quantifier": "every byte string", "why_tests_cant": "infinitely many strings", "anchors": ["src/filter_qualify.c: parse_inject_token", "src/defs.h: inject_opts"]}
{"id": "C10", "title": "Injection fires exactly on the scheduled invocations", "statement": "For a tracee and a syscall matched by an injection with schedule F..L+S, the n-th matching invocation is tampered with iff n is a term of F, F+S, F+2S, ... and (no L or n<=L); with S absent only the F-th.", "quantifier": "every schedule and every invocation history, of any length", "why_tests_cant": "unbounded histories; 16-bit countdown wrap and the infinity sentinel", "anchors": ["src/syscall.c: tamper_with_syscall_entering", "src/defs.h: INJECT_LAST_INF"]}
{"id": "C11", "title": "Injected results become the observable results", "statement": "When an injection with retval=/error= fires on a syscall, at the syscall's exit the tracee observes exactly the injected value or error, independently of which injections fired earlier in the same tracee.", "quantifier": "every history of injected and non-injected syscalls in one tracee", "why_tests_cant": "requires particular orders of differently configured injections", "anchors": ["src/syscall.c: tamper_with_syscall_entering, tamper_with_syscall_exiting, syscall_exiting_finish", "src/defs.h: TCB_TAMPERED_NO_FAIL"]}
{"id": "C12", "title": "Quoted strings are lossless", "statement": "The text strace prints for a byte string can be decoded back, by the C string-literal rules, to exactly the bytes shown, for every quoting style (-x, -xx, default).", "quantifier": "every byte string, every length, every style", "why_tests_cant": "256^n strings; octal abbreviation is ambiguous only for particular following bytes", "anchors": ["src/util.c: string_quote", "src/print_utils.h: sprint_byte_oct, sprint_byte_hex"]}
{"id": "C13", "title": "Quoted output fits the buffer callers allocate", "statement": "Quoting n bytes never writes more than 4n+3 bytes (4n+1 with quotes omitted) including the terminating NUL.", "quantifier": "every byte string, every style, every size", "why_tests_cant": "worst-case bytes and lengths are unbounded", "anchors": ["src/util.c: string_quote, print_quoted_string_ex, printstr_ex, printpathn"]}
{"id": "C14", "title": "Quoted output is printable ASCII", "statement": "Whatever bytes a tracee supplies, the quoted form consists only of printable ASCII characters (no control characters, no terminal escapes, no newline).", "quantifier": "every byte string and every style", "why_tests_cant": "256^n strings", "anchors": ["src/util.c: string_quote"]}
{"id": "C15", "title": "Ellipsis iff truncated", "statement": "A string or path argument is printed with a trailing ... exactly when part of it was not shown; without ... the printed text is the complete string.", "quantifier": "every tracee string, every -s limit, every requested length", "why_tests_cant": "depends on NUL position versus limit versus length for all sizes", "anchors": ["src/util.c: printstr_ex, printpathn, print_quoted_string_ex, print_quoted_cstring, string_quote"]}
{"id": "C16", "title": "Hex dumps are lossless", "statement": "-e read/-e write dumps show every byte of the buffer exactly once, in order, with its offset; the bytes can be recovered from the hex columns and every output line has the same layout.", "quantifier": "every buffer and every length", "why_tests_cant": "line/column arithmetic for every length and offset width", "anchors": ["src/util.c: dumpstr"]}
{"id": "C17", "title": "Timespec arithmetic", "statement": "Sums, differences, quotients, minima, maxima and comparisons of timespecs used in summaries, delays and relative timestamps equal the exact integer-nanosecond results and preserve normalisation.", "quantifier": "every pair of normalised timespecs and every divisor", "why_tests_cant": "carry/borrow and sign cases over unbounded ranges", "anchors": ["src/util.c: ts_nz, ts_cmp, ts_add, ts_sub, ts_div, ts_min, ts_max"]}
{"id": "C18", "title": "Time arguments with unit suffixes", "statement": "A time argument (delay_enter=, -O, --tips...) N[s|ms|us|ns] denotes exactly N times the unit (microseconds by default), and rejects malformed strings.", "quantifier": "every string", "why_tests_cant": "unbounded numerals and suffixes", "anchors": ["src/util.c: parse_ts, str2timescale_ex"]}
{"id": "C19", "title": "The PID trie is a map", "statement": "After any sequence of stores, a lookup in the sparse integer map used by PID-namespace translation returns the last value stored under that key (modulo the item width), or the configured empty value if none; keys wider than the key size are rejected.", "quantifier": "every trie geometry, every sequence of stores, every key", "why_tests_cant": "node sharing, partial depth and packing of sub-byte items vary with every key/geometry combination", "anchors": ["src/trie.c: trie_create, trie_set, trie_get, trie_get_node, trie_get_node_bit_offs, trie_data_block_calc_pos"]}
{"id": "C20", "title": "Trie iteration visits exactly the range", "statement": "Iterating over [start, end] calls the visitor on keys in increasing order, only on keys within the range, with the value a lookup would give, and covers every key of the range holding a non-empty value.", "quantifier": "every trie, every range", "why_tests_cant": "recursion over sub-ranges at every depth", "anchors": ["src/trie.c: trie_iterate_keys, trie_iterate_keys_node"]}
{"id": "C21", "title": "Tracee table integrity", "statement": "At every moment the tracee table contains at most one entry per PID, the tracee counter equals the number of live entries, and an entry is found by PID iff the process is currently traced.", "quantifier": "every sequence of attach/fork/exec-switch/exit/detach events", "why_tests_cant": "unbounded histories with PID reuse and slot reuse", "anchors": ["src/strace.c: alloctcb, droptcb, pid2tcb, maybe_allocate_tcb, maybe_switch_tcbs"]}
{"id": "C22", "title": "PID lookup cache is transparent", "statement": "The direct-mapped PID cache never returns an entry for another PID or a stale entry: lookups give the same result as a scan of the table.", "quantifier": "every sequence of allocations, drops and lookups", "why_tests_cant": "cache aliasing requires specific PID collisions modulo the cache size", "anchors": ["src/strace.c: pid2tcb, droptcb"]}
{"id": "C23", "title": "Log lines of different tracees never mix", "statement": "In a shared log, text of one tracee never continues a line started by another: the earlier line is always closed with ' <unfinished ...>' (or a newline) before another tracee's line starts, and each line carries the prefix of the tracee that wrote it.", "quantifier": "every interleaving of output from any number of tracees", "why_tests_cant": "interleavings are unbounded", "anchors": ["src/strace.c: printleader, line_ended, tprintf, set_current_tcp"]}
{"id": "C24", "title": "Every unfinished line is resumed or closed", "statement": "A syscall printed as '<unfinished ...>' is later shown by a '<... name resumed>' line of the same tracee exactly when its exit is printed, and an uninterrupted syscall never prints 'resumed'.", "quantifier": "every interleaving of entries and exits", "why_tests_cant": "interleavings are unbounded", "anchors": ["src/syscall.c: print_syscall_resume", "src/strace.c: printleader, TCB_REPRINT"]}
{"id": "C25", "title": "Syscall entry and exit alternate", "statement": "For each tracee the decoder is called alternately for entry and exit, whatever stops occur in between; a stop that is not a syscall stop never flips the state.", "quantifier": "every sequence of ptrace stops", "why_tests_cant": "unbounded histories", "anchors": ["src/strace.c: trace_syscall", "src/syscall.c: syscall_entering_finish, syscall_exiting_finish"]}
{"id": "C26", "title": "Signals are delivered exactly as they were stopped", "statement": "For each signal-delivery stop, strace restarts the tracee passing on exactly that signal, and on all non-signal stops passes none, except for the documented cases (startup SIGSTOP, group-stop); no signal is invented, lost or changed.", "quantifier": "every event sequence", "why_tests_cant": "unbounded histories and signal numbers", "anchors": ["src/strace.c: next_event, dispatch_event"]}
{"id": "C27", "title": "No wait event is lost or duplicated", "statement": "Every status collected from wait4 by the event loop is dispatched exactly once and, per tracee, in the order collected.", "quantifier": "every schedule of wait results", "why_tests_cant": "depends on the interplay of the pending list and the extra event slot for all schedules", "anchors": ["src/strace.c: next_event, dispatch_event"]}
{"id": "C28", "title": "Detach leaves the tracee running or as it was", "statement": "After detaching, a tracee stopped by strace itself is not left stopped and any pending real signal observed while detaching is passed on.", "quantifier": "every order of stops seen while detaching", "why_tests_cant": "races between SIGSTOP and other signals", "anchors": ["src/strace.c: detach, detach_interrupted_or_stopped, detach_or_interrupt_or_stop"]}
{"id": "C29", "title": "strace exits the way its command did", "statement": "strace's own termination mimics the traced command: exits with its status code, or kills itself with the same signal.", "quantifier": "every command termination status and every order of tracee exits", "why_tests_cant": "all wait statuses", "anchors": ["src/strace.c: terminate, print_signalled, print_exited, next_event"]}
{"id": "C30", "title": "Status filtering publishes exactly the selected calls", "statement": "With -e status=SET a syscall line appears in the log iff its final status (successful/failed/unfinished/unavailable/detached) is in SET, whole and unchanged.", "quantifier": "every sequence of syscalls and outcomes, every SET", "why_tests_cant": "unbounded histories of staged output", "anchors": ["src/stage_output.c", "src/syscall.c: syscall_exiting_trace", "src/strace.c: droptcb"]}
{"id": "C31", "title": "Injected delays are not shorter than requested", "statement": "A tracee delayed by delay_enter/delay_exit is not resumed before its requested time has elapsed, and as long as some tracee is delayed a timer is armed no later than the earliest expiry.", "quantifier": "every set of delayed tracees and every timing", "why_tests_cant": "unbounded concurrent delays", "anchors": ["src/delay.c: delay_tcb, arm_delay_timer", "src/strace.c: restart_delayed_tcbs, ts_min"]}
{"id": "C32", "title": "Cached tracee memory reads are exact", "statement": "Between two resumptions of the tracee, reading len bytes at addr returns exactly the tracee's memory at [addr, addr+len), whatever reads happened before (page cache transparent), or fails; it never returns bytes of other pages.", "quantifier": "every sequence of reads and invalidations, every address and length, every memory content and set of unreadable pages", "why_tests_cant": "cache replacement interleavings and page-boundary arithmetic", "anchors": ["src/ucopy.c: vm_read_mem, lookup_cached_raddr_idx, set_cached_raddr_idx, invalidate_umove_cache, umoven"]}
{"id": "C33", "title": "Tracee C-string reads", "statement": "Reading a NUL-terminated string of at most len bytes returns strlen+1 with exactly those bytes copied if a NUL occurs within len bytes and the pages up to it are readable; 0 with len bytes copied if there is none; negative otherwise; it never writes past the buffer.", "quantifier": "every memory content, address, length, page size", "why_tests_cant": "page-crossing arithmetic for all alignments", "anchors": ["src/ucopy.c: umovestr"]}
{"id": "C34", "title": "Fallback string reads agree with the fast path", "statement": "When process_vm_readv is unavailable, the PTRACE_PEEKDATA fallback returns the same result as the documented contract of the string read.", "quantifier": "every memory content, address (alignment), length", "why_tests_cant": "alignment times NUL position times length", "anchors": ["src/ucopy.c: umovestr_peekdata, umoven_peekdata"]}
{"id": "C35", "title": "Fallback memory writes touch only the requested bytes", "statement": "The word-wise poke used for poke_enter/poke_exit changes exactly the bytes [addr, addr+len) to the given data and leaves every other byte unchanged.", "quantifier": "every address alignment, length, data and memory content", "why_tests_cant": "head/tail word merging for every alignment", "anchors": ["src/ucopy.c: upoken_pokedata, upoken_peekpoke"]}
{"id": "C36", "title": "Flag sets are printed losslessly", "statement": "When a bit mask is printed symbolically as A|B|...|0xREST, the named constants are taken from the table, every printed constant is contained in the value, and the OR of all printed parts equals the value; zero prints as the table's zero entry or 0.", "quantifier": "every 64-bit value and every flag table", "why_tests_cant": "2^64 values and overlapping multi-bit constants", "anchors": ["src/xlat.c: printflags_ex, sprintflags_ex"]}
{"id": "C37", "title": "Constant lookup", "statement": "Looking up a value in a sorted constant table returns the name of an entry with exactly that value, and fails only if there is none.", "quantifier": "every sorted table and every value", "why_tests_cant": "all tables and 2^64 values", "anchors": ["src/xlat.c: xlookup, xlat_bsearch_compare, xrlookup"]}
{"id": "C38", "title": "Nearest lower constant lookup", "statement": "The 'greatest constant not exceeding v' lookup returns the entry with the greatest value <= v and reports that value, or nothing if every entry exceeds v.", "quantifier": "every sorted nonempty table and every value", "why_tests_cant": "binary search boundaries", "anchors": ["src/xlat.c: xlookup_le, xlat_search_eq_or_less"]}
{"id": "C39", "title": "Dynamic constant tables are last-writer-wins maps", "statement": "A dynamically learned name table (generic netlink families, device majors) maps each value to the last name registered for it and never holds duplicates.", "quantifier": "every sequence of registrations", "why_tests_cant": "unbounded histories and growth points", "anchors": ["src/dyxlat.c: dyxlat_alloc, dyxlat_add_pair, dyxlat_get"]}
{"id": "C40", "title": "Summary counters are exact", "statement": "The -c summary reports for each syscall the number of completed calls, the number that failed, the exact sum, minimum and maximum of the (non-negative, overhead-corrected) times; totals equal the sums over syscalls.", "quantifier": "every sequence of completed syscalls", "why_tests_cant": "unbounded histories", "anchors": ["src/count.c: count_syscall, call_summary_pers"]}
{"id": "C41", "title": "Path filter membership", "statement": "A path matches -P iff it equals one of the paths given or its canonical form; duplicates do not change anything.", "quantifier": "every sequence of selected paths", "why_tests_cant": "unbounded histories and array growth", "anchors": ["src/pathtrace.c: pathmatch, storepath, pathtrace_select_set"]}
{"id": "C42", "title": "-E environment edits", "statement": "The command's environment is the original with each -E VAR=VAL / -E VAR applied in order: VAR=VAL makes the first binding of VAR be VAL, VAR removes every binding of VAR, other variables keep their bindings and order; the buffer allocated is never overrun.", "quantifier": "every environment and every list of edits", "why_tests_cant": "unbounded lists; prefix-related names", "anchors": ["src/strace.c: make_env, update_env, add_to_env, remove_from_env"]}
{"id": "C43", "title": "Address to mapping lookup", "statement": "For stack traces, an instruction pointer is attributed to the mapping that contains it, and to none if no mapping does.", "quantifier": "every list of mappings accepted by the cache and every address", "why_tests_cant": "binary search over unbounded lists", "anchors": ["src/mmap_cache.c: mmap_cache_search"]}
{"id": "C44", "title": "Mapping cache stays sorted and is never used stale", "statement": "Whatever /proc/PID/maps contains, the cache built from it holds ascending non-overlapping ranges; after a memory-map changing syscall was seen the next use rebuilds it.", "quantifier": "every sequence of maps lines; every sequence of invalidations and uses", "why_tests_cant": "adversarial or racy maps contents", "anchors": ["src/mmap_cache.c: mmap_cache_rebuild_if_invalid, mmap_cache_invalidate, delete_mmap_cache"]}
{"id": "C45", "title": "Directory entry decoding stays in the returned buffer", "statement": "Decoding a getdents buffer terminates, reads only inside the bytes the kernel returned, and for well-formed buffers shows every record exactly once in order.", "quantifier": "every buffer content and length", "why_tests_cant": "hostile d_reclen values", "anchors": ["src/xgetdents.c: decode_dents"]}
{"id": "C46", "title": "Netlink attribute and message decoding stays in the message", "statement": "Decoding a sequence of netlink attributes/messages terminates, every header and payload handed to a decoder lies within the message, and for well-formed sequences each attribute is shown exactly once in order.", "quantifier": "every message content and length", "why_tests_cant": "hostile nla_len values and alignment", "anchors": ["src/nlattr.c: decode_nlattr, decode_nlattr_with_data, fetch_nlattr", "src/netlink.c: decode_netlink"]}
{"id": "C47", "title": "Bit scanning", "statement": "next_set_bit returns the smallest set bit position >= the starting position and below the size, or -1 if there is none.", "quantifier": "every bit vector, start and size", "why_tests_cant": "byte boundary and tail cases for all sizes", "anchors": ["src/util.c: next_set_bit"]}
{"id": "C48", "title": "Signal masks are printed losslessly", "statement": "A printed signal mask [..] or ~[..] denotes exactly the set of signals in the mask.", "quantifier": "every mask", "why_tests_cant": "2^64 masks and the two-thirds inversion rule", "anchors": ["src/signal.c: sprintsigmask_n"]}
{"id": "C49", "title": "Array printing", "statement": "Printing an array of nmemb elements shows exactly the elements 0..min(nmemb, limit)-1 in order, each fetched from its own address, marks truncation exactly when elements are omitted, and never reads outside the array or past an address wrap-around.", "quantifier": "every length, element size, start address, limit, unreadable position", "why_tests_cant": "overflow of address arithmetic and truncation boundaries", "anchors": ["src/util.c: print_array_ex, sequence_truncation_needed"]}
{"id": "C50", "title": "Scatter/gather data limits", "statement": "For a vector I/O returning n bytes, the data shown for the buffers add up to at most n bytes and equal the first n bytes of the concatenated buffers.", "quantifier": "every vector and every n", "why_tests_cant": "unbounded vectors", "anchors": ["src/io.c: print_iovec_klong, tprint_iov_upto", "src/util.c: dumpiov_upto"]}
{"id": "C51", "title": "Intrusive lists", "statement": "list insert/append/remove/remove_head/remove_tail/replace keep a well-formed circular list and behave as the corresponding operations on the abstract sequence.", "quantifier": "every sequence of operations on any number of items", "why_tests_cant": "pointer aliasing in every configuration", "anchors": ["src/list.h"]}
{"id": "C52", "title": "Injection data tables", "statement": "A return value, delay or poke registered while parsing -e inject is found unchanged under the index handed out, however many were registered later; registration beyond the 16-bit index space is refused rather than aliased.", "quantifier": "every sequence of registrations", "why_tests_cant": "needs 65536 registrations to reach the boundary", "anchors": ["src/retval.c: retval_new, retval_get", "src/delay.c: alloc_delay_data, fill_delay_data", "src/poke.c: alloc_poke_data"]}
{"id": "C53", "title": "Allocation size arithmetic", "statement": "Array allocation either dies or provides at least nmemb*size bytes (no wrap-around), and growing an array strictly increases its capacity.", "quantifier": "every size_t pair", "why_tests_cant": "overflow cases", "anchors": ["src/xmalloc.c: xallocarray, xreallocarray, xgrowarray"]}
{"id": "C54", "title": "Error return recognition", "statement": "A raw return register is reported as an error exactly when it lies in [-4095, -1] in the tracee's word size, and the errno printed is its negation; injected errors and successes read back as injected.", "quantifier": "every register value and word size", "why_tests_cant": "2^64 values", "anchors": ["src/negated_errno.h: is_negated_errno", "src/linux/*/get_error.c", "src/linux/*/set_error.c"]}
{"id": "C55", "title": "Wait statuses are printed losslessly", "statement": "The decoded form of a wait status determines the status: distinct statuses print differently.", "quantifier": "every 32-bit status", "why_tests_cant": "2^32 statuses", "anchors": ["src/wait.c: printstatus"]}
{"id": "C56", "title": "Integer logarithms", "statement": "ilog10 and ilog2 return the integer logarithms used to size printed columns and PID key widths.", "quantifier": "every 64-bit value", "why_tests_cant": "2^64 values", "anchors": ["src/util.c: ilog10", "src/defs.h: ilog2_64, ilog2_32"]}
{"id": "C57", "title": "Syscall renumbering is an involution", "statement": "The per-architecture renumbering between kernel syscall numbers and strace table slots is its own inverse, so no syscall number is lost or aliased when it is stored and converted back for display or injection.", "quantifier": "every syscall number, every personality, every placement of the remapped block", "why_tests_cant": "2^64 numbers; aliasing would show up only at the block edges", "anchors": ["src/linux/generic/shuffle_scno.c", "src/linux/x86_64/shuffle_scno.c", "src/linux/x32/shuffle_scno.c", "src/linux/ia64/shuffle_scno.c", "src/linux/arm/shuffle_scno.c", "src/linux/aarch64/shuffle_scno.c", "src/defs.h: shuffle_scno"]}
{"id": "C58", "title": "The last matching injection rule wins", "statement": "When several inject=/fault= expressions are given, each system call of each personality is tampered with as the last expression that names it says; a call named by no expression is never tampered with.", "quantifier": "every list of expressions, every set in them, every personality and system call", "why_tests_cant": "unbounded lists of overlapping sets over several personalities", "anchors": ["src/filter_qualify.c: qualify_inject_common"]}
{"id": "C59", "title": "Summary column selection", "statement": "-U accepts exactly the comma-separated lists of names of distinct columns; the summary then shows these columns in this order, followed by the names of the calls unless they are among them; the array of columns is never overrun and keeps its terminator.", "quantifier": "every option argument", "why_tests_cant": "unbounded strings, many aliases per column", "anchors": ["src/count.c: set_count_summary_columns"]}
{"id": "C60", "title": "Strings in hexadecimal exactly as asked", "statement": "Every byte of a printed string is shown in the form -x/--strings-in-hex asks for: by default printable characters stand for themselves and others are escaped; with =all every byte is \\xHH; with =non-ascii every byte is \\xHH exactly when some byte of the string is neither printable nor a blank; with =non-ascii-chars just those bytes are.", "quantifier": "every byte string, style and set of extra characters to escape", "why_tests_cant": "256^n strings, four styles", "anchors": ["src/util.c: string_quote"]}
{"id": "C61", "title": "Control messages are walked exactly", "statement": "The control messages of a sendmsg/recvmsg buffer are shown completely, in order and once each: every header's three numbers, the data printed from exactly the message's own bytes, leftover bytes announced with their address; printing always terminates and never reads outside the copied buffer.", "quantifier": "every control buffer, length, word size and limit", "why_tests_cant": "unbounded nested lengths chosen by the tracee; overflow only at extreme values", "anchors": ["src/msghdr.c: decode_msg_control, print_cmsg_type_data"]}
{"id": "C62", "title": "Socket addresses are shown as given", "statement": "A socket address is decoded from the bytes the tracee gave and no others: each field shown has the value at its offset in the address of that family, names and paths read back as given, and printing never reads outside strace's own buffer whatever the family and length.", "quantifier": "every address, family and length", "why_tests_cant": "2^16 families, any length, any content", "anchors": ["src/sockaddr.c: decode_sockaddr, print_sockaddr and the printers of each family"]}
{"id": "C63", "title": "64-bit arguments are put together from the right registers", "statement": "A 64-bit system call argument is shown with the value the tracee passed, whichever calling convention, byte order and kernel word size the tracee uses, and the arguments behind it are taken from the registers that follow it.", "quantifier": "every value, register contents, calling convention and byte order; the twelve calls with such arguments", "why_tests_cant": "2^64 values times conventions of architectures not at hand", "anchors": ["src/util.c: getllval, print_arg_lld, print_arg_llu", "src/defs.h: ULONG_LONG", "src/io.c: print_lld_from_low_high_val", "src/fadvise.c", "src/sync_file_range.c", "src/fanotify.c"]}
{"id": "C64", "title": "The result of a call is shown as it is", "statement": "What stands behind the '=' of a line can be read back: the value the call returned (or '?' if there is none), the name of the error or its number, whether the call is to be restarted, whether the call was tampered with or delayed, and with -T the time it took, cut off at the chosen precision; two calls that failed with different errors never look the same.", "quantifier": "every returned value, error number, format, note and pair of times", "why_tests_cant": "2^64 values times error numbers, formats and notes", "anchors": ["src/syscall.c: syscall_exiting_trace, print_err_ret, print_erestart, print_injected_note", "src/print_fields.h", "src/linux/generic/errnoent.h"]}
{"id": "C65", "title": "File modes, open flags and device numbers are shown as they are", "statement": "The expression shown for a file mode, for the flags of open, openat and openat2, and for a device number has, read as C, exactly the value the tracee passed, in every -X style; the mode argument of open is shown exactly when the kernel uses it, the device of mknod exactly for device files; building the text never overflows.", "quantifier": "every mode, flag set, device number and style", "why_tests_cant": "2^64 flag sets and device numbers", "anchors": ["src/printmode.c: print_symbolic_mode_t", "src/open.c: sprint_open_modes64, decode_open", "src/mknod.c: decode_mknod", "src/print_dev_t.c: print_dev_t"]}
{"id": "C66", "title": "Calls made through socketcall and ipc are shown as the calls they are", "statement": "A system call made through socketcall or ipc is shown with the name and the arguments of the call the kernel makes for it, in whichever registers and memory words they were passed, and the same as if it had been made directly; if the number is unknown or the arguments cannot be read, the multiplexer itself is shown with its own registers.", "quantifier": "every register and memory contents, call number, version, word size and byte order", "why_tests_cant": "2^32 numbers times memory contents on architectures not at hand", "anchors": ["src/syscall.c: decode_socket_subcall, decode_ipc_subcall", "src/linux/generic/subcallent.h", "src/ipc_sem.c", "src/ipc_semctl.c", "src/ipc_msg.c", "src/ipc_msgctl.c", "src/ipc_shm.c", "src/ipc_shmctl.c"]}
{"id": "C67", "title": "What -e inject= and -e fault= accept and mean", "statement": "An expression of -e inject= is accepted exactly when it is a set of system calls followed by items separated by colons (error=, retval=, signal=, delay_enter=, delay_exit=, poke_enter=, poke_exit=, syscall=, when=), each well formed, none of a kind twice (error= and retval= being one kind), and at least one that does something; fault= takes only error=, syscall= and when=, and without error= fails the calls with ENOSYS. Every part then takes effect as it is written, in each personality.", "quantifier": "every text of the option, every set of system call tables, signal names and error names", "why_tests_cant": "the texts are unbounded and the parts interact; tests try a few dozen expressions", "anchors": ["src/filter_qualify.c: parse_inject_token, parse_inject_expression, parse_poke_token, parse_delay_token, find_errno_by_name, qualify_inject_common", "src/poke.c: poke_add"]}
{"id": "C68", "title": "ioctl commands are shown by names of theirs", "statement": "Whatever number is given as the command of ioctl, every alternative shown for it is a notation of just that number: a name the table has for it, a macro with arguments that computes it, or _IOC(direction, type, number, size) from which it can be computed; and all names the table has for it are shown. With numbers asked for, the exact number comes first. The argument of a command of an unknown type shows what goes in before the call and what comes out after it.", "quantifier": "every command number, machine with its own layout of the fields (generic, alpha/mips/powerpc, sparc), sorted table of names, kind of file and display mode", "why_tests_cant": "there are 2^32 commands with three different bit layouts; a test tries a few hundred of them", "anchors": ["src/ioctl.c:ioctl_lookup", "src/ioctl.c:ioctl_next_match", "src/ioctl.c:ioctl_print_code", "src/ioctl.c:evdev_decode_number", "src/ioctl.c:hiddev_decode_number", "src/ioctl.c:ioctl_decode_command_number", "src/ioctl.c:ioctl_decode_unknown_type", "src/ioctl.c:SYS_FUNC(ioctl)", "src/term.c:term_ioctl_decode_command_number"]}
{"id": "C69", "title": "what is shown of a descriptor", "statement": "With descriptors decoded, a descriptor is shown by its number and, behind it, what was asked for: a device with its kind and numbers and the other end of a pseudoterminal, an eventfd with its counter, a pidfd with its process, a signalfd with its signals, a socket with its details, anything else by its path with the angle brackets escaped, and (deleted) only if that name was removed. Two descriptors, paths or devices that differ never look the same.", "quantifier": "every descriptor, link text, contents of fdinfo, set of kinds asked for and style of strings", "why_tests_cant": "paths are arbitrary bytes, and the text of fdinfo depends on the kernel; a test makes a few of each kind", "anchors": ["src/util.c:printfd_pid_with_finfo", "src/util.c:printsocket", "src/util.c:printdev", "src/util.c:printeventfd", "src/util.c:printpidfd", "src/util.c:printsignalfd", "src/util.c:scan_fdinfo_lines", "src/util.c:get_inode_of_socket_path", "src/pathtrace.c:get_proc_pid_fd_path"]}
{"id": "C70", "title": "Descriptor sets and CPU masks are listed exactly", "statement": "On entering select or pselect6, a set argument that can be read is shown as the list of exactly its members below the count (the int argument, limited to 0..1048576), in increasing order, whatever the word size and byte order of the tracee; any other set argument is shown as an address. On leaving, the ready descriptors of each set and the remaining time are shown, and for every memory content and return value the text stays inside its buffer. A CPU affinity mask is shown as the list of exactly its CPUs, followed by '...' exactly when the mask is longer than the kernel's.", "quantifier": "all set contents, counts, addresses, word sizes, byte orders, return values and remaining times; all CPU masks and lengths", "why_tests_cant": "sets have up to 2^20 members in any combination; the buffer bound and the doubled bracket depend on all three sets and on the return value together", "anchors": ["src/desc.c:decode_select", "src/affinity.c:print_affinitylist", "src/util.c:next_set_bit"]}
{"id": "C71", "title": "Results of poll are the elements with returned events, in order", "statement": "On leaving poll or ppoll successfully, the text lists the elements of the array with returned events, in order, each with its descriptor and events: either all of them, or a proper prefix followed by '...', or all up to the first element that cannot be read, whose address follows; then the remaining time. Nothing is left out of a text shorter than 980 bytes unless the number of elements is limited. The text stays inside its buffer.", "quantifier": "all arrays, memory contents, return values, limits, flag texts and remaining times; tracers with 32-bit and 64-bit addresses", "why_tests_cant": "the buffer bound depends on the lengths of all element texts together and on where reading fails", "anchors": ["src/poll.c:decode_poll_exiting"]}
{"id": "C72", "title": "composed values", "statement": "Values that strace shows as several constants joined by bars and shifts (a futex operation, the FUTEX_WAKE_OP argument, a socket type, memfd_create flags, a personality, an I/O priority, a quotactl command, a signal, clone flags) read as a C expression give exactly the value passed, whatever it is and in every -X style.", "quantifier": "every 32-bit value (64-bit for clone flags), every style", "why_tests_cant": "there are 2^32 values of each, most of them with bits that have no name; tests cover the named ones", "anchors": ["src/futex.c: do_futex", "src/net.c: tprint_sock_type", "src/memfd_create.c", "src/personality.c", "src/ioprio.c: print_ioprio", "src/quota.c: print_qcmd", "src/signal.c: printsignal", "src/clone.c"]}
{"id": "C73", "title": "arguments of futex and clone", "statement": "Of a futex call strace shows the arguments the operation takes and no others (all of them when the operation is unknown); of a clone call it shows the stack and the flags, and each further argument exactly when the flags make the kernel use it, taken from the place it has in the architecture's order.", "quantifier": "every operation with every combination of its flag bits, every value of the arguments, both x86 argument orders", "why_tests_cant": "the flags have 2^64 values and the arguments shown depend on five of their bits in combination", "anchors": ["src/futex.c: do_futex", "src/clone.c: SYS_FUNC(clone)"]}
{"id": "C74", "title": "Ticks are shown with the seconds they are", "statement": "A count of clock ticks (the CPU times of times, of a siginfo and of netlink attributes) and a count of units of a device or protocol with a fixed rate (PTP offsets, busy-poll times, traffic-control timers) is shown as its decimal number; unless it is zero or raw output was asked for, a comment follows with the number of seconds, and that decimal fraction is exactly the count divided by the rate, with the sign of the count, when the rate is a power of ten.  For other clock rates the count is still shown, and is followed by nothing or by one comment.", "quantifier": "every 64-bit count, signed or not, every style of output, every rate that is a power of ten (of clock_t: up to 10^9), and for the count every rate", "why_tests_cant": "The fraction is made of a quotient and a remainder padded to a width computed from the rate; a wrong width or a lost sign shows only for particular pairs of count and rate, and the system's clock rate is fixed on the machine that runs the tests.", "anchors": ["src/util.c: print_ticks", "src/util.c: print_ticks_d", "src/util.c: print_clock_t", "src/util.c: ilog10"]}
{"id": "C75", "title": "The siginfo shown is the one the kernel filled in", "statement": "What is shown of the information that comes with a signal - in the line of a delivered signal and in the arguments of calls that pass it - names the signal and its code, the error if there is one, and exactly the members of the structure the kernel fills in for that signal and code, each read at its place and in its type: sender, timer, queued value, child status (a number for an exit, a signal otherwise) with its CPU times, fault address with what belongs to the code, band and descriptor, or system call with its architecture.  Only a null queued value and a zero sender of a kernel signal may be left out.", "quantifier": "every content of a siginfo_t on x86_64 that the kernel can produce with a code below or equal to zero, of the signal's own, or of the kernel for a signal without its own; every style", "why_tests_cant": "The structure is a union whose meaning depends on the pair of signal and code; tests deliver a few signals, while most pairs (hardware faults, memory errors, protection keys, performance events) do not occur on the machine that runs them.", "anchors": ["src/printsiginfo.c: printsiginfo", "src/printsiginfo.c: print_si_info", "src/printsiginfo.c: print_si_code", "src/printsiginfo.c: printsigsource", "src/printsiginfo.c: printsigval", "src/print_fields.h: PRINT_FIELD_SYSCALL_NAME", "src/xlat/audit_arch.in"]}
{"id": "C76", "title": "Data of device mapper requests are shown as far as they are well formed", "statement": "For device mapper ioctls with -v: whatever the request announces (where its data start and how long they are, how many targets it has) and whatever offsets the structures in the tracee's memory hold, decoding ends; it shows the structures in the order in which each says where the next is; every one shown lies entirely between the announced start and end of the data and strictly behind the previous one; the strings shown with them end with the data; it stops with 'misplaced' exactly where the next structure would not lie there, with the address exactly where it cannot be read, and otherwise only at the end of the list. Lists are shown at entry only for table loads and at exit only for calls that succeeded; without -v nothing is read.", "quantifier": "all requests (32-bit data_size, data_start, target_count), all contents of the tracee's memory including unreadable parts, all chains of offsets including loops, backward references and ones that wrap around 32 bits", "why_tests_cant": "The chain is built from offsets under the control of the tracee, and overlong, overlapping and cyclic chains are unlimited in number; the tests have a few well-formed requests and some broken ones.", "anchors": ["src/dm.c: dm_decode_payload, dm_decode_dm_target_spec, dm_decode_dm_name_list, dm_decode_dm_target_versions, dm_decode_dm_target_deps, dm_decode_dm_target_msg, dm_decode_string"]}
{"id": "C77", "title": "BPF programs are shown as their source", "statement": "Every instruction of a classic BPF program (a seccomp filter, a socket filter, or any other) is shown as BPF_STMT(code, k) or BPF_JUMP(code, k, jt, jf) such that a C compiler, given the kernel's headers, would build the same instruction: the code as an expression of its class, size, mode, operation and source, k as a number, as seccomp action and data, or as an offset into the ancillary, network or link-layer data. This holds for every 16-bit code, jump offset and 32-bit k and in all styles of -X. Instructions of eBPF programs are shown with all their members. Programs are shown entirely up to 4096 instructions, with an ellipsis for the rest.", "quantifier": "all values of all members of an instruction, all users of programs, all styles of constants, all lengths of programs", "why_tests_cant": "There are 2^64 instructions; the tests have some dozens of them.", "anchors": ["src/bpf_filter.c: print_bpf_filter_code, print_bpf_filter_block, print_bpf_fprog", "src/bpf_seccomp_filter.c: print_seccomp_filter_k", "src/bpf_sock_filter.c: print_sock_filter_k", "src/bpf.c: print_ebpf_insn"]}
{"id": "C78", "title": "Process IDs of other PID namespaces are translated right, whatever was cached", "statement": "When a tracee lives in another PID namespace, the ID strace shows 'in strace's PID NS' beside a process, thread, group or session ID is the one that same process, group or session has in strace's namespace at that moment; an ID nobody has in the tracee's namespace is given no translation; and the number strace uses to look up a tracee in /proc is the one /proc has it under. This holds whatever translations were made and cached before, and whatever processes have come, gone or been renumbered since.", "quantifier": "all histories of translations with arbitrary contents of /proc at each of them, all trees of PID namespaces and sets of tasks, all kinds of ID, all namespaces of the tracee, of strace and of /proc (up to 32 levels)", "why_tests_cant": "what is cached depends on the whole history of earlier translations and of process creation and exit; a test sees one history with fresh process IDs, hardly ever a reused one", "anchors": ["src/pidns.c: translate_pid, translate_id_proc_pid, translate_id_dir, proc_data_cache_iterator_fn, update_proc_data, get_ns, get_ns_hierarchy, get_proc_pid, printpid", "src/util.c: proc_status_get_id_list"]}
{"id": "C79", "title": "The program run is the one PATH leads to", "statement": "'strace NAME' runs, for a name without a slash, the first regular file of that name with an execute permission among the directories of PATH, in their order, an empty element being the current directory; if there is none, strace reports it and runs nothing. A name with a slash is run as that path. No PATH, name or current directory makes strace write outside of its path buffer.", "quantifier": "all values of PATH, all names, all current directories, all file systems", "why_tests_cant": "directories of any number and length, with the lengths that just fit and just do not, cannot be enumerated", "anchors": ["src/strace.c: startup_child"]}
{"id": "C80", "title": "Socket details shown with -yy are those of the socket itself", "statement": "Over any run, whatever the kernel answers to the queries, the protocol details shown for a socket descriptor are what a well-formed message about the socket with exactly this inode said in reply to the query for its protocol, now or when it was asked for earlier, or else the bare inode. Sockets whose inodes share an entry of the cache are never mixed up. A socket the kernel tells of is found behind any number of other messages. As long as the answers for a socket do not change, what is remembered is invisible. No byte outside a received message is read and no buffer overflows.", "quantifier": "all sequences of lookups, all inodes and protocols, all contents and lengths of the datagrams received, all xflag settings", "why_tests_cant": "the cache couples lookups at arbitrary distance through inode collisions; tests see a few sockets and well-formed kernel replies", "anchors": ["src/socketutils.c:get_sockaddr_by_inode", "src/socketutils.c:receive_responses", "src/socketutils.c:unix_parse_response", "src/socketutils.c:inet_parse_response", "src/socketutils.c:netlink_parse_response", "src/socketutils.c:cache_inode_details"]}
{"id": "C81", "title": "Structures whose size the caller states are shown as the kernel takes them", "statement": "For the calls that take a structure together with its size (openat2, clone3, mount_setattr, setxattrat, sched_setattr, sched_getattr, landlock_create_ruleset, statmount, listmount), for every size, every content and every readable part of memory: an address is shown exactly when the size is below the smallest the kernel accepts or the bytes cannot be read; otherwise every member shown has, under its name, the value the kernel takes (bytes beyond the stated size being 0), in order, and of bytes beyond the known structure the first are shown, exactly if they are not all 0, with a mark if there are more. A member that the kernel uses and that is not 0 is shown, so that calls which the kernel tells apart look different. For clone3 the values stored behind pidfd and parent_tid are added after the call, and the decision not to wait for that loses nothing.", "quantifier": "all sizes, all contents of memory and all patterns of readable bytes, all values of -s, of the page size and of verbosity", "why_tests_cant": "tests use the sizes of the versions that exist and a few beyond; which member is hidden depends on every bit of the flags and on where the structure or the readable memory ends", "anchors": ["src/open.c: print_open_how", "src/clone.c: clone3", "src/mount_setattr.c: print_mount_attr", "src/sched.c: print_sched_attr", "src/xattr.c: print_xattr_args", "src/landlock.c: print_landlock_ruleset_attr", "src/statmount.c, src/listmount.c: print_mnt_id_req", "src/util.c: print_nonzero_bytes"]}
{"id": "C82", "title": "Merged logs contain every stamped line once, sorted by time", "statement": "When the per-process logs written by strace -ff with -t, -tt or -ttt are merged by strace-log-merge, the result is exactly the lines of all logs that begin with a time stamp, each behind the process number in a column wide enough for the longest one, sorted by time; lines with the same time stay in the order of their logs and within each log, so lines of one log whose stamps do not decrease keep their order. An unterminated last line is not glued to another. Files whose suffix is no process number are ignored; without any log an error is reported.", "quantifier": "every set of files with any suffixes and contents, every number of lines, every time and number of fraction digits", "why_tests_cant": "There are unboundedly many logs and interleavings; tests merge a few short ones", "anchors": ["src/strace-log-merge: iterate_logfiles, process_suffix, process_logfile", "src/strace.c: printleader"]}
{"id": "C83", "title": "Each call is shown with its own stack (-k)", "statement": "With -k, every shown system call and signal is followed by the stack trace that belongs to it: for calls that replace or end the process the stack it was entered with, for the others the stack at their end; calls that are not shown leave no trace, and strace never gives up because of them. The frames are what the unwinding library tells of the addresses with the current mappings, whatever was remembered from earlier walks, and at most the requested number of them.", "quantifier": "every history of calls, signals and process ends, every stack, every status filter, every sequence of walks and changes of mappings", "why_tests_cant": "Histories are unbounded; the captured stack is kept between stops, so an error shows up only at a later call", "anchors": ["src/unwind.c: unwind_tcb_print, unwind_tcb_capture, unwind_tcb_fin, queue_print", "src/unwind-libdw.c: find_bucket, frame_callback, tcb_walk", "src/syscall.c: syscall_entering_trace, syscall_exiting_trace, update_personality"]}
{"id": "C84", "title": "options of the command line mean what the manual says", "statement": "For every sequence of options: strace refuses to start exactly when an argument is malformed or options exclude each other (-c with -C; no program and no process; -D with --daemonize, without a program or more than three times; -t with --absolute-timestamps; -x with --strings-in-hex; -y with --decode-fds; -f with --follow-forks; -ff with --output-separately; separate output with a summary or a pipe; -w or -U without a summary; -q with --quiet; --kill-on-exit with -p), and otherwise every setting is that of the last option that states it, of the number of times a counted option is given, or the documented default; -e NAME=TEXT changes the setting NAME, any other text is a trace expression.", "quantifier": "every list of options with every argument (any byte string), with and without a program", "why_tests_cant": "The settings depend on combinations of some forty options in every order and number; tests try a few.", "anchors": ["src/strace.c:init", "src/strace.c:parse_ts_arg", "src/strace.c:parse_interruptible_arg", "src/strace.c:process_opt_p_list", "src/filter_qualify.c:qualify"]}
{"id": "C85", "title": "-u runs the program with exactly that user's identity", "statement": "With -u USER, USER being a name or UID:GID with a single colon, the program is started only by a strace run by root, only if USER denotes a user, and only with the real, effective and saved user and group ids of that user (the effective and saved ones of the file's owner or group if it is set-ID) and with that user's supplementary groups (none for UID:GID); whenever a step fails the program is not started, and no step lacks the privilege it needs, including the installation of the seccomp filter.  A program without set-ID bits run as a non-root user cannot return to any other identity.  Without -u nothing changes.", "quantifier": "every text of USER, every user database, every program file, every failure of the calls, every initial credentials; every later sequence of credential calls of the program", "why_tests_cant": "Which identities remain reachable depends on saved ids and groups and on the order of the calls; tests do not run as root and cannot try every sequence.", "anchors": ["src/strace.c:is_uid_gid_pair", "src/strace.c:exec_or_die", "src/strace.c:init", "src/strace.c:startup_child"]}
{"id": "C86", "title": "the argument and environment vectors of execve are shown truthfully", "statement": "For execve(path, argv, envp) the words of a vector are shown in order as strings up to the null word.  If the vector cannot be read to its end, or runs off the address space, `... /* address */` marks where; if not even the first word can be read, the address alone is shown.  Abbreviated, at most -s strings are shown and `...` marks the cut exactly when there are more, and the environment is shown by its address with the exact number of its elements and `unterminated` exactly when its end was not found.", "quantifier": "every memory contents and readability, every address, word size 4 or 8, every -s, vectors of fewer than 2^32 - 1 elements", "why_tests_cant": "The loop depends on every possible memory layout, including unreadable pages and the end of the address space.", "anchors": ["src/execve.c:printargv", "src/execve.c:printargc", "src/execve.c:decode_execve"]}
{"id": "C87", "title": "the standard descriptors are never taken by strace's own files", "statement": "Whatever descriptors strace is started with, after start-up descriptors 0, 1 and 2 are open: those that were open keep what they were, the others are dummies; nothing else changes, and no file strace opens later (such as the log) gets a number below 3.  The program gets exactly the descriptors strace was given.  When strace gives up its stdin and stdout, both become dummies and every other descriptor stays.  Too few free descriptors end strace.", "quantifier": "every table of descriptors, every limit, every later sequence of openings and closings", "why_tests_cant": "All combinations of open and closed descriptors and of later openings matter; tests run with 0-2 open.", "anchors": ["src/strace.c:open_dummy_desc", "src/strace.c:ensure_standard_fds_opened", "src/strace.c:redirect_standard_fds", "src/strace.c:set_cloexec_flag"]}
{"id": "C88", "title": "the call, arguments and result shown are those of the stop at hand", "statement": "On x86_64, whatever happened at earlier stops and was already asked at this one, and whether or not the kernel supports PTRACE_GET_SYSCALL_INFO or PTRACE_GETREGSET: at the entry to a call of the 64-bit, i386 or x32 ABI strace gets that ABI, that number and the arguments the kernel takes, or no answer; at the exit it gets the result (the error if there is one, else the value), or no answer; the instruction pointer is that of the stop.  When the requests succeed there is an answer.", "quantifier": "every history of stops of any tracees and of queries at them with every failure of the requests, every ABI, number, register contents", "why_tests_cant": "Registers and call information are cached in global variables shared by all tracees; every interleaving of stops, queries and failures matters, as do three ABIs and kernels of all ages.", "anchors": ["src/syscall.c:get_scno", "src/syscall.c:get_syscall_args", "src/syscall.c:get_syscall_result", "src/syscall.c:get_syscall_regs", "src/syscall.c:get_regs", "src/syscall.c:strace_get_syscall_info", "src/syscall.c:get_instruction_pointer", "src/syscall.c:clear_regs", "src/linux/x86_64/get_scno.c:arch_get_scno", "src/linux/x86_64/arch_get_personality.c:get_personality_from_syscall_info", "src/linux/x86_64/getregs_old.c:getregs_old"]}
{"id": "C89", "title": "Security contexts: the part, the mismatch and the file", "statement": "With --secontext, a context is shown by its type (or in full), without final newlines, in text that reads back as that part and that has no bracket or exclamation mark; the context expected follows after !! exactly when it is known and its part differs; the text can be read in one way only. The context after a path is that of the file the path names for the tracee (from its root, its working directory or the descriptor given), the one after a descriptor that of the file it is open on; nothing is shown when the system gives none. The directory used for a path is the one the call names for it.", "quantifier": "all contexts and expected contexts (any bytes), all option sets and -x modes, all answers of the system, all processes, descriptors and paths, all sequences of calls with paths", "why_tests_cant": "Contexts come from the policy and the file system; a test needs an SELinux host and sees the few labels it has.", "anchors": ["src/secontext.c:parse_secontext", "src/secontext.c:print_context", "src/secontext.c:selinux_getfdcon", "src/secontext.c:selinux_getfilecon", "src/secontext.c:selinux_printfilecon", "src/open.c:print_dirfd", "src/fsconfig.c:SYS_FUNC(fsconfig)"]}
{"id": "C90", "title": "Result of poll: the ready descriptors and the time left", "statement": "After a successful poll or ppoll, the text lists exactly the elements with events, in order, each with its descriptor and events; an element that cannot be read ends the list with its address; \"...\" stands for what is left out, and only when as many as the string limit are shown (unless -v) or the text gets long; the time left follows if there is space. Zero is said to be a timeout, nothing is said of a failed call or of an array that is not decoded. The text always fits the buffer it is made in.", "quantifier": "all arrays (any length, address and contents, readable or not), all flag and time texts (any length), all options", "why_tests_cant": "The length of the text depends on how many elements have events and on their addresses and flags; the buffer limit and a failing read meet only for particular combinations.", "anchors": ["src/poll.c:decode_poll_exiting", "src/util.c:sequence_truncation_needed"]}
{"id": "C91", "title": "Messages received and sent: whose name length is whose", "statement": "Each message that recvmmsg shows is the one now at its place in the vector, with the length its own name buffer had on entry before the =>, no more of the name than that, and data only up to its own length; all messages received are shown, up to the limit of abbreviation, when they could be read before and after; the lengths saved on entry are never read past. sendmmsg shows the whole vector even when it fails, with lengths for the messages sent only. recvmsg shows the length on entry alone when it fails. Timeout and the time left are said exactly when the result is zero, or positive with a timeout given.", "quantifier": "all vectors (any length and address), all contents of memory on entry and on exit (which need not agree), all results, options and limits", "why_tests_cant": "The pairing of lengths saved on entry with elements printed on exit depends on which elements could be read when, and on three separate limits.", "anchors": ["src/mmsghdr.c:save_mmsgvec_namelen", "src/mmsghdr.c:decode_mmsgvec", "src/mmsghdr.c:print_struct_mmsghdr", "src/mmsghdr.c:do_recvmmsg", "src/mmsghdr.c:SYS_FUNC(sendmmsg)", "src/msghdr.c:print_struct_msghdr", "src/msghdr.c:SYS_FUNC(recvmsg)"]}
{"id": "C92", "title": "A limit of system calls ends the trace after exactly that many", "statement": "With --syscall-limit=N strace captures no more than N system calls, however many processes it traces and however their stops interleave.  Before N were captured the limit ends nothing.  Once N were, the loop ends at once: no further stop is waited for, no stop already collected is handled, nothing more is written and nothing is asked of the tracees except to be let go.  A call counts when it ends, was traced on entry, its result could be got and -e status selects it.", "quantifier": "all limits, options, sets of processes, and histories of stops and answers of the kernel", "why_tests_cant": "The calls of several processes end in every order and stops are collected in batches; that no interleaving captures one call too many or handles a stop left in the queue is a statement about all histories.", "anchors": ["src/strace.c:next_event", "src/strace.c:dispatch_event", "src/syscall.c:syscall_exiting_trace"]}
{"id": "C93", "title": "Signals reach strace only as -I says, and the program not at all differently", "statement": "The program strace starts has exactly the signal dispositions and blocked signals strace was started with, with and without -D.  -I determines, for SIGHUP, SIGINT, SIGQUIT, SIGPIPE, SIGTERM and SIGTSTP, whether strace takes them as any program, notes them, or is not affected; the default is the one of the manual.  A signal that was noted ends the event loop before another event is waited for or handled and before a tracee is restarted; the command gets the signal too, attached processes do not, and strace dies of it.  The handler of the delay timer cannot run while strace decodes.", "quantifier": "all options, all dispositions and masks strace may be started with, all signals, and all states of the event loop", "why_tests_cant": "Dispositions and masks are inherited and overwritten in a certain order by several processes; tests try a few signals with a few options and cannot choose the moment a signal arrives.", "anchors": ["src/strace.c:init", "src/strace.c:exec_or_die", "src/strace.c:startup_child", "src/strace.c:set_sighandler", "src/strace.c:interrupt", "src/strace.c:cleanup", "src/strace.c:terminate"]}
{"id": "C94", "title": "Resource limits are shown as they are", "statement": "The text of a resource limit identifies its value: in the raw style it is the number; in the abbreviated style the name of infinity stands exactly for the greatest value of the type, a product with 1024 exactly for the multiples of 1024 greater than 1024, and every other value is its number; in the verbose style the number comes first and the other form, if any, follows as a comment. No limit makes strace die for want of room. The soft and the hard limit are each taken from their own bytes, of 4 bytes for i386 programs and 8 otherwise; if the structure cannot be read or the call failed, its address is shown.", "quantifier": "every 32-bit and 64-bit limit, every style, every address, memory and word size", "why_tests_cant": "Tests look at a handful of limits; that each of 2^64 texts stands for one value and none overflows its buffer cannot be tried.", "anchors": ["src/resource.c: print_rlim64_t, print_rlim32_t, print_rlimit64, print_rlimit32, decode_rlimit", "src/xstring.h: xsnprintf_"]}
{"id": "C95", "title": "Times and dates are shown as they are", "statement": "A time given to or returned by a call is shown as its signed seconds and its nanoseconds or microseconds as they are in memory, or its address if it cannot be read; the text made of it for the end of a line is the same and always fits its buffer. Times among other data are shown exactly if there are enough bytes, each from its own. UTIME_NOW and UTIME_OMIT are named exactly for the values that mean them. Every other time of a file is followed by a date, which reads back as the same instant and fraction, and the date is left out exactly for the time 0, for fractions of a second or more and for times that have no local date.", "quantifier": "every time structure of 4- or 8-byte members, every memory, every number of bytes at hand, every style and every local time zone", "why_tests_cant": "Tests use a few times and zones; the claim is about every value of the structure and every zone.", "anchors": ["src/print_timespec.h", "src/print_timeval.c", "src/util.c: sprinttime_ex, sprinttime, sprinttime_usec, sprinttime_nsec"]}
{"id": "C96", "title": "User and group IDs and lists of groups are shown as they are", "statement": "An ID is shown as its number and the value of all ones as -1, for calls with 16-bit IDs of the low 16 bits, so that different IDs are shown differently. The list of groups of setgroups, or of getgroups that returned it, shows the IDs in order, each from its own bytes, cut short only by -s; a number greater than the system allows, like the result of a failed call, is not taken as the length of a list, and the address is shown.", "quantifier": "every ID, every number of groups, every address and memory, every limit on groups", "why_tests_cant": "Tests use a few IDs and short lists.", "anchors": ["src/uid.c: printuid, print_gid, print_groups, sys_setgroups, sys_getgroups", "src/print_fields.h: PRINT_VAL_ID"]}
{"id": "C97", "title": "With -ff each process's text is only in its own file", "statement": "Every piece of text that strace writes about a process is in the place for that process: with -ff in the file named after the pid it has at that time, and nothing goes anywhere else; without -ff in the one log, and no per-process file gets any text. This holds for every history of events, also when a thread that calls execve takes over the pid (and file) of its leader, when text is held back until the result is known (-z, -Z, -e status=), and after the final detach.", "quantifier": "all options, all sets of processes traced, all histories of events reported by the kernel, all decoder outputs, all errors of ptrace", "why_tests_cant": "files are swapped between tracees when a thread calls execve, streams are replaced by memory streams and published later, and entries of the table are reused; a test sees a few of these orders only", "anchors": ["src/strace.c: printleader, droptcb, maybe_switch_tcbs, after_successful_attach", "src/stage_output.c", "src/syscall.c: print_syscall_resume"]}
{"id": "C98", "title": "Capability sets are shown by the names of exactly their members", "statement": "capget and capset show each of the three capability sets, in every style of constants, as its members: the names of exactly the capabilities in the set, in order of number and joined by |, bits without a name as one hexadecimal number, and the empty set as 0. The sets have 64 bits with the versions 2 and 3 of the interface and 32 with any other, the header shows the version and the pid, and what cannot be read is shown as its address. In the default and the verbose style different sets are shown by different texts.", "quantifier": "all sets of 64 bits, styles, versions, contents and accessibility of the memory of the program, and results of the system call", "why_tests_cant": "there are 2^64 sets in three styles and two words are joined into one text; tests show a few of them", "anchors": ["src/capability.c:print_cap_bits", "src/capability.c:print_cap_data", "src/capability.c:print_cap_header", "src/capability.c:capget", "src/capability.c:capset", "src/xlat/cap_mask0.in", "src/xlat/cap_mask1.in"]}
{"id": "C99", "title": "The event codes of an input device are shown by the names of exactly the codes that were returned", "statement": "After a successful ioctl that returns a set of event codes of an input device, the text is, in the default style of constants, the names of exactly the codes of the set in increasing order, or when abbreviating the first four of them and dots, and in the other styles the words of memory that hold them; a set that is empty, failed or cannot be read is an address.", "quantifier": "all sets, return values, types of events, sizes of words, styles and contents and accessibility of the memory of the program", "why_tests_cant": "a set of keys has 767 bits and every return value cuts it elsewhere; tests use a few sets", "anchors": ["src/evdev.c:decode_bitset", "src/evdev.c:bit_ioctl", "src/util.c:next_set_bit"]}
{"id": "C100", "title": "poke_enter and poke_exit change the asked-for bytes and nothing else, and the line says so", "statement": "At each stop of a system call to which an --inject expression with poke_enter=/poke_exit= applies, strace writes the bytes asked for at that stop at the addresses the named arguments hold: each request up to some byte (all of it if the kernel allows), where requests overlap the one given first stays, requests for the other stop or for arguments the call does not have are not carried out, and no other byte of memory changes. Other expressions make no difference. The line of the call says \"INJECTED: args\" if and only if a byte was written at a stop of that very call, \"INJECTED\"/\"retval\" iff its result was changed, \"DELAYED\" iff it was delayed.", "quantifier": "all sets of up to 65535 expressions, all sequences of calls of a tracee with any arguments, all memories and all ways in which the kernel lets writes succeed, fail or stop short", "why_tests_cant": "overlaps, partial writes, many expressions sharing one table and flags left over from an earlier call only show for particular histories and failures", "anchors": ["src/poke.c: alloc_poke_data, poke_add, poke_tcb", "src/syscall.c: tamper_with_syscall_entering, tamper_with_syscall_exiting, print_injected_note, syscall_exiting_finish", "src/filter_qualify.c: parse_poke_token", "src/list.h: list_insert", "src/ucopy.c: upoken"]}
{"id": "C101", "title": "Memory policies and node masks are shown as they are in memory", "statement": "For mbind, set_mempolicy, migrate_pages and get_mempolicy the node mask is shown as exactly the words that hold the maxnode-1 bits the call speaks of, each as the number in memory, so node n is bit n mod bits of word n / bits of the text; with abbreviation at most the string limit of words and then an ellipsis; a word that cannot be read is shown by its address; with no mask the address or [] is shown. A policy is shown by its name and the names of its flags and can be read back in every style. The arrays of move_pages have the stated number of elements, each the one in memory, the status as a node or the negated name of an error.", "quantifier": "every word size, address, node count, memory content, limit, style and policy value", "why_tests_cant": "The mask may be of any length, lie anywhere (including at the end of the address space) and be readable in part; the node count is any 64-bit number; policies are any 64-bit number. The tests use a few masks of one or two words.", "anchors": ["src/numa.c: print_nodemask, print_node, print_mode, migrate_pages, mbind, set_mempolicy, get_mempolicy, move_pages", "src/syscall.c: print_err", "src/util.c: print_array_ex, tfetch_mem64"]}
{"id": "C102", "title": "Futex calls are shown by their command, the arguments it has and the parts of FUTEX_OP", "statement": "For every futex call the operation is shown by the name of its command with FUTEX_PRIVATE_FLAG and FUTEX_CLOCK_REALTIME where that combination exists and as a number with a remark otherwise, and exactly the arguments which that command has follow, in order, counts as unsigned 32-bit numbers; the last argument of FUTEX_WAKE_OP is shown as the shift flag, the operation, its argument, the comparison and its argument, each with its shift, and two values shown alike are the same value. The flags of a futex2 call are shown by the size, the names of the flags and the rest as a number, and no two flag words are shown alike. futex_waitv and futex_requeue show the waiters that are in memory, field by field, at most 128 and with abbreviation at most the string limit, the rest as \"...\".", "quantifier": "every operation word, every argument, every style of constants, every memory and number of waiters", "why_tests_cant": "There are 2^32 operation words and 2^32 FUTEX_OP values per style; tests cover one call per command.", "anchors": ["src/futex.c: do_futex", "src/futex2.c: print_futex2_flags, print_waiter, print_waiter_array, futex_waitv, futex_wake, futex_wait, futex_requeue", "src/xlat/futexops.in", "src/xlat/futex2_sizes.in"]}
{"id": "C103", "title": "The exit reason shown with --kvm=vcpu is that of the virtual cpu which was run", "statement": "With --kvm=vcpu, whatever virtual cpus were created, whatever was mapped and however often KVM_RUN was called before, the reason shown after a KVM_RUN that did not fail is the exit_reason in the structure mapped for the virtual cpu of that descriptor, by its name or as KVM_EXIT_???; and it is shown whenever that mapping is there and can be read. No history makes strace do something undefined.", "quantifier": "every history of descriptor tables, maps files, KVM_CREATE_VCPU, KVM_RUN, reports of mapping changes and other users of the mapping cache; every memory", "why_tests_cant": "The place of the structure is cached per descriptor and re-validated only in some cases; whether a stale place is used depends on the interleaving of mapping changes, descriptor changes and other users of the cache.", "anchors": ["src/kvm.c: vcpu_register, vcpu_get_info, kvm_ioctl_run_attach_auxstr, kvm_ioctl_decode_run", "src/mmap_cache.c: mmap_cache_rebuild_if_invalid, mmap_cache_search, mmap_cache_search_custom", "src/xlat/kvm_exit_reason.in"]}
{"id": "C104", "title": "Sets of cpus", "statement": "What sched_setaffinity and sched_getaffinity show of a set of cpus that can be read is the numbers of all the cpus in its first bytes, at most as many bytes as the sets of the kernel have, in increasing order and each once, and \"...\" if and only if there are more bytes. Nothing in those bytes is lost: sets of the same size of which the same is shown are the same. The number of bytes is the least 128 * 2^j that the kernel does not refuse. The address is shown instead if the call failed, the set cannot be read or the arguments are not to be decoded.", "quantifier": "every mask, every length, both byte orders and word sizes, every kernel set size up to 2^27 bytes", "why_tests_cant": "a test shows a few masks on one machine; the claim is about every mask, every length relative to the kernel's size and the word size, and both byte orders", "anchors": ["src/affinity.c: get_cpuset_size, print_affinitylist, sched_setaffinity, sched_getaffinity", "src/util.c: next_set_bit"]}
{"id": "C105", "title": "New namespaces", "statement": "With -e namespace=new, after a successful clone, clone3, setns or unshare the namespaces of the process concerned that are of the kinds asked for by the flags are shown after the result, in a fixed order, separated by commas, those whose links in /proc can be read; strace never ends because the text would not fit. Without the option, after a failed call, or if the child is not found in /proc, nothing is shown.", "quantifier": "every set of flags, every process number, every content of the links in /proc as the kernel makes them", "why_tests_cant": "a test uses a few flags; the claim is about all 256 combinations of kinds, all inode numbers of up to ten digits and processes that have vanished", "anchors": ["src/clone.c: read_namespace_id, get_namespace_auxstr, clone, clone3, setns, unshare"]}
{"id": "C106", "title": "Memory mapping calls", "statement": "The arguments of mmap (in its three forms of offsets, and the old form with its arguments in memory), munmap, mprotect, pkey_mprotect, mremap, remap_file_pages and mincore are shown as what they mean: addresses, sizes, the protections, the type of the mapping followed by its flags and the size of huge pages, the offset in bytes, and the new address of mremap exactly if the call uses it; flags are told apart by what is shown; mincore shows one number for each page of the range. Not true of the upper half of the flags of mmap: it is not shown.", "quantifier": "every value of the arguments, every style of constants, every memory of the tracee", "why_tests_cant": "There are 2^64 values of each argument; tests look at a few combinations of flags.", "anchors": ["src/mem.c:print_mmap_flags", "src/mem.c:print_mmap", "src/mem.c:SYS_FUNC(mremap)", "src/mem.c:do_mprotect", "src/mem.c:SYS_FUNC(mincore)", "src/fetch_indirect_syscall_args.c"]}
{"id": "C107", "title": "Extended attributes", "statement": "The value that setxattr sets and that getxattr returns is shown as a string literal for exactly its bytes, as many as the size given or the result says, cut after the maximal length (-s), without a NUL at its end; with the size, which is shown too, this tells the value. A list of names likewise, with every NUL. Instead of a value its address is shown if the call failed, if it only asks for the size, if the value has more than 65536 bytes or if it cannot be read.", "quantifier": "every value, size, address, result and memory of the tracee, every -s and -x and style of constants", "why_tests_cant": "Values are arbitrary bytes; tests use a few short ones.", "anchors": ["src/xattr.c:print_xattr_val", "src/xattr.c:decode_setxattr_without_path", "src/xattr.c:decode_getxattr_without_path", "src/xattr.c:print_xattr_list", "src/util.c:printstr_ex"]}
{"id": "C108", "title": "File handles", "statement": "A file handle passed to open_by_handle_at or returned by name_to_handle_at is shown with its size, its type and its first 128 bytes in hexadecimal, and the text tells all three; a size that the kernel has changed is shown behind the one that was given, also if the call failed because the handle does not fit. A structure that cannot be read is shown as its address. The identity of the mount is shown as the number the kernel has written.", "quantifier": "every address, header, handle and memory of the tracee before and after the call, every error and all flags", "why_tests_cant": "The sizes, types and bytes are arbitrary, and memory may change or vanish between entering and exiting.", "anchors": ["src/file_handle.c:print_f_handle", "src/file_handle.c:SYS_FUNC(name_to_handle_at)", "src/file_handle.c:SYS_FUNC(open_by_handle_at)"]}
{"id": "C109", "title": "Asynchronous I/O control blocks show every member the kernel uses", "statement": "For io_submit, io_cancel and io_getevents, each control block shows its data, its key and per-call flags if any, its command by name, its priority (class and level if IOCB_FLAG_IOPRIO is set, else the number if not 0) and its descriptor; then, by the command, its buffer (as a string, an I/O vector, poll events or an address), size and offset, its flags and the descriptor to be notified. The i-th element of io_submit is the control block of the i-th pointer. Events show data, object and both results, signed.", "quantifier": "every control block of 64 bytes, every command number, every style of constants, every memory of the tracee, every number of control blocks or events, words of 4 and 8 bytes", "why_tests_cant": "The members shown depend on three other members of a block of 64 arbitrary bytes; tests use a few blocks with a few commands.", "anchors": ["src/aio.c: print_iocb_header", "src/aio.c: print_iocb", "src/aio.c: print_common_flags", "src/aio.c: io_submit", "src/aio.c: io_cancel", "src/aio.c: print_io_getevents", "src/ioprio.c: print_ioprio"]}
{"id": "C110", "title": "Epoll calls are shown by operation, with as many events as the kernel stored", "statement": "For every epoll call, descriptors, sizes and timeouts are shown as signed 32-bit numbers; the operation of epoll_ctl by its name; its event as the structure at the pointer, with every event bit named and the user's data in hexadecimal, except for EPOLL_CTL_DEL, which has none, and for memory that cannot be read: these are shown as the address. After epoll_wait, epoll_pwait and epoll_pwait2 exactly the number of events that the call returned are shown, in order (cut as abbreviation demands); [] for none; and the address if the call failed.", "quantifier": "all argument values, memories, both layouts of the event, numbers of events and output styles", "why_tests_cant": "the events, bits, layouts and numbers of events are unbounded; tests fix a few", "anchors": ["src/epoll.c: epoll_create, epoll_create1, epoll_ctl, epoll_wait, epoll_pwait, epoll_pwait2, print_epoll_event"]}
{"id": "C111", "title": "Offsets of lseek, _llseek and sendfile are shown as the kernel takes them", "statement": "For every lseek the offset is shown as the signed long of the kernel's word size, and for every _llseek as the signed 64-bit number made of its two halves; the origin by its name; the resulting offset of _llseek as the number in memory, or the address if it cannot be read or the call failed. For every sendfile and sendfile64 the offset in memory before the call is shown, followed by the one after it exactly if the call moved data; the address if it cannot be read.", "quantifier": "all argument values, results, memories before and after the call, and word sizes", "why_tests_cant": "the offsets, memories and results are unbounded; sign and width errors show only at extreme values", "anchors": ["src/lseek.c: lseek, llseek", "src/sendfile.c: sendfile, sendfile64"]}
{"id": "C112", "title": "The arguments of mount are shown as the kernel uses them", "statement": "For every mount, every bit of the flags is named, or shown in hexadecimal, after the old magic number if the upper half has it; the type of the file system is shown as an address if the mount is a remount, bind, move or change of propagation, for which the kernel ignores it, and the data if it is one of these but a remount; in all other cases both are shown as strings.", "quantifier": "all flags, argument values and output styles", "why_tests_cant": "2^64 flags: a wrong mask shows for few of them", "anchors": ["src/mount.c: mount"]}
{"id": "C113", "title": "The third argument of fcntl is shown as what its command takes", "statement": "For every fcntl and fcntl64 the descriptor and the name of the command are shown, followed by the third argument in the form the command gives it: nothing for commands that take none; a signed number, named flags, a signal, a descriptor, a process; for locks and owners the structure at the pointer, read before the call if the kernel reads it and after the call if the kernel writes it, with the offsets of the caller's word size, or the address if it cannot be read; hexadecimal for every other command.", "quantifier": "all commands (known or not), argument values, memories before and after the call, 64-bit and 32-bit callers, and output styles", "why_tests_cant": "the commands, arguments and memories are unbounded; tests try each command on a few values and run for one layout", "anchors": ["src/fcntl.c: fcntl, fcntl64, print_fcntl, printflock, printflock64, print_f_owner_ex", "src/fetch_struct_flock.c: fetch_struct_flock, fetch_struct_flock64"]}
