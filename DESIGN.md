# Formal model of strace in Rocq (Coq 8.16.1)

## 1. Layout

All Coq files are in `rocq/theories/` (logical name `Verif`). For a subsystem `X`:

* `XModel.v`  – executable Gallina model of the C functions; each definition cites file:lines in /repo and
  says what was simplified. No proofs.
* `XSpec.v`   – small specification, written without the model's helpers (when the statement needs one).
* `XProofs.v` – lemmas.
* `XThms.v`   – only property theorems (`Theorem .. Proof. exact .. Qed.`), `Print Assumptions`, and
  non-vacuity `Example`s.

Common conventions: C integers are `Z`/`N` with explicit wrap (`mod 2^w`) where the C code can wrap; C undefined
behaviour, `error_msg_and_die` and exhausted fuel are distinct outcomes, never a normal value; external calls
(ptrace, process_vm_readv, wait4, clock, /proc) are function arguments (oracles) over which theorems quantify.

## 2. Plan per property

| id | model | proof |
|----|-------|-------|
| C01 | number_set.c bit vectors with `not` flag | refinement to `N -> bool`, induction over op list |
| C02 | is_complete_set | iff under hypotheses; `_refuted` where the inverted flag is ignored |
| C03 | string_to_uint_ex over strtoll model | spec grammar relation, iff |
| C04 | qualify_tokens | denotational semantics of expression, equality |
| C05 | qualify_syscall_tokens with oracle for regex | same, per personality |
| C06/C07/C08 | BPF instruction set + interpreter, both generators | symbolic execution by induction over runs of the bit map |
| C09 | parse_inject_token when= branch | spec grammar |
| C10 | tamper countdown | induction over history |
| C11 | tamper entering/exiting with flags | invariant; `_refuted` for the stale no-fail flag |
| C12-C14 | string_quote | decoder for C string literals, structural induction |
| C15 | printstr_ex, printpathn | case analysis over memory oracle |
| C16 | dumpstr | layout induction over lines |
| C17/C18 | ts_* and parse_ts | integer arithmetic; for the floating-point notation, doubles as rationals under any rounding to nearest |
| C19/C20 | trie.c | refinement to a finite map, induction over depth |
| C21/C22 | tcb table + pid2tcb cache | invariant over op list |
| C23/C24 | printleader/line_ended/tprintf with one shared log | invariant over output ops; log parsed back into lines |
| C25-C27 | next_event/trace_syscall/dispatch_event as a state machine over kernel events | invariant/induction over event lists |
| C28 | detach loops with wait oracle | induction over oracle answers |
| C29 | terminate | case analysis |
| C30 | staged output | induction over syscalls |
| C31 | delay queue | invariant over ops and time |
| C32-C35 | ucopy.c | refinement to total memory function |
| C36-C39 | xlat.c, dyxlat.c | bit algebra, binary search invariants |
| C40 | count.c | induction over call list |
| C41/C42 | pathtrace.c, make_env | induction over op list |
| C43/C44 | mmap_cache.c | binary search + sortedness invariant |
| C45/C46 | xgetdents.c, nlattr.c | loop invariants, fuel adequacy |
| C47/C48 | next_set_bit, sprintsigmask_n | bit-level specification |
| C49/C50 | print_array_ex, iovec printing | induction |
| C51 | list.h on an explicit heap | refinement to sequences |
| C52/C53 | retval.c/delay.c/poke.c, xmalloc.c | arithmetic |
| C54-C56 | negated_errno.h, wait.c, ilog | arithmetic / exhaustive sweep lifted |
| C57 | shuffle_scno of every architecture | involution by case analysis over ranges |
| C58 | tampering across restarted and interrupted calls | induction over the history of one tracee |
| C59 | columns of the summary, --summary-columns | induction over the option string |
| C60 | hexadecimal quoting | round trip |
| C61 | msghdr.c control messages over bytes | walk relation, induction; two refutations |
| C62 | sockaddr.c over a fixed buffer | offsets of each family, round trips, independence of other memory |
| C63 | getllval and its callers for each calling convention | case analysis over conventions |
| C64 | what is printed behind '=' | a reader of the text; round trip |
| C65 | modes, open flags, device numbers | a reader of C expressions; bit algebra |
| C66 | socketcall, ipc | refinement to the kernel's own mapping |
| C67 | expressions of -e inject= and -e fault= | parser = small grammar (accepted iff, and meaning) |
| C68 | ioctl commands | every printed alternative denotes the number; all names in the table are printed; three bit layouts |
| C69 | text of descriptors | fdinfo search = first matching line; text per kind of object = small table; text is injective |
| C70 | select sets, CPU masks | bit lists by induction on next_set_bit; buffer invariant for all inputs; exact text when it fits; refutations of the bracket and the silent cut |
| C71 | poll results | loop invariant: text = rendering of a prefix of the elements with events; buffer bound; refutation for x32 tracers |
| C72 | composed values | CompModel.v models the printers of futex, net, memfd_create, personality, ioprio, quota, signal and clone. CompSpec.v reads the text as a C expression. Each text is split into pieces whose value is known; pieces are joined by bars and shifts. |
| C73 | arguments of futex and clone | Same model. The specification lists the arguments each operation takes (futex(2)) and the flag bits each argument of clone depends on (clone(2)). By cases on the operation and on the bits. |
| C74 | ticks and seconds | `TickModel` models `print_ticks` and its variants in util.c, and `ilog10`. The specification reads the fraction back as m / 10^k and compares it with count / rate by cross multiplication. By the number round trips and division with remainder. |
| C75 | siginfo | `InfoModel` models `printsiginfo.c` on the bytes of siginfo_t. The specification has the members with their places and types, and the kernel's `siginfo_layout`. By cases on the code and the signal, with the round trips of C36, C72 and C74. |
| C76 | device mapper data | `DmModel` models the walks of `dm.c` with their 32-bit arithmetic, over an arbitrary memory, with fuel; the specification describes the chain of structures without wrap-around. Proved by induction on the fuel, which always suffices. |
| C77 | BPF programs | `BpfModel` models the printing of instructions; the specification reads the text as C source (C72) with the kernel's constants. By cases on the class of the instruction, with bitwise identities for the fields. |
| C78 | process IDs of other PID namespaces | PidModel: the two caches, update from /proc, the three searches (cached number, cached data, directory scan), get_ns, printpid; /proc is an arbitrary view at each translation; PidSpec: tasks in a namespace tree and what the kernel shows of them. Invariant: what is cached under a key belongs to that process and fits; every answer is re-read from /proc, so it is right for any cache; the scan makes it complete |
| C79 | the program run | StartModel: the loop over PATH with the path buffer (a write beyond its end is Undef), the tests of the file found; StartSpec: elements of PATH and the search rule as an inductive relation. Induction on PATH |
| C80 | socket details shown with -yy | DiagModel: the netlink queries, the walk over datagrams, messages and attributes (a read outside the message is Undef), the three parsers, the cache of 1024 entries, runs of lookups; DiagSpec: walk as an inductive relation, texts of messages. Invariant of the cache over runs; completeness of the search by induction on the answer |
| C81 | structures with a stated size | ExtModel: the printers of nine calls over a memory in which any byte may be unreadable, members as (name, manner, number). ExtSpec: the members of each structure with offset, width, when shown and when used; the kernel's view (zero-extended); what follows. Proof: reading = view by induction on the length, bits of flags, losslessness of the quoted rest from C12; exact output per call, then completeness and injectivity over the tables. |
| C82 | merging of logs | MergeModel: the script with sed, sort and grep as functions on lines. Spec: times of stamped lines, stable order by time, `part`. Insertion sort is a permutation, sorted and stable; the digits sorted by are ordered like times; a key-wise argument gives the order within a log |
| C83 | stack traces | StackModel: queue of captured stacks, staged output, the calls of the tracer in a history of one process; cache and walk of libdw. Spec: `story`, what should be shown of a history. Induction on the story with the queue empty between calls; invariant of the cache: entries of this generation are right |
| C84 | options | The switch of init() and the checks after it as functions on a record of the option variables (OptModel); the specification says for each setting which option decides (last, count, default) and which combinations are refused; proved by induction on the list of options. |
| C85 | -u | The kernel's setgroups, setregid and setreuid on a record of credentials, and exec_or_die as their sequence with arbitrary extra failures (CredModel); proved by case analysis, and by induction on the later calls of the program for "cannot return". |
| C86 | execve vectors | printargv and printargc as loops with fuel over a readable-word oracle (ArgvModel); the specification defines the vector at an address inductively and its text; existence and uniqueness of the vector, then induction on it. |
| C87 | standard descriptors | The kernel's table of descriptors with lowest-free allocation, pipe, close and FD_CLOEXEC (StdModel); invariant of the loop of ensure_standard_fds_opened; induction on later openings and closings. |
| C88 | call of a stop | The caches (ptrace_sci, get_regs_error, the register union as 32-bit words, use_getregs_old, the personality) as a state, queries as transitions with arbitrary failures (ScnoModel); an invariant ties the caches to the current stop; proved by induction on histories. |
| C89 | security contexts | parse_secontext, print_context and the three lookups over arbitrary answers of the system (SecModel); fields, chomping, file names and unique reading in SecSpec; induction on strings, and on the items decoders print for tcp->last_dirfd. |
| C90 | result of poll | The loop over the array with its output buffer as a list (PollModel), memory and flag texts arbitrary; shown equal to a list of texts by induction on the elements left, with the texts done so far generalised; the bound by an invariant on the length. |
| C91 | messages | The vector read on entry and again on exit from two arbitrary memories (MmsgModel); the configuration of the element printer as a state; an invariant ties its pointer, count and length counter to the index; proved by induction on the elements left. |
| C92 | limit of calls | LoopModel: every function of the loop keeps the limit except the end of a captured call (frame lemmas in LimitProofs); induction over the turns of a run from the start; a limit of 0 ends the next turn before anything is collected. |
| C93 | signals of strace | A process as its dispositions, mask and alarm (IntrModel); fork and execve as the manuals say; init as a sequence of steps on the process that becomes the program and the one that becomes the tracer; case analysis on modes for all signals.  The event loop after a signal was noted: LoopModel (NoticeThms). |
| C94 | limits (print_rlim64_t, print_rlim32_t, decode_rlimit) with the buffer of each text | the meaning of a text is a relation of its own, shown to be functional; the text of every value has the meaning of that value |
| C95 | times of any size, from memory and from data at hand; dates (sprinttime_ex) over any localtime | members against the bytes of the structure; dates against a calendar and a reader of their own; room in every buffer by lengths |
| C96 | IDs and lists of groups over the arrays of C49 | cases on the value; the list by C49 |
| C97 | With -ff each process's text is only in its own file | invariant over the whole event loop (LoopModel): every open file, memory stream and kept-back text of a tcb belongs to the place of its pid; files swapped at execve are tracked by a map from tcbs to owners until the leader is dropped |
| C98 | Capability sets are shown by the names of exactly their members | print_cap_bits over the printflags_ex of C36 with the two tables as lists of bits (CapModel); the loop of printflags_ex over a table of consecutive bits chooses the names of the set bits (induction), the text is the specification's for every word and style; equal texts are equal sets by splitting at the bars and at the comment |
| C99 | The event codes of an input device are shown by the names of exactly the codes that were returned | decode_bitset over the next_set_bit of C47 (EvModel); the loop visits the members (SelProofs), the number of bytes is characterised as whole words, refuted for the greatest code and for the bytes beyond the return value |
| C100 | poke_enter and poke_exit | The table of pokes of src/poke.c as a list of lists, filled by any number of expressions; the loop of poke_tcb over UcopyModel.upoken; entry, exit and finish of a call with the flags of the tcb. Invariant: each expression's index holds exactly its own requests, reversed; memory as a function, the result is the old memory with the written prefixes; induction over the calls for the flags. |
| C101 | Memory policies, node masks, move_pages | src/numa.c over ArrayModel (C49) and XlatModel: the number of words from maxnode, the text of an array from its tokens, the policy with its flags. Arithmetic for the word count including the wrap-around; reading the tokens of a policy back for losslessness; the bit of a node by induction on the bytes of a word |
| C102 | Futex calls | Model do_futex as a list of arguments per command, print_futex2_flags on the real tables through printflags_ex/printxvals_ex, the waiters as an array (ArrayModel) whose element carries its index. Spec: table of operands per command (futex(2)), FUTEX_OP as arithmetic on quotients, flags as bar-separated names. Proof: lookup of the sparse table of operations = op_name by case analysis on the 14x4 names; fields of the FUTEX_OP word put together again for injectivity; C49 theorems for whole/stopped arrays. |
| C103 | Exit reason with --kvm=vcpu | Model the list of vcpu_info, vcpu_get_info with its fast and slow path on top of the state of MmapModel, KVM_RUN as a step over histories of descriptor tables, maps files, reports and cache users. Spec: all maps files and descriptor tables there have been; the reason at offset 8 of the mapped structure. Proof: invariant that every resolved entry of the descriptor has the place of the mapping, that the cache holds a file there has been; C44_current for completeness; concrete histories for the refutations. |
| C104 | Sets of cpus | AffModel: get_cpuset_size, print_affinitylist over next_set_bit of C47, both system calls; the listed numbers are exactly the set bits (sorted list with membership), lossless, the size found by doubling |
| C105 | New namespaces | NsModel: the table of kinds, the loop over a bounded buffer, the four system calls; induction over the table with the room that is left; refutations for /proc of another PID namespace, setns with type 0, high bits, flags changed during clone3 |
| C106 | Memory mapping calls | The printers of src/mem.c with the tables of x86: C106_flags_partial, C106_flags_lossless_partial, C106_prot, C106_mmap_partial, C106_old_mmap_partial, C106_mprotect, C106_mremap, C106_remap_file_pages_partial, C106_mincore; C106_flags_refuted for the upper half of the flags. |
| C107 | Extended attributes | The printers of src/xattr.c over printstr_ex of QuoteModel: C107_set, C107_get, C107_list, C107_address, C107_lossless, C107_set_lossless. |
| C108 | File handles | src/file_handle.c over string_quote of QuoteModel: C108_open, C108_name, C108_lossless, C108_mount_partial, C108_mount_refuted. |
| C109 | Asynchronous I/O | Model the decoding of struct iocb, struct io_event and priorities; state the members as a list of rows (name, what the text has to satisfy) that depends on the bytes only; prove that the text is those rows, and lift it to the arrays. |
| C110 | Epoll | Model the decoders of the six calls with both layouts of struct epoll_event; state the members as rows of the bytes; prove the array of events by the array lemmas of C49/C101, for any number of events. |
| C111 | Offsets | Model lseek, _llseek, sendfile and sendfile64 with the memory on entering and on exiting; prove each argument's text against signed and unsigned numbers of given widths. |
| C112 | mount | Model the flags with and without the magic number; state it with division and bits; prove the masks equal to that for all flags. |
| C113 | fcntl | Model the decoders of fcntl and fcntl64 with the memory on entering and on exiting and the three layouts of a lock; give the shape of the third argument of each command as a table of the specification; prove the text of each shape for every command and value. |

## 3. Trusted base

* Coq 8.16.1's kernel (`coqc`, checked again by `coqchk`, which has no virtual machine: every `vm_compute` is
  rechecked with the ordinary reduction).
* `Print Assumptions` stands behind every theorem in the `*Thms.v` files. For every one of them it prints
  "Closed under the global context": no axiom at all, neither ours nor the library's.
* `coqchk` lists seven axioms that come with files of the standard library that are loaded but that no theorem here
  uses: `Coq.ssr.ssrunder.Under_rel.{Over_rel, Under_rel_from_rel, over_rel, over_rel_done, Under_rel, Under_relE,
  under_rel_done}` (the parameters of a module type of the standard library).
* The reading of the C code. Each definition cites the lines it stands for. Nothing links the model to the C code
  mechanically.
* The behaviour of what strace calls (C library, kernel), where the models state it: `strtol`/`strtoll`, `printf`
  conversions, `bsearch`, `qsort` (as: sorts), `major`/`minor`, `ptrace`, `wait4`, `process_vm_readv`,
  `PTRACE_PEEKDATA`, BPF programs, timers. Unknown answers (regular expressions, user names, /proc, clocks, memory of
  the tracee, the order of wait events) are parameters or oracles over which the theorems quantify.

## 4. What is modelled

| files in theories/ | code in /repo/src |
|---|---|
| NumSet* | number_set.c |
| Strtou* | string_to_uint.c/.h |
| Qual* | basic_filters.c, filter_qualify.c (trace, signal, status, quiet, ... sets; the syscall expressions) |
| Seccomp* | filter_seccomp.c: both program generators, over a BPF interpreter |
| Inject* | filter_qualify.c (when=), syscall.c: tamper_with_syscall_entering/exiting, countdown |
| Table* | retval.c, delay.c, poke.c: the tables of injected values |
| Quote*, QuoteHex* | util.c: string_quote, print_quoted_string_ex, printstr_ex, printpathn; print_utils.h |
| Dump* | util.c: dumpstr |
| Time* | util.c: ts_* arithmetic, str2timescale, parse_ts (integers), ilog2, ilog10 |
| Fts* | util.c: parse_ts with its floating-point branch; strtod(3) |
| Trie* | trie.c |
| Tcb*, Loop* | strace.c: the table of tracees, pid2tcb, next_event, dispatch_event, droptcb, maybe_switch_tcbs, startup, detach, terminate; syscall.c: the stages of a call; delay.c: the queue of delayed tracees |
| Log*, Status* | strace.c: printleader, line_ended, tprintf and friends; stage_output.c |
| Delay*, Detach*, Sig* | theorems over the Loop model |
| Ucopy* | ucopy.c |
| Xlat*, Bits* | xlat.c, dyxlat.c, util.c: next_set_bit; signal.c: sprintsigmask_n, signame, sprintsigname |
| Count* | count.c |
| Path* | pathtrace.c |
| Env* | strace.c: the environment of the child |
| Mmap* | mmap_cache.c, mmap_notify.c |
| Dents* | dirent.c, dirent64.c, xgetdents.c, util.c: fetch of directory entries |
| Nl* | netlink.c, nlattr.c: walks over messages and attributes |
| Array*, Iov* | util.c: print_array_ex, dumpiov_upto; io.c: iovec printing |
| List* | list.h, on an explicit heap |
| Alloc* | xmalloc.c |
| Errno*, Wait*, Shuffle* | negated_errno.h and get/set_error.c of the architectures; wait.c; shuffle_scno.c of the architectures |
| Sock*, Msg* | sockaddr.c, msghdr.c (control messages) |
| Args* | util.c: getllval; the decoders of calls with 64-bit arguments; fanotify.c |
| Ret* | syscall.c: the end of syscall_exiting_trace; print_fields.h: the text of a result |
| Mode* | printmode.c, open.c, mknod.c, print_dev_t.c |
| Sub* | syscall.c: decode_socket_subcall, decode_ipc_subcall; ipc_*.c |
| Iexp* | filter_qualify.c: find_errno_by_name, parse_delay_token, parse_poke_token, parse_inject_token, parse_inject_expression, qualify_inject_common up to the merge (which is Inject*); strtoull(3), sscanf(3) of %2hhx |
| Ioctl* | ioctl.c: ioctl_lookup, ioctl_next_match, ioctl_print_code, evdev_decode_number, hiddev_decode_number, ioctl_decode_command_number, ioctl_decode_unknown_type, SYS_FUNC(ioctl) for the command and the generic argument; term.c: term_ioctl_decode_command_number. The decoders per subsystem are not modelled |
| Fd* | util.c: get_inode_of_socket_path, printsocket, scan_fdinfo_lines, scan_fdinfo, printdev, pidfd_get_pid, printpidfd, print_fdinfo_sigmask, printsignalfd, printeventfd and their parsers, printfd_pid_with_finfo without a finfo; pathtrace.c: get_proc_pid_fd_path |
| Sel* | desc.c: decode_select; affinity.c: print_affinitylist (get_cpuset_size is a parameter); poll.c: decode_poll_exiting (fetching, sprintflags and the time text are parameters; allocation never fails) |
| Comp* | src/futex.c, tprint_sock_type, src/memfd_create.c (flags), src/personality.c, src/ioprio.c (value), print_qcmd, signame, printsignal, SYS_FUNC(clone) without namespaces | Tables are those of x86-64. Texts of timeouts, stored tids and TLS descriptors are parameters. |
| Tick* | `print_ticks`, `print_ticks_d`, `print_clock_t`, `ilog10` with the rate as an argument (`sysconf` is the environment) |
| Info* | src/printsiginfo.c on x86_64 (printsiginfo, print_si_info, print_si_code), PRINT_FIELD_SYSCALL_NAME, print_err without sign; tables of signal codes and audit architectures |
| Dm* | src/dm.c: dm_decode_payload and the functions it calls, as the places and bytes of the structures and strings shown; not the header (dm_decode_header) and not the text of the members |
| Bpf* | src/bpf_filter.c, src/bpf_seccomp_filter.c, src/bpf_sock_filter.c, print_ebpf_insn of src/bpf.c; tables of BPF constants. The array itself is print_array (C49), here when all elements can be read |
| Pid* | src/pidns.c; src/util.c proc_status_get_id_list | /proc constant during one translation; text of /proc/PID/status taken as a list of numbers; tries as maps (C19, C20); comm file as printed |
| Start* | src/strace.c startup_child up to the fork | paths of PATH_MAX bytes or more do not exist; the file system does not change during the search |
| Diag* | src/socketutils.c except genl_families_xlat | inet_ntop for IPv6 is a parameter; memory exhaustion left out |
| Ext* | src/util.c print_nonzero_bytes; src/open.c print_open_how; src/clone.c clone3; src/mount_setattr.c; src/sched.c print_sched_attr; src/xattr.c setxattrat; src/landlock.c print_landlock_ruleset_attr; src/statmount.c, src/listmount.c print_mnt_id_req | texts of members are not modelled, malloc does not fail, memory does not change while a structure is printed; getxattrat, the strings of statmount, namespaces after clone3 and the size the kernel reports on E2BIG left out |
| Merge* | src/strace-log-merge | the shell, sed, sort -s -n and grep -v are modelled by their effect on these arguments; file names with blanks or signs as suffix, and unreadable files, are left out |
| Stack* | src/unwind.c, src/unwind-libdw.c, src/syscall.c:244-276, 620-676, 712-1028, src/strace.c:1108-1160, 3459-3593 | one process (the queue belongs to it); the text of calls and signals is a number; libdw itself is a parameter; clocks do not wrap |
| Opt* | src/strace.c:1352-1383, 1946-2044, 2241-3175, src/filter_qualify.c:674-735, src/util.c:49-83 | options as getopt_long returns them; not -h -V -d -E -P -S -O -u -k -i -n -A and tips; sets by their texts, which texts are valid is a parameter (C04, C05, C67); attaching succeeds; length of file names |
| Cred* | strace.c is_uid_gid_pair, the -u part of init, startup_child (set-ID) and exec_or_die; kernel/sys.c, kernel/groups.c | effective user 0 = all capabilities; no user namespaces or security modules; what execve does to set-ID programs is not modelled; string_to_uint_ex is that of C03 |
| Argv* | execve.c | the word read at an address and the text of a string are parameters (C32, C12); little endian |
| Std* | strace.c open_dummy_desc, ensure_standard_fds_opened, redirect_standard_fds; fs/file.c | pipe fails only for want of descriptors; fcntl never fails |
| Scno* | syscall.c get_regs … get_error; linux/x86_64 get_scno.c, get_syscall_args.c, get_error.c, getregs_old.c, arch_get_personality.c, shuffle_scno.c | x86_64 build; kernel presentation of calls as in arch/x86/include/asm/syscall.h and kernel/ptrace.c (ScnoSpec entry_of, exit_of); no X32 build, messages, stack pointer |
| Sec* | secontext.c:25-262; open.c:31-64 (last_dirfd), util.c:1400, fsconfig.c:48-73, link.c, renameat.c (order of printing) | strings before their NUL; the system (getfilecon, getpidcon, selabel_lookup, realpath, stat, readlink) as functions; one database handle; freeing not modelled |
| Poll* | poll.c:51-135 | a long of 8 bytes; umove, sprintflags and sprint_timespec as functions (C32, C36); what is printed on entry is print_array (C49) |
| Mmsg* | mmsghdr.c:18-262, msghdr.c:415-470, 472-560 | what is shown is structured (which length, which limit), its text being that of C12, C50, C61, C62; print_array specialised (C49); flags and descriptors left out |
| Limit* | strace.c:3633-3645, syscall.c:786-858 (in LoopModel) | the message that the limit has been reached is left out; reading the number is that of C03 |
| Intr*, Notice* | strace.c:100-112, 1573-1642, 1785-1852, 1939-1944, 2977, 3096-3163, 3252-3276, 3318-3322 | NOMMU left out; that attaching with -D takes no more than the 3 s of the alarm is assumed; sa_flags left out (execve resets them) |
| Tval*, Date* | resource.c:19-113, print_timespec.h, print_timeval.c:21-121, util.c:484-537 | localtime is any function with the properties stated (honest), strftime is modelled for the formats used; local arrays of two elements as text (C49) |
| Gid* | uid.c:48-223, print_fields.h:337-343 | the array printer is ArrayModel; the calls that print single IDs are not listed one by one |
| Ff* | on LoopModel/LogModel | as LoopModel; a file is named by the pid |
| Cap* | C98 | src/capability.c, src/caps0.h, src/caps1.h, src/xlat/cap_*.in: capget and capset. The text of the pid is a parameter |
| Ev* | C99 | src/evdev.c: decode_bitset, bit_ioctl. The tables of names are parameters (C37), the host is little-endian; print_local_array_ex by its text (C49) |
| Poke* | C100 | src/poke.c, the poke parts of src/filter_qualify.c:159-219 and src/syscall.c:501-550, 763-775, 1031-1036. Not modelled: the messages of poke_tcb; a call whose exit stop never comes |
| Numa* | C101 | src/numa.c, src/syscall.c:412-430 (print_err), PRINT_VAL_0X. Not modelled: printpid (a parameter); set_mempolicy_home_node; big-endian words |
| Futex* | C102 | src/futex.c, src/futex2.c; not modelled: timespec (C94) and clock names, which are parameters |
| Kvm* | C103 | src/kvm.c:20-190, 322-364, 415-420; the rest of kvm.c (registers, cpuid, memory regions) is not modelled |
| Aff* | C104 | src/affinity.c; calloc succeeds, pid text is a parameter, sets of the kernel of at most 2^27 bytes |
| Ns* | C105 | src/clone.c: read_namespace_id, get_namespace_auxstr and the parts of clone, clone3, setns, unshare that use it; links and the translation of pids (C78) are parameters |
| Vm*, FlagText | C106 | print_mmap_flags, print_mmap, mmap, mmap_pgoff, mmap_4koff, old_mmap, do_mprotect, mremap, munmap, remap_file_pages, mincore of src/mem.c; fetch_indirect_syscall_args. Not: madvise, mlock*, msync, process_madvise, set_mempolicy (C101). |
| Xattr* | C107 | setxattr, fsetxattr, getxattr, fgetxattr, listxattr, flistxattr of src/xattr.c. Not: removexattr, fremovexattr (two parameters in a row), getxattrat, listxattrat (setxattrat is in Ext*). |
| Fh* | C108 | src/file_handle.c. Texts of directory, path, descriptor and open flags are parameters. |
| Aio* | C109 | src/aio.c, src/ioprio.c:21-50; the tables aio_cmds, aio_iocb_flags, rwf_flags, pollflags, ioprio_class. Not modelled: the texts of descriptors, strings, vectors, the timeout and the signal set (parameters), io_setup, io_destroy, ioprio_get, ioprio_set. |
| Epoll* | C110 | src/epoll.c; the tables epollflags, epollctls, epollevents. Not modelled: the texts of descriptors, of struct timespec and of signal sets (parameters). |
| Seek* | C111 | src/lseek.c, src/sendfile.c; the table whence_codes. Not modelled: the text of descriptors (parameter). |
| Mount* | C112 | src/mount.c; the table mount_flags. Not modelled: the texts of paths and strings (parameters). |
| Fcntl* | C113 | src/fcntl.c, src/fetch_struct_flock.c; the tables fcntlcmds, fdflags, lockfcmds, notifyflags, f_seals, f_owner_types. Not modelled: the text behind results; the texts of descriptors, process ids, open flags and signals (parameters). |

## 5. What is not modelled

* The decoders of single system calls, ioctls and netlink families but for those above (of 290 C files about 200 hold
  nothing but such decoders), and the generated tables (syscallent.h, xlat/*.in) but for those a theorem names.
* Register access per architecture (linux/*/get_syscall_args.c and so on) but for error registers and shuffle_scno.
* Stack traces (unwind*.c), SELinux contexts (secontext.c), socket and process names behind descriptors
  (socketutils.c, pidns.c: only the trie they use), btrfs/dm/kvm decoders.
* Command-line parsing (main/init) but for the qualifier expressions, environment and time arguments.
* Floating point but for parse_ts (Fts*: doubles are rational numbers there, every operation is exact and then rounded
  to a nearest double; sign of zero, NaN payloads and locales are left out): percentages of the summary as printed.
* Signals delivered to strace itself between two instructions, except as the event "interrupted" of the main loop;
  memory exhaustion except where xmalloc.c is the subject; write errors of the log.
* Undefined behaviour of C in general: bounds, wrap-around and null pointers are modelled where a property speaks of
  them, data races do not exist (strace is single-threaded), strict aliasing and the like are not considered.

## 6. Findings

Where a property is false of the code, the file has a `_refuted` theorem with a concrete witness, and the proved part
is named `_partial` or has the needed condition in its statement. MANIFEST.json says for each what is missing.

| property | finding |
|---|---|
| C01 | after a number is listed and the set cleared it has no member but is not reported empty (its storage is kept) |
| C02 | is_complete_set ignores the inversion flag: a set that excludes all statuses is reported complete |
| C05 | '?' does not protect from a bad @personality or a malformed regular expression |
| C07 | the binary-search filter program has no check for numbers behind the table: they are not traced |
| C11 | TCB_TAMPERED_NO_FAIL is never cleared: after one syscall= injection an unrelated error injection is lost |
| C12 | --strings-in-hex=non-ascii-chars: \xHH before a hex digit is ambiguous as C |
| C13 | print_quoted_string_ex: the size of the buffer wraps for very long strings in comment style |
| C15 | an omitted trailing NUL hides that the string was cut off |
| C17 | ts_div overflows for long times and large divisors |
| C18 | "-nan" and floating-point times of 2^63 s or more are not rejected: undefined conversion to an integer |
| C19, C20 | tries of odd geometry; iteration whose start does not fit the key |
| C23 | "+++ superseded" is printed into an open line; staged output is published into an open line |
| C26 | signals lost when strace is interrupted at a signal stop, and for signal= with delay_enter= |
| C27 | extra_tcp outlives the tracee it names: an event is lost or a null pointer used |
| C28 | a PTRACE_EVENT stop while detaching is let go with SIGTRAP |
| C29 | the exit status of the command is overwritten with 1 when a later request to another tracee fails |
| C30 | a thread's execve loses staged output; "detached" is not shown with several tracees |
| C31 | a timer that fired but was not handled yet is put off when another delay begins; the timer may be set later than the end of a delay by the time between two clock readings |
| C32, C34 | the read cache is not invalidated by poke; umovestr with PEEKDATA at unaligned addresses |
| C39 | dyxlat_add_pair reads one byte behind a name registered with its NUL |
| C40 | sorting by calls truncates 64-bit differences; a number in a gap of the table crashes -c |
| C41 | rename's new path, epoll_ctl's epfd, perf_event_open's group_fd are not matched by -P |
| C44 | the generation number of the mapping cache wraps |
| C45, C46 | (no refutation) nested NLMSG_ERROR recursion is bounded only by the stack |
| C48 | -X verbose dies on a full mask of realtime signals |
| C49, C50 | the limit on array elements is compared in 32 bits; dumping an iovec stops at an empty buffer |
| C52, C53 | poke list heads are moved by realloc; a huge member size gives no capacity |
| C54 | nios2: an injected error is stored negated |
| C57 | x32: one number is not mapped back |
| C61 | cmsg_len = 2^64-1 hangs strace; IP_ORIGDSTADDR with a cut-off address reads behind the buffer |
| C62 | a scope id is made up for an IPv6 address cut within it |
| C63 | print_lld_from_low_high_val does not mask the low word |
| C64 | a process ID outside int is shown truncated |
| C67 | poke data that is not hexadecimal is accepted ("@arg1=1g" writes 01, "@arg1=-1" writes ff); "poke_enter=," is accepted as an action that does nothing |
| C68 | HIDIOCGNAME is shown as HIDIOCSFEATURE; SPI_IOC_MESSAGE is shown with the number of bytes instead of transfers; MIXER_READ, MIXER_WRITE, EVIOCGABS and EVIOCSABS are shown whatever the size field |
| C70 | select whose out set is non-NULL and empty on return while in and except have ready descriptors: the text has a doubled bracket, "in [3]], except [4]"; ready descriptors that do not fit in the buffer are dropped without a mark |
| C71 | poll, tracer built for x32 (sizeof(long) = 4, 64-bit addresses): with an unreadable element after 1004 bytes of text the 1024-byte buffer is overrun |
| C72 | memfd_create, ioprio, -X verbose | A comment contains a comment ("0x20 /* 0x20 /* MFD_??? */ */"), so the text is not a C expression. |
| C72 | futex, -X raw | The comments FUTEX_OP_??? and FUTEX_OP_CMP_??? follow known operations too, since the lookup reports no name in that style. |
| C74 | clock_t, rate not a power of ten | the remainder in ticks is printed as decimal digits after the point: one tick at 1024 Hz is shown as `0.001 s` |
| C75 | SIGUSR1 chosen with F_SETSIG, code POLL_IN | the band is shown as si_pid and si_uid, the descriptor as si_int and si_ptr |
| C75 | SIGTRAP with the code of a ptrace event (PTRACE_GETSIGINFO) | si_pid and si_uid are shown as one address, si_addr |
| C76 | list of devices, version 4.37 or later | the number of events of the last device is not shown; the limit on the number of elements (sequence_truncation_needed) has no effect because it applies only without -v, when nothing is read |
| C77 | a load, arithmetic or jump instruction whose code has bits above 255 (rejected by the kernel) | the bits are not shown, so the instruction looks valid |
| C78 | a tracee 33 PID namespaces deep, strace in the initial one (the kernel permits levels 0 to 32): NSpid has 33 numbers, proc_status_get_id_list returns 33 though 32 were stored, and id_hierarchy[type][32] is read: the first element of the next type, or beyond the structure | src/pidns.c:364, src/util.c:1095-1098 | C78_depth_refuted |
| C78 | with --decode-pids=comm and a /proc that belongs to an ancestor of strace's PID namespace, the name printed beside a translated ID is read from /proc/N/comm with N the ID in strace's namespace: the name of another process | src/pidns.c:541 | C78_name_refuted |
| C78 | kernels 4.1 to 4.8 (NSpid but no NS_GET_PARENT): the first translation takes the tracee's ID as one of strace's namespace (the flag that disables translation is set only while it runs) | src/pidns.c:175-180, 489-490 | C78_old_kernel_refuted |
| C79 | PATH="/bin:" names /bin and the current directory, but the loop stops at the end of the string and never looks at a last element that is empty: "Cannot find executable" where a shell runs it | src/strace.c:1728 | C79_last_element_refuted |
| C80 | Socket details are cached by inode and never refreshed: a socket shown once as "TCP:[127.0.0.1:80]" is shown so after it has been connected, and so is another one that gets its inode | src/socketutils.c:548 | C80_stale_refuted |
| C80 | Of an abstract unix name with an embedded NUL only the part before it is shown, without a sign that there is more | src/socketutils.c:308 | C80_abstract_refuted |
| C81 | sched_setattr with SCHED_FLAG_KEEP_PARAMS but not SCHED_FLAG_KEEP_POLICY: the policy is not shown although the kernel sets it | src/sched.c:148 | C81_policy_refuted |
| C81 | statmount, listmount with a size of 25 to 31: the part of mnt_ns_id that is there is used by the kernel but not shown | src/statmount.c:57, src/listmount.c:47 | C81_ns_id_refuted |
| C81 | sched_getattr of a newer, larger structure: no "..." is shown, since attr.size is compared with itself | src/sched.c:178 | C81_getattr_more_refuted |
| C82 | merged logs lack the lines that do not begin with a time stamp (stacks, dumps), and logs with -tt that run over midnight are put in another order | src/strace-log-merge:71 | C82_stack_refuted, C82_midnight_refuted |
| C83 | -k with -z (or any -e status without failed): the stack taken when execve is entered stays in the queue when the call is not shown; the next execve makes strace die with "bug: unprinted entries in queue", any other call is shown with the stack of that execve | src/syscall.c:845-853, src/unwind.c:322 | C83_abort, C83_abort_refuted, C83_wrong_stack_refuted, C83_hidden_stack_refuted |
| C83 | -k and an execve that changes the personality: the stack is shown in the middle of the line (libdw) or for a later execve (libunwind) | src/syscall.c:270-275, src/unwind.c:297-302 | C83_mode_refuted, C83_mode_libunwind_refuted |
| C83 | functions with an empty name are shown differently in captured stacks; with libdw a stack of exactly the allowed length is said to have too many frames | src/unwind.c:116, 168; src/unwind-libdw.c:232 | C83_empty_name_refuted, C83_exact_refuted |
| C84 | --output-separately with exactly one -f is accepted and silently has no effect: the flag is overwritten with `followfork_short >= 2` | src/strace.c:2860 | C84_separately_refuted |
| C85 | -u 1:2:anything is accepted as UID 1, GID 2: the second number may end with a colon | strace.c:1540-1546 | C85_pair_refuted |
| C88 | calls that never fail (getuid32 of user 2^32-2 on i386) are shown as failed when PTRACE_GET_SYSCALL_INFO is used: SYSCALL_NEVER_FAILS is looked at only on the other path | syscall.c:1549-1566 | C88_exit_never_fails_refuted |
| C88 | int 0x80 in 64-bit code: a different call without PTRACE_GET_SYSCALL_INFO; with it, arguments are not cut to 32 bits | get_scno.c:30-52, syscall.c:1487-1500 | C88_entry_int80_refuted |
| C89 | the context of fsconfig FSCONFIG_SET_PATH's relative path (and of symlinkat's target) is that of a file in the working directory: the path is printed before the directory descriptor is known | fsconfig.c:48-73, link.c:70-82 | C89_dirfd_refuted |
| C92 | a call that ended with its result unavailable is shown but not counted by --syscall-limit | syscall.c:805-830 | C92_unavailable_refuted |
| C93 | with -I waiting (the default) strace installs its handlers over ignored signals: nohup strace is ended by SIGHUP | strace.c:3150-3154 | C93_nohup_refuted |
| C93 | strace -D cancels an alarm(2) that was set before | strace.c:1621-1630 | C93_alarm_refuted |
| C95 | the date in the comment of a time is not that time in zones whose offset from UTC has seconds: %z shows hours and minutes only | util.c:518 | C95_zone_refuted |
| C96 | after getgroups(0, list), which writes nothing, as many IDs as there are groups are shown from memory the call did not write | uid.c:207-220 | C96_size_zero_refuted |
| C98 | with -X raw a set is shown by its nonzero words only, so {CAP_CHOWN} and {CAP_MAC_OVERRIDE} are both 0x1: the text does not tell which word is shown | src/capability.c:78-91 | C98_lossless_raw_refuted, C98_lossless_raw_partial |
| C99 | decode_bitset is given the greatest code (EV_MAX, KEY_MAX, SW_MAX, ...) as the number of codes, so that the greatest code itself is never shown: a machine with only SW_MACHINE_COVER (0x10 = SW_MAX) is shown as [] | src/evdev.c:155-158, 256-290 | C99_codes_refuted |
| C99 | as many whole words are read as hold the bytes returned: bytes beyond the return value are shown in the raw and verbose styles, and make the whole set an address if they cannot be read | src/evdev.c:160-173 | C99_returned_refuted |
| C100 | the 65536th expression with pokes gets index 65535, which also stands for "none": if it has both poke_enter= and poke_exit=, strace dies with an index overflow, while with one of them it is accepted | src/poke.c:28-41, src/filter_qualify.c:173-174 | C100_accepted_refuted |
| C101 | get_mempolicy shows what the kernel stored as a policy even when MPOL_F_NODE asks for a node number (node 2 is shown as MPOL_BIND); and the policy's flags, which the kernel stores with it, are not decoded there although set_mempolicy's are (0x8002 /* MPOL_??? */) | src/numa.c:156-163 | C101_get_mempolicy_refuted |
| C102 | With -X raw the last argument of FUTEX_WAKE_OP carries the remarks /* FUTEX_OP_??? */ and /* FUTEX_OP_CMP_??? */ even for operations that exist: printxval returns 0 in that style and the callers take 0 for unknown. | src/futex.c:124-143 | C102_wake_op_refuted |
| C103 | With --kvm=vcpu the place of struct kvm_run is cached per descriptor number: after dup2 or close and reuse without a mapping change the reason of another virtual cpu is shown. | src/kvm.c:118-127 | C103_dup_refuted |
| C103 | MMAP_CACHE_REBUILD_READY is taken for "nothing changed since the place was found", but another user of the cache (the stack tracer, -k) may have renewed it: the old place is then used although the structure was mapped elsewhere. | src/kvm.c:124-127 | C103_moved_refuted |
| C103 | After a mapping change the cached address is accepted if it lies anywhere in a mapping of that virtual cpu, not only at its start: the reason may be read from inside the structure. | src/kvm.c:128-139 | C103_overlap_refuted |
| C105 | setns and unshare pass tcp->pid to /proc without translating it: with a /proc of another PID namespace the namespaces of another process are shown. | src/clone.c:418, 435 | C105_proc_refuted |
| C105 | setns(fd, 0), which enters a namespace of whatever kind fd is, shows no namespace. | src/clone.c:417 | C105_any_refuted |
| C105 | Bit 33 of the flags of setns and clone is ignored by the kernel but shown as a new cgroup namespace. | src/clone.c:96, 226, 418 | C105_high_refuted |
| C105 | The flags of clone3 are read again at the end of the call; a change by another thread decides what is shown. | src/clone.c:352, 393 | C105_changed_refuted |
| C106 | The upper half of the flags of mmap is not shown: `flags &= ~mask' with a mask of type unsigned int clears it. mmap with flags 0x10000000002 is shown as MAP_PRIVATE. | src/mem.c:74-80 | C106_flags_refuted |
| C108 | With AT_HANDLE_MNT_ID_UNIQUE name_to_handle_at returns a mount ID of 64 bits; only its lower half is shown, as an int. | src/file_handle.c:93 | C108_mount_refuted |
| C109 | For IOCB_CMD_FSYNC, IOCB_CMD_FDSYNC and other commands without operands neither aio_flags nor aio_resfd is shown, although the kernel notifies the descriptor when IOCB_FLAG_RESFD is set. | src/aio.c:43-65, 134-185 | C109_resfd_refuted |
| C112 | With the old magic number, bits of the flags above 31 are not shown, not even with -X raw: the complement of MS_MGC_MSK has 16 bits. The kernel discards them too. | src/mount.c:28-32 | C112_high_bits_refuted |
| C113 | The result of F_GETOWN is shown as a process or a process group according to the sign of the result of the thread's previous call: the decoder chooses on entering, when u_rval is still that of the call before. | src/fcntl.c:162-164, src/syscall.c:682, 835-836 | C113_getown_refuted |

## 7. Tests against wrong programs

`seeded/LOG.jsonl` has one line per wrong program: the definition that was edited, the edit, the claim it breaks, the
theorems that failed, and the theorems that were added or tightened because none failed.

These tests find theorems that are too weak. They do not find a model that misreads the code: for that each model was
read again beside the source it cites. One such error was found late: `printxval` and `printflags` take an unsigned int
(src/defs.h:1637, 2127), and three decoders (lseek, _llseek, epoll_create1) were modelled without the conversion.
