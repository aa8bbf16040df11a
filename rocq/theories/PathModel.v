(** Model of path tracing (-P, --trace-path): src/pathtrace.c. *)
From Verif Require Import Base AllocModel BitsModel.
From Coq Require Import String.
Import ListNotations.
Local Open Scope N_scope.

(** struct path_set, src/defs.h:532-536.  [sel] are the paths of
    paths_selected[0..num_selected-1], [cap] is size. *)
Record pset := mk_pset { sel : list (list N); cap : N }.

Definition empty_pset : pset := mk_pset [] 0.

(** pathmatch, src/pathtrace.c:27-38.  Paths are C strings, i.e. byte lists
    without NUL.  Simplification: the unsigned int index is not wrapped (that
    needs 2^32 selected paths). *)
Definition pathmatch (p : list N) (set : option pset) : bool :=
  match set with
  | None => false
  | Some s => existsb (beqs p) (sel s)
  end.

(** storepath, src/pathtrace.c:76-88, on a 64-bit host; [mal] is what malloc
    can provide.  paths_selected is NULL until it has been grown. *)
Definition storepath (mal : N -> bool) (p : list N) (s : pset) : res pset :=
  if pathmatch p (Some s) then Ok s
  else
    rlet c := (if cap s <=? N.of_nat (List.length (sel s))
               then rlet (n, _) := xgrowarray 32 mal (cap s =? 0) (cap s) 8 in Ok n
               else Ok (cap s)) in
    if N.of_nat (List.length (sel s)) <? c then Ok (mk_pset (sel s ++ [p]) c)
    else Undef.

(** pathtrace_select_set, src/pathtrace.c:164-200; [r] is what realpath(path)
    returned.  Simplification: the message is omitted. *)
Definition select_set (mal : N -> bool) (p : list N) (r : option (list N))
  (s : pset) : res pset :=
  rlet s1 := storepath mal p s in
  match r with
  | None => Ok s1
  | Some rp => if beqs p rp then Ok s1 else storepath mal rp s1
  end.

(** A sequence of -P options, src/strace.c:2969-2970 (each path with what
    realpath gave for it). *)
Fixpoint select_all (mal : N -> bool) (h : list (list N * option (list N)))
  (s : pset) : res pset :=
  match h with
  | [] => Ok s
  | (p, r) :: h' => rlet s1 := select_set mal p r s in select_all mal h' s1
  end.

(** What the tracee provides.  [ustr a]: the string umovestr reads at [a]
    into a buffer of PATH_MAX + 1 bytes when it returns > 0; [fdpath fd]: what
    getfdpath gives when it returns >= 0; [pollfd a]: the fd field of the
    struct pollfd at [a] when umove succeeds; [ubytes a n]: what umoven reads;
    [indirect a n]: fetch_indirect_syscall_args. *)
Record env := mk_env {
  ustr : N -> option (list N);
  fdpath : Z -> option (list N);
  pollfd : N -> option Z;
  ubytes : N -> N -> option (list N);
  indirect : N -> N -> option (nat -> N) }.

(** Conversion of a kernel_ulong_t argument to int. *)
Definition to_int (a : N) : Z :=
  let v := Z.of_N (u32 a) in if (v <? 2147483648)%Z then v else (v - 4294967296)%Z.

(** upathmatch, src/pathtrace.c:43-54. *)
Definition upathmatch (e : env) (a : N) (set : option pset) : bool :=
  match set with
  | None => false
  | Some _ => match ustr e a with Some p => pathmatch p set | None => false end
  end.

(** fdmatch, src/pathtrace.c:59-72.  [fdset] is a number set, given by its
    membership function (is_number_in_set is modelled in NumSetModel). *)
Definition fdmatch (e : env) (fd : Z) (set : option pset)
  (fdset : option (Z -> bool)) : bool :=
  if (match fdset with Some f => (0 <=? fd)%Z && f fd | None => false end)
  then true
  else match set with
       | None => false
       | Some _ => match fdpath e fd with Some p => pathmatch p set | None => false end
       end.

(** The loop over one fd_set, src/pathtrace.c:222-230, little-endian hosts.
    The loop ends since next_set_bit never goes back; [fuel] bounds it. *)
Fixpoint xsel_bits (fuel : nat) (e : env) (set : option pset)
  (fdset : option (Z -> bool)) (fds : list N) (j nfds : N) : res bool :=
  match fuel with
  | O => Undef
  | S f =>
      rlet b := next_set_bit fds 0 j nfds in
      match b with
      | None => Ok false
      | Some b =>
          if fdmatch e (Z.of_N b) set fdset then Ok true
          else xsel_bits f e set fdset fds (b + 1) nfds
      end
  end.

(** The loop over the three sets, src/pathtrace.c:217-231. *)
Fixpoint xsel_sets (e : env) (set : option pset) (fdset : option (Z -> bool))
  (addrs : list N) (fdsize nfds : N) : res bool :=
  match addrs with
  | [] => Ok false
  | a :: l =>
      if a =? 0 then xsel_sets e set fdset l fdsize nfds
      else match ubytes e a fdsize with
           | None => xsel_sets e set fdset l fdsize nfds
           | Some fds =>
               rlet b := xsel_bits (S (S (N.to_nat nfds))) e set fdset fds 0 nfds in
               if (b : bool) then Ok true
               else xsel_sets e set fdset l fdsize nfds
           end
  end.

(** match_xselect_args, src/pathtrace.c:202-235; [ws] is current_wordsize. *)
Definition match_xselect_args (e : env) (ws : N) (set : option pset)
  (fdset : option (Z -> bool)) (args : nat -> N) : res bool :=
  let nfds0 := to_int (args 0%nat) in
  if (nfds0 <=? 0)%Z then Ok false
  else
    let nfds := if (1048576 <? nfds0)%Z then 1048576 else Z.to_N nfds0 in
    let fdsize := ((nfds + 7) / 8 + ws - 1) / ws * ws in
    xsel_sets e set fdset [args 1%nat; args 2%nat; args 3%nat] fdsize nfds.

(** The loop of the poll cases, src/pathtrace.c:396-401; [cur] runs up to
    [last] in steps of sizeof(struct pollfd) = 8. *)
Fixpoint poll_loop (fuel : nat) (e : env) (set : option pset)
  (fdset : option (Z -> bool)) (cur last : N) : res bool :=
  match fuel with
  | O => Undef
  | S f =>
      if cur <? last then
        match pollfd e cur with
        | None => Ok false
        | Some fd => if fdmatch e fd set fdset then Ok true
                     else poll_loop f e set fdset (u64 (cur + 8)) last
        end
      else Ok false
  end.

(** src/pathtrace.c:382-404 *)
Definition match_poll (e : env) (set : option pset)
  (fdset : option (Z -> bool)) (args : nat -> N) : res bool :=
  let start := args 0%nat in
  let nfds0 := u32 (args 1%nat) in
  let nfds := if 1048576 <? nfds0 then 1048576 else nfds0 in
  let last := u64 (start + 8 * nfds) in
  if (nfds =? 0) || (last <? start) then Ok false
  else poll_loop (S (N.to_nat nfds)) e set fdset start last.

(** The groups of case labels of pathtrace_match_set. *)
Inductive group :=
| G_fd_fd | G_fd_path | G_path_path | G_x_path | G_fd_path_fd_path
| G_old_mmap | G_mmap | G_x_fd_path | G_fd_x_fd | G_epoll_ctl
| G_fanotify_mark | G_oldselect | G_select | G_poll | G_fsconfig
| G_none | G_default.

Definition one_of (sen : list N) (l : list string) : bool :=
  existsb (fun s => beqs sen (bs s)) l.

(** src/pathtrace.c:254-450: which case label the sen (system call
    decoder number, here its name) has. *)
Definition group_of (sen : list N) : group :=
  if one_of sen ["dup2"; "dup3"; "kexec_file_load"; "sendfile"; "sendfile64"; "tee"]%string
  then G_fd_fd
  else if one_of sen ["execveat"; "faccessat"; "faccessat2"; "fchmodat"; "fchmodat2";
    "fchownat"; "fspick"; "fstatat64"; "futimesat"; "getxattrat"; "inotify_add_watch";
    "listxattrat"; "mkdirat"; "mknodat"; "mount_setattr"; "name_to_handle_at";
    "newfstatat"; "open_tree"; "openat"; "openat2"; "readlinkat"; "removexattrat";
    "setxattrat"; "statx"; "unlinkat"; "utimensat_time32"; "utimensat_time64"]%string
  then G_fd_path
  else if one_of sen ["link"; "mount"; "pivotroot"]%string then G_path_path
  else if one_of sen ["quotactl"; "symlink"]%string then G_x_path
  else if one_of sen ["linkat"; "move_mount"; "renameat2"; "renameat"]%string
  then G_fd_path_fd_path
  else if one_of sen ["old_mmap"; "old_mmap_pgoff"]%string then G_old_mmap
  else if one_of sen ["mmap"; "mmap_4koff"; "mmap_pgoff"; "ARCH_mmap"]%string then G_mmap
  else if one_of sen ["symlinkat"]%string then G_x_fd_path
  else if one_of sen ["copy_file_range"; "splice"]%string then G_fd_x_fd
  else if one_of sen ["epoll_ctl"]%string then G_epoll_ctl
  else if one_of sen ["fanotify_mark"]%string then G_fanotify_mark
  else if one_of sen ["oldselect"]%string then G_oldselect
  else if one_of sen ["pselect6_time32"; "pselect6_time64"; "select"]%string then G_select
  else if one_of sen ["poll_time32"; "poll_time64"; "ppoll_time32"; "ppoll_time64"]%string
  then G_poll
  else if one_of sen ["fsconfig"]%string then G_fsconfig
  else if one_of sen ["bpf"; "epoll_create"; "epoll_create1"; "eventfd2"; "eventfd";
    "fanotify_init"; "fsopen"; "inotify_init"; "inotify_init1"; "io_uring_setup";
    "landlock_create_ruleset"; "memfd_create"; "memfd_secret"; "mq_open";
    "perf_event_open"; "pidfd_open"; "pipe"; "pipe2"; "printargs"; "socket";
    "socketpair"; "timerfd_create"; "userfaultfd"]%string
  then G_none
  else G_default.

(** pathtrace_match_set, src/pathtrace.c:241-465.  [tf], [td], [tn]: whether
    sys_flags has TRACE_FILE, TRACE_DESC, TRACE_NETWORK; [ws] is
    current_wordsize; [llarg] is the index getllval returns for the 64-bit
    mask of fanotify_mark. *)
Definition match_set (e : env) (ws : N) (llarg : nat)
  (set : option pset) (fdset : option (Z -> bool))
  (sen : list N) (tf td tn : bool) (args : nat -> N) : res bool :=
  let fd i := fdmatch e (to_int (args i)) set fdset in
  let path i := upathmatch e (args i) set in
  if negb (tf || td || tn) then Ok false
  else
    match group_of sen with
    | G_fd_fd => Ok (fd 0%nat || fd 1%nat)
    | G_fd_path => Ok (fd 0%nat || path 1%nat)
    | G_path_path => Ok (path 0%nat || path 1%nat)
    | G_x_path => Ok (path 1%nat)
    | G_fd_path_fd_path => Ok (fd 0%nat || fd 2%nat || path 1%nat || path 3%nat)
    | G_old_mmap =>
        match indirect e (args 0%nat) 6 with
        | None => Ok false
        | Some a => Ok (fdmatch e (to_int (a 4%nat)) set fdset)
        end
    | G_mmap => Ok (fd 4%nat)
    | G_x_fd_path => Ok (fd 1%nat || path 2%nat)
    | G_fd_x_fd => Ok (fd 0%nat || fd 2%nat)
    | G_epoll_ctl => Ok (fd 2%nat)
    | G_fanotify_mark => Ok (fd llarg || path (S llarg))
    | G_oldselect =>
        match indirect e (args 0%nat) 5 with
        | None => Ok false
        | Some a => match_xselect_args e ws set fdset a
        end
    | G_select => match_xselect_args e ws set fdset args
    | G_poll => match_poll e set fdset args
    | G_fsconfig =>
        let cmd := u32 (args 1%nat) in
        if (cmd =? 3) || (cmd =? 4) then Ok (fd 4%nat || path 3%nat)
        else if cmd =? 5 then Ok (fd 4%nat)
        else Ok false
    | G_none => Ok false
    | G_default =>
        if tf then Ok (path 0%nat)
        else if td || tn then Ok (fd 0%nat)
        else Ok false
    end.
