(** What is claimed of path tracing. *)
From Verif Require Import Base PathModel BitsSpec.
From Coq Require Import String.
Import ListNotations.
Local Open Scope N_scope.

(** A path is selected by a sequence of -P options (each with the canonical
    form realpath found for it, if any). *)
Definition selected (h : list (list N * option (list N))) (q : list N) : Prop :=
  exists p r, In (p, r) h /\ (q = p \/ r = Some q).

(** A descriptor argument hits if its number is in the set of descriptors
    given, or the file it is open on is a selected path; a path argument hits
    if the string it points to is a selected path. *)
Definition fd_hits (e : env) h (fdset : option (Z -> bool)) (fd : Z) : Prop :=
  (exists f, fdset = Some f /\ (0 <= fd)%Z /\ f fd = true) \/
  (exists p, fdpath e fd = Some p /\ selected h p).

Definition path_hits (e : env) h (a : N) : Prop :=
  exists p, ustr e a = Some p /\ selected h p.

(** Argument kinds. *)
Inductive kind := Fd | Path | Oth.

Definition arg_hits (e : env) h fdset (k : kind) (a : N) : Prop :=
  match k with
  | Fd => fd_hits e h fdset (to_int a)
  | Path => path_hits e h a
  | Oth => False
  end.

(** The arguments of the system calls of Linux on x86_64 that are file
    descriptors or path names, from section 2 of the manual; trailing
    arguments that are neither are left out.  The flags say whether the
    call belongs to the classes %file, %desc and %network
    (src/linux/x86_64/syscallent.h, src/linux/generic/syscallent-common.h).
    Not in the table: select, poll and fsconfig, which refer to descriptors
    indirectly, fanotify_mark, whose arguments differ between
    architectures, and getcwd, whose argument is an output. *)
Definition manual : list (string * bool * bool * bool * list kind) :=
  [
  ("accept", false, false, true, [Fd]);
  ("accept4", false, false, true, [Fd]);
  ("access", true, false, false, [Path]);
  ("acct", true, false, false, [Path]);
  ("bind", false, false, true, [Fd]);
  ("bpf", false, true, false, []);
  ("cachestat", false, true, false, [Fd]);
  ("chdir", true, false, false, [Path]);
  ("chmod", true, false, false, [Path]);
  ("chown", true, false, false, [Path]);
  ("chroot", true, false, false, [Path]);
  ("close", false, true, false, [Fd]);
  ("connect", false, false, true, [Fd]);
  ("copy_file_range", false, true, false, [Fd; Oth; Fd]);
  ("creat", true, true, false, [Path]);
  ("dup", false, true, false, [Fd]);
  ("dup2", false, true, false, [Fd; Fd]);
  ("dup3", false, true, false, [Fd; Fd]);
  ("epoll_create", false, true, false, []);
  ("epoll_create1", false, true, false, []);
  ("epoll_pwait", false, true, false, [Fd]);
  ("epoll_pwait2", false, true, false, [Fd]);
  ("epoll_wait", false, true, false, [Fd]);
  ("eventfd", false, true, false, []);
  ("eventfd2", false, true, false, []);
  ("execve", true, false, false, [Path]);
  ("execveat", true, true, false, [Fd; Path]);
  ("faccessat", true, true, false, [Fd; Path]);
  ("faccessat2", true, true, false, [Fd; Path]);
  ("fadvise64", false, true, false, [Fd]);
  ("fallocate", false, true, false, [Fd]);
  ("fanotify_init", false, true, false, []);
  ("fchdir", false, true, false, [Fd]);
  ("fchmod", false, true, false, [Fd]);
  ("fchmodat", true, true, false, [Fd; Path]);
  ("fchmodat2", true, true, false, [Fd; Path]);
  ("fchown", false, true, false, [Fd]);
  ("fchownat", true, true, false, [Fd; Path]);
  ("fcntl", false, true, false, [Fd]);
  ("fdatasync", false, true, false, [Fd]);
  ("fgetxattr", false, true, false, [Fd]);
  ("finit_module", false, true, false, [Fd]);
  ("flistxattr", false, true, false, [Fd]);
  ("flock", false, true, false, [Fd]);
  ("fremovexattr", false, true, false, [Fd]);
  ("fsetxattr", false, true, false, [Fd]);
  ("fsmount", false, true, false, [Fd]);
  ("fsopen", false, true, false, []);
  ("fspick", true, true, false, [Fd; Path]);
  ("fstat", false, true, false, [Fd]);
  ("fstatfs", false, true, false, [Fd]);
  ("fsync", false, true, false, [Fd]);
  ("ftruncate", false, true, false, [Fd]);
  ("futimesat", true, true, false, [Fd; Path]);
  ("getdents", false, true, false, [Fd]);
  ("getdents64", false, true, false, [Fd]);
  ("getpeername", false, false, true, [Fd]);
  ("getpmsg", false, false, true, [Fd]);
  ("getsockname", false, false, true, [Fd]);
  ("getsockopt", false, false, true, [Fd]);
  ("getxattr", true, false, false, [Path]);
  ("getxattrat", true, true, false, [Fd; Path]);
  ("inotify_add_watch", true, true, false, [Fd; Path]);
  ("inotify_init", false, true, false, []);
  ("inotify_init1", false, true, false, []);
  ("inotify_rm_watch", false, true, false, [Fd]);
  ("io_uring_enter", false, true, false, [Fd]);
  ("io_uring_register", false, true, false, [Fd]);
  ("io_uring_setup", false, true, false, []);
  ("ioctl", false, true, false, [Fd]);
  ("kexec_file_load", false, true, false, [Fd; Fd]);
  ("landlock_add_rule", false, true, false, [Fd]);
  ("landlock_create_ruleset", false, true, false, []);
  ("landlock_restrict_self", false, true, false, [Fd]);
  ("link", true, false, false, [Path; Path]);
  ("linkat", true, true, false, [Fd; Path; Fd; Path]);
  ("listen", false, false, true, [Fd]);
  ("listxattr", true, false, false, [Path]);
  ("listxattrat", true, true, false, [Fd; Path]);
  ("lseek", false, true, false, [Fd]);
  ("lstat", true, false, false, [Path]);
  ("memfd_create", false, true, false, []);
  ("memfd_secret", false, true, false, []);
  ("mkdir", true, false, false, [Path]);
  ("mkdirat", true, true, false, [Fd; Path]);
  ("mknod", true, false, false, [Path]);
  ("mknodat", true, true, false, [Fd; Path]);
  ("mmap", false, true, false, [Oth; Oth; Oth; Oth; Fd]);
  ("mount", true, false, false, [Path; Path]);
  ("mount_setattr", true, true, false, [Fd; Path]);
  ("move_mount", true, true, false, [Fd; Path; Fd; Path]);
  ("mq_getsetattr", false, true, false, [Fd]);
  ("mq_notify", false, true, false, [Fd]);
  ("mq_open", false, true, false, []);
  ("mq_timedreceive_time64", false, true, false, [Fd]);
  ("mq_timedsend_time64", false, true, false, [Fd]);
  ("name_to_handle_at", true, true, false, [Fd; Path]);
  ("newfstatat", true, true, false, [Fd; Path]);
  ("open", true, true, false, [Path]);
  ("open_by_handle_at", false, true, false, [Fd]);
  ("open_tree", true, true, false, [Fd; Path]);
  ("openat", true, true, false, [Fd; Path]);
  ("openat2", true, true, false, [Fd; Path]);
  ("pidfd_getfd", false, true, false, [Fd]);
  ("pidfd_open", false, true, false, []);
  ("pidfd_send_signal", false, true, false, [Fd]);
  ("pipe", false, true, false, []);
  ("pipe2", false, true, false, []);
  ("pivotroot", true, false, false, [Path; Path]);
  ("pread", false, true, false, [Fd]);
  ("preadv", false, true, false, [Fd]);
  ("preadv2", false, true, false, [Fd]);
  ("process_madvise", false, true, false, [Fd]);
  ("process_mrelease", false, true, false, [Fd]);
  ("putpmsg", false, false, true, [Fd]);
  ("pwrite", false, true, false, [Fd]);
  ("pwritev", false, true, false, [Fd]);
  ("pwritev2", false, true, false, [Fd]);
  ("quotactl", true, false, false, [Oth; Path]);
  ("quotactl_fd", false, true, false, [Fd]);
  ("read", false, true, false, [Fd]);
  ("readahead", false, true, false, [Fd]);
  ("readlink", true, false, false, [Path]);
  ("readlinkat", true, true, false, [Fd; Path]);
  ("readv", false, true, false, [Fd]);
  ("recvfrom", false, false, true, [Fd]);
  ("recvmmsg_time64", false, false, true, [Fd]);
  ("recvmsg", false, false, true, [Fd]);
  ("removexattr", true, false, false, [Path]);
  ("removexattrat", true, true, false, [Fd; Path]);
  ("renameat", true, true, false, [Fd; Path; Fd; Path]);
  ("renameat2", true, true, false, [Fd; Path; Fd; Path]);
  ("rmdir", true, false, false, [Path]);
  ("sendfile64", false, true, true, [Fd; Fd]);
  ("sendmmsg", false, false, true, [Fd]);
  ("sendmsg", false, false, true, [Fd]);
  ("sendto", false, false, true, [Fd]);
  ("setns", false, true, false, [Fd]);
  ("setsockopt", false, false, true, [Fd]);
  ("setxattr", true, false, false, [Path]);
  ("setxattrat", true, true, false, [Fd; Path]);
  ("shutdown", false, false, true, [Fd]);
  ("signalfd", false, true, false, [Fd]);
  ("signalfd4", false, true, false, [Fd]);
  ("socket", false, false, true, []);
  ("socketpair", false, false, true, []);
  ("splice", false, true, false, [Fd; Oth; Fd]);
  ("stat", true, false, false, [Path]);
  ("statfs", true, false, false, [Path]);
  ("statx", true, true, false, [Fd; Path]);
  ("swapoff", true, false, false, [Path]);
  ("swapon", true, false, false, [Path]);
  ("symlink", true, false, false, [Oth; Path]);
  ("symlinkat", true, true, false, [Oth; Fd; Path]);
  ("sync_file_range", false, true, false, [Fd]);
  ("syncfs", false, true, false, [Fd]);
  ("tee", false, true, false, [Fd; Fd]);
  ("timerfd_create", false, true, false, []);
  ("timerfd_gettime64", false, true, false, [Fd]);
  ("timerfd_settime64", false, true, false, [Fd]);
  ("truncate", true, false, false, [Path]);
  ("umount2", true, false, false, [Path]);
  ("unlink", true, false, false, [Path]);
  ("unlinkat", true, true, false, [Fd; Path]);
  ("uselib", true, false, false, [Path]);
  ("userfaultfd", false, true, false, []);
  ("utime", true, false, false, [Path]);
  ("utimensat_time64", true, true, false, [Fd; Path]);
  ("utimes", true, false, false, [Path]);
  ("vmsplice", false, true, false, [Fd]);
  ("write", false, true, false, [Fd]);
  ("writev", false, true, false, [Fd])
  ]%string.
(** Three calls of the manual for which the claim fails. *)
Definition manual_rest : list (string * bool * bool * bool * list kind) :=
  [
  ("rename", true, false, false, [Path; Path]);
  ("epoll_ctl", false, true, false, [Fd; Oth; Fd]);
  ("perf_event_open", false, true, false, [Oth; Oth; Oth; Fd])
  ]%string.
