(** How epoll is shown: src/epoll.c; a little-endian host with 64-bit size_t.
    print_array is that of NumaModel (C49), printxval and printflags those of XlatModel (C36, C37).  Parameters: the text of a descriptor
    (printfd, C69), and of a timeout of struct timespec and a set of signals (C94, C17). *)
From Verif Require Import Base Printf InfoModel XlatModel.
From Verif Require BitsModel ExtModel TvalModel NumaModel AioModel.
Local Open Scope N_scope.

Definition env := NumaModel.env.
Definition st (e : env) := NumaModel.st e.
(** src/xlat/epollflags.in (O_CLOEXEC is 02000000), epollctls.in, epollevents.in *)
Definition epollflags : xlat := {| ty := XT_NORMAL; data := [(0x80000, Some (bs "EPOLL_CLOEXEC"))] |}.
Definition epollctls : xlat := {| ty := XT_INDEXED; data := [(0, None); (1, Some (bs "EPOLL_CTL_ADD")); (2, Some (bs "EPOLL_CTL_DEL")); (3, Some (bs "EPOLL_CTL_MOD"))] |}.
Definition epollevents : xlat := {| ty := XT_NORMAL; data :=
  [(0x1, Some (bs "EPOLLIN")); (0x2, Some (bs "EPOLLPRI")); (0x4, Some (bs "EPOLLOUT")); (0x8, Some (bs "EPOLLERR")); (0x10, Some (bs "EPOLLHUP")); (0x20, Some (bs "EPOLLNVAL"));
   (0x40, Some (bs "EPOLLRDNORM")); (0x80, Some (bs "EPOLLRDBAND")); (0x100, Some (bs "EPOLLWRNORM")); (0x200, Some (bs "EPOLLWRBAND")); (0x400, Some (bs "EPOLLMSG"));
   (0x2000, Some (bs "EPOLLRDHUP")); (0x10000000, Some (bs "EPOLLEXCLUSIVE")); (0x20000000, Some (bs "EPOLLWAKEUP")); (0x40000000, Some (bs "EPOLLONESHOT")); (0x80000000, Some (bs "EPOLLET"))] |}.

(** An int *)
Definition int (a : N) : Z := TvalModel.sx 4 (u32 a).
(** src/epoll.c:15-22 *)
Definition epoll_create (a0 : N) : list N := TvalModel.sdec (int a0).
(** src/epoll.c:26-32; printflags takes an unsigned int, src/defs.h:2127 *)
Definition epoll_create1 (e : env) (a0 : N) : list N := printflags_ex (u32 a0) (Some (bs "EPOLL_???")) (st e) FMT_X [epollflags].
(** struct epoll_event, <linux/eventpoll.h>: [packed] (EPOLL_PACKED) on x86_64 *)
Definition ev_data (packed : bool) : nat := if packed then 4 else 8.
Definition ev_size (packed : bool) : nat := ev_data packed + 8.
(** print_epoll_event, src/epoll.c:36-48 *)
Definition print_epoll_event (packed : bool) (s : BitsModel.xstyle_t) (b : list N) : list N :=
  AioModel.struct [AioModel.field (bs "events") (printflags_ex (ld b 0 4) (Some (bs "EPOLL???")) s FMT_X [epollevents]); AioModel.field (bs "data") (pr_hex (ld b (ev_data packed) 8))].
(** src/epoll.c:52-75 *)
Definition epoll_ctl (fd : Z -> list N) (packed : bool) (e : env) (a0 a1 a2 a3 : N) : list N :=
  let op := u32 a1 in
  NumaModel.args [fd (int a0); printxvals_ex op (Some (bs "EPOLL_CTL_???")) (st e) FMT_X [epollctls]; fd (int a2);
    if op =? 2 then TvalModel.printaddr a3
    else match ExtModel.umoven_or_printaddr (NumaModel.o e) (NumaModel.m e) a3 (ev_size packed) with Some b => print_epoll_event packed (st e) b | None => TvalModel.printaddr a3 end].
(** epoll_wait_common, src/epoll.c:77-99, and epoll_pwait_common, src/epoll.c:115-130; [e]: on exiting; [rval]: u_rval; [tmo]: the text of the timeout;
    [rest]: those of the signals and of the size of their set, if any *)
Definition epoll_wait_common (fd : Z -> list N) (packed : bool) (e : env) (rval : N) (tmo : list N) (rest : list (list N)) (a0 a1 a2 : N) : list N :=
  NumaModel.args ([fd (int a0); NumaModel.print_array e (print_epoll_event packed (st e)) a1 rval (N.of_nat (ev_size packed)); TvalModel.sdec (int a2); tmo] ++ rest).
(** src/epoll.c:101-113; print_timeout_int *)
Definition epoll_wait (fd : Z -> list N) (packed : bool) (e : env) (rval a0 a1 a2 a3 : N) : list N :=
  epoll_wait_common fd packed e rval (TvalModel.sdec (int a3)) [] a0 a1 a2.
(** src/epoll.c:132-135; [sig]: print_sigset_addr_len *)
Definition epoll_pwait (fd : Z -> list N) (sig : N -> N -> list N) (packed : bool) (e : env) (rval a0 a1 a2 a3 a4 a5 : N) : list N :=
  epoll_wait_common fd packed e rval (TvalModel.sdec (int a3)) [sig a4 a5; TvalModel.udec a5] a0 a1 a2.
(** src/epoll.c:137-140; [ts]: print_timespec64 *)
Definition epoll_pwait2 (fd : Z -> list N) (sig : N -> N -> list N) (ts : N -> list N) (packed : bool) (e : env) (rval a0 a1 a2 a3 a4 a5 : N) : list N :=
  epoll_wait_common fd packed e rval (ts a3) [sig a4 a5; TvalModel.udec a5] a0 a1 a2.
