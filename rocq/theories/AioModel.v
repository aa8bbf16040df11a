(** How asynchronous I/O is shown: src/aio.c, and the priorities of src/ioprio.c; a little-endian host with 64-bit size_t.
    print_array is that of NumaModel (C49), printxval and printflags those of XlatModel (C36, C37).  Parameters: the texts of a descriptor
    (printfd, C69), of a string (printstrn, C12-C15) and of an I/O vector (tprint_iov, C50). *)
From Verif Require Import Base Printf InfoModel XlatModel.
From Verif Require BitsModel ExtModel TvalModel NumaModel.
Local Open Scope N_scope.

Record texts := { fd : Z -> list N; str : N -> N -> list N; iov : N -> N -> bool -> list N }.
Definition env := NumaModel.env.
Definition st (e : env) := NumaModel.st e.

(** src/xlat/aio_cmds.in, aio_iocb_flags.in, rwf_flags.in, pollflags.in, ioprio_class.in *)
Definition aio_cmds : xlat := {| ty := XT_INDEXED; data :=
  [(0, Some (bs "IOCB_CMD_PREAD")); (1, Some (bs "IOCB_CMD_PWRITE")); (2, Some (bs "IOCB_CMD_FSYNC")); (3, Some (bs "IOCB_CMD_FDSYNC")); (4, Some (bs "IOCB_CMD_PREADX"));
   (5, Some (bs "IOCB_CMD_POLL")); (6, Some (bs "IOCB_CMD_NOOP")); (7, Some (bs "IOCB_CMD_PREADV")); (8, Some (bs "IOCB_CMD_PWRITEV"))] |}.
Definition aio_iocb_flags : xlat := {| ty := XT_NORMAL; data := [(1, Some (bs "IOCB_FLAG_RESFD")); (2, Some (bs "IOCB_FLAG_IOPRIO"))] |}.
Definition rwf_flags : xlat := {| ty := XT_NORMAL; data :=
  [(0x01, Some (bs "RWF_HIPRI")); (0x02, Some (bs "RWF_DSYNC")); (0x04, Some (bs "RWF_SYNC")); (0x08, Some (bs "RWF_NOWAIT")); (0x10, Some (bs "RWF_APPEND"));
   (0x20, Some (bs "RWF_NOAPPEND")); (0x40, Some (bs "RWF_ATOMIC")); (0x80, Some (bs "RWF_DONTCACHE"))] |}.
Definition pollflags : xlat := {| ty := XT_NORMAL; data :=
  [(0x1, Some (bs "POLLIN")); (0x2, Some (bs "POLLPRI")); (0x4, Some (bs "POLLOUT")); (0x8, Some (bs "POLLERR")); (0x10, Some (bs "POLLHUP")); (0x20, Some (bs "POLLNVAL"));
   (0x40, Some (bs "POLLRDNORM")); (0x80, Some (bs "POLLRDBAND")); (0x100, Some (bs "POLLWRNORM")); (0x200, Some (bs "POLLWRBAND")); (0x400, Some (bs "POLLMSG"));
   (0x1000, Some (bs "POLLREMOVE")); (0x2000, Some (bs "POLLRDHUP")); (0x8000, Some (bs "POLL_BUSY_LOOP"))] |}.
Definition ioprio_class : xlat := {| ty := XT_INDEXED; data :=
  [(0, Some (bs "IOPRIO_CLASS_NONE")); (1, Some (bs "IOPRIO_CLASS_RT")); (2, Some (bs "IOPRIO_CLASS_BE")); (3, Some (bs "IOPRIO_CLASS_IDLE"))] |}.

(** sprint_ioprio, src/ioprio.c:21-35; the buffers are large enough *)
Definition sprint_ioprio (s : BitsModel.xstyle_t) (v : N) : list N :=
  bs "IOPRIO_PRIO_VALUE(" ++ sprintxval_ex ioprio_class (N.shiftr v 13) (Some (bs "IOPRIO_CLASS_???")) s FMT_X ++ bs ", " ++ TvalModel.udec (N.land v 8191) ++ bs ")".
(** print_ioprio, src/ioprio.c:37-50 *)
Definition print_ioprio (s : BitsModel.xstyle_t) (v : N) : list N :=
  match s with
  | BitsModel.XRAW => pr_hex v
  | BitsModel.XABBREV => sprint_ioprio s v
  | BitsModel.XVERBOSE => pr_hex v ++ bs " /* " ++ sprint_ioprio s v ++ bs " */"
  end.

(** struct iocb, <linux/aio_abi.h>, 64 bytes *)
Definition aio_data (c : list N) := ld c 0 8.
Definition aio_key (c : list N) := ld c 8 4.
Definition aio_rw_flags (c : list N) := ld c 12 4.
Definition aio_lio_opcode (c : list N) := ld c 16 2.
Definition aio_reqprio (c : list N) := ld c 18 2.
Definition aio_fildes (c : list N) := ld c 20 4.
Definition aio_buf (c : list N) := ld c 24 8.
Definition aio_nbytes (c : list N) := ld c 32 8.
Definition aio_offset (c : list N) := ld c 40 8.
Definition aio_flags (c : list N) := ld c 56 4.
Definition aio_resfd (c : list N) := ld c 60 4.

(** tprints_field_name *)
Definition field (n v : list N) : list N := n ++ bs "=" ++ v.
Definition when {A} (b : bool) (l : list A) : list A := if b then l else [].
(** tprint_struct_begin, _next, _end *)
Definition struct (l : list (list N)) : list N := bs "{" ++ NumaModel.args l ++ bs "}".

Inductive sub := SUB_NONE | SUB_COMMON | SUB_VECTOR | SUB_POLL.
(** tprint_lio_opcode, src/aio.c:43-65: the result *)
Definition sub_of (cmd : N) : sub :=
  nth (N.to_nat cmd) [SUB_COMMON; SUB_COMMON; SUB_NONE; SUB_NONE; SUB_NONE; SUB_POLL; SUB_NONE; SUB_VECTOR; SUB_VECTOR] SUB_NONE.
(** print_common_flags, src/aio.c:67-86 *)
Definition common_flags (x : texts) (s : BitsModel.xstyle_t) (c : list N) : list (list N) :=
  when (negb (aio_flags c =? 0)) [field (bs "aio_flags") (printflags_ex (aio_flags c) (Some (bs "IOCB_FLAG_???")) s FMT_X [aio_iocb_flags])] ++
  (if negb (N.land (aio_flags c) 1 =? 0) then [field (bs "aio_resfd") (fd x (TvalModel.sx 4 (aio_resfd c)))]
   else when (negb (aio_resfd c =? 0)) [field (bs "aio_resfd") (pr_hex (aio_resfd c))]).
(** iocb_is_valid, src/aio.c:88-94 *)
Definition valid (c : list N) : bool := aio_nbytes c <? 2 ^ 63.
(** print_iocb_header, src/aio.c:96-132: the members *)
Definition header (x : texts) (s : BitsModel.xstyle_t) (c : list N) : list (list N) :=
  [field (bs "aio_data") (pr_hex (aio_data c))] ++
  when (negb (aio_key c =? 0)) [field (bs "aio_key") (TvalModel.udec (aio_key c))] ++
  when (negb (aio_rw_flags c =? 0)) [field (bs "aio_rw_flags") (printflags_ex (aio_rw_flags c) (Some (bs "RWF_???")) s FMT_X [rwf_flags])] ++
  [field (bs "aio_lio_opcode") (printxvals_ex (aio_lio_opcode c) (Some (bs "IOCB_CMD_???")) s FMT_U [aio_cmds])] ++
  (if negb (N.land (aio_flags c) 2 =? 0) then [field (bs "aio_reqprio") (print_ioprio s (aio_reqprio c))]
   else when (negb (aio_reqprio c =? 0)) [field (bs "aio_reqprio") (TvalModel.sdec (TvalModel.sx 2 (aio_reqprio c)))]) ++
  [field (bs "aio_fildes") (fd x (TvalModel.sx 4 (aio_fildes c)))].
(** print_iocb, src/aio.c:134-185 *)
Definition members (x : texts) (s : BitsModel.xstyle_t) (c : list N) : list (list N) :=
  header x s c ++
  match sub_of (aio_lio_opcode c) with
  | SUB_COMMON =>
      [field (bs "aio_buf") (if (aio_lio_opcode c =? 1) && valid c then str x (aio_buf c) (aio_nbytes c) else pr_hex (aio_buf c));
       field (bs "aio_nbytes") (TvalModel.udec (aio_nbytes c)); field (bs "aio_offset") (TvalModel.sdec (TvalModel.sx 8 (aio_offset c)))] ++ common_flags x s c
  | SUB_VECTOR =>
      (if valid c then [field (bs "aio_buf") (iov x (aio_buf c) (aio_nbytes c) (aio_lio_opcode c =? 8))]
       else [field (bs "aio_buf") (pr_hex (aio_buf c)); field (bs "aio_nbytes") (TvalModel.udec (aio_nbytes c))]) ++
      [field (bs "aio_offset") (TvalModel.sdec (TvalModel.sx 8 (aio_offset c)))] ++ common_flags x s c
  | SUB_POLL => [field (bs "aio_buf") (printflags_ex (aio_buf c) (Some (bs "POLL???")) s FMT_X [pollflags])] ++ common_flags x s c
  | SUB_NONE => []
  end.
Definition print_iocb (x : texts) (s : BitsModel.xstyle_t) (c : list N) : list N := struct (members x s c).
(** print_iocbp, src/aio.c:187-203; [b]: the element, 4 or 8 bytes *)
Definition print_iocbp (x : texts) (e : env) (b : list N) : list N :=
  let addr := if (length b <? 8)%nat then ld b 0 4 else ld b 0 8 in
  match ExtModel.umoven_or_printaddr (NumaModel.o e) (NumaModel.m e) addr 64 with
  | Some c => print_iocb x (st e) c
  | None => TvalModel.printaddr addr
  end.
(** truncate_klong_to_current_wordsize *)
Definition trunc (e : env) (a : N) : Z := if NumaModel.ws e =? 4 then TvalModel.sx 4 (u32 a) else TvalModel.sx 8 (u64 a).
(** src/aio.c:205-228 *)
Definition io_submit (x : texts) (e : env) (a0 a1 a2 : N) : list N :=
  let nr := trunc e a1 in
  NumaModel.args [TvalModel.printaddr a0; TvalModel.sdec nr;
                  if (nr <? 0)%Z then TvalModel.printaddr a2 else NumaModel.print_array e (print_iocbp x e) a2 (Z.to_N nr) (NumaModel.ws e)].
(** print_io_event, src/aio.c:230-246 *)
Definition print_io_event (b : list N) : list N :=
  struct [field (bs "data") (pr_hex (ld b 0 8)); field (bs "obj") (pr_hex (ld b 8 8)); field (bs "res") (TvalModel.sdec (TvalModel.sx 8 (ld b 16 8)));
          field (bs "res2") (TvalModel.sdec (TvalModel.sx 8 (ld b 24 8)))].
(** src/aio.c:248-270; [e], [e']: on entering and on exiting *)
Definition io_cancel (x : texts) (e e' : env) (a0 a1 a2 : N) : list N :=
  NumaModel.args [TvalModel.printaddr a0;
    match ExtModel.umoven_or_printaddr (NumaModel.o e) (NumaModel.m e) a1 64 with Some c => struct (header x (st e) c) | None => TvalModel.printaddr a1 end;
    match ExtModel.umoven_or_printaddr (NumaModel.o e') (NumaModel.m e') a2 32 with Some b => print_io_event b | None => TvalModel.printaddr a2 end].
(** print_io_getevents, src/aio.c:272-319; [rest]: the texts of the timeout and of the signals, if any; [rval]: u_rval *)
Definition io_getevents (e e' : env) (rval : N) (rest : list (list N)) (a0 a1 a2 a3 : N) : list N :=
  NumaModel.args ([TvalModel.printaddr a0; TvalModel.sdec (trunc e a1); TvalModel.sdec (trunc e a2); NumaModel.print_array e' print_io_event a3 rval 32] ++ rest).
