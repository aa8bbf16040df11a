(** How fcntl is shown: src/fcntl.c, src/fetch_struct_flock.c; a little-endian host, the constants of asm-generic, 64-bit calls and their 32-bit counterparts on x86.
    printxval and printflags are those of XlatModel (C36, C37).  Parameters: the texts of descriptors (printfd, C69), of process ids of a kind (printpid, C78), of
    open flags (tprint_open_modes, C52) and of signals (printsignal, C17).  Not modelled: the text behind the result of F_GETFD, F_GETFL, F_GETLEASE, F_GET_SEALS and F_GETSIG. *)
From Verif Require Import Base Printf InfoModel XlatModel.
From Verif Require BitsModel ExtModel TvalModel NumaModel AioModel SeekModel.
Local Open Scope N_scope.

Inductive pid_type := PT_NONE | PT_TID | PT_TGID | PT_PGID.
Record texts := { fd : Z -> list N; pid : pid_type -> Z -> list N; owner : Z -> list N; modes : N -> list N; signal : Z -> list N }.
Definition env := NumaModel.env.
Definition st (e : env) := NumaModel.st e.
Definition names (l : list (N * list N)) : list entry := map (fun p => (fst p, Some (snd p))) l.
(** src/xlat/fcntlcmds.in, fdflags.in, lockfcmds.in, notifyflags.in, f_seals.in, f_owner_types.in *)
Definition fcntlcmds : xlat := {| ty := XT_NORMAL; data := names
  [(0, bs "F_DUPFD"); (1, bs "F_GETFD"); (2, bs "F_SETFD"); (3, bs "F_GETFL"); (4, bs "F_SETFL"); (5, bs "F_GETLK"); (6, bs "F_SETLK"); (7, bs "F_SETLKW"); (8, bs "F_SETOWN"); (9, bs "F_GETOWN");
   (10, bs "F_SETSIG"); (11, bs "F_GETSIG"); (12, bs "F_GETLK64"); (13, bs "F_SETLK64"); (14, bs "F_SETLKW64"); (15, bs "F_SETOWN_EX"); (16, bs "F_GETOWN_EX"); (17, bs "F_GETOWNER_UIDS");
   (36, bs "F_OFD_GETLK"); (37, bs "F_OFD_SETLK"); (38, bs "F_OFD_SETLKW"); (1024, bs "F_SETLEASE"); (1025, bs "F_GETLEASE"); (1026, bs "F_NOTIFY"); (1027, bs "F_DUPFD_QUERY"); (1028, bs "F_CREATED_QUERY");
   (1029, bs "F_CANCELLK"); (1030, bs "F_DUPFD_CLOEXEC"); (1031, bs "F_SETPIPE_SZ"); (1032, bs "F_GETPIPE_SZ"); (1033, bs "F_ADD_SEALS"); (1034, bs "F_GET_SEALS")] |}.
Definition fdflags : xlat := {| ty := XT_NORMAL; data := [(1, Some (bs "FD_CLOEXEC"))] |}.
Definition lockfcmds : xlat := {| ty := XT_NORMAL; data := names [(0, bs "F_RDLCK"); (1, bs "F_WRLCK"); (2, bs "F_UNLCK"); (4, bs "F_EXLCK"); (8, bs "F_SHLCK")] |}.
Definition notifyflags : xlat := {| ty := XT_NORMAL; data :=
  [(0x1, Some (bs "DN_ACCESS")); (0x2, Some (bs "DN_MODIFY")); (0x4, Some (bs "DN_CREATE")); (0x8, Some (bs "DN_DELETE")); (0x10, Some (bs "DN_RENAME")); (0x20, Some (bs "DN_ATTRIB")); (0x80000000, Some (bs "DN_MULTISHOT"))] |}.
Definition f_seals : xlat := {| ty := XT_NORMAL; data :=
  [(0x1, Some (bs "F_SEAL_SEAL")); (0x2, Some (bs "F_SEAL_SHRINK")); (0x4, Some (bs "F_SEAL_GROW")); (0x8, Some (bs "F_SEAL_WRITE")); (0x10, Some (bs "F_SEAL_FUTURE_WRITE")); (0x20, Some (bs "F_SEAL_EXEC"))] |}.
Definition f_owner_types : xlat := {| ty := XT_INDEXED; data := [(0, Some (bs "F_OWNER_TID")); (1, Some (bs "F_OWNER_PID")); (2, Some (bs "F_OWNER_PGRP"))] |}.
Definition xval (t : xlat) (dflt : list N) (e : env) (v : N) : list N := printxvals_ex v (Some dflt) (st e) FMT_X [t].

(** struct flock and struct flock64: the size of an offset, the places of l_start, l_len and l_pid, the size *)
Record layout := { ow : nat; o_start : nat; o_len : nat; o_pid : nat; size : nat }.
Definition flock64_native := {| ow := 8; o_start := 8; o_len := 16; o_pid := 24; size := 32 |}.
Definition flock_compat := {| ow := 4; o_start := 4; o_len := 8; o_pid := 12; size := 16 |}.
Definition flock64_compat := {| ow := 8; o_start := 4; o_len := 12; o_pid := 20; size := 24 |}.
(** print_struct_flock64, printflock64, printflock, src/fcntl.c:35-69, and fetch_struct_flock, fetch_struct_flock64, src/fetch_struct_flock.c:35-73 *)
Definition printflock (x : texts) (e : env) (l : layout) (getlk : bool) (a : N) : list N :=
  match ExtModel.umoven_or_printaddr (NumaModel.o e) (NumaModel.m e) a (size l) with
  | Some b =>
      AioModel.struct ([AioModel.field (bs "l_type") (xval lockfcmds (bs "F_???") e (ld b 0 2)); AioModel.field (bs "l_whence") (xval SeekModel.whence_codes (bs "SEEK_???") e (ld b 2 2));
        AioModel.field (bs "l_start") (TvalModel.sdec (TvalModel.sx (ow l) (ld b (o_start l) (ow l)))); AioModel.field (bs "l_len") (TvalModel.sdec (TvalModel.sx (ow l) (ld b (o_len l) (ow l))))] ++
        (if getlk then [AioModel.field (bs "l_pid") (pid x PT_TGID (TvalModel.sx 4 (ld b (o_pid l) 4)))] else []))
  | None => TvalModel.printaddr a
  end.
(** print_f_owner_ex, src/fcntl.c:71-99 *)
Definition owner_kind (t : N) : pid_type := if t =? 0 then PT_TID else if t =? 1 then PT_TGID else if t =? 2 then PT_PGID else PT_NONE.
Definition print_f_owner_ex (x : texts) (e : env) (a : N) : list N :=
  match ExtModel.umoven_or_printaddr (NumaModel.o e) (NumaModel.m e) a 8 with
  | Some b => AioModel.struct [AioModel.field (bs "type") (xval f_owner_types (bs "F_OWNER_???") e (ld b 0 4)); AioModel.field (bs "pid") (pid x (owner_kind (ld b 0 4)) (TvalModel.sx 4 (ld b 4 4)))]
  | None => TvalModel.printaddr a
  end.
Definition int (a : N) : Z := TvalModel.sx 4 (u32 a).
(** print_fcntl, src/fcntl.c:101-218: the third argument, if it is shown; [e], [e']: on entering and on exiting; [compat]: a 32-bit caller *)
Definition print_fcntl (x : texts) (compat : bool) (e e' : env) (cmd a2 : N) : list (list N) :=
  let lk := if compat then flock_compat else flock64_native in
  let lk64 := if compat then flock64_compat else flock64_native in
  match cmd with
  | 2 => [printflags_ex (u32 a2) (Some (bs "FD_???")) (st e) FMT_X [fdflags]]
  | 8 => [owner x (int a2)]
  | 1031 => [TvalModel.sdec (TvalModel.sx 8 (u64 a2))]
  | 0 | 1030 => [TvalModel.sdec (TvalModel.sx 8 (u64 a2))]
  | 4 => [modes x (u32 a2)]
  | 6 | 7 => [printflock x e lk false a2]
  | 37 | 38 => [printflock x e lk64 false a2]
  | 15 => [print_f_owner_ex x e a2]
  | 1026 => [printflags_ex a2 (Some (bs "DN_???")) (st e) FMT_X [notifyflags]]
  | 1027 => [fd x (int a2)]
  | 1024 => [xval lockfcmds (bs "F_???") e a2]
  | 1033 => [printflags_ex a2 (Some (bs "F_SEAL_???")) (st e) FMT_X [f_seals]]
  | 10 => [signal x (int a2)]
  | 9 | 1032 | 1 | 3 | 1025 | 1034 | 11 => []
  | 5 => [printflock x e' lk true a2]
  | 36 => [printflock x e' lk64 true a2]
  | 16 => [print_f_owner_ex x e' a2]
  | _ => [pr_hex a2]
  end.
(** src/fcntl.c:220-231; printxval takes an unsigned int, src/defs.h:1637 (printflags: 2127) *)
Definition fcntl (x : texts) (compat : bool) (e e' : env) (a0 a1 a2 : N) : list N :=
  NumaModel.args ([fd x (int a0); xval fcntlcmds (bs "F_???") e (u32 a1)] ++ print_fcntl x compat e e' (u32 a1) a2).
(** src/fcntl.c:233-258 *)
Definition fcntl64 (x : texts) (e e' : env) (a0 a1 a2 : N) : list N :=
  let cmd := u32 a1 in
  NumaModel.args ([fd x (int a0); xval fcntlcmds (bs "F_???") e cmd] ++
    match cmd with
    | 13 | 14 => [printflock x e flock64_compat false a2]
    | 12 => [printflock x e' flock64_compat true a2]
    | _ => print_fcntl x true e e' cmd a2
    end).
(** What the result of F_GETOWN is taken for, src/fcntl.c:162-164: decided on entering (RVAL_DECODED: src/syscall.c:682, 835-836), when u_rval is that of the
    previous call (it is set in src/syscall.c:1542-1594 on exiting only).  The result: of [before] *)
Definition getown_kind (before rval : N) : pid_type := if (int before <? 0)%Z then PT_PGID else PT_TGID.
