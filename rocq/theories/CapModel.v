(** How capabilities are shown: src/capability.c:14-155 with src/caps0.h, src/caps1.h, src/xlat/cap_mask0.in,
    src/xlat/cap_mask1.in, src/xlat/cap_version.in.
    printflags_ex and printxvals_ex are those of XlatModel (see C36, C37); the memory of the tracee is that of ExtModel
    (see C32).  The text of the pid (PRINT_FIELD_TGID, see C64, C78) is a parameter. *)
From Verif Require Import Base Printf InfoModel XlatModel.
From Verif Require BitsModel ExtModel TvalModel.
Local Open Scope N_scope.

(** src/caps0.h: the enumerators from 0 on; the entries of src/xlat/cap_mask0.in are in the same order *)
Definition caps0 : list (list N) :=
  [bs "CAP_CHOWN"; bs "CAP_DAC_OVERRIDE"; bs "CAP_DAC_READ_SEARCH"; bs "CAP_FOWNER"; bs "CAP_FSETID"; bs "CAP_KILL"; 
   bs "CAP_SETGID"; bs "CAP_SETUID"; bs "CAP_SETPCAP"; bs "CAP_LINUX_IMMUTABLE"; bs "CAP_NET_BIND_SERVICE"; bs "CAP_NET_BROADCAST"; 
   bs "CAP_NET_ADMIN"; bs "CAP_NET_RAW"; bs "CAP_IPC_LOCK"; bs "CAP_IPC_OWNER"; bs "CAP_SYS_MODULE"; bs "CAP_SYS_RAWIO"; 
   bs "CAP_SYS_CHROOT"; bs "CAP_SYS_PTRACE"; bs "CAP_SYS_PACCT"; bs "CAP_SYS_ADMIN"; bs "CAP_SYS_BOOT"; bs "CAP_SYS_NICE"; 
   bs "CAP_SYS_RESOURCE"; bs "CAP_SYS_TIME"; bs "CAP_SYS_TTY_CONFIG"; bs "CAP_MKNOD"; bs "CAP_LEASE"; bs "CAP_AUDIT_WRITE"; 
   bs "CAP_AUDIT_CONTROL"; bs "CAP_SETFCAP"].
(** src/caps1.h, also from 0 on; src/xlat/cap_mask1.in *)
Definition caps1 : list (list N) :=
  [bs "CAP_MAC_OVERRIDE"; bs "CAP_MAC_ADMIN"; bs "CAP_SYSLOG"; bs "CAP_WAKE_ALARM"; bs "CAP_BLOCK_SUSPEND"; bs "CAP_AUDIT_READ"; 
   bs "CAP_PERFMON"; bs "CAP_BPF"; bs "CAP_CHECKPOINT_RESTORE"].
(** "1<<CAP_..." from bit [k] on *)
Fixpoint cap_entries (k : N) (l : list (list N)) : list (N * option (list N)) :=
  match l with [] => [] | n :: r => (2 ^ k, Some (bs "1<<" ++ n)) :: cap_entries (k + 1) r end.
Definition cap_mask0 : xlat := {| ty := XT_NORMAL; data := cap_entries 0 caps0 |}.
Definition cap_mask1 : xlat := {| ty := XT_NORMAL; data := cap_entries 0 caps1 |}.
(** src/capability.c:27-31, src/xlat/cap_version.in *)
Definition VERSION_1 : N := 0x19980330.
Definition VERSION_2 : N := 0x20071026.
Definition VERSION_3 : N := 0x20080522.
Definition cap_version : xlat := {| ty := XT_NORMAL; data :=
  [(VERSION_1, Some (bs "_LINUX_CAPABILITY_VERSION_1")); (VERSION_2, Some (bs "_LINUX_CAPABILITY_VERSION_2")); (VERSION_3, Some (bs "_LINUX_CAPABILITY_VERSION_3"))] |}.

(** src/capability.c:47-59 get_cap_header: version and pid *)
Definition get_cap_header (o : ExtModel.opts) (m : ExtModel.memory) (addr : N) : option (N * N) :=
  if (addr =? 0) || negb (ExtModel.verbose o) then None
  else match ExtModel.umoven m addr 8 with None => None | Some b => Some (ld b 0 4, ld b 4 4) end.
(** src/capability.c:61-76; [pidtext]: of the int *)
Definition print_cap_header (st : BitsModel.xstyle_t) (pidtext : Z -> list N) (addr : N) (h : option (N * N)) : list N :=
  match h with
  | None => TvalModel.printaddr addr
  | Some (v, p) =>
      if addr =? 0 then TvalModel.printaddr addr
      else bs "{version=" ++ printxvals_ex v (Some (bs "_LINUX_CAPABILITY_VERSION_???")) st FMT_X [cap_version] ++ bs ", pid=" ++ pidtext (TvalModel.sx 4 p) ++ bs "}"
  end.
(** src/capability.c:78-91; tprint_flags_begin and tprint_flags_end write nothing *)
Definition print_cap_bits (st : BitsModel.xstyle_t) (lo hi : N) : list N :=
  (if negb (lo =? 0) || (hi =? 0) then printflags_ex lo (Some (bs "CAP_???")) st FMT_X [cap_mask0] else []) ++
  (if hi =? 0 then []
   else (if lo =? 0 then [] else bs "|") ++ printflags_ex hi (Some (bs "CAP_???")) st FMT_X [cap_mask1]).
(** src/capability.c:93-124 *)
Definition print_cap_data (o : ExtModel.opts) (m : ExtModel.memory) (st : BitsModel.xstyle_t) (addr : N) (h : option (N * N)) : list N :=
  match h with
  | None => TvalModel.printaddr addr
  | Some (v, _) =>
      if addr =? 0 then TvalModel.printaddr addr
      else
        let two := (v =? VERSION_2) || (v =? VERSION_3) in
        match ExtModel.umoven_or_printaddr o m addr (if two then 24 else 12) with
        | None => TvalModel.printaddr addr
        | Some b =>
            let set i := print_cap_bits st (ld b i 4) (if two then ld b (12 + i) 4 else 0) in
            bs "{effective=" ++ set 0%nat ++ bs ", permitted=" ++ set 4%nat ++ bs ", inheritable=" ++ set 8%nat ++ bs "}"
        end
  end.
(** src/capability.c:126-141 capget: on entering, and on exiting ([ExtModel.failed o]: syserror) *)
Definition capget_entering (o : ExtModel.opts) (m : ExtModel.memory) (st : BitsModel.xstyle_t) (pidtext : Z -> list N) (hdr : N) : list N :=
  print_cap_header st pidtext hdr (get_cap_header o m hdr).
Definition capget_exiting (o : ExtModel.opts) (m : ExtModel.memory) (st : BitsModel.xstyle_t) (hdr dat : N) : list N :=
  print_cap_data o m st dat (if ExtModel.failed o then None else get_cap_header o m hdr).
(** src/capability.c:143-155 capset *)
Definition sys_capset (o : ExtModel.opts) (m : ExtModel.memory) (st : BitsModel.xstyle_t) (pidtext : Z -> list N) (hdr dat : N) : list N :=
  let h := get_cap_header o m hdr in
  print_cap_header st pidtext hdr h ++ bs ", " ++ print_cap_data o m st dat h.
