(** How mount is shown: src/mount.c.  printflags is that of XlatModel (C36).  Parameters: the texts of a path and of a string (printpath, printstr, C12-C15). *)
From Verif Require Import Base Printf XlatModel.
From Verif Require BitsModel TvalModel NumaModel.
Local Open Scope N_scope.

(** src/xlat/mount_flags.in *)
Definition mount_flags : xlat := {| ty := XT_NORMAL; data :=
  [(2^0, Some (bs "MS_RDONLY")); (2^1, Some (bs "MS_NOSUID")); (2^2, Some (bs "MS_NODEV")); (2^3, Some (bs "MS_NOEXEC")); (2^4, Some (bs "MS_SYNCHRONOUS")); (2^5, Some (bs "MS_REMOUNT"));
   (2^6, Some (bs "MS_MANDLOCK")); (2^7, Some (bs "MS_DIRSYNC")); (2^8, Some (bs "MS_NOSYMFOLLOW")); (2^10, Some (bs "MS_NOATIME")); (2^11, Some (bs "MS_NODIRATIME")); (2^12, Some (bs "MS_BIND"));
   (2^13, Some (bs "MS_MOVE")); (2^14, Some (bs "MS_REC")); (2^15, Some (bs "MS_SILENT")); (2^16, Some (bs "MS_POSIXACL")); (2^17, Some (bs "MS_UNBINDABLE")); (2^18, Some (bs "MS_PRIVATE"));
   (2^19, Some (bs "MS_SLAVE")); (2^20, Some (bs "MS_SHARED")); (2^21, Some (bs "MS_RELATIME")); (2^22, Some (bs "MS_KERNMOUNT")); (2^23, Some (bs "MS_I_VERSION")); (2^24, Some (bs "MS_STRICTATIME"));
   (2^25, Some (bs "MS_LAZYTIME")); (2^26, Some (bs "MS_SUBMOUNT")); (2^27, Some (bs "MS_NOREMOTELOCK")); (2^28, Some (bs "MS_NOSEC")); (2^29, Some (bs "MS_BORN")); (2^30, Some (bs "MS_ACTIVE"));
   (2^31, Some (bs "MS_NOUSER"))] |}.
(** print_xlat(MS_MGC_VAL), src/xlat.c:489-520 *)
Definition print_magic (s : BitsModel.xstyle_t) : list N :=
  match s with BitsModel.XRAW => pr_hex 0xc0ed0000 | BitsModel.XABBREV => bs "MS_MGC_VAL" | BitsModel.XVERBOSE => pr_hex 0xc0ed0000 ++ bs " /* MS_MGC_VAL */" end.
(** src/mount.c:26-32; MS_MGC_MSK is an unsigned int, so its complement has 16 bits *)
Definition old_magic (a3 : N) : bool := N.land a3 0xffff0000 =? 0xc0ed0000.
Definition no_magic (a3 : N) : N := if old_magic a3 then N.land a3 0xffff else a3.
(** src/mount.c:34-38; MS_BIND | MS_MOVE | MS_SHARED | MS_PRIVATE | MS_SLAVE | MS_UNBINDABLE *)
Definition remount (f : N) : bool := negb (N.land f 0x20 =? 0).
Definition change (f : N) : bool := negb (N.land f 0x1e3000 =? 0).
Definition ignore_type (f : N) : bool := remount f || change f.
Definition ignore_data (f : N) : bool := negb (remount f) && change f.
(** src/mount.c:55-64 *)
Definition flags (s : BitsModel.xstyle_t) (a3 : N) : list N :=
  let f := no_magic a3 in
  (if old_magic a3 then print_magic s ++ if negb (f =? 0) then bs "|" else [] else []) ++
  (if negb (f =? 0) || negb (old_magic a3) then printflags_ex f (Some (bs "MS_???")) s FMT_X [mount_flags] else []).
(** src/mount.c:21-74 *)
Definition mount (path str : N -> list N) (s : BitsModel.xstyle_t) (a0 a1 a2 a3 a4 : N) : list N :=
  let f := no_magic a3 in
  NumaModel.args [path a0; path a1; if ignore_type f then TvalModel.printaddr a2 else str a2; flags s a3; if ignore_data f then TvalModel.printaddr a4 else str a4].
