(** What is claimed of fcntl, without the model: fcntl(2), <asm-generic/fcntl.h>, <linux/fcntl.h>. *)
From Verif Require Import Base Printf InfoSpec TvalSpec NumaSpec VmSpec AioSpec SeekSpec.
From Verif Require BitsModel.
Local Open Scope N_scope.

Definition name_in (l : list (N * list N)) (v : N) : option (list N) := option_map snd (find (fun p => fst p =? v) l).
Definition commands : list (N * list N) :=
  [(0, bs "F_DUPFD"); (1, bs "F_GETFD"); (2, bs "F_SETFD"); (3, bs "F_GETFL"); (4, bs "F_SETFL"); (5, bs "F_GETLK"); (6, bs "F_SETLK"); (7, bs "F_SETLKW"); (8, bs "F_SETOWN"); (9, bs "F_GETOWN");
   (10, bs "F_SETSIG"); (11, bs "F_GETSIG"); (12, bs "F_GETLK64"); (13, bs "F_SETLK64"); (14, bs "F_SETLKW64"); (15, bs "F_SETOWN_EX"); (16, bs "F_GETOWN_EX"); (17, bs "F_GETOWNER_UIDS");
   (36, bs "F_OFD_GETLK"); (37, bs "F_OFD_SETLK"); (38, bs "F_OFD_SETLKW"); (1024, bs "F_SETLEASE"); (1025, bs "F_GETLEASE"); (1026, bs "F_NOTIFY"); (1027, bs "F_DUPFD_QUERY"); (1028, bs "F_CREATED_QUERY");
   (1029, bs "F_CANCELLK"); (1030, bs "F_DUPFD_CLOEXEC"); (1031, bs "F_SETPIPE_SZ"); (1032, bs "F_GETPIPE_SZ"); (1033, bs "F_ADD_SEALS"); (1034, bs "F_GET_SEALS")].
Definition locks : list (N * list N) := [(0, bs "F_RDLCK"); (1, bs "F_WRLCK"); (2, bs "F_UNLCK"); (4, bs "F_EXLCK"); (8, bs "F_SHLCK")].
Definition owners : list (N * list N) := [(0, bs "F_OWNER_TID"); (1, bs "F_OWNER_PID"); (2, bs "F_OWNER_PGRP")].
Definition name_text st (l : list (N * list N)) (unknown : list N) (v : N) (t : list N) : Prop := exists x, hex_or_0 x v /\ named st (name_in l v) unknown x t.

(** What the third argument of a command is *)
Inductive shape :=
| Nothing                                        (* there is none *)
| Number                                         (* a signed number *)
| Word                                           (* unknown: shown in hexadecimal *)
| Bits (width : N) (names : list (N * list N)) (unknown : list N)
| Lease                                          (* the type of a lock *)
| Open                                           (* flags of open *)
| Descriptor
| Signal
| Process                                        (* a process, or if negative a group *)
| Lock (large written : bool)                    (* a pointer to a lock, read by the kernel or, if [written], written; [large]: always with 64-bit offsets *)
| Owner (written : bool).                        (* a pointer to a kind of owner and its number *)
Definition argument (cmd : N) : shape :=
  match cmd with
  | 0 (* F_DUPFD *) | 1030 (* F_DUPFD_CLOEXEC *) | 1031 (* F_SETPIPE_SZ *) => Number
  | 1 (* F_GETFD *) | 3 (* F_GETFL *) | 9 (* F_GETOWN *) | 11 (* F_GETSIG *) | 1025 (* F_GETLEASE *) | 1032 (* F_GETPIPE_SZ *) | 1034 (* F_GET_SEALS *) => Nothing
  | 2 (* F_SETFD *) => Bits 32 [(0, bs "FD_CLOEXEC")] (bs " /* FD_??? */")
  | 4 (* F_SETFL *) => Open
  | 5 (* F_GETLK *) => Lock false true
  | 6 (* F_SETLK *) | 7 (* F_SETLKW *) => Lock false false
  | 8 (* F_SETOWN *) => Process
  | 10 (* F_SETSIG *) => Signal
  | 15 (* F_SETOWN_EX *) => Owner false
  | 16 (* F_GETOWN_EX *) => Owner true
  | 36 (* F_OFD_GETLK *) => Lock true true
  | 37 (* F_OFD_SETLK *) | 38 (* F_OFD_SETLKW *) => Lock true false
  | 1024 (* F_SETLEASE *) => Lease
  | 1026 (* F_NOTIFY *) => Bits 64 [(0, bs "DN_ACCESS"); (1, bs "DN_MODIFY"); (2, bs "DN_CREATE"); (3, bs "DN_DELETE"); (4, bs "DN_RENAME"); (5, bs "DN_ATTRIB"); (31, bs "DN_MULTISHOT")] (bs " /* DN_??? */")
  | 1027 (* F_DUPFD_QUERY *) => Descriptor
  | 1033 (* F_ADD_SEALS *) =>
      Bits 64 [(0, bs "F_SEAL_SEAL"); (1, bs "F_SEAL_SHRINK"); (2, bs "F_SEAL_GROW"); (3, bs "F_SEAL_WRITE"); (4, bs "F_SEAL_FUTURE_WRITE"); (5, bs "F_SEAL_EXEC")] (bs " /* F_SEAL_??? */")
  | _ => Word
  end.
(** fcntl64 of 32-bit callers has three more *)
Definition argument64 (cmd : N) : shape := match cmd with 12 (* F_GETLK64 *) => Lock true true | 13 (* F_SETLK64 *) | 14 (* F_SETLKW64 *) => Lock true false | _ => argument cmd end.

(** A lock, struct flock and struct flock64: type and whence of 2 bytes; start and length of [w] bytes; the process.  [compat]: on 32-bit x86, where numbers of 8 bytes are aligned to 4 *)
Definition offset_size (compat large : bool) : nat := if compat && negb large then 4 else 8.
Definition first_offset (compat : bool) : nat := if compat then 4 else 8.
Definition lock_size (compat large : bool) : nat := if compat then (if large then 24 else 16) else 32.
Definition lock_rows (tgid : Z -> list N) st (compat large written : bool) (c : list N) : list row :=
  let w := offset_size compat large in let s := first_offset compat in
  [(bs "l_type", name_text st locks (bs "F_???") (number_at c 0 2)); (bs "l_whence", origin_text st (number_at c 2 2));
   (bs "l_start", signed_text (Z.of_nat w) (number_at c s w)); (bs "l_len", signed_text (Z.of_nat w) (number_at c (s + w) w))] ++
  only written [(bs "l_pid", fun t => exists z, signed 4 (number_at c (s + w + w) 4) z /\ t = tgid z)].
(** the kind of the number follows from the kind of owner *)
Definition owner_rows (tid tgid pgid other : Z -> list N) st (c : list N) : list row :=
  let k := number_at c 0 4 in
  [(bs "type", name_text st owners (bs "F_OWNER_???") k);
   (bs "pid", fun t => exists z, signed 4 (number_at c 4 4) z /\ t = (match k with 0 => tid | 1 => tgid | 2 => pgid | _ => other end) z)].
