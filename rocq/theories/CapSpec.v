(** What is claimed of capability sets, without the model.  [style] of constants: raw, abbreviated (the default), verbose. *)
From Verif Require Import Base Printf.
From Verif Require BitsModel.
Local Open Scope N_scope.

(** the capabilities of linux/capability.h, from number 0 on *)
Definition capability : list (list N) :=
  [bs "CAP_CHOWN"; bs "CAP_DAC_OVERRIDE"; bs "CAP_DAC_READ_SEARCH"; bs "CAP_FOWNER"; bs "CAP_FSETID"; bs "CAP_KILL"; bs "CAP_SETGID"; bs "CAP_SETUID";
   bs "CAP_SETPCAP"; bs "CAP_LINUX_IMMUTABLE"; bs "CAP_NET_BIND_SERVICE"; bs "CAP_NET_BROADCAST"; bs "CAP_NET_ADMIN"; bs "CAP_NET_RAW"; bs "CAP_IPC_LOCK"; bs "CAP_IPC_OWNER";
   bs "CAP_SYS_MODULE"; bs "CAP_SYS_RAWIO"; bs "CAP_SYS_CHROOT"; bs "CAP_SYS_PTRACE"; bs "CAP_SYS_PACCT"; bs "CAP_SYS_ADMIN"; bs "CAP_SYS_BOOT"; bs "CAP_SYS_NICE";
   bs "CAP_SYS_RESOURCE"; bs "CAP_SYS_TIME"; bs "CAP_SYS_TTY_CONFIG"; bs "CAP_MKNOD"; bs "CAP_LEASE"; bs "CAP_AUDIT_WRITE"; bs "CAP_AUDIT_CONTROL"; bs "CAP_SETFCAP";
   bs "CAP_MAC_OVERRIDE"; bs "CAP_MAC_ADMIN"; bs "CAP_SYSLOG"; bs "CAP_WAKE_ALARM"; bs "CAP_BLOCK_SUSPEND"; bs "CAP_AUDIT_READ"; bs "CAP_PERFMON"; bs "CAP_BPF"; bs "CAP_CHECKPOINT_RESTORE"].
(** the names of the members of a set, in order: bit k of [set] is the capability k of [l] *)
Definition names_in (l : list (list N)) (set : N) : list (list N) :=
  map (fun k => bs "1<<" ++ nth k l []) (filter (fun k => N.testbit set (N.of_nat k)) (seq 0 (length l))).
Definition members (set : N) : list (list N) := names_in capability set.
Fixpoint bar (l : list (list N)) : list N :=
  match l with [] => [] | [a] => a | a :: r => a ++ bs "|" ++ bar r end.
Definition hexnum (t : list N) (n : N) : Prop := exists d, t = bs "0x" ++ d /\ d <> [] /\ rd_num 16 0 d = Some n.

(** A word that is not 0, of the capabilities [l]; the bits without a name are a number. *)
Definition word_shown (st : BitsModel.xstyle_t) (l : list (list N)) (w : N) (t : list N) : Prop :=
  exists x y, hexnum x w /\
  (let u := N.shiftl (N.shiftr w (N.of_nat (length l))) (N.of_nat (length l)) in u = 0 /\ y = [] \/ u <> 0 /\ exists h, hexnum h u /\ y = [h]) /\
  match st with
  | BitsModel.XRAW => t = x
  | BitsModel.XABBREV => names_in l w = [] /\ t = x ++ bs " /* CAP_??? */" \/ names_in l w <> [] /\ t = bar (names_in l w ++ y)
  | BitsModel.XVERBOSE => names_in l w = [] /\ t = x ++ bs " /* CAP_??? */" \/ names_in l w <> [] /\ t = x ++ bs " /* " ++ bar (names_in l w ++ y) ++ bs " */"
  end.
(** A set of 64 bits: its two words of 32 *)
Definition set_shown (st : BitsModel.xstyle_t) (set : N) (t : list N) : Prop :=
  let lo := set mod 2^32 in let hi := set / 2^32 in
  lo = 0 /\ hi = 0 /\ t = bs "0" \/
  lo <> 0 /\ hi = 0 /\ word_shown st (firstn 32 capability) lo t \/
  lo = 0 /\ hi <> 0 /\ word_shown st (skipn 32 capability) hi t \/
  lo <> 0 /\ hi <> 0 /\ exists a b, t = a ++ bs "|" ++ b /\ word_shown st (firstn 32 capability) lo a /\ word_shown st (skipn 32 capability) hi b.
(** the versions of the interface *)
Definition version_name (v : N) : option (list N) :=
  if v =? 0x19980330 then Some (bs "_LINUX_CAPABILITY_VERSION_1")
  else if v =? 0x20071026 then Some (bs "_LINUX_CAPABILITY_VERSION_2")
  else if v =? 0x20080522 then Some (bs "_LINUX_CAPABILITY_VERSION_3") else None.
(** Versions 2 and 3 have sets of 64 bits, the others of 32. *)
Definition two_words (v : N) : Prop := v = 0x20071026 \/ v = 0x20080522.
