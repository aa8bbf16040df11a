(** Structures whose size the caller states: the members each has, what the kernel makes of the size
    (copy_struct_from_user in <linux/uaccess.h>), and openat2(2), clone(2), mount_setattr(2),
    sched_setattr(2), landlock_create_ruleset(2), <linux/mount.h>, <linux/xattr.h>. *)
From Verif Require Import Base QuoteModel QuoteSpec InfoSpec ExtModel.
Local Open Scope N_scope.

Definition at_ (m : memory) (a i : N) : option N := m ((a + i) mod 2^64).
Definition byte (m : memory) (a i : N) : N := match at_ m a i with Some b => b | None => 0 end.
Definition can_read (m : memory) (a from to : N) : Prop := forall i, from <= i < to -> at_ m a i <> None.
Definition bytes_only (m : memory) : Prop := forall x b, m x = Some b -> b < 256.
(** The structure of [n] bytes as the kernel takes it: [size] bytes are the caller's, the rest is zero. *)
Definition taken (m : memory) (a size : N) (n : nat) : list N :=
  map (fun i => if N.of_nat i <? size then byte m a (N.of_nat i) else 0) (seq 0 n).

(** A member: where it is, how it is shown, whether it is shown, and whether the kernel uses its value;
    in these, [k] is the structure as the kernel takes it. *)
Record row := R { name : list N; off : nat; width : nat; as_ : list N -> kind; shown_if : list N -> N -> bool; used : list N -> bool }.
Definition value (k : list N) (r : row) : N := number_at k (off r) (width r).
Definition members (l : list row) (k : list N) (size : N) : list item :=
  map (fun r => Member (name r) (as_ r k) (value k r)) (filter (fun r => shown_if r k size) l).
Definition always (k : list N) (size : N) : bool := true.
Definition yes (k : list N) : bool := true.
Definition u64_at (k : list N) (i : nat) : N := number_at k i 8.
Definition u32_at (k : list N) (i : nat) : N := number_at k i 4.
Definition bit (v i : N) : bool := N.testbit v i.
(** shown unless the structure ends before it *)
Definition begun (off : N) (k : list N) (size : N) : bool := off <? size.
(** shown if the structure does not end before the end of it *)
Definition whole (upto : N) (k : list N) (size : N) : bool := upto <=? size.

(** struct open_how; O_CREAT is bit 6 and O_TMPFILE bit 22 (with that of O_DIRECTORY) of flags *)
Definition open_how : list row :=
  [R (bs "flags") 0 8 (fun _ => Flags (bs "open_mode_flags")) always yes;
   R (bs "mode") 8 8 (fun _ => Mode) (fun k _ => bit (u64_at k 0) 6 || bit (u64_at k 0) 22 || (0 <? u64_at k 8)) yes;
   R (bs "resolve") 16 8 (fun _ => Flags (bs "open_resolve_flags")) always yes].

(** struct mount_attr; MOUNT_ATTR_IDMAP, without which userns_fd is not used, is bit 20 *)
Definition idmap (k : list N) : bool := bit (u64_at k 0) 20 || bit (u64_at k 8) 20.
Definition mount_attr : list row :=
  [R (bs "attr_set") 0 8 (fun _ => Flags (bs "mount_attr_attr")) always yes;
   R (bs "attr_clr") 8 8 (fun _ => Flags (bs "mount_attr_attr")) always yes;
   R (bs "propagation") 16 8 (fun _ => Val (bs "mount_attr_propagation")) always yes;
   R (bs "userns_fd") 24 8 (fun k => if idmap k && (u64_at k 24 <? 2^31) then Fd else U) always idmap].

(** struct xattr_args *)
Definition xattr_args : list row :=
  [R (bs "value") 0 8 (fun k => Value (u32_at k 8)) always yes;
   R (bs "size") 8 4 (fun _ => U) always yes;
   R (bs "flags") 12 4 (fun _ => Flags (bs "xattrflags")) always yes].

(** struct landlock_ruleset_attr *)
Definition landlock_ruleset_attr : list row :=
  [R (bs "handled_access_fs") 0 8 (fun _ => Flags (bs "landlock_ruleset_access_fs")) always yes;
   R (bs "handled_access_net") 8 8 (fun _ => Flags (bs "landlock_ruleset_access_net")) (begun 8) yes;
   R (bs "scoped") 16 8 (fun _ => Flags (bs "landlock_scope_flags")) (begun 16) yes].

(** struct mnt_id_req *)
Definition mnt_id_req (listing : bool) : list row :=
  [R (bs "size") 0 4 (fun _ => U) always yes;
   R (bs "spare") 4 4 (fun _ => X) (fun k _ => 0 <? u32_at k 4) yes;
   R (bs "mnt_id") 8 8 (fun _ => if listing then Val (bs "listmount_mnt_id") else X) always yes;
   R (bs "param") 16 8 (fun _ => if listing then X else Flags (bs "statmount_mask")) always yes;
   R (bs "mnt_ns_id") 24 8 (fun _ => X) (whole 32) yes].

(** struct sched_attr; SCHED_FLAG_KEEP_POLICY is bit 3 and SCHED_FLAG_KEEP_PARAMS bit 4: the policy (if it is
    not negative) and the parameters of the process are kept; bits 5 and 6 ask for the utilization members to be used *)
Definition keep_policy (k : list N) : bool := bit (u64_at k 8) 3.
Definition keep_params (k : list N) : bool := bit (u64_at k 8) 4.
Definition negative (k : list N) : bool := 2^31 <=? u32_at k 4.
Definition sched_attr (set : bool) : list row :=
  let full k := negb (set && keep_params k) in
  [R (bs "size") 0 4 (fun _ => U) always yes;
   R (bs "sched_policy") 4 4 (fun _ => Val (bs "schedulers")) (fun k s => whole 48 k s && (negb set || negative k || negb (keep_policy k || keep_params k)))
     (fun k => negb (keep_policy k) || negative k);
   R (bs "sched_flags") 8 8 (fun _ => Flags (bs "sched_flags")) (whole 48) yes;
   R (bs "sched_nice") 16 4 (fun _ => D) (fun k s => whole 48 k s && full k) full;
   R (bs "sched_priority") 20 4 (fun _ => U) (fun k s => whole 48 k s && full k) full;
   R (bs "sched_runtime") 24 8 (fun _ => U) (fun k s => whole 48 k s && full k) full;
   R (bs "sched_deadline") 32 8 (fun _ => U) (fun k s => whole 48 k s && full k) full;
   R (bs "sched_period") 40 8 (fun _ => U) (fun k s => whole 48 k s && full k) full;
   R (bs "sched_util_min") 48 4 (fun _ => U) (whole 56) (fun k => bit (u64_at k 8) 5);
   R (bs "sched_util_max") 52 4 (fun _ => U) (whole 56) (fun k => bit (u64_at k 8) 6)].

(** struct clone_args; of flags, CLONE_PIDFD is bit 12, CLONE_SETTLS 19, CLONE_PARENT_SETTID 20,
    CLONE_CHILD_CLEARTID 21, CLONE_CHILD_SETTID 24, CLONE_INTO_CGROUP 33 *)
Definition flag (i : N) (k : list N) : bool := bit (u64_at k 0) i.
Definition tids (k : list N) : bool := (0 <? u64_at k 64) || (0 <? u64_at k 72).
Definition clone_args : list row :=
  [R (bs "flags") 0 8 (fun _ => Flags (bs "clone_flags")) always yes;
   R (bs "pidfd") 8 8 (fun _ => Addr64) (fun k _ => flag 12 k) (flag 12);
   R (bs "child_tid") 16 8 (fun _ => Addr64) (fun k _ => flag 24 k || flag 21 k) (fun k => flag 24 k || flag 21 k);
   R (bs "parent_tid") 24 8 (fun _ => Addr64) (fun k _ => flag 20 k) (flag 20);
   R (bs "exit_signal") 32 8 (fun k => if u64_at k 32 <? 2^31 - 1 then Signal else U) always yes;
   R (bs "stack") 40 8 (fun _ => Addr64) always yes;
   R (bs "stack_size") 48 8 (fun _ => X) always yes;
   R (bs "tls") 56 8 (fun _ => Tls) (fun k _ => flag 19 k) (flag 19);
   R (bs "set_tid") 64 8 (fun k => if (0 <? u64_at k 64) && (0 <? u64_at k 72) && (u64_at k 72 <=? 32) then Tids (u64_at k 72) else Addr64)
     (fun k _ => tids k) yes;
   R (bs "set_tid_size") 72 8 (fun _ => U) (fun k _ => tids k) yes;
   R (bs "cgroup") 80 8 (fun _ => U) (fun k s => begun 80 k s && (flag 33 k || (0 <? u64_at k 80))) (flag 33)].

(** Each structure covers its bytes: members follow one another without a gap. *)
Fixpoint contiguous (from : nat) (l : list row) (to : nat) : Prop :=
  match l with [] => from = to | r :: l => off r = from /\ contiguous (from + width r) l to end.

(** No call is refused for the size, and none of the findings applies: *)
Definition plain_size (l : list row) (k : list N) (size : N) : Prop :=
  l = open_how \/ l = mount_attr \/ l = xattr_args \/ l = landlock_ruleset_attr \/ l = clone_args \/
  (exists b, l = mnt_id_req b /\ (size = 24 \/ 32 <= size)) \/
  (l = sched_attr true /\ 48 <= size /\ (bit (u64_at k 8) 5 || bit (u64_at k 8) 6 = true -> 56 <= size) /\ (keep_params k = true -> keep_policy k = true)).

(** What follows the members: the bytes after those of the structure, up to the size or the end of a page (larger sizes
    are refused), if they are not all zero: the first of them, and whether that is all. *)
Definition rest (o : opts) (m : memory) (a known size : N) (l : list item) : Prop :=
  let upto := N.min size (pagesize o) in
  if upto <=? known then l = []
  else (~ can_read m a known upto /\ l = [Unavailable]) \/
       (can_read m a known upto /\
        (((forall i, known <= i < upto -> byte m a i = 0) /\ l = []) \/
         ((exists i, known <= i < upto /\ byte m a i <> 0) /\
          exists body, l = [Bytes known (upto - 1) (bs """" ++ body ++ bs """") (max_strlen o <? upto - known)] /\
            unquote AllDigits Plain body =
              Some (map (fun i => byte m a (known + N.of_nat i)) (seq 0 (N.to_nat (N.min (upto - known) (max_strlen o)))))))).

(** The caller's bytes are looked at: there is an address, decoding was not turned off, and the call has not failed. *)
Definition looked_at (o : opts) (a : N) : Prop := a <> 0 /\ verbose o = true /\ failed o = false.
Definition accessible (o : opts) (m : memory) (a n : N) : Prop := looked_at o a /\ can_read m a 0 n.
