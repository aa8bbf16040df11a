(** How a 64-bit argument is passed, and the prototypes of the calls. *)
From Verif Require Import Base ArgsModel.
Local Open Scope N_scope.

(** W: an argument of one register; L: a 64-bit argument. *)
Inductive width := W | L.

(** A 64-bit argument may begin in register [j]: with [Even], pairs begin in an even
    register; with [Sh], a pair is not split between the four argument registers and
    what follows them. *)
Definition may_begin (v : abi) (j : nat) : bool :=
  match v with One | Pair => true | Even => Nat.even j | Sh => negb (j =? 3)%nat end.
(** the first register from [i] on in which it may begin *)
Definition first_fit (v : abi) (i j : nat) : Prop :=
  (i <= j)%nat /\ may_begin v j = true /\ forall k, (i <= k < j)%nat -> may_begin v k = false.

(** The registers hold the arguments [vals] of widths [ws] from register [i] on.  In a pair only
    the low 32 bits of each register count. *)
Inductive passed (v : abi) (be : bool) (regs : nat -> N) : nat -> list width -> list N -> Prop :=
| passed_nil i : passed v be regs i [] []
| passed_w i ws x vals : regs i = x -> passed v be regs (S i) ws vals -> passed v be regs i (W :: ws) (x :: vals)
| passed_one i ws x vals : v = One -> regs i = x -> passed v be regs (S i) ws vals -> passed v be regs i (L :: ws) (x :: vals)
| passed_pair i j ws x vals : v <> One -> first_fit v i j -> x < 2^64 ->
    (if be then regs (S j) mod 2^32 = x mod 2^32 /\ regs j mod 2^32 = x / 2^32
     else regs j mod 2^32 = x mod 2^32 /\ regs (S j) mod 2^32 = x / 2^32) ->
    passed v be regs (S (S j)) ws vals -> passed v be regs i (L :: ws) (x :: vals).

(** The arguments of the calls in the order of their prototypes.  On the architectures with
    [adv1], the kernel's fadvise64_64 is (fd, advice, offset, len). *)
Definition prototype (adv1 : bool) (s : llcall) : list width :=
  match s with
  | L_fadvise64 => [W; L; W; W]                                            (* fd, offset, len, advice *)
  | L_fadvise64_64 => if adv1 then [W; W; L; L] else [W; L; L; W]          (* fd, offset, len, advice *)
  | L_fallocate => [W; W; L; L]                                            (* fd, mode, offset, len *)
  | L_pread | L_pwrite => [W; W; W; L]                                     (* fd, buf, count, offset *)
  | L_lookup_dcookie => [L; W; W]                                          (* cookie, buf, len *)
  | L_readahead => [W; L; W]                                               (* fd, offset, count *)
  | L_sync_file_range => [W; L; L; W]                                      (* fd, offset, nbytes, flags *)
  | L_sync_file_range2 => [W; W; L; L]                                     (* fd, flags, offset, nbytes *)
  | L_truncate64 | L_ftruncate64 => [W; L]                                 (* path or fd, length *)
  | L_fanotify_mark => [W; W; L; W; W]                                     (* fd, flags, mask, dirfd, pathname *)
  end.
(** the order in which they are printed: as in the manual page *)
Definition printed_order (adv1 : bool) (s : llcall) (vals : list N) : list N :=
  match s, adv1, vals with
  | L_fadvise64_64, true, [fd; advice; offset; len] => [fd; offset; len; advice]
  | _, _, _ => vals
  end.
