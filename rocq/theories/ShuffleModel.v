(** Model of the shuffle_scno_pers variants, src/linux/*/shuffle_scno.c. *)
From Verif Require Import Base.
Local Open Scope N_scope.

(** src/linux/generic/shuffle_scno.c:8-12. *)
Definition shuffle_generic (scno : N) (pers : nat) : N := scno.

Definition X32_SYSCALL_BIT : N := 1073741824.  (* __X32_SYSCALL_BIT, 0x40000000 *)
(** src/linux/x86_64/shuffle_scno.c:8-15. *)
Definition shuffle_x86_64 (scno : N) (pers : nat) : N :=
  if Nat.eqb pers 2 then N.lxor scno X32_SYSCALL_BIT else scno.

(** src/linux/x32/shuffle_scno.c:8-15; kernel_ulong_t is 64 bits wide. *)
Definition shuffle_x32 (scno : N) (pers : nat) : N :=
  if Nat.eqb pers 0 && negb (scno =? 2^64 - 1) then N.lxor scno X32_SYSCALL_BIT else scno.

(** src/linux/ia64/shuffle_scno.c:7-11, SYSCALLENT_BASE_NR = 1024
    (src/linux/ia64/syscallent_base_nr.h). *)
Definition SYSCALLENT_BASE_NR : N := 1024.
Definition shuffle_ia64 (scno : N) (pers : nat) : N := N.lxor scno SYSCALLENT_BASE_NR.

(** src/linux/arm/shuffle_scno.c:11-38; [first] is ARM_FIRST_SHUFFLED_SYSCALL
    (src/linux/arm/syscallent.h:417,421), ARM_LAST_SPECIAL_SYSCALL is 6 (:443). *)
Definition ARM_LAST_SPECIAL : N := 6.
Definition shuffle_arm (first : N) (scno : N) : N :=
  if scno <? first then scno
  else if scno =? first then 1048560 (* 0x000ffff0 *)
  else if scno =? 1048560 then first
  else if (983040 <=? scno) && (scno <=? 983040 + ARM_LAST_SPECIAL) (* 0x000f0000 *)
  then scno - 983040 + (first + 1)
  else if scno <=? (first + 1) + ARM_LAST_SPECIAL then scno + 983040 - (first + 1)
  else scno.

(** src/linux/aarch64/shuffle_scno.c:14-21. *)
Definition shuffle_aarch64 (first : N) (scno : N) (pers : nat) : N :=
  if Nat.eqb pers 1 then shuffle_arm first scno else scno.
