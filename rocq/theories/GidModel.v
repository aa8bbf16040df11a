(** How user and group IDs and lists of groups are shown: src/uid.c:48-223, src/print_fields.h:337-343.
    The list is printed by print_array_ex (ArrayModel, see C49).  [bits]: the size of uid_t: 32, and 16 in the variants of the calls with 16-bit IDs (src/uid16.c). *)
From Verif Require Import Base Printf.
From Verif Require ArrayModel InfoModel.
Local Open Scope N_scope.

(** PRINT_VAL_ID, src/print_fields.h:337-343, of a value of [bits] bits *)
Definition print_val_id (bits v : N) : list N := if v =? 2 ^ bits - 1 then bs "-1" else pr_num 10 v.
(** src/uid.c:162-166 printuid: the argument is an unsigned int, cast to uid_t *)
Definition printuid (bits v : N) : list N := print_val_id bits (u32 v mod 2 ^ bits).
(** %d of an int *)
Definition print_int (v : N) : list N :=
  let v := u32 v in if v <? 2 ^ 31 then pr_num 10 v else bs "-" ++ pr_num 10 (2 ^ 32 - v).
(** src/uid.c:168-174 print_gid: the bytes of an element *)
Definition print_gid (bits : N) (b : list N) : list N := printuid bits (InfoModel.le_num b).
(** src/uid.c:176-193 print_groups; [len]: its parameter, an unsigned int; [fetch]: tfetch_mem *)
Record env := { bits : N; ngroups_max : N; fetch : N -> option (list N); abbrev : bool; max_strlen : N }.
Definition print_groups (e : env) (len addr : N) : list ArrayModel.tok :=
  let len := u32 len in
  if ngroups_max e <? len then [ArrayModel.Addr addr]
  else snd (ArrayModel.print_array_ex
    (ArrayModel.mk_arr addr len (bits e / 8) false (fetch e) (fun _ => true) false false (abbrev e) (max_strlen e))).
(** src/uid.c:195-205 setgroups, 207-220 getgroups: the size, and the list as printed on entering (setgroups) or on exiting (getgroups) *)
Definition sys_setgroups (e : env) (size addr : N) : list N * list ArrayModel.tok := (print_int size, print_groups e size addr).
Definition sys_getgroups (e : env) (size rval addr : N) : list N * list ArrayModel.tok := (print_int size, print_groups e rval addr).
