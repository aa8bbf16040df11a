(** What is claimed of futex calls, without the model: futex(2), <linux/futex.h>. *)
From Verif Require Import Base Printf.
From Verif Require Import TvalSpec InfoSpec CapSpec NumaSpec.
From Verif Require BitsModel.
Local Open Scope N_scope.

(** A constant: its name if it has one, the number if not (with the remark [unknown], if any) *)
Definition const_text (st : BitsModel.xstyle_t) (name : option (list N)) (unknown : list N) (v : N) (t : list N) : Prop :=
  exists x, hex_or_0 x v /\
  match st, name with
  | BitsModel.XRAW, _ => t = x
  | BitsModel.XABBREV, Some n => t = n
  | BitsModel.XVERBOSE, Some n => t = x ++ bs " /* " ++ n ++ bs " */"
  | _, None => t = x ++ unknown
  end.

(** ---- the operation: a command, FUTEX_PRIVATE_FLAG and FUTEX_CLOCK_REALTIME ---- *)
Definition commands : list (list N) :=
  [bs "FUTEX_WAIT"; bs "FUTEX_WAKE"; bs "FUTEX_FD"; bs "FUTEX_REQUEUE"; bs "FUTEX_CMP_REQUEUE"; bs "FUTEX_WAKE_OP"; bs "FUTEX_LOCK_PI"; bs "FUTEX_UNLOCK_PI"; bs "FUTEX_TRYLOCK_PI";
   bs "FUTEX_WAIT_BITSET"; bs "FUTEX_WAKE_BITSET"; bs "FUTEX_WAIT_REQUEUE_PI"; bs "FUTEX_CMP_REQUEUE_PI"; bs "FUTEX_LOCK_PI2"].
Definition op_name (op : N) : option (list N) :=
  let cmd := op mod 128 in
  match nth_error commands (N.to_nat cmd), op / 128 with
  | Some n, 0 => Some n
  | Some n, 1 => Some (if cmd =? 2 then n ++ bs "|FUTEX_PRIVATE_FLAG" else n ++ bs "_PRIVATE")
  | Some n, 2 => if (cmd =? 0) || (cmd =? 9) || (cmd =? 11) then Some (n ++ bs "|FUTEX_CLOCK_REALTIME") else None
  | Some n, 3 => if (cmd =? 0) || (cmd =? 9) || (cmd =? 11) then Some (n ++ bs "_PRIVATE|FUTEX_CLOCK_REALTIME") else None
  | _, _ => None
  end.

(** ---- the arguments a command has: futex(2), arguments numbered from 0 ---- *)
Inductive kind := Unsigned (i : nat) | Time (i : nat) | Mask (i : nat) | Pointer (i : nat) | Wake_op (i : nat) | Hexadecimal (i : nat).
Definition operands (cmd : N) : list kind :=
  match cmd with
  | 0 => [Unsigned 2; Time 3]
  | 1 | 2 => [Unsigned 2]
  | 3 => [Unsigned 2; Unsigned 3; Pointer 4]
  | 4 | 12 => [Unsigned 2; Unsigned 3; Pointer 4; Unsigned 5]
  | 5 => [Unsigned 2; Unsigned 3; Pointer 4; Wake_op 5]
  | 6 | 13 => [Time 3]
  | 7 | 8 => []
  | 9 => [Unsigned 2; Time 3; Mask 5]
  | 10 => [Unsigned 2; Mask 5]
  | 11 => [Unsigned 2; Time 3; Pointer 4]
  | _ => [Unsigned 2; Pointer 3; Pointer 4; Hexadecimal 5]
  end.
(** ---- the last argument of FUTEX_WAKE_OP: FUTEX_OP(op, oparg, cmp, cmparg), and the bit 31, FUTEX_OP_OPARG_SHIFT ---- *)
Definition op_of (v : N) : N := v / 2^28 mod 8.
Definition oparg_of (v : N) : N := v / 2^12 mod 2^12.
Definition cmp_of (v : N) : N := v / 2^24 mod 16.
Definition cmparg_of (v : N) : N := v mod 2^12.
Definition wake_ops : list (list N) := [bs "FUTEX_OP_SET"; bs "FUTEX_OP_ADD"; bs "FUTEX_OP_OR"; bs "FUTEX_OP_ANDN"; bs "FUTEX_OP_XOR"].
Definition wake_cmps : list (list N) := [bs "FUTEX_OP_CMP_EQ"; bs "FUTEX_OP_CMP_NE"; bs "FUTEX_OP_CMP_LT"; bs "FUTEX_OP_CMP_LE"; bs "FUTEX_OP_CMP_GT"; bs "FUTEX_OP_CMP_GE"].
(** a field shifted to its place; a remark if it has no name *)
Definition field_text (st : BitsModel.xstyle_t) (names : list (list N)) (by_ unknown : list N) (v : N) (t : list N) : Prop :=
  exists x, const_text st (nth_error names (N.to_nat v)) [] v x /\
  t = x ++ bs "<<" ++ by_ ++ match nth_error names (N.to_nat v) with Some _ => [] | None => bs " /* " ++ unknown ++ bs " */" end.
Definition wake_op_text (st : BitsModel.xstyle_t) (v : N) (t : list N) : Prop :=
  exists s a b c d, const_text st (Some (bs "FUTEX_OP_OPARG_SHIFT")) [] 8 s /\
  field_text st wake_ops (bs "28") (bs "FUTEX_OP_???") (op_of v) a /\ hex_or_0 b (oparg_of v) /\
  field_text st wake_cmps (bs "24") (bs "FUTEX_OP_CMP_???") (cmp_of v) c /\ hex_or_0 d (cmparg_of v) /\
  t = bar ((if N.testbit v 31 then [s ++ bs "<<28"] else []) ++ [a; b ++ bs "<<12"; c; d]).

Definition operand_text (st : BitsModel.xstyle_t) (ts : N -> list N) (arg : nat -> N) (k : kind) (t : list N) : Prop :=
  match k with
  | Unsigned i => number t (arg i mod 2^32)
  | Time i => t = ts (arg i)
  | Mask i => let v := arg i mod 2^32 in const_text st (if v =? 2^32 - 1 then Some (bs "FUTEX_BITSET_MATCH_ANY") else None) [] v t
  | Pointer i => address t (arg i)
  | Wake_op i => st <> BitsModel.XRAW -> wake_op_text st (arg i mod 2^32) t
  | Hexadecimal i => hex_or_0 t (arg i mod 2^32)
  end.

(** ---- futex2 ---- *)
Definition sizes : list (list N) := [bs "FUTEX2_SIZE_U8"; bs "FUTEX2_SIZE_U16"; bs "FUTEX2_SIZE_U32"; bs "FUTEX2_SIZE_U64"].
(** the flags of a futex: a size in the bits 0 and 1, FUTEX2_NUMA 4, FUTEX2_PRIVATE 128; the rest is a number *)
Definition flags2_text (st : BitsModel.xstyle_t) (v : N) (t : list N) : Prop :=
  exists x y, hex_or_0 x v /\
  (let u := N.ldiff v 0x87 in u = 0 /\ y = [] \/ u <> 0 /\ exists h, hexnum h u /\ y = [h]) /\
  let names := bar ([nth (N.to_nat (v mod 4)) sizes []] ++ (if N.testbit v 2 then [bs "FUTEX2_NUMA"] else []) ++ (if N.testbit v 7 then [bs "FUTEX2_PRIVATE"] else []) ++ y) in
  match st with
  | BitsModel.XRAW => t = x
  | BitsModel.XABBREV => t = names
  | BitsModel.XVERBOSE => t = x ++ bs " /* " ++ names ++ bs " */"
  end.
(** a struct futex_waitv of 24 bytes *)
Definition waiter_text (st : BitsModel.xstyle_t) (b : list N) (t : list N) : Prop :=
  exists v u f r, hex_or_0 v (number_at b 0 8) /\ address u (number_at b 8 8) /\ flags2_text st (number_at b 16 4) f /\ hex_or_0 r (number_at b 20 4) /\
  t = bs "{val=" ++ v ++ bs ", uaddr=" ++ u ++ bs ", flags=" ++ f ++ (if number_at b 20 4 =? 0 then [] else bs ", __reserved=" ++ r) ++ bs "}".
