(** How sets of cpus are shown: src/affinity.c (sched_setaffinity, sched_getaffinity).
    next_set_bit is that of BitsModel (see C47), the memory of the tracee that of ExtModel (see C32).  The text of a pid
    (printpid, see C78) is a parameter.  calloc is taken to succeed. *)
From Verif Require Import Base Printf.
From Verif Require BitsModel ExtModel TvalModel.
Local Open Scope N_scope.

(** The loop of src/affinity.c:33-37.  [einval size]: whether sched_getaffinity(0, size, NULL) fails with EINVAL. *)
Fixpoint probe (fuel : nat) (einval : N -> bool) (size : N) : N :=
  match fuel with
  | O => 0
  | S f => if size =? 0 then 0 else if einval size then probe f einval (u32 (size * 2)) else size
  end.
(** get_cpuset_size, src/affinity.c:13-43; the first argument is the static variable, its new value is the result.
    After 25 shifts the 32-bit variable is zero. *)
Definition get_cpuset_size (einval : N -> bool) (cached : N) : N :=
  if cached =? 0 then
    let s := probe 26 einval 128 in
    if s =? 0 then 128 else s
  else cached.

(** What is around: ExtModel.opts, the memory, current_wordsize, the byte order *)
Record env := { o : ExtModel.opts; m : ExtModel.memory; ws : N; big : bool }.
(** src/util.c:293-294 *)
Definition pos_xor_mask (e : env) : N := if big e then ws e - 1 else 0.

(** src/affinity.c:75-84 *)
Fixpoint cpu_loop (fuel : nat) (xm : N) (cpu : list N) (ncpu i : N) (printed : bool) : res (list N * bool) :=
  match fuel with
  | O => Undef
  | S f =>
      rlet r := BitsModel.next_set_bit cpu xm i ncpu in
      match r with
      | None => Ok ([], printed)
      | Some b =>
          rlet t := cpu_loop f xm cpu ncpu (b + 1) true in
          Ok ((if printed then bs " " else []) ++ TvalModel.sdec (Z.of_N b) ++ fst t, snd t)
      end
  end.
(** print_affinitylist, src/affinity.c:45-94; [max]: get_cpuset_size () *)
Definition print_affinitylist (e : env) (max addr len : N) : res (list N) :=
  let umove_size := N.min len max in
  let size := (umove_size + ws e - 1) / ws e * ws e in
  let ncpu := u32 (size * 8) in
  if negb (ExtModel.verbose (o e)) || ExtModel.failed (o e) || (addr =? 0) then Ok (TvalModel.printaddr addr)
  else if len =? 0 then Ok (bs "[]")
  else match ExtModel.umoven_or_printaddr (o e) (m e) addr (N.to_nat umove_size) with
       | None => Ok (TvalModel.printaddr addr)
       | Some b =>
           let cpu := b ++ repeat 0 (N.to_nat (size - umove_size)) in
           rlet t := cpu_loop (S (N.to_nat ncpu)) (pos_xor_mask e) cpu ncpu 0 false in
           Ok (bs "[" ++ fst t ++ (if size <? len then (if snd t then bs " " else []) ++ bs "..." else []) ++ bs "]")
       end.

(** src/affinity.c:96-112 *)
Definition sched_setaffinity (e : env) (max : N) (pidtext : N -> list N) (a0 a1 a2 : N) : res (list N) :=
  let len := u32 a1 in
  rlet t := print_affinitylist e max a2 len in
  Ok (pidtext (u32 a0) ++ bs ", " ++ TvalModel.udec len ++ bs ", " ++ t).
(** src/affinity.c:114-131; [rval]: u_rval *)
Definition sched_getaffinity (e : env) (max : N) (pidtext : N -> list N) (a0 a1 a2 rval : N) : res (list N) :=
  let entering := pidtext (u32 a0) ++ bs ", " ++ TvalModel.udec (u32 a1) ++ bs ", " in
  rlet t := print_affinitylist e max a2 (u32 rval) in
  Ok (entering ++ t).
