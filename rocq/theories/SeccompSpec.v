(** What the seccomp filter should answer. *)
From Verif Require Import Base SeccompModel.
Local Open Scope N_scope.

(** Personality [p] is the one the kernel uses for this (arch, nr). *)
Definition handles (arch nr : N) (p : pers) : bool :=
  (p_arch p =? arch) && (p_flag p <=? nr).

(** The verdict in personality [p]: stop on every number that must be traced and
    on every number outside the table ([out_of_table] = true). *)
Definition pers_verdict (out_of_table : N) (p : pers) (nr : N) : N :=
  let n := nr - p_flag p in
  if n <? N.of_nat (length (traced p))
  then match nth_error (traced p) (N.to_nat n) with Some true => RET_TRACE | _ => RET_ALLOW end
  else out_of_table.

(** Overall verdict: the last personality that handles the call decides; calls
    of unknown personalities are traced.  With a single personality the
    architecture is not looked at. *)
Definition verdict (out_of_table : N) (ps : list pers) (arch nr : N) : N :=
  match ps with
  | [p] => pers_verdict out_of_table p nr
  | _ => match find (handles arch nr) (rev ps) with
         | Some p => pers_verdict out_of_table p nr
         | None => RET_TRACE
         end
  end.

(** Tables are what the architectures provide: flag is zero, or a power of two
    greater than 31 and than the table size; a lone personality has no flag. *)
Definition pers_ok (p : pers) : Prop :=
  p_arch p < 2^32 /\ N.of_nat (length (traced p)) < 2^32 /\
  (p_flag p = 0 \/ exists e, 5 <= e < 32 /\ p_flag p = 2^e /\ N.of_nat (length (traced p)) < 2^e).
Definition perss_ok (ps : list pers) : Prop :=
  Forall pers_ok ps /\ ps <> [] /\ (forall p, ps = [p] -> p_flag p = 0).

(** the number lies inside the table of the personality that handles it *)
Definition in_table (ps : list pers) (arch nr : N) : Prop :=
  match ps with
  | [p] => (nr - p_flag p <? N.of_nat (length (traced p))) = true
  | _ => match find (handles arch nr) (rev ps) with
         | Some p => (nr - p_flag p <? N.of_nat (length (traced p))) = true
         | None => True
         end
  end.

(** What the kernel's checker demands of jumps: every target lies inside the
    program ([r] is what follows the instruction). *)
Definition jumps_inside (prog : list insn) : Prop :=
  forall pre i r, prog = pre ++ i :: r -> is_jmp (op i) = true ->
    (op i = JA -> (N.to_nat (k i) < length r)%nat) /\
    (op i <> JA -> (N.to_nat (jt i) < length r)%nat /\ (N.to_nat (jf i) < length r)%nat).
